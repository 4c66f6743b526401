(** What the theorems on made credentials talk about. *)
From Verif Require Import Prelude MkModel.
Open Scope string_scope.

(** The names in a dict are different, as they are in Python. *)
Definition uniq {A} (l : list (string * A)) : Prop := NoDup (map fst l).
(** The dict has [v] for [k], said without the model's lookup. *)
Definition has {A} (l : list (string * A)) (k : string) (v : A) : Prop := In (k, v) l.
Definition lacks {A} (l : list (string * A)) (k : string) : Prop := ~ In k (map fst l).
