(** What the theorems on queries talk about. *)
From Verif Require Import Prelude QnModel.
Open Scope N_scope.

(** At this turn the log of the identifier reaches number [n]. *)
Definition reaches (n : N) (e : env) : Prop := exists m, kn e = Some m /\ n <= m.
(** At this turn the identifier is known but its log does not reach [n]. *)
Definition behind (n : N) (e : env) : Prop := exists m, kn e = Some m /\ m < n.
Definition unknown (e : env) : Prop := kn e = None.
(** A cue that is a key state notice of the identifier. *)
Definition ours (pre : N) (c : cue) : bool := match c with Notice i _ _ => i =? pre | Other _ => false end.
Definition sentBy (s : inq * bool) : bool := i_sent (fst s).
Definition doneBy (s : inq * bool) : bool := snd s.
