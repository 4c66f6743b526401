(** What the theorems on configuration files talk about. *)
From Verif Require Import Prelude CfModel.
Open Scope N_scope.

(** What is serialised is read back, and is never the empty string. *)
Definition faithful {D} (C : codec D) : Prop := forall m d s, enc C m d = Some s -> s <> [] /\ dec C m s = Some d.
(** JSON is read by the reader of HJSON too. *)
Definition superset {D} (C : codec D) : Prop := forall d s, enc C Json d = Some s -> dec C Hjson s = Some d.
(** The file as found after a crash that left [s] on disk, opened again. *)
Definition reopened (F : cfile) (s : bytes) : cfile := mkCfile true (f_ext F) (f_human F) s.
