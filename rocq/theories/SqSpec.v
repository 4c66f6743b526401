(** What the theorems on signals talk about. *)
From Verif Require Import Prelude SqModel.
Open Scope N_scope.

(** The number of pushes in a history. *)
Definition isPush (o : op) : bool := match o with Push _ _ _ => true | _ => false end.
Definition pushes (ops : list op) : N := N.of_nat (List.length (filter isPush ops)).
(** The signal that the push after [ops] made. *)
Definition pushedBy (ops : list op) (k t : option N) (d : N) : sig := mkSig (pushes ops) k t d.
(** Older than the timeout, by the clock at some turn of the expiry. *)
Definition tooOld (ops : list op) (g : sig) : Prop := exists now, In (Exp now) ops /\ timeout + g_dt g < now.
(** A push with collapse key [k]. *)
Definition pushKey (k : N) (o : op) : Prop := exists t d, o = Push (Some k) t d.
(** Signals all have a topic. *)
Definition topical (l : list sig) : Prop := Forall (fun g => g_topic g <> None) l.
(** Turns of the expiry only. *)
Definition expiry (o : op) : Prop := exists now, o = Exp now.
