(** What the completion of transaction events is about. *)
From Verif Require Import Prelude RgModel.
Open Scope N_scope.

Definition step := (world * op * option nat)%type.
(** histories, newest step first *)
Inductive hist : list step -> rg -> Prop :=
| h_start : hist [] rg0
| h_step : forall l s w o c, hist l s -> hist ((w, o, c) :: l) (run w o c s).

(** the steps [l], newest first, lead from [s] to [s'] *)
Inductive later (s : rg) : list step -> rg -> Prop :=
| l_here : later s [] s
| l_step : forall l s' w o c, later s l s' -> later s ((w, o, c) :: l) (run w o c s').

Definition in_world (l : list step) (P : world -> Prop) : Prop := exists w o c, In (w, o, c) l /\ P w.

(** Event [k] was asked for with the anchor that is event [n], [d] of the single or group identifier [pre]. *)
Definition asked_single (l : list step) (k : tkey) (pre n d : N) : Prop :=
  exists w c regd n0 d0, In (w, Start k regd pre n0 d0, c) l /\ w_group w pre = false /\ w_last w pre = (n, d).
Definition asked_group (l : list step) (k : tkey) (pre n d : N) : Prop :=
  exists w c regd, In (w, Start k regd pre n d, c) l /\ w_group w pre = true.

(** all witnesses of [pre] at the time, if it has any, have receipted event [d] *)
Definition witnessed (w : world) (pre d : N) : Prop := w_wits w pre = [] \/ len (w_wigs w pre d) = len (w_wits w pre).

(** the anchor of [k] is asked for and done *)
Definition backed (l : list step) (k : tkey) (pre n d : N) : Prop :=
  (asked_single l k pre n d /\ in_world l (fun w => witnessed w pre d)) \/
  (asked_group l k pre n d /\ in_world l (fun w => w_cgms w pre n = Some d)).

(** an event is on its way or done *)
Definition waits_single (s : rg) (k : tkey) (pre n d : N) : Prop := In (k, (pre, n, d)) (tpwe s).
Definition waits_group (s : rg) (k : tkey) (regd pre n d : N) : Prop := In (k, regd, (pre, n, d)) (tmse s).
Definition waits_log (s : rg) (k : tkey) (pre n d : N) : Prop := In (k, (pre, n, d)) (tede s).
Definition recorded (s : rg) (k : tkey) : Prop := get (ctel s) k <> None.
(** no trace of [k] *)
Definition unknown (s : rg) (k : tkey) : Prop :=
  (forall a, ~ In (k, a) (tpwe s)) /\ (forall g a, ~ In (k, g, a) (tmse s)) /\ (forall a, ~ In (k, a) (tede s)) /\ get (ctel s) k = None.

Definition not_started (l : list step) (k : tkey) : Prop := forall w c regd pre n d, ~ In (w, Start k regd pre n d, c) l.
(** crashes only between calls *)
Definition whole (l : list step) : Prop := forall w o c, In (w, o, c) l -> c = None \/ c = Some 0%nat.
(** nowhere but perhaps waiting for receipts *)
Definition unstarted_else (s : rg) (k : tkey) : Prop :=
  (forall g a, ~ In (k, g, a) (tmse s)) /\ (forall a, ~ In (k, a) (tede s)) /\ get (ctel s) k = None.
(** if [k] is anywhere, it waits for the receipts of event [n], [d] of [pre] *)
Definition waits_only (s : rg) (k : tkey) (pre n d : N) : Prop :=
  (forall a, In (k, a) (tpwe s) -> a = (pre, n, d)) /\ unstarted_else s k.
(** no event is anchored in number [n] of [pre] *)
Definition moved_on (l : list step) (pre n : N) : Prop :=
  forall w c k regd n0 d0, In (w, Start k regd pre n0 d0, c) l -> w_group w pre = false -> fst (w_last w pre) <> n.
(** [j] messages are published *)
Fixpoint publish (j : nat) (w : world) (s : rg) : rg := match j with O => s | S j => publish j w (run w Publish None s) end.
