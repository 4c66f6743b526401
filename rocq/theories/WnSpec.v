(** What the theorems on the receipts of a witness talk about. *)
From Verif Require Import Prelude B64Model MatterModel SubsModel ThModel KelModel KelSpec WnModel.
Open Scope N_scope.

(** The events of the history belong to the universe of events. *)
Definition real_wop (H : N -> option evt) (o : wop) : Prop :=
  match o with WDeliver m => real H (m_evt m) | WPost m => real H (m_evt m) | _ => True end.

(** The event with digest [s] is in the accepted log of [p], at number [n]. *)
Definition acceptedAt (H : N -> option evt) (dx : db) (p n s : N) : Prop :=
  In s (fels (fst dx) p) /\ exists e, H s = Some e /\ e_pre e = p /\ e_sn e = n.

(** No event was posted to the receipt endpoint. *)
Definition noPost (ops : list wop) : Prop := forall m, ~ In (WPost m) ops.

(** The event was posted. *)
Definition posted (ops : list wop) (p n s : N) : Prop :=
  exists m, In (WPost m) ops /\ e_pre (m_evt m) = p /\ e_sn (m_evt m) = n /\ e_said (m_evt m) = s.

(** Identifier [p] is on the allow list, if there is one. *)
Definition allowed (aids : option (list N)) (p : N) : Prop := match aids with Some l => In p l | None => True end.

(** The same message marked as coming from a trusted, local source. *)
Definition asLocal (m : msg) : msg :=
  mkMsg (m_evt m) (m_sigers m) (m_wigers m) (m_seal m) (m_eager m) true (m_now m) (m_dater m).

(** The event with digest [s] is in the accepted log of [p] in [b] and was not in [a]. *)
Definition newly (a b : db) (p s : N) : Prop := In s (fels (fst b) p) /\ ~ In s (fels (fst a) p).
(** A receipt of the event is waiting to be made. *)
Definition waiting (w : wst) (p s : N) : Prop := exists e, In e (wcues w) /\ e_pre e = p /\ e_said e = s.
(** A receipt of the event has been signed. *)
Definition receipted (w : wst) (p s : N) : Prop := exists n, In (p, n, s) (signed w).
(** The process was not restarted. *)
Definition noRestart (ops : list wop) : Prop := ~ In WRestart ops.
