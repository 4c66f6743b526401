(** What the theorems on gathering receipts talk about. *)
From Verif Require Import Prelude GrModel.
Open Scope N_scope.

Definition acts (x : list act * list wiger * result) : list act := fst (fst x).
Definition held (x : list act * list wiger * result) : list wiger := snd (fst x).
Definition outcome (x : list act * list wiger * result) : result := snd x.

(** The signature is one of witness [w]. *)
Definition ofWit (W : world) (g : wiger) (w : N) : Prop := nth_error (w_wits W) (fst g) = Some w.
(** Witness [w] has an endpoint and answered 200. *)
Definition answered (W : world) (w : N) : Prop := In w (w_wits W) /\ w_url W w = true /\ exists cs, w_reply W w = Reply 200 cs.
(** Witness [w] is sent a signature of witness [v]. *)
Definition sentOf (W : world) (l : list act) (w v : N) : Prop := exists gs g, In (Spread w gs) l /\ In g gs /\ ofWit W g v.
(** Every stored signature belongs to a witness. *)
Definition tidy (W : world) (st : list wiger) : Prop := Forall (fun g => exists w, ofWit W g w) st.
(** Witness [w] answers with a valid receipt of its own. *)
Definition honest (W : world) (w : N) : Prop :=
  w_url W w = true /\ w_ack W w = true /\ exists cs s, w_reply W w = Reply 200 cs /\ In (w, s) cs /\ w_valid W w s = true.
(** The added witnesses can be reached and answer. *)
Definition reachableAdds (W : world) : Prop := Forall (fun w => w_url W w = true /\ w_caught W w = true) (w_adds W).
(** The signatures held after gathering again and again, each time in another world. *)
Fixpoint rounds (Ws : list world) (st : list wiger) : list wiger :=
  match Ws with
  | [] => st
  | W :: Ws' => rounds Ws' (held (receipt W st))
  end.
