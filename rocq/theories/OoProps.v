(** Out of order delivery *)
From Verif Require Import Prelude B64Model MatterModel SubsModel ThModel ThSpec ThThms KelModel KelSpec KelProofs KelInv KelThms OoSpec OoProofs OoProofs2 OoProofs3 OoProofs4 OoThms.
From Coq Require Import Permutation.
Open Scope N_scope.

(** C23.  A receiver that gets every message of a complete log, in any order, any number of times, mixed with any
    other messages, with incomplete copies, with escrow passes and restarts, within the time that an event may wait
    in the out of order escrow, ends after one more escrow pass with the key state, the log and the first seen order
    of a receiver that got the messages in order.  (The full property also covers delegated logs, recovery rotations
    and receivers that are parties to the log.) *)
Theorem C23_converges_partial : forall E H cf p ms R T ops now,
  world H -> sane H -> Forall (fun m => real H (m_evt m)) ms ->
  complete_log E cf p ms -> stranger cf p ms -> no_other_version E H R p ms ->
  Forall (real_op H) ops -> Forall (readable_op R) ops -> Forall (in_time T) ops -> T <= now <= T + 1200 ->
  delivers ops ms ->
  agree p (run E cf (ops ++ [Escrows now]) db0) (run E cf (map Deliver ms) db0).
Proof. exact c23_converges_partial. Qed.
Print Assumptions C23_converges_partial.

(** The messages themselves in any order. *)
Theorem C23_any_order_partial : forall E H cf p ms ms' R T now,
  world H -> sane H -> Forall (fun m => real H (m_evt m)) ms ->
  complete_log E cf p ms -> stranger cf p ms -> no_other_version E H R p ms -> Forall (readable R) ms ->
  Permutation ms ms' -> Forall (fun m => T <= m_now m <= T + 1200) ms -> T <= now <= T + 1200 ->
  agree p (run E cf (map Deliver ms' ++ [Escrows now]) db0) (run E cf (map Deliver ms) db0).
Proof. exact c23_any_order_partial. Qed.
Print Assumptions C23_any_order_partial.

(** At every moment, however late and in whatever order messages arrive, the receiver is where an in order receiver
    was after some of the messages. *)
Theorem C23_initial_part_partial : forall E H cf p ms R ops,
  world H -> sane H -> Forall (fun m => real H (m_evt m)) ms ->
  complete_log E cf p ms -> stranger cf p ms -> no_other_version E H R p ms ->
  Forall (real_op H) ops -> Forall (readable_op R) ops ->
  exists n, agree p (run E cf ops db0) (run E cf (map Deliver (firstn n ms)) db0).
Proof. exact c23_initial_part_partial. Qed.
Print Assumptions C23_initial_part_partial.

Example C23_log_example : complete_log E1 cf0 7 msL /\ stranger cf0 7 msL /\ no_other_version E1 (Hof evsL) readL 7 msL /\
  world (Hof evsL) /\ sane (Hof evsL) /\ Forall (fun m => real (Hof evsL) (m_evt m)) msL.
Proof. exact msL_ok. Qed.

Example C23_converges_example :
  delivers opsL msL /\ Forall (real_op (Hof evsL)) opsL /\ Forall (readable_op readL) opsL /\ Forall (in_time 40) opsL /\
  fels (fst (run E1 cf0 opsL db0)) 7 = [20] /\ fels (fst (run E1 cf0 (opsL ++ [Escrows 101]) db0)) 7 = [20; 21; 22; 23; 24; 25].
Proof.
  split.
  { intros m I. exists m. split; [|split; [reflexivity|split; apply incl_refl]].
    cbn in I. split_in I; subst m; cbn; auto 20. }
  split; [reals|]. split.
  { repeat (apply Forall_cons; [first [exact Logic.I|readables]|]). apply Forall_nil. }
  split.
  { repeat (apply Forall_cons; [first [exact Logic.I|vm_compute; split; discriminate]|]). apply Forall_nil. }
  split; vm_compute; reflexivity.
Qed.

Example C23_any_order_example : Permutation msL (rev msL) /\ Forall (readable readL) msL /\ Forall (fun m => 50 <= m_now m <= 50 + 1200) msL /\
  fels (fst (run E1 cf0 (map Deliver (rev msL)) db0)) 7 = [20] /\
  fels (fst (run E1 cf0 (map Deliver (rev msL) ++ [Escrows 100]) db0)) 7 = saids msL.
Proof.
  split; [apply Permutation_rev|]. split.
  { repeat (apply Forall_cons; [readables|]). apply Forall_nil. }
  split.
  { repeat (apply Forall_cons; [vm_compute; split; discriminate|]). apply Forall_nil. }
  split; vm_compute; reflexivity.
Qed.

Example C23_initial_part_example : agree 7 (run E1 cf0 (firstn 12 opsL) db0) (run E1 cf0 (map Deliver (firstn 1 msL)) db0) /\
  agree 7 (run E1 cf0 (firstn 11 opsL) db0) (run E1 cf0 (map Deliver (firstn 0 msL)) db0).
Proof. split; (split; [|split]; vm_compute; reflexivity). Qed.

(** An event that waits longer than the time limit is forgotten. *)
Theorem C23_late_refuted : exists E H cf p ms T ops now, world H /\ sane H /\ complete_log E cf p ms /\ stranger cf p ms /\
  no_other_version E H readL p ms /\ Forall (real_op H) ops /\ Forall (readable_op readL) ops /\ delivers ops ms /\
  Forall (fun o => forall t, op_time o = Some t -> T <= t <= T + 1201) ops /\ now = T + 1201 /\
  fels (fst (run E cf (ops ++ [Escrows now]) db0)) p <> saids ms.
Proof. exact c23_late_refuted. Qed.
Print Assumptions C23_late_refuted.

(** After that, sending the events again is of no use unless they come in order: the date of the first delivery is
    still on record, and the next escrow pass drops the event at once. *)
Theorem C23_redelivery_refuted : exists E H cf p ms ops again now, world H /\ sane H /\ complete_log E cf p ms /\ stranger cf p ms /\
  no_other_version E H readL p ms /\ Forall (real_op H) ops /\ Forall (real_op H) again /\ delivers again ms /\
  Forall (fun o => forall t, op_time o = Some t -> now - 10 <= t <= now) again /\
  fels (fst (run E cf (ops ++ again ++ [Escrows now]) db0)) p <> saids ms /\
  fels (fst (run E cf (again ++ [Escrows now]) db0)) p = saids ms.
Proof. exact c23_redelivery_refuted. Qed.
Print Assumptions C23_redelivery_refuted.
