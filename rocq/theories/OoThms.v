(** Properties of out of order delivery. *)
From Coq Require Import Permutation.
From Verif Require Import Prelude B64Model MatterModel SubsModel ThModel ThSpec ThThms KelModel KelSpec KelProofs KelInv KelThms OoSpec OoProofs OoProofs2 OoProofs3 OoProofs4.
Ltac Zify.zify_post_hook ::= Z.div_mod_to_equations.
Open Scope N_scope.

(** ** A log of six events for examples: inception with two keys and three witnesses, two interactions, a rotation that
    replaces a witness, and two more interactions, for identifier 7. *)
Definition L0 := icpT 20 7 2 [1; 2] 1 [103] 2 [50; 51; 52].
Definition L1 := ixn1 21 7 1 20 [].
Definition L2 := ixn1 22 7 2 21 [].
Definition L3 := rotT Rot 23 7 3 22 1 [3] 1 [104] 2 [50] [53].
Definition L4 := ixn1 24 7 4 23 [].
Definition L5 := ixn1 25 7 5 24 [].
(** a forged interaction of the same identifier, an inception of another one *)
Definition LX := ixn1 26 7 1 20 [SealEvt 9 0 30].
Definition LO := icp1 27 8 [5] [106].
Definition evsL := [L0; L1; L2; L3; L4; L5; LX; LO].
Definition at_ (t : N) (e : evt) (sg wg : list siger) : msg := mkMsg e sg wg None true false t None.
Definition two (e : evt) : list siger := [sign e 1 0 None; sign e 2 1 None].
Definition msL : list msg :=
  [at_ 100 L0 (two L0) [sign L0 50 0 None; sign L0 51 1 None]; at_ 90 L1 (two L1) [sign L1 51 1 None; sign L1 52 2 None];
   at_ 80 L2 (two L2) [sign L2 50 0 None; sign L2 52 2 None]; at_ 70 L3 [sign L3 3 0 (Some 0)] [sign L3 51 0 None; sign L3 53 2 None];
   at_ 60 L4 [sign L4 3 0 None] [sign L4 52 1 None; sign L4 53 2 None]; at_ 50 L5 [sign L5 3 0 None] [sign L5 51 0 None; sign L5 53 2 None]].
(** The signatures that exist: any by any key on the events of the log, on the forged one only by key 9. *)
Definition readL (b : bytes) : option siger :=
  match b with
  | [key; index; o; said] =>
      if (said =? 26) && negb (key =? 9) then None else
      match find (fun e => e_said e =? said) evsL with
      | Some e => Some (sign e key index (if o =? 0 then None else Some (o - 1)))
      | None => None
      end
  | _ => None
  end.
Ltac split_in H := repeat match type of H with _ \/ _ => destruct H as [H|H] | False => destruct H end.
Lemma readL_sign : forall e k i o, In e evsL -> (e_said e = 26 -> k = 9) -> readL (sg_qb64 (sign e k i o)) = Some (sign e k i o).
Proof.
  intros e k i o I K. unfold readL. cbn [sign sg_qb64].
  assert (Q : find (fun e' => e_said e' =? e_said e) evsL = Some e).
  { cbn in I. split_in I; subst e; reflexivity. }
  rewrite Q. assert (Z0 : (e_said e =? 26) && negb (k =? 9) = false).
  { destruct (N.eqb_spec (e_said e) 26) as [Z|Z]; [rewrite (K Z)|]; reflexivity. }
  rewrite Z0. destruct o as [o|]; [|reflexivity].
  assert (Z : (o + 1 =? 0) = false) by (apply N.eqb_neq; lia). rewrite Z.
  assert (Z2 : o + 1 - 1 = o) by lia. rewrite Z2. reflexivity.
Qed.
Ltac readables := intros s I; cbn in I; split_in I; subst s; vm_compute; reflexivity.
Lemma msL_ok : complete_log E1 cf0 7 msL /\ stranger cf0 7 msL /\ no_other_version E1 (Hof evsL) readL 7 msL /\
  world (Hof evsL) /\ sane (Hof evsL) /\ Forall (fun m => real (Hof evsL) (m_evt m)) msL.
Proof.
  split; [|split; [|split; [|split; [|split]]]].
  - constructor.
    + intros m I. cbn in I. split_in I; subst m; reflexivity.
    + intros i m X. do 6 (destruct i as [|i]; [inversion X; subst m; reflexivity|]). destruct i; discriminate.
    + intros m I. cbn in I. split_in I; subst m; cbn; auto.
    + intros m I EE. cbn in I. split_in I; subst m; try discriminate; cbn; auto.
    + vm_compute. reflexivity.
  - split; [intros []|]. split; [intros []|]. intros m w _ _ [].
  - intros e RE PE NI. unfold real, Hof in RE. apply find_some in RE. destruct RE as [RE _].
    assert (e = LX).
    { cbn in RE. split_in RE; subst e; auto; try discriminate; exfalso; apply NI; vm_compute; auto 10. }
    subst e. split; [reflexivity|]. intros ky s m I RD V.
    assert (ky = 9).
    { revert RD. unfold readL. destruct (sg_qb64 s) as [|key [|index [|o [|said [|]]]]]; try discriminate.
      destruct ((said =? 26) && negb (key =? 9)) eqn:Z; [discriminate|].
      destruct (find (fun e' => e_said e' =? said) evsL) as [e|] eqn:FE; [|discriminate].
      intros Q. injection Q as <-. cbn [sign sg_raw vrfy E1] in V. apply beq_eq in V. injection V as V1 V2. subst key.
      apply find_some in FE. destruct FE as [FE1 FE2]. apply N.eqb_eq in FE2.
      assert (said = 26). { cbn in FE1. split_in FE1; subst e; cbn in V2, FE2; try discriminate; congruence. }
      apply andb_false_iff in Z. destruct Z as [Z|Z]; [apply N.eqb_neq in Z; contradiction|]. apply negb_false_iff, N.eqb_eq in Z. exact Z. }
    subst ky. cbn in I. split_in I; subst m; cbn; (split; [intros Q; split_in Q; discriminate|intros dg Q; split_in Q; subst dg; reflexivity]).
  - apply world_of. vm_compute. reflexivity.
  - apply sane_of. vm_compute. reflexivity.
  - repeat (constructor; [reflexivity|]). constructor.
Qed.

(** ** Theorems *)

Lemma c23_converges_partial : forall E H cf p ms R T ops now,
  world H -> sane H -> Forall (fun m => real H (m_evt m)) ms ->
  complete_log E cf p ms -> stranger cf p ms -> no_other_version E H R p ms ->
  Forall (real_op H) ops -> Forall (readable_op R) ops -> Forall (in_time T) ops -> T <= now <= T + 1200 ->
  delivers ops ms ->
  agree p (run E cf (ops ++ [Escrows now]) db0) (run E cf (map Deliver ms) db0).
Proof. exact converges. Qed.

Lemma c23_any_order_partial : forall E H cf p ms ms' R T now,
  world H -> sane H -> Forall (fun m => real H (m_evt m)) ms ->
  complete_log E cf p ms -> stranger cf p ms -> no_other_version E H R p ms -> Forall (readable R) ms ->
  Permutation ms ms' -> Forall (fun m => T <= m_now m <= T + 1200) ms -> T <= now <= T + 1200 ->
  agree p (run E cf (map Deliver ms' ++ [Escrows now]) db0) (run E cf (map Deliver ms) db0).
Proof.
  intros E H cf p ms ms' R T now W SN RE CL ST NO RD PM TI TN.
  assert (FA : forall (P : msg -> Prop) (Q : op -> Prop), Forall P ms -> (forall m, P m -> Q (Deliver m)) -> Forall Q (map Deliver ms')).
  { intros P Q F I. apply Forall_forall. intros o IO. apply in_map_iff in IO. destruct IO as (m & <- & IM). apply I.
    rewrite Forall_forall in F. apply F. apply Permutation_sym in PM. eapply Permutation_in; eassumption. }
  apply (converges E H cf p ms R T); auto.
  - eapply FA; [exact RE|]. auto.
  - eapply FA; [exact RD|]. auto.
  - eapply FA; [exact TI|]. auto.
  - intros m I. exists m. split; [apply in_map; eapply Permutation_in; eassumption|].
    split; [reflexivity|]. split; apply incl_refl.
Qed.

Lemma c23_initial_part_partial : forall E H cf p ms R ops,
  world H -> sane H -> Forall (fun m => real H (m_evt m)) ms ->
  complete_log E cf p ms -> stranger cf p ms -> no_other_version E H R p ms ->
  Forall (real_op H) ops -> Forall (readable_op R) ops ->
  exists n, agree p (run E cf ops db0) (run E cf (map Deliver (firstn n ms)) db0).
Proof. exact initial_part. Qed.

(** The log above in reverse order, with a forged event, an event of another identifier, an incomplete copy first, a
    pass in between and a restart. *)
Definition opsL : list op :=
  Deliver (at_ 40 L5 [sign L5 3 0 None] []) :: map Deliver (rev (tl msL)) ++
  [Deliver (at_ 95 LX [sign LX 9 0 None] []); Escrows 96; Deliver (at_ 97 LO [sign LO 5 0 None] []); Restart;
   Deliver (at_ 98 L0 [sign L0 1 0 None] []); Deliver (hd (at_ 0 L0 [] []) msL)].





Lemma c23_late_refuted : exists E H cf p ms T ops now, world H /\ sane H /\ complete_log E cf p ms /\ stranger cf p ms /\
  no_other_version E H readL p ms /\ Forall (real_op H) ops /\ Forall (readable_op readL) ops /\ delivers ops ms /\
  Forall (fun o => forall t, op_time o = Some t -> T <= t <= T + 1201) ops /\ now = T + 1201 /\
  fels (fst (run E cf (ops ++ [Escrows now]) db0)) p <> saids ms.
Proof.
  exists E1, (Hof evsL), cf0, 7, msL, 50, (map Deliver (rev (tl msL)) ++ [Escrows 1251; Deliver (hd (at_ 0 L0 [] []) msL)]), 1251.
  destruct msL_ok as (A & B & C & D & F & G).
  split; [exact D|]. split; [exact F|]. split; [exact A|]. split; [exact B|]. split; [exact C|].
  split; [reals|]. split.
  { repeat (apply Forall_cons; [first [exact Logic.I|readables]|]). apply Forall_nil. }
  split.
  { intros m I. exists m. split; [|split; [reflexivity|split; apply incl_refl]]. cbn in I. split_in I; subst m; cbn; auto 20. }
  split.
  { repeat (apply Forall_cons; [intros t Q; vm_compute in Q; injection Q as <-; vm_compute; split; discriminate|]). apply Forall_nil. }
  split; [reflexivity|]. vm_compute. discriminate.
Qed.

Lemma c23_redelivery_refuted : exists E H cf p ms ops again now, world H /\ sane H /\ complete_log E cf p ms /\ stranger cf p ms /\
  no_other_version E H readL p ms /\ Forall (real_op H) ops /\ Forall (real_op H) again /\ delivers again ms /\
  Forall (fun o => forall t, op_time o = Some t -> now - 10 <= t <= now) again /\
  fels (fst (run E cf (ops ++ again ++ [Escrows now]) db0)) p <> saids ms /\
  fels (fst (run E cf (again ++ [Escrows now]) db0)) p = saids ms.
Proof.
  exists E1, (Hof evsL), cf0, 7, msL, (map Deliver (rev (tl msL)) ++ [Escrows 1301]),
    (map (fun m => Deliver (at_ 5000 (m_evt m) (m_sigers m) (m_wigers m))) (rev (tl msL)) ++
     [Escrows 5001; Deliver (at_ 5002 L0 (m_sigers (hd (at_ 0 L0 [] []) msL)) (m_wigers (hd (at_ 0 L0 [] []) msL)))]), 5003.
  destruct msL_ok as (A & B & C & D & F & G).
  split; [exact D|]. split; [exact F|]. split; [exact A|]. split; [exact B|]. split; [exact C|].
  split; [reals|]. split; [reals|]. split.
  { intros m I. exists (at_ (if e_sn (m_evt m) =? 0 then 5002 else 5000) (m_evt m) (m_sigers m) (m_wigers m)).
    split; [|split; [reflexivity|split; apply incl_refl]]. cbn in I. split_in I; subst m; cbn; auto 20. }
  split.
  { repeat (apply Forall_cons; [intros t Q; vm_compute in Q; injection Q as <-; vm_compute; split; discriminate|]). apply Forall_nil. }
  split; [vm_compute; discriminate|]. vm_compute. reflexivity.
Qed.
