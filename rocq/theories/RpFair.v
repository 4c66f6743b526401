(** Recorded replies advance: proofs. *)
From Verif Require Import Prelude SubsModel ThModel ThProofs JsonModel JsonProofs Lex SerProofs RpModel RpSpec RpProofs.
Open Scope N_scope.
Ltac Zify.zify_post_hook ::= Z.div_mod_to_equations.

(** ** where a put finds its group *)
Fixpoint scan (l : list tsg) (q : tsg) : option tsg :=
  match l with
  | [] => None
  | x :: l' => if sameT x q then Some x else if bltb (tkey q) (tkey x) then None else scan l' q
  end.

Lemma sameT_eq : forall a b, sameT a b = true <-> t_said a = t_said b /\ t_pre a = t_pre b /\ t_sn a = t_sn b /\ t_dig a = t_dig b.
Proof. intros a b. unfold sameT. rewrite !andb_true_iff, !beq_eq, N.eqb_eq. tauto. Qed.

Lemma scan_find : forall l said pre sn dig s x, scan l (mkT said pre sn dig s) = Some x -> tget l said pre sn dig = t_sigs x.
Proof.
  intros l said pre sn dig s x. unfold tget. induction l as [|y l IH]; cbn [scan find]; [discriminate|].
  change (sameT y (mkT said pre sn dig s)) with (sameT y (mkT said pre sn dig [])).
  destruct (sameT y (mkT said pre sn dig [])); [intros H; injection H as ->; reflexivity|].
  destruct (bltb _ _); [discriminate|]. exact IH.
Qed.

Lemma scan_sigs : forall l a b, sameT a b = true -> scan l a = scan l b.
Proof.
  intros l a b E. apply sameT_eq in E. destruct E as (E1 & E2 & E3 & E4).
  induction l as [|y l IH]; [reflexivity|]. cbn [scan]. rewrite IH. unfold sameT, tkey. rewrite E1, E2, E3, E4. reflexivity.
Qed.

Lemma scan_tput : forall l t, t_sigs t <> [] -> exists x, scan (tput l t) t = Some x /\
  (forall s, In s (t_sigs t) -> In (sg_qb64 s) (map sg_qb64 (t_sigs x))) /\
  (forall x0, scan l t = Some x0 -> incl (t_sigs x0) (t_sigs x)).
Proof.
  intros l t NE. assert (SR : forall s, sameT (mkT (t_said t) (t_pre t) (t_sn t) (t_dig t) s) t = true).
  { intros s. apply sameT_eq. cbn. auto. }
  induction l as [|z l IH]; cbn [tput scan]; destruct (t_sigs t) as [|sg sgs] eqn:T; try congruence.
  - cbn [scan]. rewrite SR. eexists. split; [reflexivity|]. cbn [t_sigs]. split; [|intros x0 X; discriminate].
    intros s I. apply addSigs_text. exact I.
  - destruct (sameT z t) eqn:S1.
    + cbn [scan]. assert (S2 : sameT (mkT (t_said z) (t_pre z) (t_sn z) (t_dig z) (addSigs (t_sigs z) (sg :: sgs))) t = true) by exact S1.
      rewrite S2. eexists. split; [reflexivity|]. cbn [t_sigs]. split; [intros s I; apply addSigs_text; exact I|].
      intros x0 X. injection X as <-. intros s I. apply addSigs_old. exact I.
    + destruct (bltb (tkey t) (tkey z)) eqn:B.
      * cbn [scan]. rewrite SR. eexists. split; [reflexivity|]. cbn [t_sigs]. split; [intros s I; apply addSigs_text; exact I|discriminate].
      * cbn [scan]. rewrite S1, B. exact IH.
Qed.

Lemma scan_filter : forall l q s0 x, t_said q <> s0 -> scan l q = Some x -> scan (filter (fun t => negb (beq (t_said t) s0)) l) q = Some x.
Proof.
  intros l q s0 x N. induction l as [|y l IH]; cbn [scan filter]; [discriminate|].
  destruct (sameT y q) eqn:S1.
  - intros H. injection H as ->. assert (E : t_said x = t_said q) by (apply sameT_eq in S1; tauto).
    rewrite E. apply beq_neq in N. rewrite N. cbn [negb scan]. rewrite S1. reflexivity.
  - destruct (bltb (tkey q) (tkey y)) eqn:B; [discriminate|]. intros H. destruct (negb (beq (t_said y) s0)); [|exact (IH H)].
    cbn [scan]. rewrite S1, B. exact (IH H).
Qed.
Lemma scan_In : forall l q x, scan l q = Some x -> In x l /\ sameT x q = true.
Proof.
  induction l as [|y l IH]; intros q x H; cbn [scan] in H; [discriminate|]. destruct (sameT y q) eqn:S1.
  - injection H as ->. split; [left; reflexivity|exact S1].
  - destruct (bltb _ _); [discriminate|]. destruct (IH _ _ H). split; [right; assumption|assumption].
Qed.
Lemma tget_In : forall l said pre sn dig s, In s (tget l said pre sn dig) -> exists t, In t l /\ sameT t (mkT said pre sn dig []) = true /\ In s (t_sigs t).
Proof.
  intros l said pre sn dig s H. unfold tget in H. destruct (find _ l) as [t|] eqn:F; [|destruct H].
  apply find_some in F. destruct F. exists t. auto.
Qed.

(** ** the signer of a reply about a record is the head of its key *)
Lemma parse_key : forall e r p, parse e r = Ok p -> exists tag x l, p_key p = key tag (p_aid p :: x :: l).
Proof. intros e r p H. apply parse_says in H. destruct H; eauto. Qed.
Lemma parse_signer : forall e r p, parse e r = Ok p -> signerOf e r = Some (p_aid p).
Proof.
  intros e r p H. unfold signerOf. rewrite H. unfold parse in H. destruct (findRoute (q_route r)) as [[| |aid|aid action]|]; try discriminate; reflexivity.
Qed.
Lemma parse_isKsn : forall e r p, parse e r = Ok p -> isKsn (p_key p) = false.
Proof. intros e r p H. apply parse_says in H. eapply says_ksn; exact H. Qed.

Lemma app_dot : forall a b x y, ~ In 46 a -> ~ In 46 b -> a ++ 46 :: x = b ++ 46 :: y -> a = b.
Proof.
  induction a as [|n a IH]; intros b x y A B H.
  - destruct b as [|m b]; [reflexivity|]. cbn in H. injection H as E _. elim B. left. symmetry. exact E.
  - destruct b as [|m b]; cbn in H.
    + injection H as E _. elim A. left. exact E.
    + injection H as -> H. f_equal. eapply IH; eauto; intros I; [apply A|apply B]; right; exact I.
Qed.
Lemma key_aid : forall e r1 r2 p1 p2, parse e r1 = Ok p1 -> parse e r2 = Ok p2 -> p_key p1 = p_key p2 ->
  ~ In 46 (p_aid p1) -> ~ In 46 (p_aid p2) -> p_aid p1 = p_aid p2.
Proof.
  intros e r1 r2 p1 p2 H1 H2 K A B. destruct (parse_key _ _ _ H1) as (t1 & x1 & l1 & K1). destruct (parse_key _ _ _ H2) as (t2 & x2 & l2 & K2).
  rewrite K1, K2 in K. unfold key in K. apply (f_equal (@tl N)) in K. cbn [tl] in K. rewrite !joinb_cons in K. eapply app_dot; eauto.
Qed.

Lemma later_irrefl : forall a, ~ later a a. Proof. intros a [H|[_ H]]; lia. Qed.
Lemma later_trans : forall a b d, later a b -> later b d -> later a d.
Proof. intros a b d [H1|[E1 H1]] [H2|[E2 H2]]; unfold later; lia. Qed.

Section Fair.
  Variables (e : renv) (w : world).
  Hypothesis U : unique w.

  Definition recOk (d : rdb) (k s : bytes) : Prop :=
    exists r p, msgs w r /\ q_said r = s /\ parse e r = Ok p /\ p_key p = k /\ ~ In 46 (p_aid p) /\ dget (sdts d) s = Some (q_dt r) /\
      (trans e (p_aid p) = true -> exists t, In t (tsgs d) /\ t_said t = s).

  Definition tOk (t : tsg) : Prop :=
    exists r, msgs w r /\ q_said r = t_said t /\ signerOf e r = Some (t_pre t) /\ ~ In 46 (t_pre t) /\ trans e (t_pre t) = true /\
      (t_sn t, t_dig t) = kst w (t_said t) /\ forall s, In s (t_sigs t) -> s = sig w (sg_qb64 s).
  Definition arts (d : rdb) : Prop :=
    (forall s x, dget (sdts d) s = Some x -> exists r, msgs w r /\ q_said r = s /\ x = q_dt r) /\
    (forall s r, dget (rpys d) s = Some r -> msgs w r /\ q_said r = s) /\
    (forall t, In t (tsgs d) -> tOk t) /\
    (forall k s, isKsn k = true -> dget (ans d) k = Some s -> forall r, msgs w r -> q_said r <> s).
  Definition recs (X : bytes -> Prop) (d : rdb) : Prop :=
    forall k s, isKsn k = false -> ~ X k -> dget (ans d) k = Some s -> recOk d k s.
  Definition none : bytes -> Prop := fun _ => False.

  Lemma said_eq : forall a b, msgs w a -> msgs w b -> q_said a = q_said b -> a = b.
  Proof. exact (proj1 U). Qed.

  (** *** single writes *)
  Lemma put_sdts : forall r d s, dget (sdts (putReply r d)) s = match dget (sdts d) s with Some x => Some x | None => if beq s (q_said r) then Some (q_dt r) else None end.
  Proof. intros. cbn [putReply sdts setRpys setSdts]. apply dget_dput. Qed.
  Lemma put_sdts_self : forall r d, arts d -> msgs w r -> dget (sdts (putReply r d)) (q_said r) = Some (q_dt r).
  Proof.
    intros r d (A & _) M. rewrite put_sdts. destruct (dget (sdts d) (q_said r)) as [x|] eqn:E; [|rewrite beq_refl; reflexivity].
    destruct (A _ _ E) as (r' & M' & Q & ->). rewrite (said_eq _ _ M' M Q). reflexivity.
  Qed.
  Lemma arts_put : forall r d, arts d -> msgs w r -> arts (putReply r d).
  Proof.
    intros r d (A & B & C & D) M. repeat split; [| | |exact C|exact D].
    - intros s x H. rewrite put_sdts in H. destruct (dget (sdts d) s) as [y|] eqn:E; [injection H as <-; exact (A _ _ E)|].
      destruct (beq s (q_said r)) eqn:Q; [|discriminate]. apply beq_eq in Q. injection H as <-. exists r. auto.
    - destruct (put_rpys r d s r0 H) as [H1|(-> & ->)]; [exact (proj1 (B _ _ H1))|exact M].
    - destruct (put_rpys r d s r0 H) as [H1|(-> & ->)]; [exact (proj2 (B _ _ H1))|reflexivity].
  Qed.
  Lemma recOk_put : forall r d k s, recOk d k s -> recOk (putReply r d) k s.
  Proof.
    intros r d k s (r' & p & M & Q & P & K & N & S1 & T). exists r', p. do 5 (split; [assumption|]). split; [|exact T].
    rewrite put_sdts, S1. reflexivity.
  Qed.

  Definition grpOk (r : reply) (g : group) (vs : list siger) : Prop :=
    signerOf e r = Some (g_pre g) /\ ~ In 46 (g_pre g) /\ trans e (g_pre g) = true /\ (g_sn g, g_dig g) = kst w (q_said r) /\
    forall s, In s vs -> s = sig w (sg_qb64 s).

  Lemma arts_grp : forall r g vs d, arts d -> msgs w r -> grpOk r g vs -> arts (updateGrp r g vs d).
  Proof.
    intros r g vs d A0 M (G1 & G2 & G3 & G4 & G5). pose proof (arts_put r d A0 M) as (A & B & C & D).
    split; [exact A|]. split; [exact B|]. split; [|exact D]. intros t I. cbn [updateGrp setTsgs tsgs] in I.
    destruct (tput_In _ _ _ I) as [I1|(_ & E1 & E2 & E3 & E4 & E5)]; [exact (C t I1)|].
    cbn [t_said t_pre t_sn t_dig t_sigs] in *. exists r. rewrite E1, E2, E3, E4. do 5 (split; [first [assumption|reflexivity]|]). split; [exact G4|].
    intros s S1. destruct E5 as [E5|(x & X1 & X2 & X3)].
    - rewrite E5 in S1. destruct (addSigs_In _ _ _ S1) as [[]|S2]. exact (G5 s S2).
    - rewrite X3 in S1. destruct (addSigs_In _ _ _ S1) as [S2|S2]; [|exact (G5 s S2)].
      destruct (C x X1) as (_ & _ & _ & _ & _ & _ & _ & X). exact (X s S2).
  Qed.
  Lemma recOk_grp : forall r g vs d k s, recOk d k s -> recOk (updateGrp r g vs d) k s.
  Proof.
    intros r g vs d k s H. destruct (recOk_put r d k s H) as (r' & p & M & Q & P & K & N & S1 & T).
    exists r', p. do 6 (split; [assumption|]). intros TR. destruct (T TR) as (t & T1 & T2).
    destruct (tput_keeps (tsgs (putReply r d)) (mkT (q_said r) (g_pre g) (g_sn g) (g_dig g) vs) t T1) as (y & Y1 & Y2 & _).
    exists y. split; [exact Y1|congruence].
  Qed.
  Lemma arts_rpes : forall d x, arts d -> arts (setRpes d x).
  Proof. intros d x A. exact A. Qed.
  Lemma arts_escrow : forall r route g vs d, arts d -> msgs w r -> grpOk r g vs -> arts (escrowReply r route g vs d).
  Proof. intros r route g [|s vs] d A M G; [exact A|]. cbn [escrowReply]. apply arts_rpes. apply arts_grp; assumption. Qed.
  Lemma recOk_escrow : forall r route g vs d k s, recOk d k s -> recOk (escrowReply r route g vs d) k s.
  Proof. intros r route g [|x vs] d k s H; [exact H|]. exact (recOk_grp r g (x :: vs) d k s H). Qed.
  Lemma arts_remove : forall o d, arts d -> arts (removeReply o d).
  Proof.
    intros [s0|] d (A & B & C & D); [|split; [exact A|split; [exact B|split; [exact C|exact D]]]].
    split; [|split; [|split; [|exact D]]].
    - intros s x H. cbn in H. rewrite dget_drem in H. destruct (beq s s0); [discriminate|exact (A _ _ H)].
    - intros s r H. apply dget_rem_rpys in H. exact (B _ _ H).
    - intros t I. cbn [removeReply tsgs] in I. apply filter_In in I. exact (C t (proj1 I)).
  Qed.
  Lemma recOk_remove : forall o d k s, o <> Some s -> recOk d k s -> recOk (removeReply o d) k s.
  Proof.
    intros [s0|] d k s N H; [|exact H]. destruct H as (r' & p & M & Q & P & K & N1 & S1 & T).
    assert (NE : s <> s0) by congruence. exists r', p. do 5 (split; [assumption|]). split.
    - cbn [removeReply sdts]. rewrite dget_drem. apply beq_neq in NE. rewrite NE. exact S1.
    - intros TR. destruct (T TR) as (t & T1 & T2). exists t. split; [|exact T2]. cbn [removeReply tsgs]. apply filter_In. split; [exact T1|].
      rewrite T2. apply beq_neq in NE. rewrite NE. reflexivity.
  Qed.
  Lemma arts_cig : forall r cg d, arts d -> msgs w r -> arts (updateCig r cg d).
  Proof. intros r cg d A M. exact (arts_put r d A M). Qed.
  Lemma recOk_cig : forall r cg d k s, recOk d k s -> recOk (updateCig r cg d) k s.
  Proof. intros r cg d k s H. exact (recOk_put r d k s H). Qed.

  (** *** the sigers of a group and those stored for it are functions of their texts *)
  Lemma sigs_texts : forall d said pre sn dig gs, arts d -> (forall s, In s gs -> s = sig w (sg_qb64 s)) ->
    forall s, In s (gs ++ tget (tsgs d) said pre sn dig) -> s = sig w (sg_qb64 s).
  Proof.
    intros d said pre sn dig gs (_ & _ & C & _) G s I. apply in_app_or in I. destruct I as [I|I]; [exact (G s I)|].
    apply tget_In in I. destruct I as (t & T1 & _ & T3). destruct (C t T1) as (_ & _ & _ & _ & _ & _ & _ & X). exact (X s T3).
  Qed.
  Lemma verified_texts : forall d r g keys th vs b, arts d -> (forall s, In s (g_sigs g) -> s = sig w (sg_qb64 s)) ->
    validateSigs bytes (vrfy e) (q_raw r) (g_sigs g ++ tget (tsgs d) (q_said r) (g_pre g) (g_sn g) (g_dig g)) keys th = Ok (vs, b) ->
    forall s, In s vs -> s = sig w (sg_qb64 s).
  Proof.
    intros d r g keys th vs b A G V s I. apply validate_ok in V. destruct V as (_ & _ & _ & V & _).
    apply (sigs_texts d (q_said r) (g_pre g) (g_sn g) (g_dig g) (g_sigs g) A G). exact (proj1 (V s I)).
  Qed.

  (** *** a round that obsoletes nothing recorded keeps everything *)
  Definition fairG (r : reply) (g : group) : Prop :=
    ~ In 46 (g_pre g) /\ (forall s, In s (g_sigs g) -> s = sig w (sg_qb64 s)) /\
    (signerOf e r = Some (g_pre g) -> trans e (g_pre g) = true /\ (g_sn g, g_dig g) = kst w (q_said r)).
  Lemma fair_grpOk : forall r g vs, fairG r g -> signerOf e r = Some (g_pre g) -> (forall s, In s vs -> s = sig w (sg_qb64 s)) -> grpOk r g vs.
  Proof. intros r g vs (F1 & F2 & F3) SG V. destruct (F3 SG) as [F4 F5]. repeat split; assumption. Qed.

  Lemma round_arts : forall kv r route aid o odt g d q d', round e kv r route aid o odt g d q d' -> arts d -> msgs w r -> fairG r g ->
    signerOf e r = Some aid -> arts d'.
  Proof.
    intros kv r route aid o odt g d q d' R A M F SG. destruct R; subst; try exact A.
    - apply arts_escrow; auto. apply fair_grpOk; auto. exact (proj1 (proj2 F)).
    - apply arts_escrow; auto. apply fair_grpOk; auto. eapply verified_texts; eauto. exact (proj1 (proj2 F)).
    - apply arts_remove, arts_grp; auto. apply fair_grpOk; auto. eapply verified_texts; eauto. exact (proj1 (proj2 F)).
  Qed.
  Lemma round_recs : forall X kv r route aid o odt g d q d', round e kv r route aid o odt g d q d' ->
    (forall k s, isKsn k = false -> ~ X k -> dget (ans d) k = Some s -> o <> Some s) -> recs X d -> recs X d'.
  Proof.
    intros X kv r route aid o odt g d q d' R P RC k s NK NX H.
    assert (H0 : dget (ans d) k = Some s) by (rewrite <- (proj1 (round_keeps _ _ _ _ _ _ _ _ _ _ _ R)); exact H).
    pose proof (RC k s NK NX H0) as OK. destruct R; try exact OK; try (apply recOk_escrow; exact OK).
    apply recOk_remove; [eapply P; eauto|]. apply recOk_grp. exact OK.
  Qed.
  Lemma round_recs_no : forall X kv r route aid o odt g d d' q, round e kv r route aid o odt g d q d' -> q = Some false -> recs X d -> recs X d'.
  Proof.
    intros X kv r route aid o odt g d d' q R Q RC k s NK NX H.
    assert (H0 : dget (ans d) k = Some s) by (rewrite <- (proj1 (round_keeps _ _ _ _ _ _ _ _ _ _ _ R)); exact H).
    pose proof (RC k s NK NX H0) as OK. destruct R; try exact OK; try (apply recOk_escrow; exact OK).
    match goal with HQ : q = Some true \/ _ |- _ => destruct HQ as [Y|[Y _]]; congruence end.
  Qed.

  (** *** key state notices *)
  Lemma grpLoop_ksn : forall gs kv r route aid o odt acc d d' x, grpLoop e kv r route aid o odt acc gs d = (d', x) ->
    arts d -> recs none d -> msgs w r -> Forall (fairG r) gs -> signerOf e r = Some aid ->
    (forall r', msgs w r' -> o <> Some (q_said r')) -> arts d' /\ recs none d'.
  Proof.
    induction gs as [|g gs IH]; intros kv r route aid o odt acc d d' x H A R M F SG O.
    - injection H as <- <-. auto.
    - inversion F as [|? ? F1 F2]; subst. destruct (grpLoop_cons _ _ _ _ _ _ _ _ _ _ _ _ _ H) as (q & d1 & RD & K).
      assert (A1 : arts d1) by (eapply round_arts; eauto).
      assert (R1 : recs none d1).
      { eapply round_recs; eauto. intros k s NK NX HA. destruct (R k s NK NX HA) as (r' & _ & M' & <- & _). exact (O r' M'). }
      destruct q as [b|]; [exact (IH _ _ _ _ _ _ _ _ _ _ K A1 R1 M F2 SG O)|]. destruct K as [-> _]. auto.
  Qed.
  Lemma accept_ksn : forall kv r route aid o cs gs d d' x, acceptReply e kv r route aid o cs gs d = (d', x) ->
    arts d -> recs none d -> fairMsg e w r cs gs -> signerOf e r = Some aid ->
    (forall r', msgs w r' -> o <> Some (q_said r')) -> arts d' /\ recs none d'.
  Proof.
    intros kv r route aid o cs gs d d' x H A R (M & _ & F) SG O. rewrite acceptReply_eq in H.
    assert (F1 : Forall (fairG r) gs) by (apply Forall_forall; exact F).
    destruct (cigLoop e r aid o (odtOf o d) cs d) as [d1 y] eqn:C.
    destruct (cigLoop_spec _ _ _ _ _ _ _ _ _ C) as [(-> & ->)|(-> & cg & _ & _ & _ & _ & _ & ->)].
    - eapply grpLoop_ksn; eauto.
    - eapply grpLoop_ksn; eauto.
      + apply arts_remove, arts_cig; assumption.
      + intros k s NK NX HA. assert (HA0 : dget (ans d) k = Some s) by (destruct o; exact HA).
        pose proof (R k s NK NX HA0) as OK. apply recOk_remove; [|apply recOk_cig; exact OK].
        destruct OK as (r' & _ & M' & <- & _). exact (O r' M').
  Qed.

  (** *** the other replies *)
  Definition sure (kv : kview) (r : reply) (aid : bytes) (d : rdb) : Prop :=
    exists ev s x, at_sn kv aid (fst (kst w (q_said r))) = Some ev /\ e_said ev = snd (kst w (q_said r)) /\ e_keys ev <> [] /\
      thsize (e_th ev) <= len (e_keys ev) /\ verifies e (q_raw r) (e_keys ev) s /\ s = sig w (sg_qb64 s) /\
      scan (tsgs d) (mkT (q_said r) aid (fst (kst w (q_said r))) (snd (kst w (q_said r))) []) = Some x /\ In s (t_sigs x).

  Definition newer (r : reply) (aid : bytes) (o : option bytes) : Prop :=
    forall s0, o = Some s0 -> exists r0 p0, msgs w r0 /\ q_said r0 = s0 /\ parse e r0 = Ok p0 /\ p_aid p0 = aid /\ later (rank e w aid r0) (rank e w aid r).

  Definition done (r : reply) (p : preq) (o : option bytes) (d : rdb) : Prop :=
    ~ In 46 (p_aid p) /\ dget (sdts d) (q_said r) = Some (q_dt r) /\ newer r (p_aid p) o.

  Lemma newer_neq : forall r aid o, msgs w r -> newer r aid o -> o <> Some (q_said r).
  Proof.
    intros r aid o M N E. destruct (N _ E) as (r0 & p0 & M0 & Q & _ & _ & L).
    rewrite (said_eq _ _ M0 M Q) in L. exact (later_irrefl _ L).
  Qed.

  Lemma grp_sdts_self : forall r g vs o d, arts d -> msgs w r -> o <> Some (q_said r) ->
    dget (sdts (removeReply o (updateGrp r g vs d))) (q_said r) = Some (q_dt r).
  Proof.
    intros r g vs o d A M N. assert (X : dget (sdts (updateGrp r g vs d)) (q_said r) = Some (q_dt r)) by exact (put_sdts_self r d A M).
    destruct o as [s0|]; [|exact X]. cbn [removeReply sdts]. rewrite dget_drem.
    assert (NE : q_said r <> s0) by congruence. apply beq_neq in NE. rewrite NE. exact X.
  Qed.

  Lemma scan_grp : forall r g vs o d, grpOk r g vs -> vs <> [] -> o <> Some (q_said r) ->
    exists x, scan (tsgs (removeReply o (updateGrp r g vs d))) (mkT (q_said r) (g_pre g) (g_sn g) (g_dig g) []) = Some x /\
      (forall s, In s vs -> In (sg_qb64 s) (map sg_qb64 (t_sigs x))) /\
      (forall x0, scan (tsgs d) (mkT (q_said r) (g_pre g) (g_sn g) (g_dig g) []) = Some x0 -> incl (t_sigs x0) (t_sigs x)).
  Proof.
    intros r g vs o d G NE NO.
    assert (SM : sameT (mkT (q_said r) (g_pre g) (g_sn g) (g_dig g) []) (mkT (q_said r) (g_pre g) (g_sn g) (g_dig g) vs) = true) by (apply sameT_eq; auto).
    destruct (scan_tput (tsgs d) (mkT (q_said r) (g_pre g) (g_sn g) (g_dig g) vs) NE) as (x & X1 & X2 & X3).
    exists x. rewrite (scan_sigs _ _ _ SM), (scan_sigs _ _ _ SM). split; [|split; [exact X2|exact X3]].
    destruct o as [s0|]; [|exact X1]. cbn [removeReply tsgs]. apply scan_filter; [cbn; congruence|]. exact X1.
  Qed.
  Lemma scan_escrow : forall r route g vs d x0, grpOk r g vs ->
    scan (tsgs d) (mkT (q_said r) (g_pre g) (g_sn g) (g_dig g) []) = Some x0 ->
    exists x, scan (tsgs (escrowReply r route g vs d)) (mkT (q_said r) (g_pre g) (g_sn g) (g_dig g) []) = Some x /\ incl (t_sigs x0) (t_sigs x).
  Proof.
    intros r route g vs d x0 G S0. destruct vs as [|v vs]; [exists x0; split; [exact S0|apply incl_refl]|].
    destruct (scan_grp r g (v :: vs) None d G) as (x & X1 & _ & X3); [discriminate|discriminate|].
    exists x. split; [exact X1|exact (X3 _ S0)].
  Qed.

  Definition phase (kv : kview) (r : reply) (p : preq) (o : option bytes) (acc : bool) (d : rdb) : Prop :=
    arts d /\ (if acc then recs (eq (p_key p)) d /\ done r p o d /\ (trans e (p_aid p) = true -> sure kv r (p_aid p) d) else recs none d).

  Lemma recs_weaken : forall X d, recs none d -> recs X d.
  Proof. intros X d H k s NK _ HA. exact (H k s NK (fun f => f) HA). Qed.

  Lemma phase_round : forall kv r p route o odt g acc d q d1, parse e r = Ok p -> msgs w r -> fairG r g ->
    (forall s0, o = Some s0 -> exists r0 p0, msgs w r0 /\ q_said r0 = s0 /\ parse e r0 = Ok p0 /\ p_aid p0 = p_aid p /\ p_key p0 = p_key p /\
       odt = Some (q_dt r0) /\ (acc = false -> trans e (p_aid p) = true -> exists t, In t (tsgs d) /\ t_said t = s0)) ->
    phase kv r p o acc d -> round e kv r route (p_aid p) o odt g d q d1 ->
    match q with None => acc = false /\ phase kv r p o false d1 | Some b => phase kv r p o (acc || b) d1 end.
  Proof.
    intros kv r p route o odt g acc d q d1 P M F OO (A & PH) R.
    pose proof (parse_signer _ _ _ P) as SG. assert (A1 : arts d1) by (eapply round_arts; eauto).
    destruct acc.
    - (* already accepted *)
      destruct PH as (RC & (DN & DS & NW) & SU). cbn [orb].
      assert (NO : o <> Some (q_said r)) by (eapply newer_neq; eauto).
      assert (PR : forall k s, isKsn k = false -> p_key p <> k -> dget (ans d) k = Some s -> o <> Some s).
      { intros k s NK NX HA E. destruct (OO _ E) as (r0 & p0 & M0 & Q0 & P0 & _ & K0 & _).
        destruct (RC k s NK NX HA) as (r' & p' & M' & Q' & P' & K' & _). rewrite <- Q0 in Q'.
        rewrite (said_eq _ _ M' M0 Q') in P'. rewrite P0 in P'. injection P' as <-. congruence. }
      assert (RC1 : recs (eq (p_key p)) d1) by (eapply round_recs; eauto).
      assert (DS1 : dget (sdts d1) (q_said r) = Some (q_dt r)).
      { destruct R; try exact DS.
        - destruct (g_sigs g) as [|v vs]; [exact DS|]. exact (put_sdts_self r d A M).
        - destruct vs as [|v vs]; [exact DS|]. exact (put_sdts_self r d A M).
        - apply grp_sdts_self; assumption. }
      assert (TR : g_pre g = p_aid p -> trans e (p_aid p) = true /\ (g_sn g, g_dig g) = kst w (q_said r)).
      { intros E. destruct F as (_ & _ & F3). rewrite E in F3. exact (F3 SG). }
      assert (SU1 : trans e (p_aid p) = true -> sure kv r (p_aid p) d1).
      { intros T. destruct (SU T) as (ev & s & x & S1 & S2 & S3 & S4 & S5 & S6 & S7 & S8).
        assert (LIFT : forall x1, scan (tsgs d1) (mkT (q_said r) (p_aid p) (fst (kst w (q_said r))) (snd (kst w (q_said r))) []) = Some x1 ->
                  incl (t_sigs x) (t_sigs x1) -> sure kv r (p_aid p) d1).
        { intros x1 X1 X2. exists ev, s, x1. do 7 (split; [assumption|]). exact (X2 s S8). }
        destruct R as [|G ST AT|G ST ev' AT BAD|G ST ev' vs AT ED KN V|G SK ST ev' vs AT ED KN V q QQ].
        - exists ev, s, x. auto 10.
        - destruct (TR G) as [_ TR2]. rewrite <- TR2 in S1. cbn [fst] in S1. congruence.
        - exists ev, s, x. auto 10.
        - destruct (TR G) as [_ TR2]. rewrite <- TR2 in S7. cbn [fst snd] in S7. rewrite <- G in S7.
          destruct (scan_escrow r route g vs d x) as (x1 & X1 & X2); [apply fair_grpOk; auto; [rewrite G; exact SG|exact (verified_texts d r g _ _ _ _ A (proj1 (proj2 F)) V)]|exact S7|].
          apply (LIFT x1); [|exact X2]. rewrite <- TR2. cbn [fst snd]. rewrite <- G. exact X1.
        - destruct (TR G) as [_ TR2]. rewrite <- TR2 in S7. cbn [fst snd] in S7. rewrite <- G in S7.
          destruct (scan_grp r g vs o d) as (x1 & X1 & _ & X3);
            [apply fair_grpOk; auto; [rewrite G; exact SG|exact (verified_texts d r g _ _ _ _ A (proj1 (proj2 F)) V)]
            |apply validate_ok in V; tauto|exact NO|].
          apply (LIFT x1); [|exact (X3 _ S7)]. rewrite <- TR2. cbn [fst snd]. rewrite <- G. exact X1. }
      assert (PH1 : phase kv r p o true d1).
      { split; [exact A1|]. split; [exact RC1|]. split; [|exact SU1]. split; [exact DN|]. split; [exact DS1|exact NW]. }
      destruct q as [b|]; [exact PH1|exfalso].
      inversion R; subst.
      + (* a bad group after an accepted one *)
        match goal with G : g_pre g = p_aid p |- _ => destruct (TR G) as [T TR2]; rename G into GG end.
        destruct (SU T) as (ev' & s & x & S1 & S2 & S3 & S4 & S5 & S6 & S7 & S8). rewrite <- TR2 in S1, S2, S7. cbn [fst snd] in S1, S2, S7.
        match goal with AT : at_sn _ _ _ = Some ev, B : _ \/ _ |- _ => rewrite S1 in AT; injection AT as <-; destruct B as [BB|[BB|(y & BB)]]; [congruence|congruence|] end.
        apply scan_find in S7. rewrite GG, S7 in BB.
        destruct (validate_some e (q_raw r) (g_sigs g ++ t_sigs x) (e_keys ev') (e_th ev') s S4) as (vs & bb & V);
          [apply in_or_app; right; exact S8|exact S5| |congruence].
        intros s' I E. assert (Z : forall z, In z (g_sigs g ++ t_sigs x) -> z = sig w (sg_qb64 z)).
        { rewrite <- S7. apply (sigs_texts d1 (q_said r) (p_aid p) (g_sn g) (g_dig g) (g_sigs g)); [exact A|exact (proj1 (proj2 F))]. }
        rewrite (Z s' I), E. symmetry. exact S6.
      + match goal with Q : None = Some true \/ _ |- _ => destruct Q as [Q|(_ & t & T1 & T2 & T3)]; [discriminate|] end.
        match goal with G : g_pre g = p_aid p |- _ => destruct (TR G) as [_ TR2] end.
        destruct A1 as (_ & _ & C & _). destruct (C t T1) as (_ & _ & _ & _ & _ & _ & KT & _). rewrite T2, <- TR2 in KT. injection KT as K1 K2.
        destruct T3 as [T3|[_ T3]]; [lia|congruence].
    - (* nothing accepted yet *)
      cbn [orb].
      assert (NOACC : q = Some false \/ (q = None /\ d1 = d) -> phase kv r p o false d1).
      { intros Q. split; [exact A1|]. cbn. destruct Q as [->|[-> ->]]; [eapply round_recs_no; eauto|exact PH]. }
      destruct R as [SKP|G ST AT|G ST ev' AT BAD|G ST ev' vs AT ED KN V|G SK ST ev' vs AT ED KN V q QQ].
      + apply NOACC. left. reflexivity.
      + apply NOACC. left. reflexivity.
      + split; [reflexivity|]. apply NOACC. right. auto.
      + apply NOACC. left. reflexivity.
      + destruct F as (F1 & F2 & F3). rewrite G in F3. destruct (F3 SG) as [T TR2].
        assert (GO : grpOk r g vs) by (apply fair_grpOk; [split; [exact F1|split; [exact F2|rewrite G; exact F3]]|rewrite G; exact SG|exact (verified_texts d r g _ _ _ _ A F2 V)]).
        assert (NW : newer r (p_aid p) o).
        { intros s0 E. destruct (OO _ E) as (r0 & p0 & M0 & Q0 & P0 & A0 & K0 & OD & TT). exists r0, p0. do 4 (split; [assumption|]).
          subst o odt. apply stale_false in ST. destruct (TT eq_refl T) as (t & T1 & T2).
          assert (NEF : fetchTsgs (tsgs d) s0 None <> []).
          { intros X. assert (I : In t (fetchTsgs (tsgs d) s0 None)) by (apply fetch_In; auto). rewrite X in I. destruct I. }
          destruct (fetchTsgs (tsgs d) s0 None) as [|t0 ts] eqn:FE; [congruence|].
          assert (I0 : In t0 (fetchTsgs (tsgs d) s0 None)) by (rewrite FE; left; reflexivity).
          apply fetch_In in I0. destruct I0 as [I0 I1]. destruct A as (_ & _ & C & _). destruct (C t0 I0) as (_ & _ & _ & _ & _ & _ & KT & _).
          rewrite I1 in KT. specialize (ST t0). rewrite FE in ST. specialize (ST eq_refl). unfold later, rank. rewrite T, Q0, <- KT, <- TR2. cbn [fst snd].
          destruct ST as [ST|[ST1 ST2]]; [left; exact ST|right]. split; [exact ST1|]. exact (ST2 _ eq_refl). }
        assert (NO : o <> Some (q_said r)) by (eapply newer_neq; eauto).
        assert (PH1 : phase kv r p o true (removeReply o (updateGrp r g vs d))).
        { split; [exact A1|]. split.
          - intros k s NK NX HA. assert (HA0 : dget (ans d) k = Some s) by (destruct o; exact HA).
            pose proof (PH k s NK (fun f => f) HA0) as OK. apply recOk_remove; [|apply recOk_grp; exact OK].
            intros E. destruct (OO _ E) as (r0 & p0 & M0 & Q0 & P0 & _ & K0 & _). destruct OK as (r' & p' & M' & Q' & P' & K' & _). rewrite <- Q0 in Q'.
            rewrite (said_eq _ _ M' M0 Q') in P'. rewrite P0 in P'. injection P' as <-. congruence.
          - split; [split; [rewrite <- G; exact F1|split; [apply grp_sdts_self; assumption|exact NW]]|]. intros _.
            pose proof V as V0. apply validate_ok in V. destruct V as (V1 & V2 & V3 & V4 & V5).
            destruct (scan_grp r g vs o d GO V2 NO) as (x & X1 & X2 & _).
            destruct vs as [|v vs]; [congruence|]. destruct (V4 v (or_introl eq_refl)) as [_ VV].
            pose proof (verified_texts d r g _ _ _ _ A F2 V0 v (or_introl eq_refl)) as TX.
            exists ev', v, x. rewrite <- TR2. cbn [fst snd]. do 6 (split; [assumption|]). rewrite <- G. split; [exact X1|].
            pose proof (X2 v (or_introl eq_refl)) as I. apply in_map_iff in I. destruct I as (z & Z1 & Z2).
            apply scan_In in X1. destruct X1 as [X1 _]. destruct A1 as (_ & _ & C & _). destruct (C x X1) as (_ & _ & _ & _ & _ & _ & _ & CX).
            rewrite TX, <- Z1, <- (CX z Z2). exact Z2. }
        destruct QQ as [->|(-> & t & T1 & T2 & T3)]; [exact PH1|exfalso].
        destruct A1 as (_ & _ & C & _). destruct (C t T1) as (_ & _ & _ & _ & _ & _ & KT & _). rewrite T2, <- TR2 in KT. injection KT as K1 K2.
        destruct T3 as [T3|[_ T3]]; [lia|congruence].
  Qed.

  Definition known (p : preq) (o : option bytes) (odt : option N) (d : rdb) : Prop :=
    forall s0, o = Some s0 -> exists r0 p0, msgs w r0 /\ q_said r0 = s0 /\ parse e r0 = Ok p0 /\ p_aid p0 = p_aid p /\ p_key p0 = p_key p /\
      odt = Some (q_dt r0) /\ dget (ans d) (p_key p) = Some s0.

  Lemma grpLoop_phase : forall gs kv r p route o odt acc d d' x, parse e r = Ok p -> msgs w r -> Forall (fairG r) gs ->
    known p o odt d -> phase kv r p o acc d -> grpLoop e kv r route (p_aid p) o odt acc gs d = (d', x) ->
    match x with Ok b => phase kv r p o b d' | Err y => phase kv r p o false d' /\ y <> UnverifiedReplyError end.
  Proof.
    induction gs as [|g gs IH]; intros kv r p route o odt acc d d' x P M F KN PH H.
    - injection H as <- <-. exact PH.
    - inversion F as [|? ? F1 F2]; subst. destruct (grpLoop_cons _ _ _ _ _ _ _ _ _ _ _ _ _ H) as (q & d1 & R & K).
      assert (OO : forall s0, o = Some s0 -> exists r0 p0, msgs w r0 /\ q_said r0 = s0 /\ parse e r0 = Ok p0 /\ p_aid p0 = p_aid p /\ p_key p0 = p_key p /\
        odt = Some (q_dt r0) /\ (acc = false -> trans e (p_aid p) = true -> exists t, In t (tsgs d) /\ t_said t = s0)).
      { intros s0 E. destruct (KN s0 E) as (r0 & p0 & M0 & Q0 & P0 & A0 & K0 & OD & HA). exists r0, p0. do 6 (split; [assumption|]).
        intros -> T. destruct PH as [_ RC]. cbn in RC.
        destruct (RC (p_key p) s0 (parse_isKsn _ _ _ P) (fun f => f) HA) as (r1 & p1 & M1 & Q1 & P1 & _ & _ & _ & TT). rewrite <- Q0 in Q1.
        rewrite (said_eq _ _ M1 M0 Q1) in P1. rewrite P0 in P1. injection P1 as <-. rewrite A0 in TT. exact (TT T). }
      pose proof (phase_round kv r p route o odt g acc d q d1 P M F1 OO PH R) as PH1.
      destruct q as [b|].
      + apply (IH kv r p route o odt (acc || b) d1 d' x P M F2); [|exact PH1|exact K]. intros s0 E. destruct (KN s0 E) as (r0 & p0 & M0 & Q0 & P0 & A0 & K0 & OD & HA). exists r0, p0. do 6 (split; [assumption|]).
        rewrite (proj1 (round_keeps _ _ _ _ _ _ _ _ _ _ _ R)). exact HA.
      + destruct K as (-> & ex & -> & NE). split; [exact (proj2 PH1)|exact NE].
  Qed.

  Lemma obsolete_known : forall r p d, recs none d -> parse e r = Ok p -> ~ In 46 (p_aid p) ->
    known p (obsolete p r d) (odtOf (obsolete p r d) d) d.
  Proof.
    intros r p d RC P ND s0 E. unfold obsolete in E. destruct (dget (ans d) (p_key p)) as [s|] eqn:HA; [|discriminate].
    destruct (RC (p_key p) s (parse_isKsn _ _ _ P) (fun f => f) HA) as (r0 & p0 & M0 & Q0 & P0 & K0 & N0 & S0 & _).
    assert (X : s = s0) by (destruct ((p_tag p =? tagEnd) && beq s (q_said r)); [discriminate|injection E as ->; reflexivity]). subst s0.
    exists r0, p0. do 3 (split; [assumption|]). split; [eapply key_aid; eauto|]. split; [exact K0|]. split; [|reflexivity].
    unfold obsolete, odtOf. rewrite HA. destruct ((p_tag p =? tagEnd) && beq s (q_said r)); [discriminate|exact S0].
  Qed.

  (** a call whose signer no attachment names changes nothing *)
  Lemma cigLoop_absent : forall cs r aid o odt d, (forall cg, In cg cs -> c_key cg <> aid) -> cigLoop e r aid o odt cs d = (d, Ok false).
  Proof.
    induction cs as [|cg cs IH]; intros r aid o odt d N; [reflexivity|]. cbn [cigLoop].
    assert (IH' : cigLoop e r aid o odt cs d = (d, Ok false)) by (apply IH; intros c0 I; apply N; right; exact I).
    destruct (trans e (c_key cg)); [exact IH'|]. destruct (skipOwn e (c_key cg)); [exact IH'|].
    assert (B : beq aid (c_key cg) = false) by (apply beq_neq; intros E; apply (N cg); [left; reflexivity|congruence]). rewrite B. exact IH'.
  Qed.
  Lemma grpLoop_absent : forall gs kv r route aid o odt acc d, (forall g, In g gs -> g_pre g <> aid) -> grpLoop e kv r route aid o odt acc gs d = (d, Ok acc).
  Proof.
    induction gs as [|g gs IH]; intros kv r route aid o odt acc d N; [reflexivity|]. cbn [grpLoop]. unfold bindM at 1, rd.
    assert (IH' : grpLoop e kv r route aid o odt acc gs d = (d, Ok acc)) by (apply IH; intros c0 I; apply N; right; exact I).
    destruct (skipOwn e (g_pre g)); [exact IH'|].
    assert (B : beq aid (g_pre g) = false) by (apply beq_neq; intros E; apply (N g); [left; reflexivity|congruence]). rewrite B. exact IH'.
  Qed.

  Lemma accept_phase : forall kv r p cs gs d d' x, parse e r = Ok p -> fairMsg e w r cs gs -> arts d -> recs none d ->
    acceptReply e kv r (p_route p) (p_aid p) (obsolete p r d) cs gs d = (d', x) ->
    match x with Ok b => phase kv r p (obsolete p r d) b d' | Err y => phase kv r p (obsolete p r d) false d' /\ y <> UnverifiedReplyError end.
  Proof.
    intros kv r p cs gs d d' x P (M & FC & FG) A RC H. assert (F1 : Forall (fairG r) gs) by (apply Forall_forall; exact FG).
    assert (PH0 : phase kv r p (obsolete p r d) false d) by (split; assumption).
    destruct (in_dec N.eq_dec 46 (p_aid p)) as [DOT|ND].
    - (* no attachment can name such a signer *)
      rewrite acceptReply_eq, cigLoop_absent, grpLoop_absent in H.
      + injection H as <- <-. exact PH0.
      + intros g I E. apply (proj1 (FG g I)). rewrite E. exact DOT.
      + intros cg I E. apply (FC cg I). rewrite E. exact DOT.
    - pose proof (obsolete_known r p d RC P ND) as KN. set (o := obsolete p r d) in *. rewrite acceptReply_eq in H.
      destruct (cigLoop e r (p_aid p) o (odtOf o d) cs d) as [d1 y] eqn:C.
      destruct (cigLoop_spec _ _ _ _ _ _ _ _ _ C) as [(-> & ->)|(-> & cg & I & K & T & V & L & ->)].
      + eapply grpLoop_phase; eauto.
      + assert (NW : newer r (p_aid p) o).
        { intros s0 E. destruct (KN s0 E) as (r0 & p0 & M0 & Q0 & P0 & A0 & K0 & OD & HA). exists r0, p0. do 4 (split; [assumption|]).
          unfold later, rank. rewrite T. cbn [fst snd]. right. split; [reflexivity|]. exact (L _ OD). }
        assert (NO : o <> Some (q_said r)) by (eapply newer_neq; eauto).
        apply (grpLoop_phase gs kv r p (p_route p) o (odtOf o d) true (removeReply o (updateCig r cg d)) d' x P M F1); [| |exact H].
        * intros s0 E. destruct (KN s0 E) as (r0 & p0 & M0 & Q0 & P0 & A0 & K0 & OD & HA). exists r0, p0. do 6 (split; [assumption|]).
          destruct o; exact HA.
        * split; [apply arts_remove, arts_cig; assumption|]. split; [|split].
          -- intros k s NK NX HA. assert (HA0 : dget (ans d) k = Some s) by (destruct o; exact HA).
             pose proof (RC k s NK (fun f => f) HA0) as OK. apply recOk_remove; [|apply recOk_cig; exact OK].
             intros E. destruct (KN _ E) as (r0 & p0 & M0 & Q0 & P0 & _ & K0 & _). destruct OK as (r' & p' & M' & Q' & P' & K' & _). rewrite <- Q0 in Q'.
             rewrite (said_eq _ _ M' M0 Q') in P'. rewrite P0 in P'. injection P' as <-. congruence.
          -- split; [exact ND|]. split; [|exact NW].
             assert (X : dget (sdts (updateCig r cg d)) (q_said r) = Some (q_dt r)) by exact (put_sdts_self r d A M).
             destruct o as [s0|]; [|exact X]. cbn [removeReply sdts]. rewrite dget_drem.
             assert (NE : q_said r <> s0) by congruence. apply beq_neq in NE. rewrite NE. exact X.
          -- intros TT. congruence.
  Qed.

  (** records advance *)
  Definition adv (d d' : rdb) : Prop :=
    forall k s1, isKsn k = false -> dget (ans d) k = Some s1 -> exists s2, dget (ans d') k = Some s2 /\
      (s2 = s1 \/ exists r1 r2 p1 p2, msgs w r1 /\ msgs w r2 /\ q_said r1 = s1 /\ q_said r2 = s2 /\ parse e r1 = Ok p1 /\ parse e r2 = Ok p2 /\
         p_key p1 = k /\ p_key p2 = k /\ p_aid p1 = p_aid p2 /\ later (rank e w (p_aid p1) r1) (rank e w (p_aid p1) r2)).
  Lemma adv_same : forall d d', ans d' = ans d -> adv d d'.
  Proof. intros d d' E k s1 NK H. exists s1. rewrite E. auto. Qed.
  Lemma adv_trans : forall a b d, adv a b -> adv b d -> adv a d.
  Proof.
    intros a b d H1 H2 k s1 NK H. destruct (H1 k s1 NK H) as (s2 & A2 & R1). destruct (H2 k s2 NK A2) as (s3 & A3 & R2).
    exists s3. split; [exact A3|]. destruct R1 as [->|(r1 & r2 & p1 & p2 & M1 & M2 & Q1 & Q2 & P1 & P2 & K1 & K2 & E1 & L1)]; [exact R2|].
    destruct R2 as [->|(r3 & r4 & p3 & p4 & M3 & M4 & Q3 & Q4 & P3 & P4 & K3 & K4 & E2 & L2)]; [right; exists r1, r2, p1, p2; auto 12|].
    right. rewrite <- Q2 in Q3. pose proof (said_eq _ _ M3 M2 Q3) as ->. rewrite P2 in P3. injection P3 as <-.
    exists r1, r4, p1, p4. do 8 (split; [assumption|]). split; [congruence|]. rewrite <- E1 in L2. eapply later_trans; eauto.
  Qed.

  Lemma process_step : forall kv r cs gs d d' x, processReply e kv r cs gs d = (d', x) -> fairMsg e w r cs gs -> arts d -> recs none d ->
    arts d' /\ recs none d' /\ adv d d' /\ (forall y, x = Err y -> ans d' = ans d).
  Proof.
    intros kv r cs gs d d' x H FM A RC. apply process_outcome in H. destruct H as [y NE|p d1 SO P AC|p d1 SO P AC|p d1 y SO P AC|aid k d1 y z SO R Q AC|aid k d1 SO R Q AC _ _ _].
    - split; [exact A|]. split; [exact RC|]. split; [apply adv_same; reflexivity|reflexivity].
    - pose proof (accept_phase _ _ _ _ _ _ _ _ P FM A RC AC) as (A1 & RC1 & (ND & DS & NW) & SU).
      pose proof (proj1 (accept_keeps _ _ _ _ _ _ _ _ _ _ _ AC)) as KA. destruct FM as (M & FC & FG).
      assert (REC : recOk (record (p_key p) (q_said r) (p_val p) d1) (p_key p) (q_said r)).
      { exists r, p. do 2 (split; [first [assumption|reflexivity]|]). do 3 (split; [first [assumption|reflexivity]|]). split; [exact DS|].
        intros T. destruct (SU T) as (ev & s & x & _ & _ & _ & _ & _ & _ & S7 & _). apply scan_In in S7. destruct S7 as [I SM].
        apply sameT_eq in SM. cbn [t_said] in SM. exists x. split; [exact I|tauto]. }
      split; [|split; [|split; [|intros y Y; discriminate]]].
      + destruct A1 as (B1 & B2 & B3 & B4). split; [exact B1|]. split; [exact B2|]. split; [exact B3|].
        intros k s NK HA. cbn [record setVals setAns ans] in HA. rewrite dget_dset in HA. destruct (beq k (p_key p)) eqn:B.
        * apply beq_eq in B. subst k. rewrite (parse_isKsn _ _ _ P) in NK. discriminate.
        * exact (B4 k s NK HA).
      + intros k s NK _ HA. cbn [record setVals setAns ans] in HA. rewrite dget_dset in HA. destruct (beq k (p_key p)) eqn:B.
        * apply beq_eq in B. injection HA as <-. subst k. exact REC.
        * apply beq_neq in B. exact (RC1 k s NK (fun E => B (eq_sym E)) HA).
      + intros k s1 NK HA. cbn [record setVals setAns ans]. rewrite dget_dset, KA. destruct (beq k (p_key p)) eqn:B; [|exists s1; auto].
        apply beq_eq in B. subst k. exists (q_said r). split; [reflexivity|].
        destruct (list_N_dec (q_said r) s1) as [E|NE]; [left; exact E|right].
        assert (OB : obsolete p r d = Some s1).
        { unfold obsolete. rewrite HA. assert (BN : beq s1 (q_said r) = false) by (apply beq_neq; congruence). rewrite BN, andb_false_r. reflexivity. }
        destruct (NW _ OB) as (r0 & p0 & M0 & Q0 & P0 & A0 & L0).
        destruct (RC (p_key p) s1 NK (fun f => f) HA) as (r1 & p1 & M1 & Q1 & P1 & K1 & _). rewrite <- Q0 in Q1.
        pose proof (said_eq _ _ M1 M0 Q1) as ->. rewrite P0 in P1. injection P1 as <-.
        exists r0, r, p0, p. rewrite A0. do 9 (split; [first [assumption|reflexivity]|]). exact L0.
    - pose proof (accept_phase _ _ _ _ _ _ _ _ P FM A RC AC) as (A1 & RC1). pose proof (proj1 (accept_keeps _ _ _ _ _ _ _ _ _ _ _ AC)) as KA.
      split; [exact A1|]. split; [exact RC1|]. split; [apply adv_same; exact KA|intros; exact KA].
    - pose proof (accept_phase _ _ _ _ _ _ _ _ P FM A RC AC) as ((A1 & RC1) & _). pose proof (proj1 (accept_keeps _ _ _ _ _ _ _ _ _ _ _ AC)) as KA.
      split; [exact A1|]. split; [exact RC1|]. split; [apply adv_same; exact KA|intros; exact KA].
    - assert (SG : signerOf e r = Some aid) by (unfold signerOf; rewrite R; reflexivity).
      assert (O : forall r', msgs w r' -> dget (ans d) (key tagKsn [ks_i k; aid]) <> Some (q_said r')).
      { intros r' M' E. destruct A as (_ & _ & _ & D). exact (D _ _ (key_ksn _) E r' M' eq_refl). }
      destruct (accept_ksn _ _ _ _ _ _ _ _ _ _ AC A RC FM SG O) as (A1 & RC1). pose proof (proj1 (accept_keeps _ _ _ _ _ _ _ _ _ _ _ AC)) as KA.
      split; [exact A1|]. split; [exact RC1|]. split; [apply adv_same; exact KA|intros; exact KA].
    - assert (SG : signerOf e r = Some aid) by (unfold signerOf; rewrite R; reflexivity).
      assert (O : forall r', msgs w r' -> dget (ans d) (key tagKsn [ks_i k; aid]) <> Some (q_said r')).
      { intros r' M' E. destruct A as (_ & _ & _ & D). exact (D _ _ (key_ksn _) E r' M' eq_refl). }
      destruct (accept_ksn _ _ _ _ _ _ _ _ _ _ AC A RC FM SG O) as (A1 & RC1). pose proof (proj1 (accept_keeps _ _ _ _ _ _ _ _ _ _ _ AC)) as KA.
      assert (BK : forall k', isKsn k' = false -> beq k' (key tagKsn [ks_i k; aid]) = false).
      { intros k' NK. apply beq_neq. intros ->. rewrite key_ksn in NK. discriminate. }
      split; [|split; [|split; [|intros y Y; discriminate]]].
      + destruct A1 as (B1 & B2 & B3 & B4). split; [exact B1|]. split; [exact B2|]. split; [exact B3|].
        intros k' s NK HA. cbn [setVals setAns ans] in HA. rewrite dget_dset in HA. destruct (beq k' (key tagKsn [ks_i k; aid])).
        * injection HA as <-. intros r' M' E. destruct U as [_ U2]. exact (U2 r' r k M' (proj1 FM) Q (eq_sym E)).
        * exact (B4 k' s NK HA).
      + intros k' s NK NX HA. cbn [setVals setAns ans] in HA. rewrite dget_dset, BK in HA by exact NK. exact (RC1 k' s NK NX HA).
      + intros k' s1 NK HA. cbn [setVals setAns ans]. rewrite dget_dset, BK, KA by exact NK. exists s1. auto.
  Qed.

  Lemma drop_step : forall route said d, arts d -> recs none d -> (forall k, dget (ans d) k <> Some said) ->
    arts (removeReply (Some said) (remRpe route said d)) /\ recs none (removeReply (Some said) (remRpe route said d)).
  Proof.
    intros route said d A RC N. split; [apply arts_remove; exact A|]. intros k s NK NX HA. apply recOk_remove; [intros E; injection E as ->; exact (N k HA)|].
    exact (RC k s NK NX HA).
  Qed.

  Lemma unescrow_step : forall kv now route said d, arts d -> recs none d ->
    (forall k, dget (ans d) k = Some said -> dget (sdts (unescrow e kv now route said d)) said <> None) ->
    arts (unescrow e kv now route said d) /\ recs none (unescrow e kv now route said d) /\ adv d (unescrow e kv now route said d).
  Proof.
    intros kv now route said d A RC N. unfold unescrow in *.
    assert (SN : forall y, dget (sdts (removeReply (Some said) (remRpe route said y))) said = None).
    { intros y. cbn [removeReply sdts]. rewrite dget_drem, beq_refl. reflexivity. }
    assert (DR : (forall k, dget (ans d) k = Some said -> dget (sdts (removeReply (Some said) (remRpe route said d))) said <> None) ->
      arts (removeReply (Some said) (remRpe route said d)) /\ recs none (removeReply (Some said) (remRpe route said d)) /\
      adv d (removeReply (Some said) (remRpe route said d))).
    { intros X. destruct (drop_step route said d A RC) as [B1 B2]; [intros k HA; apply (X k HA); apply SN|].
      split; [exact B1|]. split; [exact B2|]. apply adv_same. reflexivity. }
    destruct (dget (sdts d) said) as [dt|]; [|exact (DR N)]. destruct (dget (rpys d) said) as [r|] eqn:RP; [|exact (DR N)].
    destruct (fetchTsgs (tsgs d) said None) as [|t ts] eqn:FE; [exact (DR N)|]. destruct (timeoutRPE <? now - dt); [exact (DR N)|].
    set (gs := map _ (t :: ts)) in *.
    assert (FM : fairMsg e w r [] gs).
    { destruct A as (_ & B & C & _). destruct (B _ _ RP) as [M Q]. split; [exact M|]. split; [intros cg []|].
      intros g I. apply in_map_iff in I. destruct I as (x & <- & X). rewrite <- FE in X. apply fetch_In in X. destruct X as [X1 X2].
      destruct (C x X1) as (r1 & M1 & Q1 & S1 & D1 & T1 & K1 & W1). cbn [g_pre g_sn g_dig g_sigs].
      split; [exact D1|]. split; [exact W1|]. intros _. split; [exact T1|]. rewrite K1. f_equal. congruence. }
    destruct (processReply e kv r [] gs d) as [d1 x] eqn:PR. destruct (process_step _ _ _ _ _ _ _ PR FM A RC) as (A1 & RC1 & AD & ER).
    destruct x as [u|y].
    - split; [exact A1|]. split; [exact RC1|]. intros k s1 NK HA. exact (AD k s1 NK HA).
    - specialize (ER y eq_refl).
      assert (DR1 : (forall k, dget (ans d) k = Some said -> dget (sdts (removeReply (Some said) (remRpe route said d1))) said <> None) ->
        arts (removeReply (Some said) (remRpe route said d1)) /\ recs none (removeReply (Some said) (remRpe route said d1)) /\
        adv d (removeReply (Some said) (remRpe route said d1))).
      { intros X. destruct (drop_step route said d1 A1 RC1) as [B1 B2]; [rewrite ER; intros k HA; apply (X k HA); apply SN|].
        split; [exact B1|]. split; [exact B2|]. apply adv_same. exact ER. }
      destruct y; try exact (DR1 N). split; [exact A1|]. split; [exact RC1|]. exact AD.
  Qed.

  Lemma start_ok : arts rdb0 /\ recs none rdb0.
  Proof. split; [|intros k s _ _ H; discriminate]. split; [intros s x H; discriminate|]. split; [intros s r H; discriminate|]. split; [intros t []|intros k s _ H; discriminate]. Qed.

  Lemma fair_ok : forall d0 d, fair e w d0 d -> arts d0 -> recs none d0 -> arts d /\ recs none d /\ adv d0 d.
  Proof.
    intros d0 d H A RC. induction H as [d|d0 d kv r cs gs H IH FM|d0 d kv now route said H IH N].
    - split; [exact A|]. split; [exact RC|]. apply adv_same. reflexivity.
    - destruct (IH A RC) as (A1 & RC1 & AD). destruct (processReply e kv r cs gs d) as [d' x] eqn:P. cbn [fst].
      destruct (process_step _ _ _ _ _ _ _ P FM A1 RC1) as (A2 & RC2 & AD2 & _). split; [exact A2|]. split; [exact RC2|]. eapply adv_trans; eauto.
    - destruct (IH A RC) as (A1 & RC1 & AD). destruct (unescrow_step kv now route said d A1 RC1 N) as (A2 & RC2 & AD2).
      split; [exact A2|]. split; [exact RC2|]. eapply adv_trans; eauto.
  Qed.

  Lemma no_rollback : forall d1 d2 k s1, fair e w rdb0 d1 -> fair e w d1 d2 -> isKsn k = false -> dget (ans d1) k = Some s1 ->
    exists s2, dget (ans d2) k = Some s2 /\
      (s2 = s1 \/ exists r1 r2 aid v1 v2, msgs w r1 /\ msgs w r2 /\ q_said r1 = s1 /\ q_said r2 = s2 /\ says e r1 aid k v1 /\ says e r2 aid k v2 /\
         later (rank e w aid r1) (rank e w aid r2)).
  Proof.
    intros d1 d2 k s1 F1 F2 NK HA. destruct start_ok as [A0 R0]. destruct (fair_ok _ _ F1 A0 R0) as (A1 & RC1 & _).
    destruct (fair_ok _ _ F2 A1 RC1) as (_ & _ & AD). destruct (AD k s1 NK HA) as (s2 & H2 & [->|(r1 & r2 & p1 & p2 & M1 & M2 & Q1 & Q2 & P1 & P2 & K1 & K2 & E1 & L)]).
    - exists s1. auto.
    - exists s2. split; [exact H2|right]. exists r1, r2, (p_aid p1), (p_val p1), (p_val p2). do 4 (split; [assumption|]).
      split; [rewrite <- K1; apply parse_says; exact P1|]. split; [rewrite <- K2, E1; apply parse_says; exact P2|]. exact L.
  Qed.
End Fair.
