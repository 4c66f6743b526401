(** Lemmas on out of order delivery: the invariant of the receiver. *)
From Verif Require Import Prelude B64Model MatterModel SubsModel ThModel ThSpec ThProofs ThThms KelModel KelSpec KelProofs KelInv OoSpec OoProofs OoProofs2 OoProofs3.
Open Scope N_scope.
Ltac Zify.zify_post_hook ::= Z.div_mod_to_equations.

(** the same database part for [p] *)
Lemma kget_keep : forall E H d x d' x' p, world H -> sinv E H d x ->
  kevers d' p = kevers d p -> states d' p = states d p -> (forall s a, evts x p s = Some a -> evts x' p s = Some a) ->
  kget d' x' p = kget d x p.
Proof.
  intros E H d x d' x' p W S A B C. unfold kget. rewrite A, B.
  destruct (s_p _ _ _ _ S p) as [(_ & P & Q)|(k & st & F & KS & ST & [KV|KV])].
  - rewrite P, Q. reflexivity.
  - rewrite KV, ST. destruct F as (c & ee & l & G & _).
    pose proof (kstate_reload _ _ _ _ _ _ _ _ _ W G KS) as RL.
    assert (Q : kreload x' st = Ok (reloaded k)).
    { revert RL. unfold kreload. destruct (processSith (s_kt st)); [|discriminate]. destruct (processSith (s_nt st)); [|discriminate].
      cbn [bind]. destruct (evts x (s_i st) (s_d st)) as [e|] eqn:EV; [|discriminate]. intros RL.
      assert (SI : s_i st = p).
      { pose proof (ok_inj _ _ _ RL) as Z. apply (f_equal k_pre) in Z. cbn in Z. rewrite Z. exact (g_pre _ _ _ _ _ _ _ _ G). }
      rewrite SI in EV. pose proof (C _ _ EV) as EV'. rewrite <- SI in EV'. rewrite EV'. exact RL. }
    rewrite RL, Q. reflexivity.
  - rewrite KV. reflexivity.
Qed.

Lemma nth_error_firstn' : forall A (l : list A) n j, (j < n)%nat -> nth_error (firstn n l) j = nth_error l j.
Proof.
  induction l as [|a l IH]; intros [|n] [|j] L; cbn; try lia; try reflexivity. apply IH. lia.
Qed.

Lemma OO_facts : forall now e sg wg sl local x,
  let x' := escrowOO now e sg wg sl local x in
  In (row e) (ooes x') /\ (exists a, evts x' (e_pre e) (e_said e) = Some a) /\ esrs x' (e_pre e) (e_said e) <> None /\
  dtss x' (e_pre e) (e_said e) <> None /\ incl sg (getSigs x' (e_pre e) (e_said e)) /\ incl wg (getWigs x' (e_pre e) (e_said e)).
Proof.
  intros now e sg wg sl local x x'.
  assert (C : let y := escCommon now e sg wg local x in
    (exists a, evts y (e_pre e) (e_said e) = Some a) /\ esrs y (e_pre e) (e_said e) <> None /\
    dtss y (e_pre e) (e_said e) <> None /\ incl sg (getSigs y (e_pre e) (e_said e)) /\ incl wg (getWigs y (e_pre e) (e_said e))).
  { unfold escCommon. cbv zeta.
    set (x1 := set_dtss (aput (dtss x) (e_pre e) (e_said e) now) x).
    set (x2 := putSigs (e_pre e) (e_said e) sg x1). set (x3 := putWigs (e_pre e) (e_said e) wg x2).
    set (x4 := set_evts (aput (evts x3) (e_pre e) (e_said e) e) x3).
    assert (D : dtss x4 (e_pre e) (e_said e) <> None).
    { assert (Q : dtss x4 = dtss x1).
      { subst x4 x3 x2. unfold putWigs, putSigs. destruct wg, sg; reflexivity. }
      rewrite Q. subst x1. cbn. unfold aput. destruct (dtss x (e_pre e) (e_said e)) eqn:Z; [rewrite Z; discriminate|rewrite aset_same; discriminate]. }
    assert (V : exists a, evts x4 (e_pre e) (e_said e) = Some a).
    { subst x4. cbn. unfold aput. destruct (evts x3 (e_pre e) (e_said e)) eqn:Z; [rewrite Z; eauto|rewrite aset_same; eauto]. }
    assert (S1 : incl sg (getSigs x4 (e_pre e) (e_said e))).
    { change (getSigs x4) with (getSigs x3). eapply incl_tran; [apply getSigs_put|]. apply (ext_putWigs e). }
    assert (S2 : incl wg (getWigs x4 (e_pre e) (e_said e))).
    { change (getWigs x4) with (getWigs x3). apply getWigs_put. }
    destruct (esrs x4 (e_pre e) (e_said e)) as [l|] eqn:Z.
    - destruct (local && negb l).
      + split; [exact V|]. split; [cbn [esrs set_esrs]; rewrite aset_same; discriminate|]. split; [exact D|]. split; [exact S1|exact S2].
      + split; [exact V|]. split; [rewrite Z; discriminate|]. split; [exact D|]. split; [exact S1|exact S2].
    - split; [exact V|]. split; [cbn [esrs set_esrs]; rewrite aset_same; discriminate|]. split; [exact D|]. split; [exact S1|exact S2]. }
  cbv zeta in C. subst x'. unfold escrowOO. cbv zeta. split.
  - cbn [ooes set_ooes]. apply etab_add_In. auto.
  - unfold putUdes. destruct sl as [c|]; exact C.
Qed.

Section Receiver.
Variables (E : env) (H : N -> option evt) (cf : conf) (p : N) (ms : list msg) (R : bytes -> option siger) (ks : list kever).
Hypothesis W : world H.
Hypothesis SN : sane H.
Hypothesis RE : forall m, In m ms -> real H (m_evt m).
Hypothesis CP : forall m, In m ms -> e_pre (m_evt m) = p.
Hypothesis CS : forall i m, nth_error ms i = Some m -> e_sn (m_evt m) = N.of_nat i.
Hypothesis CI : forall m, In m ms -> In (e_ilk (m_evt m)) [Icp; Rot; Ixn].
Hypothesis CV : forall m, In m ms -> isEst (e_ilk (m_evt m)) = true ->
             covers (e_kt (m_evt m)) (len (e_keys (m_evt m))) /\ covers (e_nt (m_evt m)) (len (e_ndigs (m_evt m))).
Hypothesis ST : stranger cf p ms.
Hypothesis NO : no_other_version E H R p ms.
Hypothesis KL : List.length ks = List.length ms.
Hypothesis KF : forall i k, nth_error ks i = Some k -> kfact p ms i k /\ exists m', nth_error ms i = Some m' /\ astep E cf m' (prev ks i) k.

Definition sd (m : msg) : N := e_said (m_evt m).

Lemma said_inj : forall i j m m', nth_error ms i = Some m -> nth_error ms j = Some m' -> sd m = sd m' -> i = j.
Proof.
  intros i j m m' A B Q. pose proof (RE _ (nth_error_In _ _ A)) as R1. pose proof (RE _ (nth_error_In _ _ B)) as R2.
  unfold real in *. unfold sd in Q. rewrite Q, R2 in R1. injection R1 as R1. apply CS in A, B. rewrite <- R1, B in A. lia.
Qed.

(** [m] is fully in the out of order escrow *)
Record held (m : msg) (x : aux) : Prop := mkHeld {
  h_row : In (row (m_evt m)) (ooes x);
  h_evt : evts x p (sd m) = Some (m_evt m);
  h_src : esrs x p (sd m) <> None;
  h_dat : dtss x p (sd m) <> None;
  h_sig : incl (m_sigers m) (getSigs x p (sd m));
  h_wig : incl (m_wigers m) (getWigs x p (sd m)) }.

Record J (T : N) (F : nat -> Prop) (n : nat) (d : acc) (x : aux) : Prop := mkJ {
  j_sinv : sinv E H d x;
  j_le : (n <= List.length ms)%nat;
  j_fels : fels d p = saids (firstn n ms);
  j_kels : kels d p = singles (saids (firstn n ms));
  j_k : option_map undated (kget d x p) = option_map undated (prev ks n);
  j_sig : forall q s g, In g (getSigs x q s) \/ In g (getWigs x q s) -> R (sg_qb64 g) = Some g;
  j_dt : forall j m t, (n <= j)%nat -> nth_error ms j = Some m -> dtss x p (sd m) = Some t -> T <= t;
  j_held : forall j m, (n <= j)%nat -> nth_error ms j = Some m -> F j -> held m x;
  j_sort : sorted (ooes x) }.

Lemma held_keep : forall m e sg wg x x', ext e x x' -> fr e sg wg x x' ->
  held m x -> held m x'.
Proof.
  intros m e sg wg x x' (X1 & _ & X3 & X4) FR []. constructor; auto.
  - apply (fr_oo _ _ _ _ _ FR). assumption.
  - apply (fr_sr _ _ _ _ _ FR). assumption.
  - apply (fr_ds _ _ _ _ _ FR). assumption.
  - eapply incl_tran; [eassumption|apply X3].
  - eapply incl_tran; [eassumption|apply X4].
Qed.

Lemma prev_some : forall n, (n <= List.length ms)%nat -> (0 < n)%nat -> exists k, prev ks n = Some k /\ kfact p ms (pred n) k.
Proof.
  intros [|n] L G; [lia|]. cbn [prev pred]. destruct (nth_error ks n) as [k|] eqn:Z; [|apply nth_error_None in Z; lia].
  exists k. split; [reflexivity|]. apply KF. exact Z.
Qed.

(** what the receiver's Kever looks like *)
Lemma j_kever : forall T F n d x k, J T F n d x -> kget d x p = Some k ->
  (0 < n)%nat /\ exists k0, prev ks n = Some k0 /\ undated k = undated k0 /\ kfact p ms (pred n) k0.
Proof.
  intros T F n d x k JJ K. pose proof (j_k _ _ _ _ _ JJ) as Q. rewrite K in Q. cbn [option_map] in Q.
  destruct n as [|n]; [discriminate|]. split; [lia|].
  destruct (prev_some (S n) (j_le _ _ _ _ _ JJ) ltac:(lia)) as (k0 & K1 & K2). exists k0. rewrite K1 in Q.
  split; [exact K1|]. split; [|exact K2]. cbn in Q. congruence.
Qed.
Lemma j_none : forall T F n d x, J T F n d x -> kget d x p = None -> n = 0%nat.
Proof.
  intros T F n d x JJ K. pose proof (j_k _ _ _ _ _ JJ) as Q. rewrite K in Q. destruct n as [|n]; [reflexivity|].
  destruct (prev_some (S n) (j_le _ _ _ _ _ JJ) ltac:(lia)) as (k0 & K1 & K2). rewrite K1 in Q. discriminate.
Qed.

Lemma in_chain : forall e, real H e -> In (e_said e) (saids ms) -> exists j m, nth_error ms j = Some m /\ m_evt m = e.
Proof.
  intros e RL I. apply in_map_iff in I. destruct I as (m & Q & I). apply In_nth_error in I. destruct I as (j & I).
  exists j, m. split; [exact I|]. pose proof (RE _ (nth_error_In _ _ I)) as RM. unfold real in *. congruence.
Qed.

(** a foreign event of [p] is never accepted *)
Lemma not_foreign : forall T F n m d x d' x' r ko k' sg wg dp cpl, J T F n d x -> real H (m_evt m) -> readable R m -> e_pre (m_evt m) = p ->
  accept E cf m d x d' x' r ko k' sg wg dp cpl -> In (e_said (m_evt m)) (saids ms).
Proof.
  intros T F n m d x d' x' r ko k' sg wg dp cpl JJ RM RD PM A.
  destruct (in_dec N.eq_dec (e_said (m_evt m)) (saids ms)) as [I|NI]; [exact I|exfalso].
  assert (NI' : ~ In (m_evt m) (map m_evt ms)).
  { intros Z. apply NI. unfold saids. rewrite <- map_map with (f := m_evt) (g := e_said). apply in_map. exact Z. }
  destruct (NO _ RM PM NI') as [N1 N2].
  pose proof (a_tr _ _ _ _ _ _ _ _ _ _ _ _ _ _ A) as TR. pose proof (a_valid _ _ _ _ _ _ _ _ _ _ _ _ _ _ A) as VA.
  assert (RS : forall s, In s sg -> R (sg_qb64 s) = Some s).
  { intros s I. apply RD, in_app_iff. left. exact (v_incl _ _ _ _ _ _ _ _ _ _ _ _ _ _ _ _ _ VA _ I). }
  inversion TR as [k0 delpre fn dts G1 G2 G3 Q1 Q2|k wits cuts adds fn dts G1 G2 G3 G4 G5 G6 G7 G8 Q1 Q2|k fn dts G1 G2 G3 G4 G5 G6 G7 Q1 Q2]; subst ko k'.
  - congruence.
  - rewrite PM in G1. destruct (j_kever _ _ _ _ _ _ JJ G1) as (_ & k0 & _ & U & KK). destruct (kf_est _ _ _ _ KK) as (me & M1 & _ & _ & _ & M2 & _).
    pose proof (v_rot _ _ _ _ _ _ _ _ _ _ _ _ _ _ _ _ _ VA G4) as RO. cbn [k_keys] in RO.
    destruct (exposeds E (k_ndigs k) (e_keys (m_evt m)) sg) as [|o os] eqn:EX; [rewrite c11_empty in RO; discriminate|].
    destruct (exposeds_filter E (k_ndigs k) (e_keys (m_evt m)) sg) as [_ EF].
    assert (IO : In o (exposeds E (k_ndigs k) (e_keys (m_evt m)) sg)) by (rewrite EX; cbn; auto).
    apply EF in IO. destruct IO as (s & I1 & I2). unfold exposer in I2. destruct (sg_ondex s) as [o'|]; [|discriminate].
    destruct (nth_error (k_ndigs k) (N.to_nat o')) as [dg|] eqn:ND; [|discriminate].
    destruct (nth_error (e_keys (m_evt m)) (N.to_nat (sg_index s))) as [ky|] eqn:NK; [|discriminate].
    destruct (commits E dg ky) eqn:CO; [|discriminate].
    pose proof (v_ver _ _ _ _ _ _ _ _ _ _ _ _ _ _ _ _ _ VA) as VV. rewrite Forall_forall in VV. destruct (VV _ I1) as (ky' & V1 & V2).
    cbn [k_keys] in V1. rewrite NK in V1. injection V1 as <-.
    destruct (N2 _ s me M1 (RS s I1) V2) as [_ N3]. rewrite N3 in CO; [discriminate|].
    apply (f_equal k_ndigs) in U. cbn in U. rewrite <- M2, <- U. eapply nth_error_In. exact ND.
  - rewrite PM in G1. destruct (j_kever _ _ _ _ _ _ JJ G1) as (_ & k0 & _ & U & KK). destruct (kf_est _ _ _ _ KK) as (me & M1 & _ & M2 & _).
    pose proof (v_some _ _ _ _ _ _ _ _ _ _ _ _ _ _ _ _ _ VA) as SO. destruct sg as [|s sg]; [congruence|].
    pose proof (v_ver _ _ _ _ _ _ _ _ _ _ _ _ _ _ _ _ _ VA) as VV. inversion VV as [|? ? (ky & V1 & V2) _]; subst.
    destruct (N2 _ s me M1 (RS s (or_introl eq_refl)) V2) as [N3 _]. apply N3. apply (f_equal k_keys) in U. cbn in U. rewrite <- M2, <- U.
    eapply nth_error_In. exact V1.
Qed.

(** an accepted event of [p] is the next one of the log *)
Lemma accept_next : forall T F n m d x d' x' r ko k' sg wg dp cpl, J T F n d x -> real H (m_evt m) -> readable R m -> e_pre (m_evt m) = p ->
  accept E cf m d x d' x' r ko k' sg wg dp cpl ->
  exists mj kj, nth_error ms n = Some mj /\ m_evt mj = m_evt m /\ nth_error ks n = Some kj /\ undated k' = undated kj.
Proof.
  intros T F n m d x d' x' r ko k' sg wg dp cpl JJ RM RD PM A.
  pose proof (not_foreign _ _ _ _ _ _ _ _ _ _ _ _ _ _ _ JJ RM RD PM A) as IC. destruct (in_chain _ RM IC) as (j & mj & X & XE).
  pose proof (nth_error_In _ _ X) as XI.
  pose proof (j_sinv _ _ _ _ _ JJ) as SI. pose proof (s_inv _ _ _ _ SI) as IV.
  destruct (accept_attach _ _ _ _ _ _ _ _ _ _ _ _ _ _ _ W IV RM A) as (c & AT).
  pose proof (CS _ _ X) as SJ. rewrite XE in SJ.
  assert (JN : j = n).
  { inversion AT as [B1 B2 B3|k c' ee B1 B2 B3 B4 B5|k pe c' B1 B2 B3 B4 B5 B6 B7 B8 B9]; subst ko.
    - rewrite PM in B3. rewrite (j_none _ _ _ _ _ JJ B3). lia.
    - rewrite PM in B1. destruct (j_kever _ _ _ _ _ _ JJ B1) as (L & k0 & _ & U & KK). apply (f_equal k_sn) in U. cbn in U.
      rewrite (kf_sn _ _ _ _ KK) in U. lia.
    - exfalso. rewrite PM in B1. destruct (j_kever _ _ _ _ _ _ JJ B1) as (L & k0 & _ & U & KK). apply (f_equal k_sn) in U. cbn in U.
      rewrite (kf_sn _ _ _ _ KK) in U.
      assert (IL : e_ilk (m_evt m) = Rot).
      { pose proof (CI _ XI) as CI'. rewrite XE in CI'. cbn in CI'. destruct CI' as [Q|[Q|[Q|[]]]]; rewrite <- Q in *; congruence || discriminate || auto. }
      destruct (B4 IL) as [_ B10].
      destruct (sinv_kget _ _ _ _ p W SI) as [(Z & _)|(k1 & K1 & c1 & ee1 & l1 & G & _ & _ & _ & LS & _)]; [congruence|].
      assert (k1 = k) by congruence. subst k1.
      assert (e_sn (m_evt m) <= k_lastS k); [|lia].
      apply (LS (e_said (m_evt m))); [| |rewrite IL; reflexivity].
      + rewrite (j_fels _ _ _ _ _ JJ). unfold saids. apply in_map_iff. exists mj. split; [rewrite XE; reflexivity|].
        apply nth_error_In with (n := j). rewrite nth_error_firstn' by lia. exact X.
      + assert (FI : In (e_said (m_evt m)) (fels d p)).
        { rewrite (j_fels _ _ _ _ _ JJ). unfold saids. apply in_map_iff. exists mj. split; [rewrite XE; reflexivity|].
          apply nth_error_In with (n := j). rewrite nth_error_firstn' by lia. exact X. }
        destruct (i_fe _ _ _ _ IV _ _ FI) as (e2 & c2 & ee2 & S1 & S2 & _).
        pose proof (chain_hd _ _ _ _ _ _ S2) as (_ & _ & S3 & S4). rewrite S1 in S3. rewrite S3. f_equal.
        unfold real in *. rewrite S1 in S4. congruence. }
  subst j. pose proof (nth_error_len _ _ _ _ X) as NL.
  destruct (nth_error ks n) as [kj|] eqn:Z; [|apply nth_error_None in Z; lia].
  exists mj, kj. split; [exact X|]. split; [exact XE|]. split; [reflexivity|].
  destruct (KF _ _ Z) as (KN & m' & M1 & AS). rewrite X in M1. injection M1 as <-.
  pose proof (as_tr _ _ _ _ _ AS) as AR. pose proof (a_tr _ _ _ _ _ _ _ _ _ _ _ _ _ _ A) as TR.
  pose proof (a_fn _ _ _ _ _ _ _ _ _ _ _ _ _ _ A) as FN. rewrite PM, (j_fels _ _ _ _ _ JJ) in FN.
  assert (FN' : k_fn k' = k_fn kj).
  { rewrite FN, (kf_fn _ _ _ _ KN). unfold len, saids. rewrite map_length, firstn_length. lia. }
  rewrite XE in AR.
  pose proof (CI _ XI) as CI'. rewrite XE in CI'.
  inversion TR as [k0 delpre fn dts G1 G2 G3 Q1 Q2|k wits cuts adds fn dts G1 G2 G3 G4 G5 G6 G7 G8 Q1 Q2|k fn dts G1 G2 G3 G4 G5 G6 G7 Q1 Q2]; subst ko k'.
  - rewrite PM in G1. pose proof (j_none _ _ _ _ _ JJ G1). subst n. cbn [prev] in AR.
    inversion AR as [k1 fn1 dts1 H1 H2 H3 H4| |]; subst kj. rewrite H2 in G3. apply ok_inj in G3. subst k1.
    assert (DN : delpre = None).
    { pose proof (a_delpre _ _ _ _ _ _ _ _ _ _ _ _ _ _ A eq_refl) as D. cbn in D. subst delpre.
      rewrite (v_delpre _ _ _ _ _ _ _ _ _ _ _ _ _ _ _ _ _ (a_valid _ _ _ _ _ _ _ _ _ _ _ _ _ _ A)), H1. reflexivity. }
    subst delpre. cbn in FN'. subst fn1. reflexivity.
  - rewrite PM in G1. destruct (j_kever _ _ _ _ _ _ JJ G1) as (L & k1 & P1 & U & KK). rewrite P1 in AR.
    inversion AR as [|k2 w2 c2 a2 fn2 dts2 H1 H2 H3 H4 H5 H6 H7 H8|k2 fn2 dts2 H1 H2 H3]; subst k2 kj; [|rewrite H3 in G4; discriminate].
    assert (NX : e_sn (m_evt m) = k_sn k + 1).
    { pose proof (f_equal k_sn U) as U'. cbn in U'. lia. }
    rewrite (rotate_next d x acc0 aux0 k _ NX) in G8.
    change (rotate acc0 aux0 (undated k) (m_evt m) = Ok (wits, cuts, adds)) in G8. rewrite U in G8.
    change (rotate acc0 aux0 k1 (m_evt m) = Ok (wits, cuts, adds)) in G8. rewrite G8 in H6. apply ok_inj in H6. injection H6 as <- <- <-.
    cbn in FN'. subst fn2.
    change (undated (rotated (undated k) (m_evt m) wits cuts adds fn 0) = undated (rotated (undated k1) (m_evt m) wits cuts adds fn 0)).
    rewrite U. reflexivity.
  - rewrite PM in G1. destruct (j_kever _ _ _ _ _ _ JJ G1) as (L & k1 & P1 & U & KK). rewrite P1 in AR.
    inversion AR as [|k2 w2 c2 a2 fn2 dts2 H1 H2 H3|k2 fn2 dts2 H1 H2 H3 H4 H5 H6 H7 H8]; subst k2 kj; [rewrite H3 in G4; discriminate|].
    cbn in FN'. subst fn2.
    change (undated (interacted (undated k) (m_evt m) fn 0) = undated (interacted (undated k1) (m_evt m) fn 0)).
    rewrite U. reflexivity.
Qed.

Lemma j_said_ok : forall T F n d x, J T F n d x -> said_ok x.
Proof. intros T F n d x JJ. eapply inv_said_ok; [exact W|]. apply (s_inv _ _ _ _ (j_sinv _ _ _ _ _ JJ)). Qed.

(** processing any real message *)
Lemma J_process : forall T F n m d x d' x' r, J T F n d x -> real H (m_evt m) -> readable R m -> T <= m_now m ->
  processEvent E cf m (d, x) = ((d', x'), r) -> exists n', (n <= n')%nat /\ J T F n' d' x'.
Proof.
  intros T F n m d x d' x' r JJ RM RD TM P.
  pose proof (process_onto E cf m d x) as ON. rewrite P in ON. cbn [fst] in ON. destruct ON as [FR DT]. cbn [fst snd] in FR, DT.
  pose proof (j_sinv _ _ _ _ _ JJ) as SI. pose proof (s_inv _ _ _ _ SI) as IV.
  assert (SI' : sinv E H d' x').
  { change (sinv E H (fst (d', x')) (snd (d', x'))). eapply sinv_micros; [exact W|exact SN| |eapply micro_process; eauto]. exact SI. }
  assert (SG : forall q s g, In g (getSigs x' q s) \/ In g (getWigs x' q s) -> R (sg_qb64 g) = Some g).
  { intros q s g [I|I].
    - apply (fr_sg _ _ _ _ _ FR) in I. apply in_app_iff in I. destruct I as [I|I]; [apply (j_sig _ _ _ _ _ JJ q s); auto|].
      apply RD, in_app_iff. auto.
    - apply (fr_wg _ _ _ _ _ FR) in I. apply in_app_iff in I. destruct I as [I|I]; [apply (j_sig _ _ _ _ _ JJ q s); auto|].
      apply RD, in_app_iff. auto. }
  assert (EX : ext (m_evt m) x x').
  { pose proof P as P'. apply process_inv in P'. destruct P' as [(X & _)|(ko & k' & sg & wg & dp & cpl & A)]; [exact X|exact (a_ext _ _ _ _ _ _ _ _ _ _ _ _ _ _ A)]. }
  assert (HE : forall mm, held mm x -> held mm x') by (intros mm; eapply held_keep; eauto).
  assert (DA : forall n', (n <= n')%nat -> (e_pre (m_evt m) = p -> fels d' p = fels d p ++ [e_said (m_evt m)] ->
                 forall j mm, (n' <= j)%nat -> nth_error ms j = Some mm -> sd mm <> e_said (m_evt m)) ->
     forall j mm t, (n' <= j)%nat -> nth_error ms j = Some mm -> dtss x' p (sd mm) = Some t -> T <= t).
  { intros n' LE AC j mm t L X Y.
    destruct (N.eq_dec p (e_pre (m_evt m))) as [Q|NE]; [destruct (N.eq_dec (sd mm) (e_said (m_evt m))) as [Q2|NE]|].
    - destruct DT as [DT|DT].
      + rewrite Q, Q2 in Y. apply DT in Y. destruct Y as [Y|Y]; [|lia]. rewrite <- Q, <- Q2 in Y.
        apply (j_dt _ _ _ _ _ JJ j mm); [lia|exact X|exact Y].
      + rewrite <- Q in DT. exfalso. apply (AC (eq_sym Q) DT j mm L X). exact Q2.
    - rewrite (fr_dt _ _ _ _ _ FR) in Y by (intros [_ Z]; auto). apply (j_dt _ _ _ _ _ JJ j mm); [lia|exact X|exact Y].
    - rewrite (fr_dt _ _ _ _ _ FR) in Y by (intros [Z _]; auto). apply (j_dt _ _ _ _ _ JJ j mm); [lia|exact X|exact Y]. }
  apply process_inv in P. destruct P as [(X & (B1 & B2 & B3 & B4) & SM)|(ko & k' & sg & wg & dp & cpl & A)].
  - exists n. split; [lia|]. destruct (SM (j_said_ok _ _ _ _ _ JJ)) as (C1 & _).
    constructor; auto.
    + apply (j_le _ _ _ _ _ JJ).
    + rewrite B3. apply (j_fels _ _ _ _ _ JJ).
    + rewrite C1. apply (j_kels _ _ _ _ _ JJ).
    + rewrite (kget_keep E H d x d' x' p W SI); [apply (j_k _ _ _ _ _ JJ)|rewrite B2; reflexivity|rewrite B1; reflexivity|].
      destruct EX as (X1 & _). intros s a. apply X1.
    + apply DA; [lia|]. intros Q1 Q2. exfalso. rewrite B3 in Q2. apply (f_equal (@List.length N)) in Q2. rewrite app_length in Q2. cbn in Q2. lia.
    + intros j mm L Y FJ. apply HE. apply (j_held _ _ _ _ _ JJ j mm); auto.
    + apply (fr_so _ _ _ _ _ FR). apply (j_sort _ _ _ _ _ JJ).
  - destruct (accept_sinv _ _ _ _ _ _ _ _ _ _ _ _ _ _ _ W SN SI RM A) as (_ & RO & KV & _).
    pose proof (tr_pre _ _ _ _ _ _ (a_tr _ _ _ _ _ _ _ _ _ _ _ _ _ _ A)) as KP.
    pose proof (a_kels _ _ _ _ _ _ _ _ _ _ _ _ _ _ A) as AK. pose proof (a_fels _ _ _ _ _ _ _ _ _ _ _ _ _ _ A) as AF.
    destruct (a_pin _ _ _ _ _ _ _ _ _ _ _ _ _ _ A) as [(_ & st & KS & PV & PS)|(ex & Z & _)]; [|rewrite Z in RO; discriminate].
    destruct (N.eq_dec (e_pre (m_evt m)) p) as [Q|NE].
    + destruct (accept_next _ _ _ _ _ _ _ _ _ _ _ _ _ _ _ JJ RM RD Q A) as (mj & kj & X & XE & Z & U).
      pose proof (nth_error_len _ _ _ _ X) as NL.
      pose proof (firstn_snoc _ _ _ _ X) as FS.
      exists (S n). split; [lia|]. rewrite Q in *. constructor; auto.
      * rewrite AF, fset_same, (j_fels _ _ _ _ _ JJ), FS, saids_app. cbn. rewrite XE. reflexivity.
      * rewrite AK, fset_same, (j_kels _ _ _ _ _ JJ), FS, saids_app. cbn [saids map]. unfold singles. rewrite map_app. cbn [map].
        fold (singles (saids (firstn n ms))).
        replace (N.to_nat (e_sn (m_evt m))) with (List.length (singles (saids (firstn n ms)))).
        2:{ rewrite <- XE, (CS _ _ X). unfold singles, saids. rewrite !map_length, firstn_length. lia. }
        rewrite kadd_end. rewrite XE. reflexivity.
      * unfold kget. rewrite KV. cbn [prev]. rewrite Z. cbn [option_map]. congruence.
      * apply DA; [lia|]. intros _ _ j mm L Y E1. assert (j = n); [|lia]. eapply said_inj; [exact Y|exact X|].
        unfold sd in *. rewrite XE. exact E1.
      * intros j mm L Y FJ. apply HE. apply (j_held _ _ _ _ _ JJ j mm); auto. lia.
      * apply (fr_so _ _ _ _ _ FR). apply (j_sort _ _ _ _ _ JJ).
    + exists n. split; [lia|]. constructor; auto.
      * apply (j_le _ _ _ _ _ JJ).
      * rewrite AF, fset_other by auto. apply (j_fels _ _ _ _ _ JJ).
      * rewrite AK, fset_other by auto. apply (j_kels _ _ _ _ _ JJ).
      * rewrite (kget_keep E H d x d' x' p W SI); [apply (j_k _ _ _ _ _ JJ)|rewrite PV, fset_other; [reflexivity|congruence]|rewrite PS, fset_other; [reflexivity|congruence]|].
        destruct EX as (X1 & _). intros s a. apply X1.
      * apply DA; [lia|]. intros Q1 _. congruence.
      * intros j mm L Y FJ. apply HE. apply (j_held _ _ _ _ _ JJ j mm); auto.
      * apply (fr_so _ _ _ _ _ FR). apply (j_sort _ _ _ _ _ JJ).
Qed.

(** a copy of the next message is accepted *)
Definition named (wits : list N) : Prop := forall w, In w wits -> exists m, In m ms /\ In w (e_wits (m_evt m) ++ e_adds (m_evt m)).
Lemma clear_of : forall k wits, k_pre k = p -> named wits -> named (k_wits k) -> clear cf k wits /\ isLocal cf k wits = false.
Proof.
  intros k wits KP WI WK. destruct ST as (S1 & S2 & S3). unfold isLocal.
  assert (C : clear cf k wits).
  { unfold clear, locallyMembered, locallyOwned, locallyWitnessed. rewrite KP.
    apply memN_nIn in S1, S2. rewrite S1, S2. split; [reflexivity|]. split; [reflexivity|].
    apply not_true_is_false. intros Q. apply existsb_exists in Q. destruct Q as (y & Y1 & Y2). apply memN_In in Y2.
    assert (Z : exists m, In m ms /\ In y (e_wits (m_evt m) ++ e_adds (m_evt m))).
    { destruct wits; [apply WK|apply WI]; exact Y2. }
    destruct Z as (mz & Z1 & Z2). exact (S3 _ _ Z1 Z2 Y1). }
  split; [exact C|]. destruct C as (-> & -> & ->). reflexivity.
Qed.

Lemma nonnil : forall A (a b : list A), a <> [] -> incl a b -> isnil b = false.
Proof. intros A [|x a] b N I; [congruence|]. destruct b; [destruct (I x); cbn; auto|reflexivity]. Qed.

Lemma th_of : forall m, In m ms -> threshold (e_kt (m_evt m)) /\ threshold (e_nt (m_evt m)).
Proof. intros m I. pose proof (RE _ I) as Q. apply W in Q. tauto. Qed.

Lemma next_accepted : forall T F n m0 m d x, J T F n d x -> nth_error ms n = Some m0 -> copy_of m0 m -> readable R m ->
  fels (fst (fst (processEvent E cf m (d, x)))) p = fels d p ++ [sd m0].
Proof.
  intros T F n m0 m d x JJ X (XE & XS & XW) RD.
  pose proof (nth_error_In _ _ X) as XI. pose proof (nth_error_len _ _ _ _ X) as NL.
  destruct (nth_error ks n) as [kj|] eqn:Z; [|apply nth_error_None in Z; lia].
  destruct (KF _ _ Z) as (KN & m' & M1 & AS). rewrite X in M1. injection M1 as <-.
  destruct AS as [AP AT (d0 & x0 & local & sg & wg & dp & cpl & V)].
  assert (PM : e_pre (m_evt m0) = p) by (apply CP; exact XI).
  unfold sd. rewrite <- XE in *.
  unfold processEvent. cbv zeta. rewrite AP. cbn [negb]. rewrite PM.
  inversion AT as [k1 fn1 dts1 H1 H2 H3 H4|k2 w2 c2 a2 fn2 dts2 H1 H2 H3 H4 H5 H6 H7 H8|k2 fn2 dts2 H1 H2 H3 H4 H5 H6 H7 H8]; subst kj.
  - (* inception *)
    assert (n = 0)%nat.
    { destruct n as [|n]; [reflexivity|]. destruct (prev_some (S n) ltac:(lia) ltac:(lia)) as (? & Q & _). congruence. }
    subst n. pose proof (j_k _ _ _ _ _ JJ) as JK. cbn [prev option_map] in JK.
    destruct (kget d x p); [discriminate|]. rewrite H1. cbn [isIncept]. unfold newKever.
    rewrite (nonnil _ sg (m_sigers m)); [|exact (v_some _ _ _ _ _ _ _ _ _ _ _ _ _ _ _ _ _ V)|].
    2:{ eapply incl_tran; [exact (v_incl _ _ _ _ _ _ _ _ _ _ _ _ _ _ _ _ _ V)|exact XS]. }
    rewrite H1. cbn [isIncept negb]. rewrite H2.
    pose proof (incept_inv _ _ _ H2) as II.
    rewrite <- H3 in V. cbn [withDelFn k_keys k_tholder k_toad k_wits] in V.
    destruct (clear_of k1 (k_wits k1)) as [C1 C2].
    { exact (kf_pre _ _ _ _ KN). } { exact (kf_wits _ _ _ _ KN). } { exact (kf_wits _ _ _ _ KN). }
    destruct II as (_ & _ & _ & _ & _ & K1).
    assert (KK : k_keys k1 = e_keys (m_evt m) /\ k_tholder k1 = e_kt (m_evt m) /\ k_nt k1 = e_nt (m_evt m)) by (rewrite K1; auto).
    destruct KK as (KK1 & KK2 & KK3). destruct (th_of _ XI) as [TH1 TH2]. rewrite <- XE in TH1, TH2.
    destruct (CV _ XI) as [CV1 _]; [rewrite <- XE, H1; reflexivity|]. rewrite <- XE in CV1.
    assert (VC : exists vs ws, valSigsWigsDel E cf (m_now m) d k1 (m_evt m) (m_sigers m) (k_keys k1) (k_tholder k1) (m_wigers m)
                    (k_toad k1) (k_wits k1) (m_seal m) (m_eager m) (m_local m) x = (x, Ok (vs, ws, None, None))).
    { eapply val_copy with (R := R); [exact V|exact XS|exact XW|exact RD| | | | |exact C1| |reflexivity|reflexivity|].
      - rewrite KK2. exact TH1.
      - rewrite KK1, KK2. exact CV1.
      - rewrite KK3. exact TH2.
      - rewrite H1. discriminate.
      - exact C2.
      - rewrite H1. cbn. auto. }
    destruct VC as (vs & ws & VC). rewrite <- KK1. rewrite VC. cbn [fst snd].
    match goal with |- context[logEvent ?a ?b ?c ?dd ?ee ?f ?g ?h ?i ?j ?k (d, x)] =>
      destruct (logEvent a b c dd ee f g h i j k (d, x)) as [[d1 x1] r1] eqn:LG end.
    apply logEvent_spec in LG. destruct LG as (_ & _ & _ & _ & _ & _ & _ & _ & LF & _ & LR). rewrite LR.
    match goal with |- context[pinState ?k (d1, x1)] => pose proof (pin_fels k d1 x1) as PF; destruct (pinState k (d1, x1)) as [[d2 x2] [u|ex]] end;
      cbn [fst snd set_kevers fels] in *; rewrite PF, LF, PM, fset_same; reflexivity.
  - (* rotation *)
    assert (KG : exists k, kget d x p = Some k).
    { destruct (kget d x p) as [k|] eqn:KG; [eauto|]. rewrite (j_none _ _ _ _ _ JJ KG) in *. discriminate. }
    destruct KG as (k & KG). rewrite KG. destruct (j_kever _ _ _ _ _ _ JJ KG) as (NP & k0 & P0 & U & KX).
    assert (k0 = k2) by congruence. subst k0. pose proof (KX) as KX'.
    rewrite H3. cbn [isIncept].
    pose proof (f_equal k_sn U) as U1. pose proof (f_equal k_pre U) as U2. pose proof (f_equal k_nt U) as U3. pose proof (f_equal k_ndigs U) as U4.
    pose proof (f_equal k_wits U) as U5. pose proof (f_equal k_delpre U) as U6. cbn in U1, U2, U3, U4, U5, U6.
    replace (k_sn k + 1 <? e_sn (m_evt m)) with false by (symmetry; apply N.ltb_ge; lia).
    replace (e_sn (m_evt m) =? k_sn k + 1) with true by (symmetry; apply N.eqb_eq; lia). cbn [orb].
    unfold update. change (transferable E k) with (transferable E (undated k)). rewrite U. change (transferable E (undated k2)) with (transferable E k2).
    rewrite H1. cbn [negb]. replace (e_pre (m_evt m) =? k_pre k) with true by (symmetry; apply N.eqb_eq; congruence). cbn [negb].
    rewrite H3. cbn [isRot]. rewrite U6, H4. cbn [andb].
    rewrite (rotate_next d x acc0 aux0 k (m_evt m)) by lia.
    change (rotate acc0 aux0 k (m_evt m)) with (rotate acc0 aux0 (undated k) (m_evt m)). rewrite U.
    change (rotate acc0 aux0 (undated k2) (m_evt m)) with (rotate acc0 aux0 k2 (m_evt m)). rewrite H6.
    rewrite <- H7 in V. unfold rotated in V. cbn [k_keys k_tholder k_toad k_wits] in V.
    destruct (clear_of k w2) as [C1 _]. { rewrite U2. exact (kf_pre _ _ _ _ KX). } { exact (kf_wits _ _ _ _ KN). } { rewrite U5. exact (kf_wits _ _ _ _ KX). }
    destruct (clear_of k2 w2) as [_ C2]. { exact (kf_pre _ _ _ _ KX). } { exact (kf_wits _ _ _ _ KN). } { exact (kf_wits _ _ _ _ KX). }
    destruct (th_of _ XI) as [TH1 TH2]. rewrite <- XE in TH1, TH2.
    destruct (CV _ XI) as [CV1 _]; [rewrite <- XE, H3; reflexivity|]. rewrite <- XE in CV1.
    destruct (kf_est _ _ _ _ KX) as (me & E1 & E2 & E3 & E4 & E5 & E6).
    assert (VC : exists vs ws, valSigsWigsDel E cf (m_now m) d k (m_evt m) (m_sigers m) (e_keys (m_evt m)) (e_kt (m_evt m)) (m_wigers m)
                    (e_bt (m_evt m)) w2 (m_seal m) (m_eager m) (m_local m) x = (x, Ok (vs, ws, None, None))).
    { eapply val_copy with (R := R); [exact V|exact XS|exact XW|exact RD|exact TH1|exact CV1| | |exact C1|exact C2|exact U3|exact U4|].
      - rewrite U3, E6. apply th_of. exact E1.
      - intros _. rewrite U3, U4, E5, E6. apply CV; auto.
      - rewrite H3. cbn. auto. }
    destruct VC as (vs & ws & VC). rewrite VC. cbn [fst snd].
    match goal with |- context[logEvent ?a ?b ?c ?dd ?ee ?f ?g ?h ?i ?j ?k (d, x)] =>
      destruct (logEvent a b c dd ee f g h i j k (d, x)) as [[d1 x1] r1] eqn:LG end.
    apply logEvent_spec in LG. destruct LG as (_ & _ & _ & _ & _ & _ & _ & _ & LF & _ & LR). rewrite LR.
    match goal with |- context[pinState ?k (?dd, ?xx)] => rewrite (pin_fels k dd xx) end.
    cbn [fst snd set_kevers fels]. rewrite LF, PM, fset_same. reflexivity.
  - (* interaction *)
    assert (KG : exists k, kget d x p = Some k).
    { destruct (kget d x p) as [k|] eqn:KG; [eauto|]. rewrite (j_none _ _ _ _ _ JJ KG) in *. discriminate. }
    destruct KG as (k & KG). rewrite KG. destruct (j_kever _ _ _ _ _ _ JJ KG) as (NP & k0 & P0 & U & KX).
    assert (k0 = k2) by congruence. subst k0.
    rewrite H3. cbn [isIncept].
    pose proof (f_equal k_sn U) as U1. pose proof (f_equal k_pre U) as U2. pose proof (f_equal k_nt U) as U3. pose proof (f_equal k_ndigs U) as U4.
    pose proof (f_equal k_wits U) as U5. pose proof (f_equal k_estOnly U) as U6. pose proof (f_equal k_evt U) as U7.
    pose proof (f_equal k_keys U) as U8. pose proof (f_equal k_tholder U) as U9. pose proof (f_equal k_toad U) as U10. cbn in U1, U2, U3, U4, U5, U6, U7, U8, U9, U10.
    replace (k_sn k + 1 <? e_sn (m_evt m)) with false by (symmetry; apply N.ltb_ge; lia).
    replace (e_sn (m_evt m) =? k_sn k + 1) with true by (symmetry; apply N.eqb_eq; lia). cbn [orb].
    unfold update. change (transferable E k) with (transferable E (undated k)). rewrite U. change (transferable E (undated k2)) with (transferable E k2).
    rewrite H1. cbn [negb]. replace (e_pre (m_evt m) =? k_pre k) with true by (symmetry; apply N.eqb_eq; congruence). cbn [negb].
    rewrite H3. cbn [isRot ilk_eqb]. rewrite U6, H4.
    replace (e_sn (m_evt m) =? k_sn k + 1) with true by (symmetry; apply N.eqb_eq; lia). cbn [negb].
    rewrite U7, H6. unfold compare. rewrite N.eqb_refl. cbn [negb].
    rewrite <- H7 in V. unfold interacted in V. cbn [k_keys k_tholder k_toad k_wits] in V.
    destruct (clear_of k (k_wits k2)) as [C1 _]. { rewrite U2. exact (kf_pre _ _ _ _ KX). } { exact (kf_wits _ _ _ _ KX). } { rewrite U5. exact (kf_wits _ _ _ _ KX). }
    destruct (clear_of k2 (k_wits k2)) as [_ C2]. { exact (kf_pre _ _ _ _ KX). } { exact (kf_wits _ _ _ _ KX). } { exact (kf_wits _ _ _ _ KX). }
    destruct (kf_est _ _ _ _ KX) as (me & E1 & E2 & E3 & E4 & E5 & E6).
    assert (VC : exists vs ws, valSigsWigsDel E cf (m_now m) d k (m_evt m) (m_sigers m) (k_keys k2) (k_tholder k2) (m_wigers m)
                    (k_toad k2) (k_wits k2) None (m_eager m) (m_local m) x = (x, Ok (vs, ws, None, None))).
    { eapply val_copy with (R := R); [exact V|exact XS|exact XW|exact RD| | | | |exact C1|exact C2|exact U3|exact U4|].
      - rewrite E4. apply th_of. exact E1.
      - rewrite E4, E3. apply CV; auto.
      - rewrite U3, E6. apply th_of. exact E1.
      - rewrite H3. discriminate.
      - rewrite H3. cbn. auto. }
    destruct VC as (vs & ws & VC). rewrite U5, U8, U9, U10, VC. cbn [fst snd].
    match goal with |- context[logEvent ?a ?b ?c ?dd ?ee ?f ?g ?h ?i ?j ?k (d, x)] =>
      destruct (logEvent a b c dd ee f g h i j k (d, x)) as [[d1 x1] r1] eqn:LG end.
    apply logEvent_spec in LG. destruct LG as (_ & _ & _ & _ & _ & _ & _ & _ & LF & _ & LR). rewrite LR.
    match goal with |- context[pinState ?k (?dd, ?xx)] => rewrite (pin_fels k dd xx) end.
    cbn [fst snd set_kevers fels]. rewrite LF, PM, fset_same. reflexivity.
Qed.

Lemma some_sig : forall j m, nth_error ms j = Some m -> m_sigers m <> [].
Proof.
  intros j m X. pose proof (nth_error_len _ _ _ _ X) as NL.
  destruct (nth_error ks j) as [kj|] eqn:Z; [|apply nth_error_None in Z; lia].
  destruct (KF _ _ Z) as (KN & m' & M1 & AS). rewrite X in M1. injection M1 as <-.
  destruct AS as [AP AT (d0 & x0 & local & sg & wg & dp & cpl & V)].
  pose proof (v_some _ _ _ _ _ _ _ _ _ _ _ _ _ _ _ _ _ V) as A. pose proof (v_incl _ _ _ _ _ _ _ _ _ _ _ _ _ _ _ _ _ V) as B.
  intros Q. rewrite Q in B. destruct sg as [|g sg]; [auto|]. destruct (B g). cbn. auto.
Qed.

(** a later message goes to the out of order escrow *)
Lemma later_escrowed : forall T F n j m0 m d x, J T F n d x -> (n < j)%nat -> nth_error ms j = Some m0 -> m_evt m = m_evt m0 ->
  processEvent E cf m (d, x) =
    ((d, escrowOO (m_now m) (m_evt m) (m_sigers m) (m_wigers m) (m_seal m) (m_local m) x), Err OutOfOrderError).
Proof.
  intros T F n j m0 m d x JJ LT X XE.
  pose proof (nth_error_In _ _ X) as XI. pose proof (nth_error_len _ _ _ _ X) as NL.
  destruct (nth_error ks j) as [kj|] eqn:Z; [|apply nth_error_None in Z; lia].
  destruct (KF _ _ Z) as (KN & m' & M1 & AS). rewrite X in M1. injection M1 as <-.
  destruct AS as [AP AT _].
  assert (IC : isIncept (e_ilk (m_evt m0)) = false).
  { destruct (prev_some j ltac:(lia) ltac:(lia)) as (kp & KP & _). rewrite KP in AT.
    inversion AT as [|? ? ? ? ? ? ? ? HH|? ? ? ? ? HH]; rewrite HH; reflexivity. }
  assert (PM : e_pre (m_evt m0) = p) by (apply CP; exact XI). pose proof (CS _ _ X) as SJ.
  rewrite <- XE in *. unfold processEvent. cbv zeta. rewrite AP, PM, IC. cbn [negb].
  destruct (kget d x p) as [k|] eqn:KG; [|reflexivity].
  destruct (j_kever _ _ _ _ _ _ JJ KG) as (NP & k0 & P0 & U & KX). pose proof (f_equal k_sn U) as U1. cbn in U1. rewrite (kf_sn _ _ _ _ KX) in U1.
  replace (k_sn k + 1 <? e_sn (m_evt m)) with true by (symmetry; apply N.ltb_lt; lia). reflexivity.
Qed.

Lemma J_weaken : forall T (F G : nat -> Prop) n d x, (forall j, G j -> F j) -> J T F n d x -> J T G n d x.
Proof. intros T F G n d x Q []. constructor; eauto. Qed.

Lemma J_fels_n : forall T F G n n' d x, J T F n d x -> J T G n' d x -> n = n'.
Proof.
  intros T F G n n' d x A B. pose proof (j_fels _ _ _ _ _ A) as X. rewrite (j_fels _ _ _ _ _ B) in X.
  apply (f_equal (@List.length N)) in X. unfold saids in X. rewrite !map_length, !firstn_length in X.
  pose proof (j_le _ _ _ _ _ A). pose proof (j_le _ _ _ _ _ B). lia.
Qed.

(** delivering a complete copy of message number [j] *)
Lemma J_copy : forall T F n j m0 m d x, J T F n d x -> nth_error ms j = Some m0 -> copy_of m0 m -> readable R m -> T <= m_now m ->
  exists n', (n <= n')%nat /\ J T (fun i => F i \/ i = j) n' (fst (fst (processEvent E cf m (d, x)))) (snd (fst (processEvent E cf m (d, x)))).
Proof.
  intros T F n j m0 m d x JJ X CO RD TM. pose proof (nth_error_In _ _ X) as XI.
  assert (RM : real H (m_evt m)). { destruct CO as (-> & _). apply RE. exact XI. }
  destruct (processEvent E cf m (d, x)) as [[d' x'] r] eqn:P. cbn [fst snd].
  destruct (J_process _ _ _ _ _ _ _ _ _ JJ RM RD TM P) as (n' & LE & J').
  exists n'. split; [exact LE|].
  assert (HJ : (n' <= j)%nat -> held m0 x').
  { intros L. destruct (Nat.eq_dec j n) as [->|NE].
    - exfalso. pose proof (next_accepted _ _ _ _ _ _ _ JJ X CO RD) as FA. rewrite P in FA. cbn [fst] in FA.
      rewrite (j_fels _ _ _ _ _ JJ), (j_fels _ _ _ _ _ J') in FA. apply (f_equal (@List.length N)) in FA.
      rewrite app_length in FA. unfold saids in FA. rewrite !map_length, !firstn_length in FA. cbn in FA.
      pose proof (j_le _ _ _ _ _ JJ). pose proof (j_le _ _ _ _ _ J'). lia.
    - destruct CO as (CE & CS1 & CS2).
      pose proof (later_escrowed T F n j m0 m d x JJ ltac:(lia) X CE) as OO. rewrite OO in P. inversion P as [[P1 P2 P3]].
      destruct (OO_facts (m_now m) (m_evt m) (m_sigers m) (m_wigers m) (m_seal m) (m_local m) x) as (O1 & (a & O2) & O3 & O4 & O5 & O6).
      rewrite P2 in *. rewrite CE in *. rewrite (CP _ XI) in *. fold (sd m0) in *.
      constructor; auto.
      + rewrite O2. f_equal. apply (i_ev _ _ _ _ (s_inv _ _ _ _ (j_sinv _ _ _ _ _ J'))) in O2. destruct O2 as [O2 _].
        pose proof (RE _ XI) as Q. unfold real in Q. unfold sd in O2. congruence.
      + eapply incl_tran; eauto.
      + eapply incl_tran; eauto. }
  destruct J'. constructor; auto. intros i mm L Y [FI| ->]; [eauto|]. rewrite X in Y. injection Y as <-. auto.
Qed.

(** removing a row from an escrow *)
Lemma J_rem : forall T F n d x q r x', J T F n d x ->
  (q = POO -> forall j m, (n <= j)%nat -> nth_error ms j = Some m -> F j -> row (m_evt m) <> r) ->
  (x' = p_rem q r x \/ exists a b, x' = remUdes a b (p_rem q r x)) -> J T F n d x'.
Proof.
  intros T F n d x q r x' JJ NR XX.
  assert (Q : evts x' = evts x /\ sigs x' = sigs x /\ wigs x' = wigs x /\ esrs x' = esrs x /\ dtss x' = dtss x /\
              ooes x' = match q with POO => etab_rem r (ooes x) | _ => ooes x end).
  { destruct XX as [->|(a & b & ->)]; destruct q; repeat split. }
  destruct Q as (Q1 & Q2 & Q3 & Q4 & Q5 & Q6). destruct JJ.
  assert (SI : sinv E H d x').
  { change (sinv E H (fst (d, x')) (snd (d, x'))). eapply (sinv_micros E H cf (d, x)); [exact W|exact SN|exact j_sinv0|].
    apply ms_one. apply mi_quiet; assumption. }
  constructor; auto.
  - rewrite (kget_keep E H d x d x' p W j_sinv0); auto. rewrite Q1. auto.
  - unfold getSigs, getWigs. rewrite Q2, Q3. exact j_sig0.
  - rewrite Q5. exact j_dt0.
  - intros j m L X FJ. pose proof (j_held0 _ _ L X FJ) as []. constructor; unfold getSigs, getWigs; rewrite ?Q1, ?Q2, ?Q3, ?Q4, ?Q5, ?Q6; auto.
    destruct q; auto. apply etab_rem_In. split; [eauto|assumption].
  - rewrite Q6. destruct q; auto. apply filter_sorted. exact j_sort0.
Qed.

(** one row of an escrow *)
Lemma J_row : forall T F n now q r d x, J T F n d x -> T <= now /\ (now <= T + 1200 \/ forall j, ~ F j) ->
  exists n', (n <= n')%nat /\ J T F n' (fst (unescrow1 E cf now q r (d, x))) (snd (unescrow1 E cf now q r (d, x))) /\
    (q = POO -> forall m, nth_error ms n = Some m -> F n -> r = row (m_evt m) -> (n < n')%nat).
Proof.
  intros T F n now q [[p' sn] s] d x JJ TM. unfold unescrow1.
  assert (HH : forall j m, (n <= j)%nat -> nth_error ms j = Some m -> F j -> row (m_evt m) = (p', sn, s) ->
             p' = p /\ s = sd m /\ held m x /\ m_sigers m <> []).
  { intros j m L X FJ Q. unfold row in Q. rewrite (CP _ (nth_error_In _ _ X)) in Q. injection Q as <- _ <-.
    split; [reflexivity|]. split; [reflexivity|]. split; [eapply (j_held _ _ _ _ _ JJ); eauto|eapply some_sig; eauto]. }
  assert (DROP : forall d1 x1, (d1, x1) = (d, match q with PPD => remUdes p' s (p_rem q (p', sn, s) x) | _ => p_rem q (p', sn, s) x end) ->
    (q = POO -> forall j m, (n <= j)%nat -> nth_error ms j = Some m -> F j -> row (m_evt m) <> (p', sn, s)) ->
    exists n', (n <= n')%nat /\ J T F n' d1 x1 /\
    (q = POO -> forall m, nth_error ms n = Some m -> F n -> (p', sn, s) = row (m_evt m) -> (n < n')%nat)).
  { intros d1 x1 Q NR. injection Q as -> ->. exists n. split; [lia|]. split.
    - eapply (J_rem T F n d x q (p', sn, s)); [exact JJ|exact NR|]. destruct q; eauto.
    - intros QP m X FN RR. exfalso. apply (NR QP n m (le_n _) X FN). auto. }
  destruct (esrs x p' s) as [local|] eqn:ES.
  2:{ apply DROP; [reflexivity|]. intros _ j m L X FJ Q. destruct (HH _ _ L X FJ Q) as (-> & -> & HE & _). apply (h_src _ _ HE). exact ES. }
  destruct (dtss x p' s) as [dt|] eqn:DS.
  2:{ apply DROP; [reflexivity|]. intros _ j m L X FJ Q. destruct (HH _ _ L X FJ Q) as (-> & -> & HE & _). apply (h_dat _ _ HE). exact DS. }
  destruct (evts x p' s) as [e|] eqn:EV.
  2:{ apply DROP; [reflexivity|]. intros _ j m L X FJ Q. destruct (HH _ _ L X FJ Q) as (-> & -> & HE & _). pose proof (h_evt _ _ HE). congruence. }
  destruct (getSigs x p' s) as [|g sg] eqn:GS.
  { apply DROP; [reflexivity|]. intros _ j m L X FJ Q. destruct (HH _ _ L X FJ Q) as (-> & -> & HE & SS). pose proof (h_sig _ _ HE) as Z.
    rewrite GS in Z. destruct (m_sigers m) as [|y l]; [auto|]. destruct (Z y). cbn. auto. }
  destruct (p_timeout q <? now - dt) eqn:TO.
  { apply DROP; [reflexivity|]. intros -> j m L X FJ Q. destruct (HH _ _ L X FJ Q) as (-> & -> & HE & SS).
    destruct TM as [_ [TM|TM]]; [|exact (TM _ FJ)].
    pose proof (j_dt _ _ _ _ _ JJ _ _ _ L X DS) as Z. cbn [p_timeout] in TO. apply N.ltb_lt in TO. lia. }
  rewrite <- GS. 
  match goal with |- context [processEvent E cf ?m (d, x)] => set (m0 := m) end.
  pose proof (s_inv _ _ _ _ (j_sinv _ _ _ _ _ JJ)) as IV.
  pose proof EV as EV'. apply (i_ev _ _ _ _ IV) in EV'. destruct EV' as [EH EP]. pose proof (W _ _ EH) as (EZ & _).
  assert (RM : real H (m_evt m0)). { cbn. unfold real. rewrite EZ. exact EH. }
  assert (RD : readable R m0).
  { intros y I. cbn in I. apply in_app_iff in I. apply (j_sig _ _ _ _ _ JJ p' s). tauto. }
  destruct (processEvent E cf m0 (d, x)) as [[d' x'] o] eqn:P.
  destruct (J_process _ _ _ _ _ _ _ _ _ JJ RM RD (proj1 TM) P) as (n' & LE & J').
  (* a held message of the log in this row is the next one and accepted, or kept *)
  assert (KEEP : forall j m, (n <= j)%nat -> nth_error ms j = Some m -> F j -> row (m_evt m) = (p', sn, s) ->
            (j = n /\ n' = S n) \/ (n < j /\ o = Err OutOfOrderError)%nat).
  { intros j m L X FJ Q. destruct (HH _ _ L X FJ Q) as (-> & -> & HE & SS).
    assert (CE : m_evt m0 = m_evt m). { cbn. pose proof (h_evt _ _ HE). congruence. }
    destruct (Nat.eq_dec j n) as [->|NE].
    - left. split; [reflexivity|]. assert (CO : copy_of m m0).
      { split; [exact CE|]. split; [exact (h_sig _ _ HE)|exact (h_wig _ _ HE)]. }
      pose proof (next_accepted _ _ _ _ _ _ _ JJ X CO RD) as FA. rewrite P in FA. cbn [fst] in FA.
      rewrite (j_fels _ _ _ _ _ JJ), (j_fels _ _ _ _ _ J') in FA. apply (f_equal (@List.length N)) in FA.
      rewrite app_length in FA. unfold saids in FA. rewrite !map_length, !firstn_length in FA. cbn in FA.
      pose proof (j_le _ _ _ _ _ JJ). pose proof (j_le _ _ _ _ _ J'). lia.
    - right. split; [lia|]. pose proof (later_escrowed T F n j m m0 d x JJ ltac:(lia) X CE) as OO. rewrite OO in P. inversion P. reflexivity. }
  assert (ADV : forall m, nth_error ms n = Some m -> F n -> (p', sn, s) = row (m_evt m) -> (n < n')%nat).
  { intros m X FN RR. destruct (KEEP n m (le_n _) X FN (eq_sym RR)) as [(_ & ->)|(Z & _)]; lia. }
  assert (NR : (forall ex, o = Err ex -> p_keep q ex = false) -> q = POO -> forall j m, (n' <= j)%nat -> nth_error ms j = Some m -> F j -> row (m_evt m) <> (p', sn, s)).
  { intros NK -> j m L X FJ Q. destruct (KEEP j m ltac:(lia) X FJ Q) as [(-> & ->)|(Z1 & Z2)]; [lia|].
    specialize (NK _ Z2). discriminate. }
  destruct o as [u|ex].
  - exists n'. cbn [fst snd]. split; [exact LE|]. split; [|intros _; exact ADV].
    eapply (J_rem T F n' d' x' q (p', sn, s)); [exact J'|apply NR; discriminate|]. destruct q; eauto.
  - destruct (p_keep q ex) eqn:PK.
    + exists n'. cbn [fst snd]. split; [exact LE|]. split; [exact J'|intros _; exact ADV].
    + exists n'. cbn [fst snd]. split; [exact LE|]. split; [|intros _; exact ADV].
      eapply (J_rem T F n' d' x' q (p', sn, s)); [exact J'|apply NR; intros ex' Z; inversion Z; subst; exact PK|]. destruct q; eauto.
Qed.

(** a pass over some rows *)
Lemma J_pass : forall T F now q rows n dx, J T F n (fst dx) (snd dx) -> T <= now /\ (now <= T + 1200 \/ forall j, ~ F j) ->
  exists n', (n <= n')%nat /\ J T F n' (fst (fold_left (fun dx r => unescrow1 E cf now q r dx) rows dx))
                                       (snd (fold_left (fun dx r => unescrow1 E cf now q r dx) rows dx)) /\
    (q = POO -> sorted rows -> (forall j m, (n <= j)%nat -> nth_error ms j = Some m -> F j -> In (row (m_evt m)) rows) ->
       (forall j, (n <= j)%nat -> F j) -> n' = List.length ms).
Proof.
  intros T F now q rows. induction rows as [|r rows IH]; intros n [d x] JJ TM; cbn [fst snd] in *.
  - exists n. cbn [fold_left fst snd]. split; [lia|]. split; [exact JJ|]. intros _ _ A B.
    destruct (nth_error ms n) as [m|] eqn:X; [destruct (A n m (le_n _) X (B _ (le_n _)))|].
    apply nth_error_None in X. pose proof (j_le _ _ _ _ _ JJ). lia.
  - cbn [fold_left]. destruct (J_row T F n now q r d x JJ TM) as (n1 & L1 & J1 & A1).
    destruct (IH n1 (unescrow1 E cf now q r (d, x)) J1 TM) as (n2 & L2 & J2 & A2).
    exists n2. split; [lia|]. split; [exact J2|]. intros QP SO IN FA.
    inversion SO as [|? ? SO' FO]; subst. apply A2; auto; [|intros; apply FA; lia].
    intros j m L X FJ. destruct (IN j m ltac:(lia) X FJ) as [RR|I]; [|exact I]. exfalso.
    destruct (nth_error ms n) as [mn|] eqn:Y.
    2:{ apply nth_error_None in Y. apply nth_error_len in X. lia. }
    destruct (IN n mn (le_n _) Y (FA _ (le_n _))) as [RN|I].
    + assert (n < n1)%nat by (eapply A1; eauto).
      assert (j = n); [|lia]. rewrite RR in RN. unfold row in RN. injection RN as _ _ RN. apply (said_inj j n m mn X Y). unfold sd. auto.
    + rewrite Forall_forall in FO. apply FO in I. subst r. unfold row in I. apply le_row_spec in I.
      rewrite (CP _ (nth_error_In _ _ X)), (CP _ (nth_error_In _ _ Y)), (CS _ _ X), (CS _ _ Y) in I.
      assert (j = n) by lia. subst j. rewrite X in Y. injection Y as <-.
      assert (n < n1)%nat by (eapply A1; eauto). lia.
Qed.

Lemma J_unescrow : forall T F n now q dx, J T F n (fst dx) (snd dx) -> T <= now /\ (now <= T + 1200 \/ forall j, ~ F j) ->
  exists n', (n <= n')%nat /\ J T F n' (fst (unescrow E cf now q dx)) (snd (unescrow E cf now q dx)) /\
    (q = POO -> (forall j, (n <= j)%nat -> F j) -> n' = List.length ms).
Proof.
  intros T F n now q dx JJ TM. unfold unescrow.
  destruct (J_pass T F now q (p_rows q (snd dx)) n dx JJ TM) as (n1 & L1 & J1 & A1).
  exists n1. split; [exact L1|]. split; [exact J1|]. intros -> FA. apply A1; auto; [exact (j_sort _ _ _ _ _ JJ)|].
  intros j m L X FJ. apply (h_row m (snd dx)). apply (j_held _ _ _ _ _ JJ j m); auto.
Qed.
Lemma J_escrows : forall T F n now dx, J T F n (fst dx) (snd dx) -> T <= now /\ (now <= T + 1200 \/ forall j, ~ F j) ->
  exists n', (n <= n')%nat /\ J T F n' (fst (processEscrows E cf now dx)) (snd (processEscrows E cf now dx)) /\
    ((forall j, (n <= j)%nat -> F j) -> n' = List.length ms).
Proof.
  intros T F n now dx JJ TM. unfold processEscrows. cbn [fold_left].
  destruct (J_unescrow T F n now POO dx JJ TM) as (n1 & L1 & J1 & A1).
  set (dx1 := unescrow E cf now POO dx) in *. clearbody dx1.
  destruct (J_unescrow T F n1 now PPD dx1 J1 TM) as (n2 & L2 & J2 & _).
  set (dx2 := unescrow E cf now PPD dx1) in *. clearbody dx2.
  destruct (J_unescrow T F n2 now PPW dx2 J2 TM) as (n3 & L3 & J3 & _).
  set (dx3 := unescrow E cf now PPW dx2) in *. clearbody dx3.
  destruct (J_unescrow T F n3 now PPS dx3 J3 TM) as (n4 & L4 & J4 & _).
  exists n4. split; [lia|]. split; [exact J4|]. intros FA. specialize (A1 eq_refl FA). pose proof (j_le _ _ _ _ _ J4). lia.
Qed.

Lemma J_restart : forall T F n dx, J T F n (fst dx) (snd dx) -> J T F n (fst (restart dx)) (snd (restart dx)).
Proof.
  intros T F n [d x] JJ. cbn [restart fst snd] in *. pose proof (j_sinv _ _ _ _ _ JJ) as SI.
  destruct JJ. constructor; auto.
  - apply sinv_restart. exact SI.
  - rewrite <- j_k0. unfold kget. cbn [set_kevers kevers states].
    destruct (s_p _ _ _ _ SI p) as [(_ & P & Q)|(k & st & FF & KS & ST' & KV)].
    + rewrite P, Q. reflexivity.
    + destruct FF as (c & ee & l & G & _). rewrite ST', (kstate_reload _ _ _ _ _ _ _ _ _ W G KS).
      destruct KV as [->| ->]; [|reflexivity]. reflexivity.
Qed.

(** executions *)
Lemma J_run : forall T ops F n dx, J T F n (fst dx) (snd dx) -> Forall (real_op H) ops -> Forall (readable_op R) ops -> Forall (in_time T) ops ->
  exists n', (n <= n')%nat /\ J T (fun j => F j \/ exists m m', nth_error ms j = Some m /\ In (Deliver m') ops /\ copy_of m m') n'
                (fst (run E cf ops dx)) (snd (run E cf ops dx)).
Proof.
  intros T ops. induction ops as [|o ops IH]; intros F n dx JJ RO RR IT.
  - exists n. split; [lia|]. cbn [run fold_left]. eapply J_weaken; [|exact JJ]. intros j [Z|(m & m' & _ & [] & _)]. exact Z.
  - inversion RO as [|? ? R1 R2]; subst. inversion RR as [|? ? Q1 Q2]; subst. inversion IT as [|? ? I1 I2]; subst.
    change (run E cf (o :: ops) dx) with (run E cf ops (step E cf o dx)).
    assert (ST1 : exists n1, (n <= n1)%nat /\ J T (fun j => F j \/ exists m m', nth_error ms j = Some m /\ Deliver m' = o /\ copy_of m m') n1
                    (fst (step E cf o dx)) (snd (step E cf o dx))).
    { destruct o as [m'|now|]; cbn [step].
      - destruct dx as [d x]. cbn [fst snd] in JJ. unfold in_time in I1. cbn in I1.
        destruct (in_dec N.eq_dec (e_said (m_evt m')) (saids ms)) as [I|NI].
        + destruct (in_chain _ R1 I) as (j & m & X & XE).
          destruct (processEvent E cf m' (d, x)) as [[d' x'] r] eqn:P.
          destruct (J_process _ _ _ _ _ _ _ _ _ JJ R1 Q1 (proj1 I1) P) as (n1 & L1 & J1).
          destruct (Nat.le_gt_cases n1 j) as [LJ|LJ].
          * (* still waiting *)
            exists n1. split; [exact L1|]. cbn [fst snd]. destruct J1. constructor; auto.
            intros i mi Li Xi [Fi|(mm & mm' & Y1 & Y2 & Y3)]; [eauto|]. inversion Y2; subst mm'.
            assert (CO := Y3). destruct (J_copy _ _ _ _ _ _ _ _ JJ Y1 CO Q1 (proj1 I1)) as (n2 & L2 & J2). rewrite P in J2. cbn [fst snd] in J2.
            assert (n1 = n2). { eapply J_fels_n; [|exact J2]. constructor; eauto. }
            subst n2. eapply (j_held _ _ _ _ _ J2); [exact Li|exact Xi|]. auto.
          * exists n1. split; [exact L1|]. cbn [fst snd]. destruct J1. constructor; auto.
            intros i mi Li Xi [Fi|(mm & mm' & Y1 & Y2 & Y3)]; [eauto|]. inversion Y2; subst mm'. exfalso.
            destruct Y3 as (Y3 & _). rewrite <- XE in Y3. assert (i = j); [|lia]. eapply said_inj; [exact Y1|exact X|]. unfold sd. congruence.
        + destruct (processEvent E cf m' (d, x)) as [[d' x'] r] eqn:P.
          destruct (J_process _ _ _ _ _ _ _ _ _ JJ R1 Q1 (proj1 I1) P) as (n1 & L1 & J1).
          exists n1. split; [exact L1|]. cbn [fst snd]. eapply J_weaken; [|exact J1].
          intros j [Z|(mm & mm' & Y1 & Y2 & (Y3 & _))]; [exact Z|]. inversion Y2; subst. exfalso. apply NI. rewrite Y3.
          unfold saids. apply in_map_iff. exists mm. split; [reflexivity|]. eapply nth_error_In; eauto.
      - unfold in_time in I1. cbn in I1. destruct (J_escrows T F n now dx JJ (conj (proj1 I1) (or_introl (proj2 I1)))) as (n1 & L1 & J1 & _). exists n1. split; [exact L1|].
        eapply J_weaken; [|exact J1]. intros j [Z|(mm & mm' & _ & Y2 & _)]; [exact Z|discriminate].
      - exists n. split; [lia|]. apply J_restart. eapply J_weaken; [|exact JJ]. intros j [Z|(mm & mm' & _ & Y2 & _)]; [exact Z|discriminate]. }
    destruct ST1 as (n1 & L1 & J1). destruct (IH _ _ _ J1 R2 Q2 I2) as (n2 & L2 & J2).
    exists n2. split; [lia|]. eapply J_weaken; [|exact J2]. intros j [Z|(mm & mm' & Y1 & [Y2|Y2] & Y3)]; eauto 10.
Qed.

Lemma J_run0 : forall ops n dx, J 0 (fun _ => False) n (fst dx) (snd dx) -> Forall (real_op H) ops -> Forall (readable_op R) ops ->
  exists n', (n <= n')%nat /\ J 0 (fun _ => False) n' (fst (run E cf ops dx)) (snd (run E cf ops dx)).
Proof.
  intros ops. induction ops as [|o ops IH]; intros n dx JJ RO RR; [exists n; split; [lia|exact JJ]|].
  inversion RO as [|? ? R1 R2]; subst. inversion RR as [|? ? Q1 Q2]; subst.
  change (run E cf (o :: ops) dx) with (run E cf ops (step E cf o dx)).
  assert (ST1 : exists n1, (n <= n1)%nat /\ J 0 (fun _ => False) n1 (fst (step E cf o dx)) (snd (step E cf o dx))).
  { destruct o as [m'|now|]; cbn [step].
    - destruct dx as [d x]. cbn [fst snd] in JJ. destruct (processEvent E cf m' (d, x)) as [[d' x'] r] eqn:P.
      destruct (J_process _ _ _ _ _ _ _ _ _ JJ R1 Q1 (N.le_0_l _) P) as (n1 & L1 & J1). exists n1. auto.
    - destruct (J_escrows 0 (fun _ => False) n now dx JJ (conj (N.le_0_l _) (or_intror (fun _ f => f)))) as (n1 & L1 & J1 & _). exists n1. auto.
    - exists n. split; [lia|]. apply J_restart. exact JJ. }
  destruct ST1 as (n1 & L1 & J1). destruct (IH _ _ J1 R2 Q2) as (n2 & L2 & J2). exists n2. split; [lia|exact J2].
Qed.

Lemma J_0 : forall T, J T (fun _ => False) 0 acc0 aux0.
Proof.
  intros T. constructor; auto.
  - apply sinv0.
  - apply Nat.le_0_l.
  - intros q s g [[]|[]].
  - discriminate.
  - intros j m L X [].
  - constructor.
Qed.
End Receiver.

Lemma run_app : forall E cf a b dx, run E cf (a ++ b) dx = run E cf b (run E cf a dx).
Proof. intros. unfold run. apply fold_left_app. Qed.

Lemma nth_In : forall (ms : list msg) (P : msg -> Prop), (forall m, In m ms -> P m) -> forall j m, nth_error ms j = Some m -> P m.
Proof. intros ms P X j m Y. apply X. eapply nth_error_In. exact Y. Qed.

Lemma converges : forall E H cf p ms R T ops now, world H -> sane H -> Forall (fun m => real H (m_evt m)) ms ->
  complete_log E cf p ms -> stranger cf p ms -> no_other_version E H R p ms ->
  Forall (real_op H) ops -> Forall (readable_op R) ops -> Forall (in_time T) ops -> T <= now <= T + 1200 ->
  delivers ops ms ->
  agree p (run E cf (ops ++ [Escrows now]) db0) (run E cf (map Deliver ms) db0).
Proof.
  intros E H cf p ms R T ops now W SN RE CL ST NO RO RR IT TM DL. rewrite Forall_forall in RE.
  destruct (ref_ks E H cf p ms W SN RE CL) as (ks & KL & ALL & KF).
  destruct (ALL _ (le_n _)) as (FL & KE & KS). unfold ref in FL, KE, KS. rewrite firstn_all in FL, KE, KS.
  destruct CL as [CP CS CI CV CA].
  destruct (J_run E H cf p ms R ks W SN RE CP CS CI CV ST NO KL KF T ops (fun _ => False) 0 db0 (J_0 E H p ms R ks T) RO RR IT) as (n1 & L1 & J1).
  rewrite run_app. set (dx := run E cf ops db0) in *. clearbody dx.
  set (F := fun j => False \/ _) in J1.
  destruct (J_escrows E H cf p ms R ks W SN RE CP CS CI CV ST NO KL KF T (fun j => F j \/ (List.length ms <= j)%nat) n1 now dx) as (n2 & L2 & J2 & A2).
  { destruct J1. constructor; auto. intros j m LJ X [FJ|OUT]; [eauto|]. apply nth_error_len in X. lia. }
  { split; [apply TM|left; apply TM]. }
  assert (n2 = List.length ms).
  { apply A2. intros j LJ. destruct (nth_error ms j) as [m|] eqn:X; [|right; apply nth_error_None; exact X].
    left. right. destruct (DL m (nth_error_In _ _ X)) as (m' & D1 & D2). eauto. }
  subst n2. change (run E cf [Escrows now] dx) with (processEscrows E cf now dx).
  set (dx' := processEscrows E cf now dx) in *. clearbody dx'. destruct J2.
  rewrite firstn_all in *. split; [|split].
  - unfold keyState. unfold keyState in KS. rewrite j_k0, KS. reflexivity.
  - rewrite j_kels0, KE. reflexivity.
  - rewrite j_fels0, FL. reflexivity.
Qed.

Lemma initial_part : forall E H cf p ms R ops, world H -> sane H -> Forall (fun m => real H (m_evt m)) ms ->
  complete_log E cf p ms -> stranger cf p ms -> no_other_version E H R p ms ->
  Forall (real_op H) ops -> Forall (readable_op R) ops ->
  exists n, agree p (run E cf ops db0) (run E cf (map Deliver (firstn n ms)) db0).
Proof.
  intros E H cf p ms R ops W SN RE CL ST NO RO RR. rewrite Forall_forall in RE.
  destruct (ref_ks E H cf p ms W SN RE CL) as (ks & KL & ALL & KF).
  destruct CL as [CP CS CI CV CA].
  destruct (J_run0 E H cf p ms R ks W SN RE CP CS CI CV ST NO KL KF ops 0 db0 (J_0 E H p ms R ks 0) RO RR) as (n1 & L1 & J1).
  exists n1. destruct J1. destruct (ALL n1 j_le0) as (FL & KE & KS). unfold ref in FL, KE, KS.
  split; [|split].
  - unfold keyState. unfold keyState in KS. rewrite j_k0, KS. reflexivity.
  - rewrite j_kels0, KE. reflexivity.
  - rewrite j_fels0, FL. reflexivity.
Qed.
