(** Lemmas on the replay of first seen logs: one more event. *)
From Verif Require Import Prelude B64Model MatterModel SubsModel ThModel ThSpec ThProofs ThThms KelModel KelSpec KelProofs KelInv OoSpec OoProofs OoProofs2 OoProofs3 OoProofs4 ClModel ClSpec ClProofs.
Open Scope N_scope.
Ltac Zify.zify_post_hook ::= Z.div_mod_to_equations.

Lemma sm_inj : forall A (a b : A), Some a = Some b -> a = b.
Proof. intros. congruence. Qed.

Lemma in_log : forall E H d x p s, inv E H d x -> In s (fels d p) ->
  exists e, evts x p s = Some e /\ e_said e = s /\ real H e /\ e_pre e = p.
Proof.
  intros E H d x p s I F. destruct (i_fe _ _ _ _ I _ _ F) as (e & c & ee & Z1 & Z2 & _).
  apply chain_hd in Z2. destruct Z2 as (A & _ & B & C). subst s. eauto.
Qed.
Lemma same_evt : forall E H d x d2 x2 p s, inv E H d x -> inv E H d2 x2 -> In s (fels d p) -> In s (fels d2 p) ->
  evts x2 p s = evts x p s.
Proof.
  intros E H d x d2 x2 p s I I2 A B. destruct (in_log _ _ _ _ _ _ I A) as (e & Z1 & Z2 & Z3 & _).
  destruct (in_log _ _ _ _ _ _ I2 B) as (e2 & Y1 & Y2 & Y3 & _). unfold real in *. rewrite Z2 in Z3. rewrite Y2 in Y3. congruence.
Qed.

Lemma rotate_same : forall E H d x d2 x2 p k k2 e, inv E H d x -> inv E H d2 x2 -> e_pre e = p ->
  kels d2 p = kels d p -> undated k2 = undated k -> rotate d2 x2 k2 e = rotate d x k e.
Proof.
  intros E H d x d2 x2 p k k2 e I I2 P K U.
  change (rotate d2 x2 k2 e) with (rotate d2 x2 (undated k2) e). change (rotate d x k e) with (rotate d x (undated k) e). rewrite U.
  unfold rotate. rewrite P, K.
  assert (Q : match (if e_sn e =? 0 then None else klast (kels d p) (e_sn e - 1)) with
          | None => Err ValidationError
          | Some pd => match evts x2 p pd with
              | None => Err ValidationError
              | Some pe => if negb (compare pe (e_prior e)) then Err ValidationError else Ok tt end end =
         match (if e_sn e =? 0 then None else klast (kels d p) (e_sn e - 1)) with
          | None => Err ValidationError
          | Some pd => match evts x p pd with
              | None => Err ValidationError
              | Some pe => if negb (compare pe (e_prior e)) then Err ValidationError else Ok tt end end).
  { destruct (if e_sn e =? 0 then None else klast (kels d p) (e_sn e - 1)) as [pd|] eqn:KL; [|reflexivity].
    destruct (e_sn e =? 0); [discriminate|]. apply klast_In in KL.
    rewrite (same_evt E H d x d2 x2 p pd I I2); [reflexivity| |].
    - apply (i_kf _ _ _ _ I _ _ _ KL).
    - rewrite <- K in KL. apply (i_kf _ _ _ _ I2 _ _ _ KL). }
  rewrite Q. reflexivity.
Qed.

Lemma valid_self : forall E cf d x k e sg0 keys th wg0 toad wits local sg wg dp cpl,
  valid E cf d x k e sg0 keys th wg0 toad wits local sg wg dp cpl -> valid E cf d x k e sg keys th wg toad wits local sg wg dp cpl.
Proof. intros. destruct H. constructor; auto using incl_refl. Qed.

(** what a valid message implies for every copy of it, at another node *)
Lemma val_copy2 : forall E cf cf' R d0 x0 k e sg0 keys th wg0 toad wits local0 sg wg dp cpl sg' wg' kr,
  valid E cf d0 x0 k e sg0 keys th wg0 toad wits local0 sg wg dp cpl ->
  incl sg0 sg' -> incl wg0 wg' -> (forall s, In s (sg' ++ wg') -> R (sg_qb64 s) = Some s) ->
  threshold th -> covers th (len keys) -> threshold (k_nt kr) -> (isRot (e_ilk e) = true -> covers (k_nt kr) (len (k_ndigs kr))) ->
  clear cf' kr wits -> isLocal cf k wits = false -> k_nt kr = k_nt k -> k_ndigs kr = k_ndigs k -> In (e_ilk e) [Icp; Rot; Ixn] ->
  forall now d sl eager local x, exists vs ws,
    valSigsWigsDel E cf' now d kr e sg' keys th wg' toad wits sl eager local x = (x, Ok (vs, ws, None, None)).
Proof.
  intros E cf cf' R d0 x0 k e sg0 keys th wg0 toad wits local0 sg wg dp cpl sg' wg' kr V I1 I2 RD T1 C1 T2 C2 (L1 & L2 & L3) LO N1 N2 IL now d sl eager local x.
  destruct V.
  destruct (verify_more E R (e_raw e) keys sg sg') as (vs & A1 & A2 & A3 & A4); auto.
  { eapply incl_tran; eauto. } { intros s J. apply RD, in_app_iff. auto. }
  destruct (verify_more E R (e_raw e) wits wg wg') as (ws & B1 & B2 & B3 & B4); auto.
  { eapply incl_tran; eauto. } { intros s J. apply RD, in_app_iff. auto. }
  exists vs, ws. eapply val_ok; eauto.
  - intros ->. destruct sg as [|s sg]; [auto|]. destruct (A2 s). cbn. auto.
  - apply len_map.
  - eapply (satisfy_index E keys (e_raw e) th sg vs); eauto.
  - intros RO. eapply satisfy_exposed; [exact T2|exact (C2 RO)|exact v_nodup|exact A2|]. rewrite N1, N2. exact (v_rot RO).
  - intros NE. destruct (v_toad NE LO) as [Q1 Q2]. split; [exact Q1|].
    etransitivity; [exact Q2|]. apply len_incl; [apply NoDup_of_map in v_wnodup; exact v_wnodup|exact B2].
Qed.

Definition named_in (f : db) (p : N) (wits : list N) : Prop :=
  forall w, In w wits -> exists e, accepted f p e /\ In w (e_wits e ++ e_adds e).
Lemma clear_by : forall cf f p k wits, bystander cf f p -> k_pre k = p -> named_in f p wits -> named_in f p (k_wits k) ->
  clear cf k wits /\ isLocal cf k wits = false.
Proof.
  intros cf f p k wits (S1 & S2 & S3) KP WI WK. unfold isLocal.
  assert (C : clear cf k wits).
  { unfold clear, locallyMembered, locallyOwned, locallyWitnessed. rewrite KP.
    apply memN_nIn in S1, S2. rewrite S1, S2. split; [reflexivity|]. split; [reflexivity|].
    apply not_true_is_false. intros Q. apply existsb_exists in Q. destruct Q as (y & Y1 & Y2). apply memN_In in Y2.
    assert (Z : exists e, accepted f p e /\ In y (e_wits e ++ e_adds e)).
    { destruct wits; [apply WK|apply WI]; exact Y2. }
    destruct Z as (mz & Z1 & Z2). exact (S3 _ _ Z1 Z2 Y1). }
  split; [exact C|]. destruct C as (-> & -> & ->). reflexivity.
Qed.

Section Replay.
Variables (E : env) (H : N -> option evt) (cf cf' : conf) (p : N) (f : db).
Hypothesis W : world H.
Hypothesis SN : sane H.
Hypothesis UN : undelegated f p.
Hypothesis BY : bystander cf f p.
Hypothesis BY' : bystander cf' f p.

(** the witnesses of the current key state are named by accepted events *)
Definition wnamed (dx : db) : Prop := forall k, keyState dx p = Some k -> named_in dx p (k_wits k).
Lemma accepted_more : forall a b q e, more a b -> accepted a q e -> accepted b q e.
Proof.
  intros a b q e M [A B]. split; [|apply (mo_evts _ _ M); exact B]. destruct (mo_fels _ _ M q) as (l & ->). apply in_app_iff. auto.
Qed.
Lemma named_more : forall a b ws, more a b -> named_in a p ws -> named_in b p ws.
Proof. intros a b ws M N0 w I. destruct (N0 w I) as (e & A & B). exists e. split; [eapply accepted_more; eauto|exact B]. Qed.

(** what the key state was computed from *)
Lemma est_facts : forall d x k, sinv E H d x -> kget d x p = Some k -> more (d, x) f ->
  k_pre k = p /\ threshold (k_tholder k) /\ threshold (k_nt k) /\
  covers (k_tholder k) (len (k_keys k)) /\ covers (k_nt k) (len (k_ndigs k)).
Proof.
  intros d x k S KG M. destruct (sinv_kget E H d x p W S) as [(Q & _)|(k1 & Q & SF)]; [congruence|].
  assert (k1 = k) by congruence. subst k1. destruct SF as (c & ee & l & G & _).
  destruct (goodk_threshold _ _ _ _ _ _ _ _ W G) as [T1 T2]. destruct (est_in _ _ (g_est _ _ _ _ _ _ _ _ G)) as [EI EE].
  pose proof (g_chain _ _ _ _ _ _ _ _ G) as [CL CF]. rewrite Forall_forall in CF. destruct (CF _ EI) as (C1 & C2 & C3).
  assert (AC : accepted f p ee) by (apply (accepted_more (d, x)); [exact M|split; assumption]).
  destruct (UN _ AC) as [_ CV]. destruct (CV EE) as [CV1 CV2].
  rewrite (g_th _ _ _ _ _ _ _ _ G), (g_nt _ _ _ _ _ _ _ _ G), (g_keys _ _ _ _ _ _ _ _ G), (g_ndigs _ _ _ _ _ _ _ _ G) in *.
  split; [exact (g_pre _ _ _ _ _ _ _ _ G)|]. auto 10.
Qed.

Lemma next_replayed : forall R d x d' x' d2 x2 m m2 r ko k' sg wg dp cpl,
  sinv E H d x -> sinv E H d2 x2 -> agree p (d2, x2) (d, x) -> wnamed (d, x) ->
  accept E cf m d x d' x' r ko k' sg wg dp cpl -> real H (m_evt m) -> e_pre (m_evt m) = p -> validPre E p = true ->
  more (d, x) f -> more (d', x') f ->
  m_evt m2 = m_evt m -> incl sg (m_sigers m2) -> incl wg (m_wigers m2) -> readable R m2 ->
  fels (fst (fst (processEvent E cf' m2 (d2, x2)))) p = fels d2 p ++ [e_said (m_evt m)] /\ wnamed (d', x').
Proof.
  intros R d x d' x' d2 x2 m m2 r ko k' sg wg dp cpl S S2 (AK & AL & AF) WN A RE PM VP M0 M1 XE XS XW RD.
  unfold keyState in AK. cbn [fst snd] in *.
  destruct (accept_sinv _ _ _ _ _ _ _ _ _ _ _ _ _ _ _ W SN S RE A) as (S' & RO & KV & SF'). rewrite PM in KV.
  assert (ACC : accepted f p (m_evt m)).
  { apply (accepted_more (d', x')); [exact M1|]. split; cbn [fst snd].
    - rewrite (a_fels _ _ _ _ _ _ _ _ _ _ _ _ _ _ A), PM, fset_same. apply in_app_iff. right. cbn. auto.
    - destruct (a_evt _ _ _ _ _ _ _ _ _ _ _ _ _ _ A) as (e' & AE). rewrite PM in AE.
      destruct (i_ev _ _ _ _ (s_inv _ _ _ _ S') _ _ _ AE) as [HE _]. unfold real in RE. rewrite AE. congruence. }
  assert (ACC' : accepted (d', x') p (m_evt m)).
  { split; cbn [fst snd].
    - rewrite (a_fels _ _ _ _ _ _ _ _ _ _ _ _ _ _ A), PM, fset_same. apply in_app_iff. right. cbn. auto.
    - destruct (a_evt _ _ _ _ _ _ _ _ _ _ _ _ _ _ A) as (e' & AE). rewrite PM in AE.
      destruct (i_ev _ _ _ _ (s_inv _ _ _ _ S') _ _ _ AE) as [HE _]. unfold real in RE. rewrite AE. congruence. }
  assert (MORE : forall w ws, named_in (d, x) p ws -> In w ws -> exists e, accepted (d', x') p e /\ In w (e_wits e ++ e_adds e)).
  { intros w ws NM IW. destruct (NM w IW) as (e & (A1 & A2) & A3). exists e. split; [|exact A3]. split; cbn [fst snd] in *.
    - rewrite (a_fels _ _ _ _ _ _ _ _ _ _ _ _ _ _ A), PM, fset_same. apply in_app_iff. auto.
    - destruct (a_ext _ _ _ _ _ _ _ _ _ _ _ _ _ _ A) as (X1 & _). apply X1. exact A2. }
  destruct (UN _ ACC) as [IL CV].
  pose proof (a_valid _ _ _ _ _ _ _ _ _ _ _ _ _ _ A) as V. apply valid_self in V.
  pose proof (a_tr _ _ _ _ _ _ _ _ _ _ _ _ _ _ A) as TR.
  assert (KG' : kget d' x' p = Some k') by (unfold kget; rewrite KV; reflexivity).
  assert (WT : named_in (d', x') p (k_wits k')).
  { intros w I.
    inversion TR as [k0 delpre fn dts G1 G2 G3 Q1 Q2|k wits cuts adds fn dts G1 G2 G3 G4 G5 G6 G7 G8 Q1 Q2|k fn dts G1 G2 G3 G4 G5 G6 G7 Q1 Q2]; subst k'.
    - apply incept_inv in G3. destruct G3 as (_ & _ & _ & _ & _ & K0). rewrite K0 in I. cbn in I. exists (m_evt m).
      split; [exact ACC'|apply in_app_iff; auto].
    - cbn [k_wits] in I. destruct (in_wits_rot _ _ _ _ _ _ _ G8 _ I) as [J|J].
      + rewrite PM in G1. eapply MORE; [exact (WN _ G1)|exact J].
      + exists (m_evt m). split; [exact ACC'|apply in_app_iff; auto].
    - cbn [k_wits] in I. rewrite PM in G1. eapply MORE; [exact (WN _ G1)|exact I]. }
  split; [|intros k KS; unfold keyState in KS; cbn [fst snd] in KS; assert (k = k') by congruence; subst k; exact WT].
  assert (WF : named_in f p (k_wits k')) by (eapply named_more; [exact M1|exact WT]).
  assert (THM : threshold (e_kt (m_evt m)) /\ threshold (e_nt (m_evt m))) by (pose proof (W _ _ RE) as Q; tauto).
  unfold processEvent. cbv zeta. rewrite XE, PM, VP. cbn [negb].
  inversion TR as [k1 delpre fn dts G1 G2 G3 Q1 Q2|k wits cuts adds fn dts G1 G2 G3 G4 G5 G6 G7 G8 Q1 Q2|k fn dts G1 G2 G3 G4 G5 G6 G7 Q1 Q2]; subst ko k'; rewrite PM in G1.
  - (* inception *)
    rewrite G1 in AK. destruct (kget d2 x2 p) as [k2|] eqn:KG2; [discriminate|].
    assert (IC : e_ilk (m_evt m) = Icp).
    { cbn in IL. destruct IL as [Q|[Q|[Q|[]]]]; [auto| |]; rewrite <- Q in G2; discriminate. }
    rewrite IC. cbn [isIncept]. unfold newKever.
    rewrite (nonnil _ sg (m_sigers m2)); [|exact (v_some _ _ _ _ _ _ _ _ _ _ _ _ _ _ _ _ _ V)|exact XS].
    rewrite XE, IC. cbn [isIncept negb]. rewrite G3.
    pose proof (incept_inv _ _ _ G3) as II.
    cbn [withDelFn k_keys k_tholder k_toad k_wits] in V.
    destruct II as (_ & _ & _ & _ & _ & K1).
    assert (KK : k_keys k1 = e_keys (m_evt m) /\ k_tholder k1 = e_kt (m_evt m) /\ k_nt k1 = e_nt (m_evt m) /\ k_pre k1 = e_pre (m_evt m)) by (rewrite K1; auto).
    destruct KK as (KK1 & KK2 & KK3 & KK4). destruct THM as [TH1 TH2].
    destruct CV as [CV1 _]; [rewrite IC; reflexivity|].
    destruct (clear_by cf' f p k1 (k_wits k1) BY') as [C1 _]; [congruence|exact WF|exact WF|].
    destruct (clear_by cf f p (withDelFn k1 delpre fn dts) (k_wits k1) BY) as [_ C2]; [cbn; congruence|exact WF|exact WF|].
    assert (VC : exists vs ws, valSigsWigsDel E cf' (m_now m2) d2 k1 (m_evt m) (m_sigers m2) (k_keys k1) (k_tholder k1) (m_wigers m2)
                    (k_toad k1) (k_wits k1) (m_seal m2) (m_eager m2) (m_local m2) x2 = (x2, Ok (vs, ws, None, None))).
    { eapply val_copy2 with (R := R) (cf := cf); [exact V|exact XS|exact XW|exact RD| | | | |exact C1|exact C2|reflexivity|reflexivity|exact IL].
      - rewrite KK2. exact TH1.
      - rewrite KK1, KK2. exact CV1.
      - rewrite KK3. exact TH2.
      - rewrite IC. discriminate. }
    destruct VC as (vs & ws & VC). rewrite <- KK1. rewrite VC. cbn [fst snd].
    match goal with |- context[logEvent ?a ?b ?c ?dd ?ee ?f0 ?g ?h ?i ?j ?k (d2, x2)] =>
      destruct (logEvent a b c dd ee f0 g h i j k (d2, x2)) as [[d1 x1] r1] eqn:LG end.
    apply logEvent_spec in LG. destruct LG as (_ & _ & _ & _ & _ & _ & _ & _ & LF & _ & LR). rewrite LR.
    match goal with |- context[pinState ?k (d1, x1)] => pose proof (pin_fels k d1 x1) as PF; destruct (pinState k (d1, x1)) as [[d3 x3] [u|ex]] end;
      cbn [fst snd set_kevers fels] in *; rewrite PF, LF, PM, fset_same; reflexivity.
  - (* rotation *)
    rewrite G1 in AK. destruct (kget d2 x2 p) as [k2|] eqn:KG2; [|discriminate]. cbn [option_map] in AK. apply sm_inj in AK. rename AK into U.
    assert (RT : e_ilk (m_evt m) = Rot).
    { cbn in IL. destruct IL as [Q|[Q|[Q|[]]]]; [|auto|]; rewrite <- Q in G4; discriminate. }
    rewrite RT. cbn [isIncept].
    pose proof (f_equal k_sn U) as U1. pose proof (f_equal k_pre U) as U2. pose proof (f_equal k_nt U) as U3. pose proof (f_equal k_ndigs U) as U4.
    pose proof (f_equal k_wits U) as U5. pose proof (f_equal k_delpre U) as U6. pose proof (f_equal k_lastS U) as U7. cbn in U1, U2, U3, U4, U5, U6, U7.
    replace (k_sn k2 + 1 <? e_sn (m_evt m)) with false by (symmetry; apply N.ltb_ge; lia).
    assert (BR : (e_sn (m_evt m) =? k_sn k2 + 1) || (ilk_eqb Rot Rot && (k_lastS k2 <? e_sn (m_evt m))) || (ilk_eqb Rot Drt && (k_lastS k2 <=? e_sn (m_evt m))) = true).
    { destruct G7 as [G7|[(_ & G7)|(G7 & _)]]; [| |congruence].
      - replace (e_sn (m_evt m) =? k_sn k2 + 1) with true by (symmetry; apply N.eqb_eq; lia). reflexivity.
      - replace (k_lastS k2 <? e_sn (m_evt m)) with true by (symmetry; apply N.ltb_lt; lia). cbn. rewrite orb_true_r. reflexivity. }
    rewrite BR. clear BR.
    unfold update. change (transferable E k2) with (transferable E (undated k2)). rewrite U. change (transferable E (undated k)) with (transferable E k).
    rewrite G2. cbn [negb]. rewrite XE. replace (e_pre (m_evt m) =? k_pre k2) with true by (symmetry; apply N.eqb_eq; congruence). cbn [negb].
    rewrite RT. cbn [isRot].
    assert (DN : k_delpre k = None). { destruct (k_delpre k); [|reflexivity]. rewrite RT in G5. discriminate G5. discriminate. }
    rewrite U6, DN. cbn [andb].
    rewrite (rotate_same E H d x d2 x2 p k k2 (m_evt m) (s_inv _ _ _ _ S) (s_inv _ _ _ _ S2) PM AL U), G8.
    cbn [k_keys k_tholder k_toad k_wits] in V, WF.
    destruct (est_facts _ _ _ S G1 M0) as (KP & T1 & T2 & C1 & C2).
    assert (WK : named_in f p (k_wits k)) by (eapply named_more; [exact M0|exact (WN _ G1)]).
    destruct (clear_by cf' f p k2 wits BY') as [L1 _]; [congruence|exact WF|rewrite U5; exact WK|].
    destruct (clear_by cf f p k wits BY) as [_ L2]; [congruence|exact WF|exact WK|].
    destruct CV as [CV1 _]; [rewrite RT; reflexivity|].
    assert (VC : exists vs ws, valSigsWigsDel E cf' (m_now m2) d2 k2 (m_evt m) (m_sigers m2) (e_keys (m_evt m)) (e_kt (m_evt m)) (m_wigers m2)
                    (e_bt (m_evt m)) wits (m_seal m2) (m_eager m2) (m_local m2) x2 = (x2, Ok (vs, ws, None, None))).
    { eapply val_copy2 with (R := R) (cf := cf); [exact V|exact XS|exact XW|exact RD|exact (proj1 THM)|exact CV1| | |exact L1|exact L2|exact U3|exact U4|exact IL].
      - rewrite U3. exact T2.
      - intros _. rewrite U3, U4. exact C2. }
    destruct VC as (vs & ws & VC). rewrite VC. cbn [fst snd].
    match goal with |- context[logEvent ?a ?b ?c ?dd ?ee ?f0 ?g ?h ?i ?j ?k (d2, x2)] =>
      destruct (logEvent a b c dd ee f0 g h i j k (d2, x2)) as [[d1 x1] r1] eqn:LG end.
    apply logEvent_spec in LG. destruct LG as (_ & _ & _ & _ & _ & _ & _ & _ & LF & _ & LR). rewrite LR.
    match goal with |- context[pinState ?k (?dd, ?xx)] => rewrite (pin_fels k dd xx) end.
    cbn [fst snd set_kevers fels]. rewrite LF, PM, fset_same. reflexivity.
  - (* interaction *)
    rewrite G1 in AK. destruct (kget d2 x2 p) as [k2|] eqn:KG2; [|discriminate]. cbn [option_map] in AK. apply sm_inj in AK. rename AK into U.
    rewrite G4. cbn [isIncept].
    pose proof (f_equal k_sn U) as U1. pose proof (f_equal k_pre U) as U2. pose proof (f_equal k_nt U) as U3. pose proof (f_equal k_ndigs U) as U4.
    pose proof (f_equal k_wits U) as U5. pose proof (f_equal k_estOnly U) as U6. pose proof (f_equal k_evt U) as U7.
    pose proof (f_equal k_keys U) as U8. pose proof (f_equal k_tholder U) as U9. pose proof (f_equal k_toad U) as U10. cbn in U1, U2, U3, U4, U5, U6, U7, U8, U9, U10.
    replace (k_sn k2 + 1 <? e_sn (m_evt m)) with false by (symmetry; apply N.ltb_ge; lia).
    replace (e_sn (m_evt m) =? k_sn k2 + 1) with true by (symmetry; apply N.eqb_eq; lia). cbn [orb].
    unfold update. change (transferable E k2) with (transferable E (undated k2)). rewrite U. change (transferable E (undated k)) with (transferable E k).
    rewrite G2. cbn [negb]. rewrite XE. replace (e_pre (m_evt m) =? k_pre k2) with true by (symmetry; apply N.eqb_eq; congruence). cbn [negb].
    rewrite G4. cbn [isRot ilk_eqb]. rewrite U6, G5.
    replace (e_sn (m_evt m) =? k_sn k2 + 1) with true by (symmetry; apply N.eqb_eq; lia). cbn [negb].
    rewrite U7, G7. unfold compare. rewrite N.eqb_refl. cbn [negb].
    cbn [k_keys k_tholder k_toad k_wits] in V.
    destruct (est_facts _ _ _ S G1 M0) as (KP & T1 & T2 & C1 & C2).
    assert (WK : named_in f p (k_wits k)) by (eapply named_more; [exact M0|exact (WN _ G1)]).
    destruct (clear_by cf' f p k2 (k_wits k) BY') as [L1 _]; [congruence|exact WK|rewrite U5; exact WK|].
    destruct (clear_by cf f p k (k_wits k) BY) as [_ L2]; [congruence|exact WK|exact WK|].
    assert (VC : exists vs ws, valSigsWigsDel E cf' (m_now m2) d2 k2 (m_evt m) (m_sigers m2) (k_keys k) (k_tholder k) (m_wigers m2)
                    (k_toad k) (k_wits k) None (m_eager m2) (m_local m2) x2 = (x2, Ok (vs, ws, None, None))).
    { eapply val_copy2 with (R := R) (cf := cf); [exact V|exact XS|exact XW|exact RD|exact T1|exact C1| | |exact L1|exact L2|exact U3|exact U4|exact IL].
      - rewrite U3. exact T2.
      - rewrite G4. discriminate. }
    destruct VC as (vs & ws & VC). rewrite U5, U8, U9, U10, VC. cbn [fst snd].
    match goal with |- context[logEvent ?a ?b ?c ?dd ?ee ?f0 ?g ?h ?i ?j ?k (d2, x2)] =>
      destruct (logEvent a b c dd ee f0 g h i j k (d2, x2)) as [[d1 x1] r1] eqn:LG end.
    apply logEvent_spec in LG. destruct LG as (_ & _ & _ & _ & _ & _ & _ & _ & LF & _ & LR). rewrite LR.
    match goal with |- context[pinState ?k (?dd, ?xx)] => rewrite (pin_fels k dd xx) end.
    cbn [fst snd set_kevers fels]. rewrite LF, PM, fset_same. reflexivity.
Qed.
End Replay.
