(** Inception of a habitat, its histories, and rotations that must succeed. *)
From Coq Require Import Lia.
From Verif Require Import Prelude B64Model MatterModel SubsModel ThModel ThSpec ThProofs ThThms JsonModel SerModel KsModel KsSpec JsonProofs KsProofs KsInv KsRun KsHab KsHeld KelModel KelSpec KelProofs KelInv OoSpec OoProofs OoProofs2 HbModel HbSpec HbProofs HbProofs2 HbProofs3 HbProofs4 HbProofs5.
Open Scope N_scope.
Ltac Zify.zify_post_hook ::= Z.div_mod_to_equations.

Lemma incepted_sit : forall en p pidx pp ps isg nsg d, dget (sits (incepted en p pidx pp ps isg nsg d)) p = Some ps.
Proof.
  intros. unfold incepted. rewrite ?addPubs_sits, ?addPris_sits, ?addPubs_sits, ?addPris_sits. cbn. rewrite dget_dset, beq_refl. reflexivity.
Qed.

Lemma incept_step : forall h cf pre m dx now g m' dx', coherent h -> fhist (hk h) m -> In (nm h pre) (c_prefixes cf) -> ~ In (nm h pre) (c_groups cf) ->
  unknown dx (nm h pre) -> habIncept h cf now g (m, dx) = ((m', dx'), Ok pre) -> keyState dx' (nm h pre) <> None ->
  freshKeys (ks m) (ks (fst (snd (KsModel.incept (hk h) (keyArgs g) m)))) ->
  exists ps k cd, ag h cf pre m' dx' ps k (g_dcode g) cd /\ len (k_keys k) = g_icount g /\
    len (k_ndigs k) = (if g_transferable g then match g_ncount g with Some n => n | None => g_icount g end else 0) /\
    k_sn k = 0 /\ k_wits k = b_wits (g_args g) /\ k_estOnly k = b_estOnly (g_args g).
Proof.
  intros h cf pre m [d x] now g m' dx' CO F O1 O2 [U1 U2] H KS FR. unfold habIncept in H. cbn [fst snd] in U1, U2.
  destruct (KsModel.incept (hk h) (keyArgs g) m) as [t [m1 r]] eqn:KI. destruct r as [[vs ds]|ex]; [|discriminate]. cbn [fst snd] in FR.
  destruct (baseIncept h vs ds (eventArgs g)) as [[pr e]|ex] eqn:BI; [|discriminate].
  destruct (KsModel.move (hd [] vs) pr m1) as [t2 [m2 r2]] eqn:MV. destruct r2 as [u|ex]; [|discriminate].
  destruct (incept_ok _ _ _ _ _ _ _ KI) as (pidx & algo & cr & isg & nsg & pp & _ & _ & _ & _ & _ & (LI & _) & (LN & _) & _ & _ & V & VN & D & _ & _ & _ & _ & K).
  set (ps := mkSit lot0 (mkLot (pubsOf isg) 0 0) (mkLot (pubsOf nsg) 1 (len (a_icodes (keyArgs g))))) in *.
  assert (S1 : dget (sits (ks m1)) (hd [] vs) = Some ps) by (rewrite K; apply incepted_sit).
  assert (F1 : fhist (hk h) m1).
  { eapply (f_incept (hk h) m (keyArgs g)); [exact F| |exact FR]. cbn [exec]. unfold bindM. rewrite KI. reflexivity. }
  assert (F2 : fhist (hk h) m2).
  { eapply (f_move (hk h) m1 (hd [] vs) pr); [exact F1|]. cbn [exec]. unfold bindM. rewrite MV. reflexivity. }
  assert (S2 : dget (sits (ks m2)) pr = Some ps).
  { destruct (beq (hd [] vs) pr) eqn:BQ.
    - unfold KsModel.move in MV. rewrite BQ in MV. apply ret_ok in MV. destruct MV as (_ & -> & _). apply beq_eq in BQ. rewrite <- BQ. exact S1.
    - assert (NQ : hd [] vs <> pr) by (intros Z; rewrite Z, beq_refl in BQ; discriminate).
      destruct (move_ok _ _ _ _ _ _ MV NQ) as (pp' & ps' & p' & _ & M2 & _ & _ & _ & _ & _ & _ & M3). rewrite S1 in M2. injection M2; intros <-.
      rewrite M3. cbn [sits]. rewrite dget_krem, (beq_neq pr (hd [] vs)) by congruence. rewrite dget_dset, beq_refl. reflexivity. }
  destruct (mgr_signs h m2 pr ps vs (e_raw e) CO F2 S2) as (sg & G1 & G2); [cbn [ps t_new l_pubs]; rewrite V; apply incl_appl; apply incl_refl|]. rewrite G1 in H.
  destruct (ownEvent h cf now e sg ConfigurationError (d, x)) as [dx1 r3] eqn:OE. destruct r3 as [u3|ex]; [|discriminate].
  injection H; intros; subst m' dx' pr. clear H.
  unfold baseIncept in BI. apply bind_ok in BI. destruct BI as (th & T1 & BI). apply bind_ok in BI. destruct BI as (nt & T2 & BI).
  destruct (inceptB_inv _ _ _ _ _ _ BI) as (cd & X). destruct (built_incept _ _ _ _ _ _ _ CO X) as (I1 & I2 & I3). destruct X.
  cbn [b_delpre b_wits b_data b_estOnly b_dnd eventArgs] in *.
  unfold ownEvent, ownMsg, processEvent in OE. cbn [m_evt m_now m_sigers m_wigers m_seal m_local] in OE. rewrite bi_pre, I3 in OE. cbn [negb] in OE.
  unfold kget in OE. rewrite U1, U2 in OE.
  assert (IC : isIncept (e_ilk e) = true) by (rewrite bi_ilk; destruct (b_delpre (g_args g)); reflexivity). rewrite IC in OE.
  assert (OW : forall dp fn dts, locallyOwned cf (begun e dp fn dts) = true) by (intros; apply (ag_owned h cf pre); [auto|exact bi_pre]).
  destruct (satisfy (e_kt e) (upTo (len vs))) eqn:ST.
  - set (dp := match e_ilk e with Dip => e_delpre e | Drt => k_delpre (begun e None 0 0) | _ => None end).
    destruct (new_ok (he h) cf (mkMsg e sg [] None false true now None) d x sg [] dp None) as (d' & x' & fn & dts & N1 & N2); cbn [m_evt m_now m_sigers m_wigers m_seal m_local m_eager]; auto.
    + intros Z. assert (L := sa_idx _ _ _ _ G2). rewrite Z in L. cbn [map] in L. apply (f_equal (@len N)) in L. rewrite upTo_len in L. destruct vs; [congruence|]. cbn in L. lia.
    + apply val_own; auto.
      * rewrite bi_keys, map_len. exact bi_size.
      * split; [exact (sa_nodup _ _ _ _ G2)|]. split; [rewrite bi_keys; exact (sa_ver _ _ _ _ G2)|]. rewrite (sa_idx _ _ _ _ G2). exact ST.
      * rewrite bi_ilk. destruct (b_delpre (g_args g)); discriminate.
      * rewrite bi_wits. exact bi_in.
      * rewrite bi_ilk, bi_del. destruct (b_delpre (g_args g)); discriminate.
    + cbn [m_evt] in N2. rewrite N1 in OE. apply pair_equal_spec in OE. destruct OE as [<- _]. rewrite bi_pre in N2.
      exists ps, (begun e dp fn dts), cd.
      split; [constructor; cbn [fst snd]; auto|split; [|split; [|split; [|split]]]].
      * apply kget_of. exact N2.
      * cbn [begun k_keys ps t_new l_pubs]. rewrite bi_keys, V. reflexivity.
      * cbn [begun k_ndigs ps t_nxt l_pubs]. rewrite bi_ndigs, D, map_map. reflexivity.
      * cbn [begun k_tholder k_keys]. rewrite bi_keys, map_len. exact ST.
      * intros Z. apply bi_ddex. intros Q. apply Z. cbn [begun k_delpre]. unfold dp. rewrite bi_ilk, Q. reflexivity.
      * intros Z. cbn [begun k_ndigs]. rewrite bi_ndigs. rewrite (proj1 (bi_fixed Z)). reflexivity.
      * cbn [begun k_keys]. rewrite bi_keys, V. unfold len, pubsOf. rewrite !map_length. cbn [keyArgs a_icodes] in LI. rewrite repeat_length in LI. etransitivity; [apply f_equal; exact LI|]. apply N2Nat.id.
      * cbn [begun k_ndigs]. rewrite bi_ndigs, D. unfold len, pubsOf. rewrite !map_length. cbn [keyArgs a_ncodes] in LN. rewrite repeat_length in LN. etransitivity; [apply f_equal; exact LN|]. apply N2Nat.id.
      * exact bi_sn.
      * cbn [begun k_wits]. exact bi_wits.
      * exact (proj1 bi_cfg).
  - exfalso. apply KS. unfold newKever in OE. cbn [m_evt m_now m_sigers m_wigers m_seal m_local m_eager] in OE.
    assert (Z : exists x', dx1 = (d, x')).
    { destruct (isnil sg); [apply pair_equal_spec in OE; destruct OE as [<- _]; eauto|]. rewrite IC, I1 in OE. cbn [negb] in OE.
      destruct (val_short (he h) cf now d (begun e None 0 0) e sg (e_keys e) (e_kt e) (e_bt e) (e_wits e) x) as (x' & ex & VS).
      - apply OW.
      - rewrite bi_ilk. destruct (b_delpre (g_args g)); discriminate.
      - exact (sa_nodup _ _ _ _ G2).
      - rewrite bi_keys. exact (sa_ver _ _ _ _ G2).
      - rewrite (sa_idx _ _ _ _ G2). exact ST.
      - cbn [begun k_tholder k_toad k_wits] in OE. fold (begun e None 0 0) in OE. rewrite VS in OE. destruct ex; apply pair_equal_spec in OE; destruct OE as [<- _]; eauto. }
    destruct Z as (x' & ->). unfold keyState. cbn [fst snd]. unfold kget. rewrite U1, U2. reflexivity.
Qed.

Lemma same_ag : forall h cf pre m dx ps k dc cd m' dx', ag h cf pre m dx ps k dc cd -> fhist (hk h) m' ->
  dget (sits (ks m')) pre = dget (sits (ks m)) pre -> sameKeyState (keyState dx (nm h pre)) (keyState dx' (nm h pre)) ->
  exists k', ag h cf pre m' dx' ps k' dc cd /\ same_state k k'.
Proof.
  intros h cf pre m dx ps k dc cd m' dx' A F S K. pose proof A as A'. destruct A'. unfold sameKeyState in K. unfold keyState at 1 in K. rewrite a_key in K.
  destruct (keyState dx' (nm h pre)) as [k'|] eqn:K'; [|destruct K]. exists k'. split; [|exact K].
  destruct K as (Q1 & Q2 & Q3 & Q4 & Q5 & Q6 & Q7 & Q8 & Q9 & Q10 & Q11 & Q12 & Q13 & Q14 & Q15 & Q16 & Q17 & Q18 & Q19).
  constructor; try rewrite <- ?Q1, <- ?Q5, <- ?Q6, <- ?Q7, <- ?Q17; auto.
  - rewrite S. exact a_sit.
  - destruct a_sound. constructor; rewrite <- ?Q5, <- ?Q6, <- ?Q7, <- ?Q8, <- ?Q9, <- ?Q10, <- ?Q11, <- ?Q12; assumption.
Qed.

Lemma hist_ag : forall h cf pre m dx, coherent h -> habhist h cf pre m dx -> exists ps k dc cd, ag h cf pre m dx ps k dc cd.
Proof.
  intros h cf pre m dx CO H. induction H as [m dx now g m' dx' F O1 O2 U E KS FR | m dx now ncount temp a m' dx' r H (ps & k & dc & cd & A) E W FR
    | m dx now data m' dx' r H (ps & k & dc & cd & A) E | m dx m' dx' H (ps & k & dc & cd & A) F S K].
  - destruct (incept_step _ _ _ _ _ _ _ _ _ CO F O1 O2 U E KS FR) as (ps & k & cd & A & _). eauto.
  - destruct (rotate_step _ _ _ _ _ _ _ _ _ _ _ _ _ _ _ _ CO A E W FR) as [(e & sg & lot & fn & dts & _ & _ & _ & _ & _ & B)|(x & _ & -> & S & F)]; [eauto|].
    exists ps, k, dc, cd. destruct A. constructor; assumption.
  - destruct (interact_step h cf pre m dx ps k dc cd now data CO A) as [(_ & _ & dx1 & e & sg & fn & dts & B1 & _ & _ & _ & _ & _ & B)|(_ & B)].
    + rewrite E in B1. apply pair_equal_spec in B1. destruct B1 as [B1 _]. apply pair_equal_spec in B1. destruct B1 as [-> ->]. eauto.
    + rewrite E in B. apply pair_equal_spec in B. destruct B as [B _]. apply pair_equal_spec in B. destruct B as [-> ->]. eauto.
  - destruct (same_ag _ _ _ _ _ _ _ _ _ _ _ A F S K) as (k' & A' & _). eauto.
Qed.

(** ** A rotation with no arguments *)
Lemma rotateB_plain : forall h (drt : bool) pre keys dig sn ndigs wits kt nt toad data cd, threshold kt -> threshold nt -> isZero kt = false ->
  thsize kt <= len keys -> thsize nt <= len ndigs -> 1 <= sn -> NoDup wits -> inbounds toad wits -> code_of h pre = Some cd ->
  memB cd (if drt then DigDex else PreDex) = true -> memB cd NonTransDex = false ->
  exists e, rotateB h drt pre keys dig sn ndigs wits (mkRotArgs (Some (sithOf kt)) (Some (sithOf nt)) (Some toad) [] [] data) = Ok e.
Proof.
  intros h drt pre keys dg sn ndigs wits kt nt toad data cd T1 T2 Z S1 S2 SN ND IB CD DX NT. unfold rotateB. cbn [r_isith r_nsith r_toad r_cuts r_adds r_data].
  rewrite (proj2 (N.ltb_ge _ _) SN), (c12_sith_round_trip _ T1), (c12_sith_round_trip _ T2). cbn [bind]. rewrite Z, (proj2 (N.ltb_ge _ _) S1), (proj2 (N.ltb_ge _ _) S2).
  cbv zeta. rewrite (oset_id _ ND), N.eqb_refl. cbn [negb]. change (oset []) with (@nil N). change (len (@nil N)) with 0. cbn [N.eqb negb].
  assert (I0 : inter wits [] = []) by (unfold inter; clear; induction wits; [reflexivity|exact IHwits]).
  assert (D0 : diff wits [] = wits) by (unfold diff; clear; induction wits as [|w l IH]; [reflexivity|cbn [filter memN existsb negb]; f_equal; exact IH]).
  rewrite I0, D0. cbn [leqb negb isnil inter filter addNs]. change (addNs wits []) with wits. rewrite N.eqb_refl. cbn [negb toadOf bind].
  rewrite (proj2 (badToad_in _ _) IB). unfold verifyLater. rewrite CD.
  match goal with |- context [makify h ?e0] => set (ev := makify h e0) end. assert (IL : e_ilk ev = if drt then Drt else Rot) by reflexivity. rewrite IL.
  assert (Q : memB cd (if ilk_eqb (if drt then Drt else Rot) Drt then DigDex else PreDex) = true) by (destruct drt; exact DX). rewrite Q, NT, !andb_false_r. cbn [negb andb bind].
  eauto.
Qed.

Lemma base_event : forall h cf now pre vs ds a m1 dx k dx' e sg, kget (fst dx) (snd dx) (nm h pre) = Some k ->
  baseRotate h cf now pre vs ds a m1 dx = (dx', Ok (e, sg)) -> rotEvent h pre vs ds a k = Ok e.
Proof.
  intros h cf now pre vs ds a m1 dx k dx' e sg K B. unfold baseRotate in B. rewrite K in B. cbv zeta in B. fold (rotEvent h pre vs ds a k) in B.
  destruct (rotEvent h pre vs ds a k) as [e0|x]; [|discriminate]. destruct (mgrSign h m1 (e_raw e0) vs) as [sg0|x]; [|discriminate].
  destruct (ownEvent h cf now e0 sg0 ValidationError dx) as [dx0 [u|x]]; [|discriminate]. apply pair_equal_spec in B. destruct B as [_ B]. apply ok_inj in B.
  apply pair_equal_spec in B. destruct B as [-> _]. reflexivity.
Qed.
Lemma rotate_plain : forall h cf pre m dx ps k dc cd now ncount temp data m1 vs ds, coherent h -> ag h cf pre m dx ps k dc cd ->
  k_ndigs k <> [] -> isZero (k_nt k) = false -> covers (k_nt k) (len (k_ndigs k)) ->
  handOut (hk h) pre (match ncount with Some n => n | None => len (k_ndigs k) end) temp m = (m1, Ok (vs, ds)) -> freshKeys (ks m) (ks m1) -> thsize (k_nt k) <= len ds ->
  exists m' dx' e sg, habRotate h cf now pre ncount temp (mkRotArgs None None None [] [] data) (m, dx) = ((m', dx'), Ok (e, sg)) /\ freshKeys (ks m) (ks m') /\
    e_kt e = k_nt k /\ e_nt e = k_nt k /\ e_bt e = k_toad k /\ e_keys e = map (nm h) vs /\ e_ndigs e = map (nm h) ds.
Proof.
  intros h cf pre m dx ps k dc cd now ncount temp data m1 vs ds CO A NE NZ CV HO FR SZ.
  set (a := mkRotArgs None None None [] [] data).
  assert (W : weighsAll a dx (nm h pre)) by (intros s t k0 Z; discriminate).
  pose proof A as A'. destruct A'. rewrite (habRotate_eq _ _ _ _ _ _ _ _ _ _ a_key), HO.
  destruct (handOut_ok (hk h) (co_trans h CO) _ _ _ _ _ _ _ a_fh HO FR) as (ps' & lot & H). pose proof H as H'. destruct H'. rewrite a_sit in hd_sit. injection hd_sit; intros <-. rewrite a_sit.
  destruct (base_step h cf pre m dx ps k dc cd now a m1 vs ds lot CO A H W) as [(dx2 & e & sg & fn & dts & B1 & B2 & B3 & B4 & B5 & B6)|(x & B1 & B2)].
  { pose proof (base_event _ _ _ _ _ _ _ _ _ _ _ _ _ a_key B1) as EV. rewrite B1. eexists _, _, _, _. split; [reflexivity|].
    split; [eapply fresh_pubs; [|exact FR]; symmetry; apply (erased _ _ _ eq_refl)|].
    unfold rotEvent in EV. cbn [a r_isith r_nsith r_toad r_cuts r_adds r_data isnil andb] in EV. destruct a_sound. rewrite (c12_sith_round_trip _ sd_nt) in EV. cbn [bind] in EV.
    apply raise_if_ok in EV. destruct EV as [_ EV]. destruct (rotateB_inv _ _ _ _ _ _ _ _ _ _ EV) as (cd' & X). destruct X. cbn [r_isith r_nsith r_toad] in *.
    pose proof (br_isith _ eq_refl) as Y1. pose proof (br_nsith _ eq_refl) as Y2. rewrite (c12_sith_round_trip _ sd_nt) in Y1, Y2. apply ok_inj in Y1, Y2.
    split; [symmetry; exact Y1|]. split; [symmetry; exact Y2|]. split; [exact (br_toad _ eq_refl)|]. split; assumption. }
  exfalso. unfold rotEvent in B2. cbn [a r_isith r_nsith r_toad r_cuts r_adds r_data isnil andb] in B2. destruct a_sound.
  rewrite (c12_sith_round_trip _ sd_nt) in B2. cbn [bind] in B2.
  assert (LN : len (k_ndigs k) = len vs) by (rewrite a_ndigs, map_len, hd_vs; reflexivity).
  assert (MT : satisfy (k_nt k) (matched h (k_ndigs k) vs) = true).
  { rewrite a_ndigs, hd_vs, (matched_all h dc _ CO), <- hd_vs, <- LN. apply covers_all; auto. }
  rewrite MT in B2. cbn [negb] in B2.
  destruct (rotateB_plain h (match k_delpre k with Some _ => true | None => false end) pre vs (e_said (k_evt k)) (k_sn k + 1) ds (k_wits k) (k_nt k) (k_nt k) (k_toad k) data cd) as (e & RB); auto.
  - rewrite <- LN. exact sd_nsize.
  - lia.
  - destruct (k_delpre k); [apply a_ddex; discriminate|exact a_dex].
  - destruct (memB cd NonTransDex) eqn:Q; [|reflexivity]. exfalso. apply NE. apply a_fix. reflexivity.
  - rewrite RB in B2. discriminate.
Qed.

Lemma makes_handOut : forall h pre n temp m m1, coherent h -> fhist (hk h) m -> makesKeys h pre n temp m m1 ->
  exists vs ds, handOut (hk h) pre n temp m = (m1, Ok (vs, ds)) /\ len ds = n.
Proof.
  intros h pre n temp m m1 CO F (t & (vs & ds) & R & RO). exists vs, ds. split; [unfold handOut; rewrite R; cbn [snd]; rewrite RO; reflexivity|].
  destruct (fhist_inv (hk h) (co_trans h CO) _ F) as (_ & PO & _).
  destruct (rotate_ok (hk h) _ _ _ _ _ _ _ PO RO) as (pp & ps & sgs & cr & _ & _ & _ & _ & D & _ & _ & M1).
  cbv zeta in M1. destruct M1 as ([M1 _] & _). rewrite D. unfold len, pubsOf. rewrite !map_length.
  transitivity (N.of_nat (@List.length signer sgs)); [reflexivity|]. rewrite M1. cbn [r_ncodes]. rewrite repeat_length. lia.
Qed.
(** A next threshold of zero is never met. *)
Lemma zero_stuck : forall h cf now pre ncount temp a m dx k, keyState dx (nm h pre) = Some k -> k_nt k = TNum 0 ->
  exists x, snd (habRotate h cf now pre ncount temp a (m, dx)) = Err x /\ snd (fst (habRotate h cf now pre ncount temp a (m, dx))) = dx.
Proof.
  intros h cf now pre ncount temp a m dx k K Z. rewrite (habRotate_eq _ _ _ _ _ _ _ _ _ _ K).
  destruct (handOut (hk h) pre _ temp m) as [m1 r1]. destruct r1 as [[vs ds]|x]; [|exists x; split; reflexivity].
  assert (B : exists x, baseRotate h cf now pre vs ds a m1 dx = (dx, Err x)).
  { unfold baseRotate. unfold keyState in K. rewrite K, Z. 
    assert (S0 : satisfy (TNum 0) (matched h (k_ndigs k) vs) = false) by reflexivity. rewrite S0. cbn [negb].
    destruct (processSith _) as [t|x]; cbn [bind]; [|eauto]. destruct (processSith _) as [nt|x]; cbn [bind]; eauto. }
  destruct B as (x & ->). destruct (dget (sits (ks m)) pre); eexists; split; reflexivity.
Qed.
