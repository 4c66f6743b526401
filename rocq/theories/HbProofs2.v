(** Lemmas on events that are built, signed and delivered: to a stranger, and to the node of the controller. *)
From Verif Require Import Prelude B64Model MatterModel SubsModel ThModel ThSpec ThProofs ThThms JsonModel SerModel KsModel KsSpec KelModel KelSpec KelProofs KelInv OoSpec OoProofs OoProofs2 HbModel HbSpec HbProofs.
Open Scope N_scope.
Ltac Zify.zify_post_hook ::= Z.div_mod_to_equations.

Lemma nonnil_len : forall A (l : list A), l <> [] -> isnil l = false.
Proof. intros A [|a l] N0; [congruence|reflexivity]. Qed.
Lemma signed_some : forall E keys th raw sg, fullySigned E keys th raw sg -> sg <> [].
Proof. intros E keys th raw sg (_ & _ & S0) ->. cbn [map] in S0. rewrite c11_empty in S0. discriminate. Qed.

(** ** The controller's own node *)
Lemma val_own : forall E cf now d k e sg keys th toad wits dp x,
  locallyOwned cf k = true -> thsize th <= len keys -> fullySigned E keys th (e_raw e) sg ->
  (isRot (e_ilk e) = true -> satisfy (k_nt k) (exposeds E (k_ndigs k) keys sg) = true) -> inbounds toad wits ->
  dp = match e_ilk e with Dip => e_delpre e | Drt => k_delpre k | _ => None end -> (e_ilk e = Dip -> e_delpre e <> None) ->
  valSigsWigsDel E cf now d k e sg keys th [] toad wits None false true x = (x, Ok (sg, [], dp, None)).
Proof.
  intros E cf now d k e sg keys th toad wits dp x LO SZ FS RO IB DP DI. unfold valSigsWigsDel.
  rewrite (proj2 (N.ltb_ge _ _) SZ). cbn [negb andb]. unfold retm at 1. unfold bindm at 1.
  pose proof (signed_some _ _ _ _ _ FS) as NE. destruct FS as (F1 & F2 & F3). rewrite (verify_all _ _ _ _ F1 F2).
  assert (NI : isnil (map sg_index sg) = false) by (destruct sg; [congruence|reflexivity]). rewrite NI.
  assert (DQ : (match e_ilk e with Dip => match e_delpre e with None => failm ValidationError | Some p => retm (Some p) end
     | Drt => retm (k_delpre k) | _ => retm None end) = retm dp).
  { subst dp. destruct (e_ilk e); try reflexivity. destruct (e_delpre e); [reflexivity|]. exfalso. apply DI; reflexivity. }
  rewrite DQ. unfold retm at 1. unfold bindm at 1. cbn [negb andb].
  assert (VW : verifySigs N (vrfy E) (e_raw e) [] wits = ([], [])) by reflexivity. rewrite VW. rewrite F3. cbn [negb].
  assert (Q : isRot (e_ilk e) && negb (satisfy (k_nt k) (exposeds E (k_ndigs k) keys sg)) = false).
  { destruct (isRot (e_ilk e)); [|reflexivity]. rewrite RO by reflexivity. reflexivity. }
  rewrite Q. rewrite LO. cbn [orb negb]. rewrite andb_false_r. cbn [andb].
  assert (Q2 : forall T (f : unit -> M T) x0, (bindm (if isnil wits then if negb (toad =? 0) then failm ValidationError else retm tt else retm tt) f) x0 = f tt x0).
  { intros T f x0. unfold inbounds in IB. destruct wits as [|w wits]; cbn [isnil].
    - subst toad. reflexivity.
    - reflexivity. }
  rewrite Q2. unfold validateDelegation. rewrite LO. cbn [orb]. destruct dp; reflexivity.
Qed.
Lemma val_short : forall E cf now d k e sg keys th toad wits x, locallyOwned cf k = true -> e_ilk e <> Drt ->
  NoDup (map sg_qb64 sg) -> Forall (verified E keys (e_raw e)) sg -> satisfy th (map sg_index sg) = false -> 
  exists x' ex, valSigsWigsDel E cf now d k e sg keys th [] toad wits None false true x = (x', Err ex).
Proof.
  intros E cf now d k e sg keys th toad wits x LO ND F1 F2 F3. unfold valSigsWigsDel.
  destruct (len keys <? thsize th); [eexists _, _; reflexivity|]. cbn [negb andb]. unfold retm at 1. unfold bindm at 1.
  rewrite (verify_all _ _ _ _ F1 F2). destruct (isnil (map sg_index sg)); [eexists _, _; reflexivity|].
  assert (VW : verifySigs N (vrfy E) (e_raw e) [] wits = ([], [])) by reflexivity. 
  unfold bindm at 1.
  destruct (e_ilk e); try congruence; try (cbn [retm negb andb]; rewrite VW, F3; cbn [negb]; eexists _, _; reflexivity).
  destruct (e_delpre e); [|eexists _, _; reflexivity]. cbn [retm negb andb]. rewrite VW, F3. cbn [negb]. eexists _, _; reflexivity.
Qed.

(** ** A stranger *)
Lemma val_stranger : forall E cf m d k e keys th toad wits x, locallyMembered cf k = false -> locallyOwned cf k = false ->
  locallyWitnessed cf k wits = false -> In (e_ilk e) [Icp; Rot; Ixn] -> thsize th <= len keys ->
  fullySigned E keys th (e_raw e) (m_sigers m) -> fullyWitnessedBy E wits toad (e_raw e) (m_wigers m) -> inbounds toad wits ->
  (isRot (e_ilk e) = true -> fullyExposed E keys (k_ndigs k) (k_nt k) (m_sigers m)) ->
  forall sl eager local now, valSigsWigsDel E cf now d k e (m_sigers m) keys th (m_wigers m) toad wits sl eager local x = (x, Ok (m_sigers m, m_wigers m, None, None)).
Proof.
  intros E cf m d k e keys th toad wits x LM LO LW IL SZ FS (W1 & W2 & W3) IB RO sl eager local now.
  pose proof (signed_some _ _ _ _ _ FS) as NE. destruct FS as (F1 & F2 & F3).
  eapply (val_ok E cf now d k e (m_sigers m) keys th (m_wigers m) toad wits sl eager local x (m_sigers m) (m_wigers m) (map sg_index (m_wigers m))); auto.
  - apply (verify_all _ _ _ _ F1 F2).
  - apply (verify_all _ _ _ _ W1 W2).
  - apply map_len.
  - intros R. destruct (RO R) as (os & A & B). rewrite (exposeds_all _ _ _ _ _ A). exact B.
  - intros ->. exact IB.
  - intros N0. unfold inbounds in IB. destruct wits; [congruence|]. split; [exact IB|exact W3].
Qed.

Lemma outside : forall cf k ms wits, stranger cf (k_pre k) ms -> (forall w, In w wits \/ In w (k_wits k) -> exists m, In m ms /\ In w (e_wits (m_evt m) ++ e_adds (m_evt m))) ->
  locallyMembered cf k = false /\ locallyOwned cf k = false /\ locallyWitnessed cf k wits = false.
Proof.
  intros cf k ms wits (S1 & S2 & S3) W. unfold locallyMembered, locallyOwned, locallyWitnessed.
  assert (A : memN (k_pre k) (c_groups cf) = false) by (destruct (memN (k_pre k) (c_groups cf)) eqn:M0; [apply memN_In in M0; contradiction|reflexivity]).
  assert (B : memN (k_pre k) (c_prefixes cf) = false) by (destruct (memN (k_pre k) (c_prefixes cf)) eqn:M0; [apply memN_In in M0; contradiction|reflexivity]).
  rewrite A, B. split; [reflexivity|]. split; [reflexivity|].
  destruct (existsb _ (c_prefixes cf)) eqn:X; [|reflexivity]. exfalso. apply existsb_exists in X. destruct X as (p & P1 & P2). apply memN_In in P2.
  assert (W' : In p wits \/ In p (k_wits k)) by (destruct wits; auto). destruct (W _ W') as (m & M1 & M2). exact (S3 _ _ M1 M2 P1).
Qed.

Lemma run_snoc : forall E cf ops o dx, run E cf (ops ++ [o]) dx = step E cf o (run E cf ops dx).
Proof. intros E cf ops. induction ops as [|a ops IH]; intros o dx; [reflexivity|]. cbn [app run fold_left]. apply IH. Qed.

Lemma kget_of : forall d x p k, kevers d p = Some k -> kget d x p = Some k.
Proof. intros d x p k K. unfold kget. rewrite K. reflexivity. Qed.

Lemma stranger_app : forall cf p a b, stranger cf p (a ++ b) -> stranger cf p a.
Proof. intros cf p a b (A & B & C). split; [exact A|]. split; [exact B|]. intros m w I. apply C. apply in_app_iff. auto. Qed.

Lemma built_accepted : forall h cf pre v ms dx, coherent h -> builtLog h pre v ms -> stranger cf (nm h pre) ms -> unknown dx (nm h pre) ->
  exists k, kevers (fst (run (he h) cf (map Deliver ms) dx)) (nm h pre) = Some k /\ asViewed v k /\ sound k /\ k_pre k = nm h pre /\ k_delpre k = None /\
    (k_ndigs k <> [] -> transf (he h) (nm h pre) = true) /\ validPre (he h) (nm h pre) = true /\
    (forall w, In w (k_wits k) -> exists m, In m ms /\ In w (e_wits (m_evt m) ++ e_adds (m_evt m))).
Proof.
  intros h cf pre v ms [d x] CO B. induction B as [keys ndigs a e m BI DN ME FS FW | v ms keys ndigs a e m B IH NE BR ME FS FX FW | v ms data e m B IH NE EO BX ME FS FW]; intros ST U.
  - destruct U as [U1 U2]. cbn [fst snd] in U1, U2. destruct (inceptB_inv _ _ _ _ _ _ BI) as (cd & X).
    destruct (built_incept _ _ _ _ _ _ _ CO X) as (I1 & I2 & I3). pose proof X as X'. destruct X'.
    assert (IL : e_ilk e = Icp) by (rewrite bi_ilk, DN; reflexivity).
    assert (OU : forall dp fn dts, locallyMembered cf (begun e dp fn dts) = false /\ locallyOwned cf (begun e dp fn dts) = false /\ locallyWitnessed cf (begun e dp fn dts) (e_wits e) = false).
    { intros dp fn dts. apply (outside cf (begun e dp fn dts) [m] (e_wits e)); [cbn [begun k_pre]; rewrite bi_pre; exact ST|].
      intros w I. exists m. split; [left; reflexivity|]. rewrite ME. apply in_app_iff. left. cbn [begun k_wits] in I. tauto. }
    destruct (OU None 0 0) as (O1 & O2 & O3).
    destruct (new_ok (he h) cf m d x (m_sigers m) (m_wigers m) None None) as (d' & x' & fn & dts & N1 & N2).
    + exact (signed_some _ _ _ _ _ FS).
    + rewrite ME, IL. reflexivity.
    + rewrite ME. exact I1.
    + rewrite ME. apply val_stranger; auto.
      * rewrite IL. left. reflexivity.
      * rewrite bi_keys, map_len. exact bi_size.
      * rewrite bi_wits. exact FW.
      * rewrite bi_wits. exact bi_in.
      * rewrite IL. discriminate.
    + rewrite ME. apply I2.
    + rewrite ME in N2. rewrite bi_pre in N2. exists (begun e None fn dts). cbn [map run fold_left step]. unfold processEvent.
      rewrite ME, bi_pre, I3. cbn [negb]. unfold kget. rewrite U1, U2. rewrite IL. cbn [isIncept]. rewrite N1. cbn [fst].
      split; [exact N2|]. split; [unfold asViewed; cbn; rewrite bi_keys, bi_ndigs, bi_wits, (proj1 bi_cfg); auto 10|]. split; [apply I2|].
      split; [exact bi_pre|]. split; [reflexivity|]. split.
      { cbn [begun k_ndigs]. rewrite bi_ndigs. intros ND. destruct (transf (he h) (nm h pre)) eqn:TF; [reflexivity|]. exfalso.
        apply (co_transf h CO pre cd bi_cd (proj1 (dex_pre _) bi_dex)) in TF. apply dex_fixed in TF. destruct (bi_fixed TF) as (Q & _). rewrite Q in ND. apply ND. reflexivity. }
      split; [first [exact I3|reflexivity]|]. intros w I. exists m. split; [left; reflexivity|]. rewrite ME. apply in_app_iff. left. exact I.
  - destruct (IH (stranger_app _ _ _ _ ST) U) as (k & K1 & (V1 & V2 & V3 & V4 & V5 & V6 & V7 & V8 & V9) & SD & KP & KD & KT & VP & KW). clear IH.
    rewrite map_app. cbn [map]. rewrite run_snoc. destruct (run (he h) cf (map Deliver ms) (d, x)) as [d1 x1]. cbn [fst] in K1. cbn [step].
    destruct (rotateB_inv _ _ _ _ _ _ _ _ _ _ BR) as (cd & X). rewrite <- V2, <- V1, <- V7 in X.
    destruct (built_rotate h false pre keys ndigs a e cd k d1 x1 CO X) as (R1 & R2 & R3); [rewrite V5; exact NE|]. destruct X. destruct br_sn as [SN S1].
    assert (OU : locallyMembered cf k = false /\ locallyOwned cf k = false /\ locallyWitnessed cf k (witsAfter (k_wits k) (r_cuts a) (r_adds a)) = false).
    { apply (outside cf k (ms ++ [m])); [rewrite KP; exact ST|]. intros w I. assert (I' : In w (k_wits k) \/ In w (r_adds a)).
      { destruct I as [I|I]; [|auto]. unfold witsAfter in I. apply in_app_iff in I. destruct I as [I|I]; [apply filter_In in I; tauto|auto]. }
      destruct I' as [I'|I'].
      - destruct (KW w I') as (m0 & M1 & M2). exists m0. split; [apply in_app_iff; auto|exact M2].
      - exists m. split; [apply in_app_iff; right; left; reflexivity|]. rewrite ME, br_adds. apply in_app_iff. auto. }
    destruct OU as (O1 & O2 & O3).
    destruct (update_rot (he h) cf m k d1 x1 (witsAfter (k_wits k) (r_cuts a) (r_adds a)) (r_cuts a) (r_adds a) (m_sigers m) (m_wigers m) None None) as (d' & x' & fn & dts & N1 & N2).
    + unfold transferable. rewrite V5. destruct (v_ndigs v) eqn:Q; [congruence|]. rewrite KP. apply KT. rewrite V5. discriminate.
    + rewrite ME, br_pre, KP. reflexivity.
    + rewrite ME, br_ilk. reflexivity.
    + rewrite KD. congruence.
    + rewrite ME. exact R1.
    + rewrite ME. apply val_stranger; auto.
      * rewrite br_ilk. right. left. reflexivity.
      * rewrite br_keys, map_len. exact br_size.
      * rewrite V7. exact FW.
      * intros _. rewrite V5, V6. exact FX.
    + rewrite ME. exact R2.
    + rewrite ME in N2. rewrite KP in N2. exists (rotated k e (witsAfter (k_wits k) (r_cuts a) (r_adds a)) (r_cuts a) (r_adds a) fn dts).
      unfold processEvent. rewrite ME, br_pre, VP. cbn [negb]. rewrite (kget_of _ _ _ _ K1), br_ilk. cbn [isIncept].
      rewrite SN, (proj2 (N.ltb_ge _ _) (N.le_refl _)), N.eqb_refl. cbn [orb]. rewrite N1. cbn [fst].
      split; [exact N2|]. split; [unfold asViewed; cbn; rewrite br_keys, br_ndigs, V7; auto 10|]. split; [apply R2|].
      split; [exact KP|]. split; [exact KD|]. split; [intros _; apply KT; rewrite V5; exact NE|]. split; [first [exact VP|reflexivity]|].
      cbn [rotated k_wits]. intros w I. unfold witsAfter in I. apply in_app_iff in I. destruct I as [I|I].
      * apply filter_In in I. destruct (KW w (proj1 I)) as (m0 & M1 & M2). exists m0. split; [apply in_app_iff; auto|exact M2].
      * exists m. split; [apply in_app_iff; right; left; reflexivity|]. rewrite ME, br_adds. apply in_app_iff. auto.
  - destruct (IH (stranger_app _ _ _ _ ST) U) as (k & K1 & (V1 & V2 & V3 & V4 & V5 & V6 & V7 & V8 & V9) & SD & KP & KD & KT & VP & KW). clear IH.
    rewrite map_app. cbn [map]. rewrite run_snoc. destruct (run (he h) cf (map Deliver ms) (d, x)) as [d1 x1]. cbn [fst] in K1. cbn [step].
    unfold interactB in BX. apply raise_if_ok in BX. destruct BX as [S1 BX]. cbv zeta in BX. apply bind_ok in BX. destruct BX as (u & _ & BX). apply ok_inj in BX.
    assert (E1 : e_pre e = nm h pre) by (rewrite <- BX; reflexivity). assert (E2 : e_sn e = e_sn (v_evt v) + 1) by (rewrite <- BX; reflexivity).
    assert (E3 : e_ilk e = Ixn) by (rewrite <- BX; reflexivity). assert (E4 : e_prior e = Some (e_said (v_evt v))) by (rewrite <- BX; reflexivity). clear BX u.
    assert (OU : locallyMembered cf k = false /\ locallyOwned cf k = false /\ locallyWitnessed cf k (k_wits k) = false).
    { apply (outside cf k (ms ++ [m])); [rewrite KP; exact ST|]. intros w I. destruct (KW w ltac:(tauto)) as (m0 & M1 & M2). exists m0. split; [apply in_app_iff; auto|exact M2]. }
    destruct OU as (O1 & O2 & O3). pose proof SD as SD'. destruct SD'.
    destruct (update_ixn (he h) cf m k d1 x1 (m_sigers m) (m_wigers m) None None) as (d' & x' & fn & dts & N1 & N2).
    + unfold transferable. rewrite V5. destruct (v_ndigs v) eqn:Q; [congruence|]. rewrite KP. apply KT. rewrite V5. discriminate.
    + rewrite ME, E1, KP. reflexivity.
    + rewrite ME. exact E3.
    + rewrite V9. exact EO.
    + rewrite ME, E2, V2. reflexivity.
    + rewrite ME, E4, V1. reflexivity.
    + rewrite ME. apply val_stranger; auto.
      * rewrite E3. right. right. left. reflexivity.
      * rewrite V3, V4. exact FS.
      * rewrite V7, V8. exact FW.
      * rewrite E3. discriminate.
    + exact SD.
    + rewrite ME in N2. rewrite KP in N2. exists (interacted k e fn dts).
      unfold processEvent. rewrite ME, E1, VP. cbn [negb]. rewrite (kget_of _ _ _ _ K1), E3. cbn [isIncept].
      rewrite E2, <- V2, (proj2 (N.ltb_ge _ _) (N.le_refl _)), N.eqb_refl. cbn [orb]. rewrite N1. cbn [fst].
      split; [exact N2|]. split; [unfold asViewed; cbn; auto 10|]. split; [destruct SD; constructor; assumption|].
      split; [exact KP|]. split; [exact KD|]. split; [exact KT|]. split; [first [exact VP|reflexivity]|].
      cbn [interacted k_wits]. intros w I. destruct (KW w I) as (m0 & M1 & M2). exists m0. split; [apply in_app_iff; auto|exact M2].
Qed.
