(** Rotations and inceptions of a habitat keep its key store and its key event log in step. *)
From Coq Require Import Lia.
From Verif Require Import Prelude B64Model MatterModel SubsModel ThModel ThSpec ThProofs ThThms JsonModel SerModel KsModel KsSpec JsonProofs KsProofs KsInv KsRun KsHab KsHeld KelModel KelSpec KelProofs KelInv OoSpec OoProofs OoProofs2 HbModel HbSpec HbProofs HbProofs2 HbProofs3 HbProofs4.
Open Scope N_scope.
Ltac Zify.zify_post_hook ::= Z.div_mod_to_equations.

Lemma erase_run : forall l m0, exists t m1, forM l (fun p => remM pris setPris p) m0 = (t, (m1, Ok tt)).
Proof.
  induction l as [|p l IH]; intros m0; [eexists _, _; reflexivity|]. cbn [forM]. unfold bindM at 1.
  assert (Q1 : exists mm t, remM pris setPris p m0 = (t, (mm, Ok tt))) by (eexists _, _; reflexivity). destruct Q1 as (mm & t & Q1). rewrite Q1.
  destruct (IH mm) as (t2 & m1 & Q2). rewrite Q2. eauto.
Qed.
Lemma erase_same : forall l d, pubs (erasePris l d) = pubs d /\ sits (erasePris l d) = sits d.
Proof.
  unfold erasePris. induction l as [|p l IH]; intros d; cbn [fold_left]; [auto|]. destruct (IH (setPris d (krem (pris d) p))) as [A B]. rewrite A, B. auto.
Qed.
Lemma erased : forall l m0 m1, m1 = fst (snd (forM l (fun p => remM pris setPris p) m0)) -> pubs (ks m1) = pubs (ks m0) /\ sits (ks m1) = sits (ks m0).
Proof.
  intros l m0 m1 E. destruct (erase_run l m0) as (t & m2 & Q). rewrite Q in E. cbn in E. subst m2. apply erase_ok in Q. destruct Q as [Q _]. rewrite Q. apply erase_same.
Qed.
Lemma fresh_pubs : forall d a b, pubs a = pubs b -> freshKeys d a -> freshKeys d b.
Proof. intros d a b E F k l p k' l' H1 H2 H3 H4 H5. rewrite <- E in H2, H4. eapply F; eauto. Qed.

(** the key manager's part of Hab.rotate *)
Lemma habRotate_eq : forall h cf now pre ncount temp a m dx k, kget (fst dx) (snd dx) (nm h pre) = Some k ->
  habRotate h cf now pre ncount temp a (m, dx) =
  let '(m1, r) := handOut (hk h) pre (match ncount with Some n => n | None => len (k_ndigs k) end) temp m in
  match r with
      | Err x => ((m1, dx), Err x)
      | Ok (verfers, digers) =>
          match baseRotate h cf now pre verfers digers a m1 dx with
          | (dx', Err x) =>
              match dget (sits (ks m)) pre with
              | Some ps => ((fst (snd (pinM sits setSits pre ps m1)), dx'), Err x)
              | None => ((m1, dx'), Err AttributeError)
              end
          | (dx', Ok msg) =>
              match dget (sits (ks m)) pre with
              | Some ps => ((fst (snd (forM (l_pubs (t_old ps)) (fun p => remM pris setPris p) m1)), dx'), Ok msg)
              | None => ((m1, dx'), Err AttributeError)
              end
          end
      end.
Proof.
  intros h cf now pre ncount temp a m dx k K. unfold habRotate, handOut. rewrite K. destruct (replay (hk h) pre (s2b "E") true false m) as [t [m0 r0]]. reflexivity.
Qed.

(** what becomes of the keys and digests that the key manager hands out *)
(** the event of a rotation, before it is signed *)
Definition rotEvent (h : hcfg) (pre : bytes) (vs ds : list bytes) (a : rotArgs) (k : kever) : res evt :=
  t <- processSith (match r_isith a with Some s => s | None => sithOf (k_nt k) end) ;;
  nt <- processSith (match r_nsith a with Some s => s | None => match r_isith a with Some s => s | None => sithOf (k_nt k) end end) ;;
  raise_if (negb (satisfy (k_nt k) (matched h (k_ndigs k) vs))) ValidationError (
  rotateB h (match k_delpre k with Some _ => true | None => false end) pre vs (e_said (k_evt k)) (k_sn k + 1) ds (k_wits k)
    (mkRotArgs (Some (sithOf t)) (Some (sithOf nt)) (match r_toad a with Some n => Some n | None => if isnil (r_cuts a) && isnil (r_adds a) then Some (k_toad k) else None end) (r_cuts a) (r_adds a) (r_data a))).

Lemma base_step : forall h cf pre m dx ps k dc cd now a m1 vs ds lot, coherent h -> ag h cf pre m dx ps k dc cd ->
  handed (hk h) pre m m1 vs ds ps lot -> weighsAll a dx (nm h pre) ->
  (exists dx' e sg fn dts, baseRotate h cf now pre vs ds a m1 dx = (dx', Ok (e, sg)) /\
     kevers (fst dx') (nm h pre) = Some (rotated k e (witsAfter (k_wits k) (r_cuts a) (r_adds a)) (r_cuts a) (r_adds a) fn dts) /\
     e_seals e = r_data a /\ e_sn e = k_sn k + 1 /\ e_prior e = Some (e_said (k_evt k)) /\
     forall m2, fhist (hk h) m2 -> dget (sits (ks m2)) pre = Some (mkSit (t_new ps) (t_nxt ps) lot) ->
       ag h cf pre m2 dx' (mkSit (t_new ps) (t_nxt ps) lot) (rotated k e (witsAfter (k_wits k) (r_cuts a) (r_adds a)) (r_cuts a) (r_adds a) fn dts) (s2b "E") cd) \/
  (exists x, baseRotate h cf now pre vs ds a m1 dx = (dx, Err x) /\ rotEvent h pre vs ds a k = Err x).
Proof.
  intros h cf pre m [d x] ps k dc cd now a m1 vs ds lot CO A H W. pose proof (ag_valid _ _ _ _ _ _ _ _ _ CO A) as VP. pose proof A as A'. destruct A'. destruct H.
  cbn [fst snd] in *. unfold baseRotate, rotEvent. cbn [fst snd]. rewrite a_key.
  set (isith := match r_isith a with Some s => s | None => sithOf (k_nt k) end). set (nsith := match r_nsith a with Some s => s | None => isith end).
  set (toad := match r_toad a with Some n => Some n | None => if isnil (r_cuts a) && isnil (r_adds a) then Some (k_toad k) else None end).
  match goal with |- context [match ?q with Ok _ => _ | Err _ => _ end] => destruct q as [e|ex] eqn:Q end; [|right; exists ex; split; [reflexivity|first [reflexivity|exact Q]]].
  apply bind_ok in Q. destruct Q as (t & T1 & Q). apply bind_ok in Q. destruct Q as (nt & T2 & Q). apply raise_if_ok in Q. destruct Q as [T3 Q]. apply negb_false_iff in T3.
  rewrite a_ndigs, hd_vs, (matched_all h dc (l_pubs (t_nxt ps)) CO) in T3.
  assert (NE : k_ndigs k <> []).
  { rewrite a_ndigs. intros Z. destruct (l_pubs (t_nxt ps)); [|discriminate]. change (upTo (len (@nil bytes))) with (@nil N) in T3. rewrite c11_empty in T3. discriminate. }
  destruct (rotateB_inv _ _ _ _ _ _ _ _ _ _ Q) as (cd' & X). clear Q. pose proof a_sound as SD. destruct SD.
  destruct (built_rotate _ _ _ _ _ _ _ _ k d x CO X NE) as (R1 & R2 & _). cbn [r_cuts r_adds] in R1, R2. destruct X. cbn [r_cuts r_adds r_isith r_nsith r_data] in *.
  assert (KT : e_kt e = t).
  { pose proof (br_isith _ eq_refl) as Z. rewrite (c12_sith_round_trip t (th_sith _ _ T1)) in Z. apply ok_inj in Z. symmetry. exact Z. }
  assert (LN : len (k_ndigs k) = len vs) by (rewrite a_ndigs, map_len, hd_vs; reflexivity).
  assert (ST : satisfy (e_kt e) (upTo (len vs)) = true).
  { rewrite KT. unfold isith in T1. destruct (r_isith a) as [s|] eqn:RI.
    - rewrite <- KT in *. apply covers_all; auto. rewrite <- LN. exact (W s (e_kt e) k RI T1 a_key).
    - rewrite (c12_sith_round_trip _ sd_nt) in T1. apply ok_inj in T1. subst t. rewrite hd_vs. exact T3. }
  destruct (mgr_signs h m1 pre _ vs (e_raw e) CO hd_fh hd_sit1) as (sg & S1 & S2); [cbn [t_new]; rewrite hd_vs; apply incl_appl; apply incl_refl|]. rewrite S1.
  left. unfold ownEvent, ownMsg, processEvent. cbn [m_evt m_now m_sigers m_wigers m_seal m_local].
  assert (IC : isIncept (e_ilk e) = false) by (rewrite br_ilk; destruct (k_delpre k); reflexivity).
  rewrite br_pre, VP. cbn [negb]. rewrite a_key, IC, (proj1 br_sn), (proj2 (N.ltb_ge _ _) (N.le_refl _)), N.eqb_refl. cbn [orb].
  destruct (update_rot (he h) cf (mkMsg e sg [] None false true now None) k d x (witsAfter (k_wits k) (r_cuts a) (r_adds a)) (r_cuts a) (r_adds a) sg []
     (match e_ilk e with Dip => e_delpre e | Drt => k_delpre k | _ => None end) None) as (d' & x' & fn & dts & N1 & N2); cbn [m_evt m_now m_sigers m_wigers m_seal m_local m_eager]; auto.
  - exact (ag_transferable _ _ _ _ _ _ _ _ _ CO A NE).
  - rewrite br_pre, a_pre. reflexivity.
  - rewrite br_ilk. destruct (k_delpre k); reflexivity.
  - rewrite br_ilk. destruct (k_delpre k); [reflexivity|congruence].
  - apply val_own; auto.
    + apply (ag_owned h cf pre k a_own a_pre).
    + rewrite br_keys, map_len. exact br_size.
    + split; [exact (sa_nodup _ _ _ _ S2)|]. split; [rewrite br_keys; exact (sa_ver _ _ _ _ S2)|]. rewrite (sa_idx _ _ _ _ S2). exact ST.
    + intros _. rewrite a_ndigs, br_keys, <- hd_vs, (sa_exp _ _ _ _ S2 dc), hd_vs. exact T3.
    + rewrite br_ilk. destruct (k_delpre k); discriminate.
  - rewrite N1. cbn [m_evt] in N2. rewrite a_pre in N2. exists (d', x'), e, sg, fn, dts. split; [reflexivity|]. split; [exact N2|]. split; [exact br_seals|].
    split; [exact (proj1 br_sn)|]. split; [exact br_prior|]. intros m2 F2 S3. constructor; cbn [fst snd]; auto.
    + apply kget_of. exact N2.
    + cbn [rotated k_keys t_new]. rewrite br_keys, hd_vs. reflexivity.
    + cbn [rotated k_ndigs t_nxt]. rewrite br_ndigs, hd_ds, map_map. reflexivity.
    + cbn [rotated k_tholder k_keys]. rewrite br_keys, map_len. exact ST.
    + intros Z. exfalso. apply NE. exact (a_fix Z).
Qed.

Lemma rotate_step : forall h cf pre m dx ps k dc cd now ncount temp a m' dx' r, coherent h -> ag h cf pre m dx ps k dc cd ->
  habRotate h cf now pre ncount temp a (m, dx) = ((m', dx'), r) -> weighsAll a dx (nm h pre) -> freshKeys (ks m) (ks m') ->
  (exists e sg lot fn dts, r = Ok (e, sg) /\
     kevers (fst dx') (nm h pre) = Some (rotated k e (witsAfter (k_wits k) (r_cuts a) (r_adds a)) (r_cuts a) (r_adds a) fn dts) /\
     e_seals e = r_data a /\ e_sn e = k_sn k + 1 /\ e_prior e = Some (e_said (k_evt k)) /\
     ag h cf pre m' dx' (mkSit (t_new ps) (t_nxt ps) lot) (rotated k e (witsAfter (k_wits k) (r_cuts a) (r_adds a)) (r_cuts a) (r_adds a) fn dts) (s2b "E") cd) \/
  (exists x, r = Err x /\ dx' = dx /\ dget (sits (ks m')) pre = Some ps /\ fhist (hk h) m').
Proof.
  intros h cf pre m dx ps k dc cd now ncount temp a m' dx' r CO A E W FR. pose proof A as A'. destruct A'. rewrite (habRotate_eq _ _ _ _ _ _ _ _ _ _ a_key) in E.
  set (n := match ncount with Some n => n | None => len (k_ndigs k) end) in *. destruct (handOut (hk h) pre n temp m) as [m1 r1] eqn:HO. destruct r1 as [[vs ds]|x].
  2:{ right. injection E; intros; subst. destruct (handOut_err _ _ _ _ _ _ _ a_fh HO) as [F K]. exists x. rewrite K. auto. }
  rewrite a_sit in E. destruct (baseRotate h cf now pre vs ds a m1 dx) as [dx1 r2] eqn:BR.
  assert (FR1 : freshKeys (ks m) (ks m1)).
  { destruct r2 as [msg|x].
    - injection E; intros E1 E2 E3. destruct (erased _ _ _ (eq_sym E3)) as [P _]. eapply fresh_pubs; [exact P|exact FR].
    - injection E; intros E1 E2 E3. eapply fresh_pubs; [|exact FR]. rewrite <- E3. reflexivity. }
  destruct (handOut_ok (hk h) (co_trans h CO) _ _ _ _ _ _ _ a_fh HO FR1) as (ps' & lot & H). pose proof (hd_sit _ _ _ _ _ _ _ _ H) as Z. rewrite a_sit in Z. injection Z; intros <-. clear Z.
  destruct (base_step h cf pre m dx ps k dc cd now a m1 vs ds lot CO A H W) as [(dx2 & e & sg & fn & dts & B1 & B2 & B3 & B4 & B5 & B6)|(x & B1 & _)]; rewrite B1 in BR; apply pair_equal_spec in BR; destruct BR as [<- <-].
  - left. injection E; intros E1 E2 E3. subst dx' r. exists e, sg, lot, fn, dts. repeat (split; [first [reflexivity|assumption]|]).
    apply B6; [|destruct (erased _ _ _ (eq_sym E3)) as [_ P]; rewrite P; exact (hd_sit1 _ _ _ _ _ _ _ _ H)].
    eapply (hab_end (hk h) pre n temp m m1 _ ps true); [exact a_fh|exact HO|exact a_sit|exact (eq_sym E3)|exact FR].
  - right. injection E; intros E1 E2 E3. subst dx' r. exists x. split; [reflexivity|]. split; [reflexivity|]. split; [rewrite <- E3; cbn; rewrite dget_dset, beq_refl; reflexivity|].
    eapply (hab_end (hk h) pre n temp m m1 _ ps false); [exact a_fh|exact HO|exact a_sit|exact (eq_sym E3)|exact FR].
Qed.
