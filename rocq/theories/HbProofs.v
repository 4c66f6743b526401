(** Lemmas on event builders: what a builder makes is accepted. *)
From Verif Require Import Prelude B64Model MatterModel SubsModel ThModel ThSpec ThProofs ThThms JsonModel SerModel KsModel KsSpec KelModel KelSpec KelProofs KelInv OoSpec OoProofs OoProofs2 HbModel HbSpec.
Open Scope N_scope.
Ltac Zify.zify_post_hook ::= Z.div_mod_to_equations.

(** ** Signatures *)
Lemma dedup_id : forall l seen, NoDup (map sg_qb64 l) -> (forall s, In s l -> ~ In (sg_qb64 s) seen) -> dedupB seen l = l.
Proof.
  induction l as [|a l IH]; intros seen ND F; [reflexivity|]. cbn [dedupB]. cbn [map] in ND. inversion ND; subst.
  destruct (memB (sg_qb64 a) seen) eqn:M.
  { apply memB_in in M. exfalso. apply (F a); [left; reflexivity|exact M]. }
  f_equal. apply IH; [assumption|]. intros s I [Q|Q].
  - apply H1. rewrite Q. apply in_map. exact I.
  - apply (F s); [right; exact I|exact Q].
Qed.
Lemma verify_all : forall E raw keys sg, NoDup (map sg_qb64 sg) -> Forall (verified E keys raw) sg ->
  verifySigs N (vrfy E) raw sg keys = (sg, map sg_index sg).
Proof.
  intros E raw keys sg ND V. unfold verifySigs. rewrite (dedup_id _ _ ND) by (intros s _ []).
  assert (Q : filter (fun s => match nth_error keys (N.to_nat (sg_index s)) with Some k => vrfy E k (sg_raw s) raw | None => false end) sg = sg).
  { clear ND. induction V as [|s sg (ky & K1 & K2) V IH]; [reflexivity|]. cbn [filter]. rewrite K1, K2, IH. reflexivity. }
  rewrite Q. reflexivity.
Qed.
Lemma exposeds_all : forall E nd keys sg os, Forall2 (fun s o => sg_ondex s = Some o /\
    exists dg ky, nth_error nd (N.to_nat o) = Some dg /\ nth_error keys (N.to_nat (sg_index s)) = Some ky /\
                  commits E dg ky = true) sg os -> exposeds E nd keys sg = os.
Proof.
  intros E nd keys sg os F. induction F as [|s o sg os (A & dg & ky & B1 & B2 & B3) F IH]; [reflexivity|].
  unfold exposeds in *. cbn [flat_map]. rewrite A, B1, B2, B3, IH. reflexivity.
Qed.

(** ** Key states that can be written as a record *)
Record sound (k : kever) : Prop := mkSound {
  sd_t : threshold (k_tholder k); sd_nt : threshold (k_nt k); sd_z : isZero (k_tholder k) = false;
  sd_size : thsize (k_tholder k) <= len (k_keys k); sd_nsize : thsize (k_nt k) <= len (k_ndigs k);
  sd_wits : NoDup (k_wits k); sd_in : inbounds (k_toad k) (k_wits k);
  sd_cuts : NoDup (k_cuts k); sd_adds : NoDup (k_adds k); sd_disj : forall x, In x (k_cuts k) -> In x (k_adds k) -> False }.
Lemma badToad_in : forall t w, badToad t w = false <-> inbounds t w.
Proof.
  intros t w. unfold badToad, inbounds. destruct w as [|a w]; cbn [isnil].
  - rewrite negb_false_iff, N.eqb_eq. tauto.
  - rewrite orb_false_iff, !N.ltb_ge. tauto.
Qed.
Lemma sound_state : forall k, sound k -> exists st, kstate k = Ok st.
Proof.
  intros k S0. destruct S0. unfold kstate. rewrite (c12_sith_round_trip _ sd_t0), (c12_sith_round_trip _ sd_nt0). cbn [bind].
  change (match k_tholder k with TNum n => n <? 1 | TWt _ => false end) with (isZero (k_tholder k)). rewrite sd_z0.
  rewrite (proj2 (N.ltb_ge _ _) sd_size0), (proj2 (N.ltb_ge _ _) sd_nsize0).
  rewrite (oset_id _ sd_wits0), (oset_id _ sd_cuts0), (oset_id _ sd_adds0), !N.eqb_refl. cbn [negb].
  change (if isnil (k_wits k) then negb (k_toad k =? 0) else (k_toad k <? 1) || (len (k_wits k) <? k_toad k)) with (badToad (k_toad k) (k_wits k)).
  rewrite (proj2 (badToad_in _ _) sd_in0), (proj2 (isnil_inter _ _) sd_disj0). cbn [negb]. eauto.
Qed.

(** ** The new key state after a valid event *)
Lemma log_first : forall cf now k e sg wg wits cpl dater local d x, exists d' x' fn dts,
  logEvent cf now k e sg wg wits true cpl dater local (d, x) = ((d', x'), Some (fn, dts)).
Proof.
  intros. unfold logEvent. cbv zeta. eexists _, _, _, _. reflexivity.
Qed.
Lemma pin_ok : forall k d x, sound k -> exists d', pinState k (d, x) = ((d', x), Ok tt) /\ kevers d' = kevers d.
Proof.
  intros k d x S0. destruct (sound_state k S0) as (st & E). unfold pinState. rewrite E. eexists. split; reflexivity.
Qed.
Lemma fset_same : forall A (m : N -> A) a v, fset m a v a = v.
Proof. intros. unfold fset. rewrite N.eqb_refl. reflexivity. Qed.

Lemma update_rot : forall E cf m k d x wits cuts adds sg wg dp cpl,
  let e := m_evt m in
  transferable E k = true -> e_pre e = k_pre k -> isRot (e_ilk e) = true -> (k_delpre k <> None -> e_ilk e = Drt) ->
  KelModel.rotate d x k e = Ok (wits, cuts, adds) ->
  valSigsWigsDel E cf (m_now m) d k e (m_sigers m) (e_keys e) (e_kt e) (m_wigers m) (e_bt e) wits (m_seal m) (m_eager m) (m_local m) x
    = (x, Ok (sg, wg, dp, cpl)) ->
  (forall fn dts, sound (rotated k e wits cuts adds fn dts)) ->
  exists d' x' fn dts, update E cf m k (d, x) = ((d', x'), Ok tt) /\ kevers d' (k_pre k) = Some (rotated k e wits cuts adds fn dts).
Proof.
  intros E cf m k d x wits cuts adds sg wg dp cpl e T P R D RO V SD. unfold update. fold e. rewrite T, P, N.eqb_refl, R. cbn [negb].
  assert (Q : (match k_delpre k with Some _ => true | None => false end) && negb (ilk_eqb (e_ilk e) Drt) = false).
  { destruct (k_delpre k); [|reflexivity]. rewrite D by discriminate. reflexivity. }
  rewrite Q, RO, V. clear Q.
  destruct (log_first cf (m_now m) k e sg wg wits cpl (m_dater m) (m_local m) d x) as (d1 & x1 & fn & dts & L). rewrite L.
  fold (rotated k e wits cuts adds fn dts).
  destruct (pin_ok (rotated k e wits cuts adds fn dts) (set_kevers (fset (kevers d1) (k_pre (rotated k e wits cuts adds fn dts)) (Some (rotated k e wits cuts adds fn dts))) d1) x1 (SD fn dts)) as (d2 & P1 & P2).
  rewrite P1. exists d2, x1, fn, dts. split; [reflexivity|]. rewrite P2. cbn. apply fset_same.
Qed.
Lemma update_ixn : forall E cf m k d x sg wg dp cpl,
  let e := m_evt m in
  transferable E k = true -> e_pre e = k_pre k -> e_ilk e = Ixn -> k_estOnly k = false -> e_sn e = k_sn k + 1 ->
  e_prior e = Some (e_said (k_evt k)) ->
  valSigsWigsDel E cf (m_now m) d k e (m_sigers m) (k_keys k) (k_tholder k) (m_wigers m) (k_toad k) (k_wits k) None (m_eager m) (m_local m) x
    = (x, Ok (sg, wg, dp, cpl)) ->
  sound k ->
  exists d' x' fn dts, update E cf m k (d, x) = ((d', x'), Ok tt) /\ kevers d' (k_pre k) = Some (interacted k e fn dts).
Proof.
  intros E cf m k d x sg wg dp cpl e T P R EO SN PR V SD. unfold update. fold e. rewrite T, P, N.eqb_refl, R, EO, SN, N.eqb_refl, PR. cbn [negb isRot ilk_eqb].
  unfold compare at 1. rewrite N.eqb_refl. cbn [negb]. rewrite V.
  destruct (log_first cf (m_now m) k e sg wg [] None None true d x) as (d1 & x1 & fn & dts & L). rewrite L.
  assert (SD' : sound (interacted k e fn dts)) by (destruct SD; constructor; assumption).
  assert (Q : mkKever (k_vn k) (k_pre k) (k_sn k + 1) e Ixn (k_tholder k) (k_keys k) (k_ndigs k)
                   (k_nt k) (k_toad k) (k_wits k) (k_cuts k) (k_adds k) (k_estOnly k) (k_dnd k)
                   (k_lastS k) (k_lastD k) (k_delpre k) fn dts (k_cues k) = interacted k e fn dts).
  { unfold interacted. rewrite R, SN. reflexivity. }
  try rewrite EO in Q. rewrite Q.
  destruct (pin_ok (interacted k e fn dts) (set_kevers (fset (kevers d1) (k_pre (interacted k e fn dts)) (Some (interacted k e fn dts))) d1) x1 SD') as (d2 & P1 & P2).
  rewrite P1. exists d2, x1, fn, dts. split; [reflexivity|]. rewrite P2. cbn. apply fset_same.
Qed.
(** the key state made by an inception event *)
Definition begun (e : evt) (dp : option N) (fn dts : N) : kever :=
  mkKever (e_vn e) (e_pre e) (e_sn e) e (e_ilk e) (e_kt e) (e_keys e) (e_ndigs e) (e_nt e)
        (e_bt e) (e_wits e) [] [] (e_estOnly e) (e_dnd e) (e_sn e) (e_said e) dp fn dts true.
Lemma new_ok : forall E cf m d x sg wg dp cpl,
  let e := m_evt m in
  m_sigers m <> [] -> isIncept (e_ilk e) = true -> KelModel.incept E e = Ok (begun e None 0 0) ->
  valSigsWigsDel E cf (m_now m) d (begun e None 0 0) e (m_sigers m) (e_keys e) (e_kt e) (m_wigers m) (e_bt e) (e_wits e) (m_seal m) (m_eager m) (m_local m) x
    = (x, Ok (sg, wg, dp, cpl)) ->
  (forall fn dts, sound (begun e dp fn dts)) ->
  exists d' x' fn dts, newKever E cf m (d, x) = ((d', x'), Ok tt) /\ kevers d' (e_pre e) = Some (begun e dp fn dts).
Proof.
  intros E cf m d x sg wg dp cpl e NE II I0 V SD. unfold newKever. fold e.
  assert (Q : isnil (m_sigers m) = false) by (destruct (m_sigers m); [congruence|reflexivity]). rewrite Q, II, I0. cbn [negb].
  cbn [begun k_tholder k_toad k_wits]. fold (begun e None 0 0). rewrite V.
  match goal with |- context [logEvent cf (m_now m) ?kk e sg wg (e_wits e) true cpl (m_dater m) (m_local m) (d, x)] =>
    destruct (log_first cf (m_now m) kk e sg wg (e_wits e) cpl (m_dater m) (m_local m) d x) as (d1 & x1 & fn & dts & L) end.
  rewrite L. cbn [begun k_vn k_pre k_sn k_evt k_ilk k_tholder k_keys k_ndigs k_nt k_toad k_wits k_cuts k_adds k_estOnly k_dnd k_lastS k_lastD k_cues].
  fold (begun e dp fn dts). destruct (pin_ok (begun e dp fn dts) d1 x1 (SD fn dts)) as (d2 & P1 & P2). rewrite P1.
  eexists _, _, fn, dts. split; [reflexivity|]. cbn. apply fset_same.
Qed.

(** ** What the builders check *)
Lemma dex_pre : forall cd, memB cd PreDex = true <-> In cd prefixCodes.
Proof. intros cd. apply memB_in. Qed.
Lemma dex_fixed : forall cd, memB cd NonTransDex = true <-> In cd fixedCodes.
Proof. intros cd. apply memB_in. Qed.
Lemma dig_pre : forall cd, memB cd DigDex = true -> memB cd PreDex = true /\ memB cd NonTransDex = false.
Proof.
  intros cd M. apply memB_in in M.
  repeat (destruct M as [<-|M]; [split; vm_compute; reflexivity|]). destruct M.
Qed.

Lemma map_len : forall A B (f : A -> B) l, len (map f l) = len l.
Proof. intros. unfold len. rewrite map_length. reflexivity. Qed.

Record builtInc (h : hcfg) (keys ndigs : list bytes) (a : inArgs) (pre : bytes) (e : evt) (cd : bytes) : Prop := mkBi {
  bi_pre : e_pre e = nm h pre; bi_sn : e_sn e = 0; bi_ilk : e_ilk e = match b_delpre a with None => Icp | Some _ => Dip end;
  bi_keys : e_keys e = map (nm h) keys; bi_ndigs : e_ndigs e = map (nm h) ndigs; bi_wits : e_wits e = b_wits a;
  bi_seals : e_seals e = b_data a; bi_del : e_delpre e = option_map (nm h) (b_delpre a);
  bi_cfg : e_estOnly e = b_estOnly a /\ e_dnd e = b_dnd a;
  bi_t : threshold (e_kt e); bi_nt : threshold (e_nt e); bi_z : isZero (e_kt e) = false;
  bi_size : thsize (e_kt e) <= len keys; bi_nsize : thsize (e_nt e) <= len ndigs;
  bi_dup : NoDup (b_wits a); bi_in : inbounds (e_bt e) (b_wits a); bi_toad : forall n, b_toad a = Some n -> e_bt e = n;
  bi_isith : forall s, b_isith a = Some s -> processSith s = Ok (e_kt e); bi_nsith : forall s, b_nsith a = Some s -> processSith s = Ok (e_nt e);
  bi_cd : code_of h pre = Some cd; bi_dex : memB cd PreDex = true; bi_ddex : b_delpre a <> None -> memB cd DigDex = true;
  bi_fixed : memB cd NonTransDex = true -> ndigs = [] /\ b_wits a = [] /\ b_data a = [] }.

Lemma inceptB_inv : forall h keys ndigs a pre e, inceptB h keys ndigs a = Ok (pre, e) -> exists cd, builtInc h keys ndigs a pre e cd.
Proof.
  intros h keys ndigs a pre e X. unfold inceptB in X.
  apply bind_ok in X. destruct X as (t & X1 & X). apply raise_if_ok in X. destruct X as [A1 X]. apply raise_if_ok in X. destruct X as [A2 X].
  apply bind_ok in X. destruct X as (nt & X2 & X). apply raise_if_ok in X. destruct X as [A3 X]. cbv zeta in X.
  apply raise_if_ok in X. destruct X as [A4 X]. apply bind_ok in X. destruct X as (toad & X3 & X). apply raise_if_ok in X. destruct X as [A5 X].
  match type of X with context [hash h ?c ?e0] => set (cd := c) in *; set (ev := e0) in * end.
  match type of X with context [nm h ?p] => set (pr := p) in * end.
  match type of X with context [verifyInc h pr keys ?e0 _] => set (ee := e0) in * end.
  apply bind_ok in X. destruct X as (u & X4 & X). apply ok_inj in X. apply pair_equal_spec in X. destruct X as [Q1 Q2].
  rewrite <- Q1, <- Q2. clear Q1 Q2 pre e.
  unfold verifyInc in X4. destruct (code_of h pr) as [c|] eqn:CD; [|discriminate]. exists c.
  apply raise_if_ok in X4. destruct X4 as [B1 X4]. apply raise_if_ok in X4. destruct X4 as [B2 X4]. apply raise_if_ok in X4. destruct X4 as [B3 X4].
  apply raise_if_ok in X4. destruct X4 as [B4 X4]. apply raise_if_ok in X4. destruct X4 as [B5 X4]. apply raise_if_ok in X4. destruct X4 as [B6 X4].
  apply raise_if_ok in X4. destruct X4 as [B7 X4]. apply negb_false_iff in B1.
  apply N.ltb_ge in A2. apply N.ltb_ge in A3. apply negb_false_iff, N.eqb_eq, oset_len in A4. apply badToad_in in A5.
  constructor; try reflexivity.
  - split; reflexivity.
  - apply (th_sith _ _ X1).
  - apply (th_sith _ _ X2).
  - exact A1.
  - exact A2.
  - exact A3.
  - apply A4.
  - exact A5.
  - intros n Hn. rewrite Hn in X3. apply ok_inj in X3. symmetry. exact X3.
  - intros s Hs. rewrite Hs in X1. exact X1.
  - intros s Hs. rewrite Hs in X2. exact X2.
  - exact CD.
  - destruct (b_delpre a); [apply (dig_pre _ B1)|exact B1].
  - intros N0. destruct (b_delpre a); [exact B1|congruence].
  - intros N0. rewrite N0 in B5, B6, B7. cbn [andb] in B5, B6, B7.
    change (e_ndigs ee) with (map (nm h) ndigs) in B5. change (e_wits ee) with (b_wits a) in B6. change (e_seals ee) with (b_data a) in B7.
    split; [destruct ndigs; [reflexivity|discriminate]|]. split; [destruct (b_wits a); [reflexivity|discriminate]|destruct (b_data a); [reflexivity|discriminate]].
Qed.

Record builtRot (h : hcfg) (drt : bool) (pre : bytes) (keys : list bytes) (dig sn : N) (ndigs : list bytes) (wits : list N) (a : rotArgs) (e : evt) (cd : bytes) : Prop := mkBr {
  br_pre : e_pre e = nm h pre; br_sn : e_sn e = sn /\ 1 <= sn; br_ilk : e_ilk e = (if drt then Drt else Rot); br_prior : e_prior e = Some dig;
  br_keys : e_keys e = map (nm h) keys; br_ndigs : e_ndigs e = map (nm h) ndigs; br_cuts : e_cuts e = r_cuts a; br_adds : e_adds e = r_adds a;
  br_seals : e_seals e = r_data a;
  br_t : threshold (e_kt e); br_nt : threshold (e_nt e); br_z : isZero (e_kt e) = false;
  br_size : thsize (e_kt e) <= len keys; br_nsize : thsize (e_nt e) <= len ndigs;
  br_dup : NoDup wits; br_dcuts : NoDup (r_cuts a); br_dadds : NoDup (r_adds a);
  br_sub : inter wits (r_cuts a) = r_cuts a; br_new : forall w, In w wits -> In w (r_adds a) -> False;
  br_disj : forall w, In w (r_cuts a) -> In w (r_adds a) -> False;
  br_in : inbounds (e_bt e) (witsAfter wits (r_cuts a) (r_adds a)); br_toad : forall n, r_toad a = Some n -> e_bt e = n;
  br_isith : forall s, r_isith a = Some s -> processSith s = Ok (e_kt e); br_nsith : forall s, r_nsith a = Some s -> processSith s = Ok (e_nt e);
  br_cd : code_of h pre = Some cd; br_dex : memB cd (if drt then DigDex else PreDex) = true }.

Lemma diff_filter : forall a b, diff a b = filter (fun w => negb (existsb (N.eqb w) b)) a.
Proof.
  reflexivity.
Qed.
Lemma newits_eq : forall wits cuts adds, NoDup adds -> (forall w, In w wits -> In w adds -> False) ->
  addNs (diff wits cuts) adds = witsAfter wits cuts adds.
Proof.
  intros wits cuts adds D1 D2. unfold witsAfter. rewrite <- diff_filter. apply addNs_disj; [exact D1|].
  intros x I J. apply diff_In in J. apply (D2 x); tauto.
Qed.
Lemma NoDup_app2 : forall A (a b : list A), NoDup a -> NoDup b -> (forall x, In x a -> In x b -> False) -> NoDup (a ++ b).
Proof.
  intros A a b NA NB D. induction NA as [|x a N0 NA IH]; [exact NB|]. cbn [app]. constructor.
  - intros I. apply in_app_iff in I. destruct I as [I|I]; [contradiction|]. apply (D x); [left; reflexivity|exact I].
  - apply IH. intros y I J. apply (D y); [right; exact I|exact J].
Qed.
Lemma after_nodup : forall wits cuts adds, NoDup wits -> NoDup adds -> (forall w, In w wits -> In w adds -> False) -> NoDup (witsAfter wits cuts adds).
Proof.
  intros wits cuts adds A B D. unfold witsAfter. apply NoDup_app2; [apply NoDup_filter; exact A|exact B|].
  intros x I J. apply filter_In in I. apply (D x); tauto.
Qed.

Lemma rotateB_inv : forall h drt pre keys dig sn ndigs wits a e, rotateB h drt pre keys dig sn ndigs wits a = Ok e ->
  exists cd, builtRot h drt pre keys dig sn ndigs wits a e cd.
Proof.
  intros h drt pre keys dig sn ndigs wits a e X. unfold rotateB in X.
  apply raise_if_ok in X. destruct X as [A0 X]. apply bind_ok in X. destruct X as (t & X1 & X).
  apply raise_if_ok in X. destruct X as [A1 X]. apply raise_if_ok in X. destruct X as [A2 X].
  apply bind_ok in X. destruct X as (nt & X2 & X). apply raise_if_ok in X. destruct X as [A3 X]. cbv zeta in X.
  apply raise_if_ok in X. destruct X as [A4 X]. apply raise_if_ok in X. destruct X as [A5 X]. apply raise_if_ok in X. destruct X as [A6 X].
  apply raise_if_ok in X. destruct X as [A7 X]. apply raise_if_ok in X. destruct X as [A8 X]. apply raise_if_ok in X. destruct X as [A9 X].
  apply raise_if_ok in X. destruct X as [A10 X]. apply bind_ok in X. destruct X as (toad & X3 & X). apply raise_if_ok in X. destruct X as [A11 X].
  apply bind_ok in X. destruct X as (u & X4 & X). apply ok_inj in X.
  match type of X with ?z = e => set (ev := z) in * end. rewrite <- X. clear X e.
  unfold verifyLater in X4. destruct (code_of h pre) as [c|] eqn:CD; [|discriminate]. exists c.
  apply raise_if_ok in X4. destruct X4 as [B1 _]. apply negb_false_iff in B1.
  apply N.ltb_ge in A0, A2, A3. apply negb_false_iff, N.eqb_eq, oset_len in A4. apply negb_false_iff, N.eqb_eq, oset_len in A5.
  apply negb_false_iff, N.eqb_eq, oset_len in A7. destruct A4 as [O1 D1], A5 as [O2 D2], A7 as [O3 D3]. rewrite O1, O2, O3 in *.
  apply negb_false_iff, leqb_eq in A6. apply negb_false_iff in A8. pose proof (proj1 (isnil_inter _ _) A8) as F8.
  apply negb_false_iff in A9. pose proof (proj1 (isnil_inter _ _) A9) as F9.
  rewrite (newits_eq _ _ _ D3 F8) in *. apply badToad_in in A11.
  constructor; try reflexivity.
  - split; [reflexivity|exact A0].
  - apply (th_sith _ _ X1).
  - apply (th_sith _ _ X2).
  - exact A1.
  - exact A2.
  - exact A3.
  - exact D1.
  - exact D2.
  - exact D3.
  - exact A6.
  - exact F8.
  - exact F9.
  - exact A11.
  - intros n Hn. rewrite Hn in X3. apply ok_inj in X3. symmetry. exact X3.
  - intros s Hs. rewrite Hs in X1. exact X1.
  - intros s Hs. rewrite Hs in X2. exact X2.
  - exact CD.
  - change (e_ilk ev) with (if drt then Drt else Rot) in B1. destruct drt; exact B1.
Qed.

(** ** The Kever's rules agree with those of the builders *)
Lemma built_incept : forall h keys ndigs a pre e cd, coherent h -> builtInc h keys ndigs a pre e cd ->
  KelModel.incept (he h) e = Ok (begun e None 0 0) /\ (forall dp fn dts, sound (begun e dp fn dts)) /\ validPre (he h) (nm h pre) = true.
Proof.
  intros h keys ndigs a pre e cd CO B. destruct B.
  assert (TF : transf (he h) (nm h pre) = false -> ndigs = [] /\ b_wits a = [] /\ b_data a = []).
  { intros F. apply bi_fixed0. apply dex_fixed. apply (co_transf h CO pre cd bi_cd0 (proj1 (dex_pre _) bi_dex0)). exact F. }
  split; [|split].
  - unfold KelModel.incept. rewrite bi_sn0, bi_keys0, map_len, (proj2 (N.ltb_ge _ _) bi_size0). cbn [N.ltb N.compare].
    rewrite bi_pre0, bi_ndigs0, bi_wits0, bi_seals0, (oset_id _ bi_dup0), N.eqb_refl. cbn [negb].
    change (if isnil (b_wits a) then negb (e_bt e =? 0) else (e_bt e <? 1) || (len (b_wits a) <? e_bt e)) with (badToad (e_bt e) (b_wits a)).
    rewrite (proj2 (badToad_in _ _) bi_in0).
    assert (Q : forall b, (transf (he h) (nm h pre) = false -> b = true) -> negb (transf (he h) (nm h pre)) && negb b = false).
    { intros b Hb. destruct (transf (he h) (nm h pre)); [reflexivity|]. rewrite Hb by reflexivity. reflexivity. }
    rewrite !Q; [| intros F; destruct (TF F) as (Q1 & Q2 & Q3); rewrite ?Q1, ?Q2, ?Q3; reflexivity ..].
    unfold begun. rewrite bi_pre0, bi_sn0, bi_keys0, bi_ndigs0, bi_wits0. reflexivity.
  - intros dp fn dts. constructor; cbn [begun k_tholder k_nt k_keys k_ndigs k_wits k_toad k_cuts k_adds]; auto.
    + rewrite bi_keys0, map_len. exact bi_size0.
    + rewrite bi_ndigs0, map_len. exact bi_nsize0.
    + rewrite bi_wits0. exact bi_dup0.
    + rewrite bi_wits0. exact bi_in0.
    + constructor.
    + constructor.
  - apply (co_valid h CO pre cd bi_cd0). apply dex_pre. exact bi_dex0.
Qed.

Lemma built_rotate : forall h drt pre keys ndigs a e cd k d x, coherent h ->
  builtRot h drt pre keys (e_said (k_evt k)) (k_sn k + 1) ndigs (k_wits k) a e cd -> k_ndigs k <> [] ->
  KelModel.rotate d x k e = Ok (witsAfter (k_wits k) (r_cuts a) (r_adds a), r_cuts a, r_adds a) /\
  (forall fn dts, sound (rotated k e (witsAfter (k_wits k) (r_cuts a) (r_adds a)) (r_cuts a) (r_adds a) fn dts)) /\
  validPre (he h) (nm h pre) = true.
Proof.
  intros h drt pre keys ndigs a e cd k d x CO B NE. destruct B. destruct br_sn0 as [SN S1].
  assert (RO : isRot (e_ilk e) = true) by (rewrite br_ilk0; destruct drt; reflexivity).
  split; [|split].
  - unfold KelModel.rotate. rewrite SN, (proj2 (N.ltb_ge _ _) (N.le_refl _)).
    assert (Q : k_sn k + 1 <=? k_sn k = false) by (apply N.leb_gt; lia). rewrite Q.
    rewrite br_prior0. unfold compare. rewrite N.eqb_refl. cbn [negb bind].
    assert (Q2 : isnil (k_ndigs k) = false) by (destruct (k_ndigs k); [congruence|reflexivity]). rewrite Q2.
    rewrite br_keys0, map_len, (proj2 (N.ltb_ge _ _) br_size0).
    unfold deriveBacks. rewrite RO, SN, Q. cbn [negb orb]. rewrite br_cuts0, br_adds0.
    rewrite (oset_id _ br_dup0), (oset_id _ br_dcuts0), (oset_id _ br_dadds0), !N.eqb_refl. cbn [negb].
    rewrite (proj2 (leqb_eq _ _) br_sub0). cbn [negb].
    rewrite (proj2 (isnil_inter _ _) br_disj0), (proj2 (isnil_inter _ _) br_new0). cbn [negb].
    rewrite (newits_eq _ _ _ br_dadds0 br_new0).
    assert (LN : len (witsAfter (k_wits k) (r_cuts a) (r_adds a)) + len (r_cuts a) = len (k_wits k) + len (r_adds a)).
    { unfold witsAfter. rewrite <- diff_filter. unfold len. rewrite app_length.
      assert (Z : (List.length (diff (k_wits k) (r_cuts a)) + List.length (inter (k_wits k) (r_cuts a)) = List.length (k_wits k))%nat).
      { unfold diff, inter. clear. induction (k_wits k) as [|y l IH]; [reflexivity|]. cbn [filter]. destruct (memN y (r_cuts a)); cbn [negb List.length]; lia. }
      rewrite br_sub0 in Z. lia. }
    rewrite LN, N.eqb_refl. cbn [negb bind].
    change (if isnil (witsAfter (k_wits k) (r_cuts a) (r_adds a)) then negb (e_bt e =? 0) else (e_bt e <? 1) || (len (witsAfter (k_wits k) (r_cuts a) (r_adds a)) <? e_bt e))
      with (badToad (e_bt e) (witsAfter (k_wits k) (r_cuts a) (r_adds a))).
    rewrite (proj2 (badToad_in _ _) br_in0). reflexivity.
  - intros fn dts. constructor; cbn [rotated k_tholder k_nt k_keys k_ndigs k_wits k_toad k_cuts k_adds]; auto.
    + rewrite br_keys0, map_len. exact br_size0.
    + rewrite br_ndigs0, map_len. exact br_nsize0.
    + apply after_nodup; assumption.
  - apply (co_valid h CO pre cd br_cd0). apply dex_pre. destruct drt; [apply (dig_pre _ br_dex0)|exact br_dex0].
Qed.
