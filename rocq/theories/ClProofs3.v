(** Lemmas on the replay of first seen logs: whole logs. *)
From Verif Require Import Prelude B64Model MatterModel SubsModel ThModel ThSpec ThProofs ThThms KelModel KelSpec KelProofs KelInv OoSpec OoProofs OoProofs2 OoProofs3 OoProofs4 ClModel ClSpec ClProofs ClProofs2.
Open Scope N_scope.
Ltac Zify.zify_post_hook ::= Z.div_mod_to_equations.

Lemma agree_refl : forall p a, agree p a a.
Proof. intros. split; [reflexivity|]. split; reflexivity. Qed.
Lemma agree_sym : forall p a b, agree p a b -> agree p b a.
Proof. intros p a b (A & B & C). split; [auto|]. split; auto. Qed.
Lemma agree_trans : forall p a b c, agree p a b -> agree p b c -> agree p a c.
Proof. intros p a b c (A1 & B1 & C1) (A2 & B2 & C2). split; [congruence|]. split; congruence. Qed.

Lemma undated_reloaded : forall k, undated (reloaded k) = undated k.
Proof. reflexivity. Qed.

Lemma kget_restart : forall E H d x p, world H -> sinv E H d x -> option_map undated (kget (set_kevers (fun _ => None) d) x p) = option_map undated (kget d x p).
Proof.
  intros E H d x p W S. unfold kget. cbn [kevers set_kevers states].
  destruct (s_p _ _ _ _ S p) as [(_ & P & Q)|(k & st & F & KS & ST & [KV|KV])].
  - rewrite P, Q. reflexivity.
  - rewrite KV. reflexivity.
  - rewrite KV, ST. destruct F as (c & ee & l & G & _). rewrite (kstate_reload _ _ _ _ _ _ _ _ _ W G KS). reflexivity.
Qed.

(** a step that does not extend the log of [p] *)
Lemma quiet_agree : forall E H cf p b c, world H -> sane H -> sinv E H (fst b) (snd b) -> pst E H cf b c ->
  fels (fst c) p = fels (fst b) p -> agree p c b.
Proof.
  intros E H cf p b c W SN S P F. inversion P as [m dx R|d x x' Q1 Q2 Q3 Q4|dx]; subst.
  - destruct b as [d x]. destruct (processEvent E cf m (d, x)) as [[d' x'] r] eqn:X. cbn [fst snd] in *.
    pose proof X as X0. apply process_inv in X. destruct X as [(X & (A1 & A2 & A3 & A4) & SA)|(ko & k' & sg & wg & dp & cpl & A)].
    + assert (SA' : same_acc d d') by (apply SA; eapply inv_said_ok; [exact W|apply (s_inv _ _ _ _ S)]).
      split; [|split; [|exact F]].
      * unfold keyState. cbn [fst snd]. rewrite (kget_keep E H d x d' x' p W S); [reflexivity|rewrite A2; reflexivity|rewrite A1; reflexivity|].
        destruct X as (X1 & _). intros s a. apply X1.
      * cbn [fst]. destruct SA' as (B1 & _). apply B1.
    + destruct (accept_sinv _ _ _ _ _ _ _ _ _ _ _ _ _ _ _ W SN S R A) as (S' & RO & KV & SF').
      assert (NP : p <> e_pre (m_evt m)).
      { intros ->. rewrite (a_fels _ _ _ _ _ _ _ _ _ _ _ _ _ _ A), fset_same in F.
        apply (f_equal (@List.length N)) in F. rewrite app_length in F. cbn in F. lia. }
      destruct SF' as (c & ee & l & G & _). pose proof (g_pre _ _ _ _ _ _ _ _ G) as KP.
      destruct (a_pin _ _ _ _ _ _ _ _ _ _ _ _ _ _ A) as [(_ & st & KS & PV & PS)|(ex & RX & _)]; [|congruence].
      split; [|split; [|exact F]].
      * unfold keyState. cbn [fst snd].
        rewrite (kget_keep E H d x d' x' p W S); [reflexivity|rewrite PV, fset_other by congruence; reflexivity|rewrite PS, fset_other by congruence; reflexivity|].
        destruct (a_ext _ _ _ _ _ _ _ _ _ _ _ _ _ _ A) as (X1 & _). intros s a. apply X1.
      * cbn [fst]. rewrite (a_kels _ _ _ _ _ _ _ _ _ _ _ _ _ _ A), fset_other by auto. reflexivity.
  - split; [|split; reflexivity]. unfold keyState, kget, kreload. cbn [fst snd]. rewrite Q1. reflexivity.
  - destruct b as [d x]. cbn [restart fst snd] in *. split; [|split; reflexivity]. unfold keyState. cbn [fst snd].
    eapply kget_restart; eauto.
Qed.

(** equal steps from equal key states *)
Lemma both_accept : forall E H cf cf' p d x d' x' d2 x2 d2' x2' m m2 r ko k' sg wg dp cpl r2 ko2 k2' sg2 wg2 dp2 cpl2,
  world H -> sane H -> sinv E H d x -> sinv E H d2 x2 -> agree p (d2, x2) (d, x) ->
  real H (m_evt m) -> e_pre (m_evt m) = p -> m_evt m2 = m_evt m -> In (e_ilk (m_evt m)) [Icp; Rot; Ixn] ->
  accept E cf m d x d' x' r ko k' sg wg dp cpl -> accept E cf' m2 d2 x2 d2' x2' r2 ko2 k2' sg2 wg2 dp2 cpl2 ->
  agree p (d2', x2') (d', x').
Proof.
  intros E H cf cf' p d x d' x' d2 x2 d2' x2' m m2 r ko k' sg wg dp cpl r2 ko2 k2' sg2 wg2 dp2 cpl2 W SN S S2 (AK & AL & AF) RE PM XE IL A A2.
  assert (RE2 : real H (m_evt m2)) by (rewrite XE; exact RE).
  destruct (accept_sinv _ _ _ _ _ _ _ _ _ _ _ _ _ _ _ W SN S RE A) as (_ & _ & KV & _).
  destruct (accept_sinv _ _ _ _ _ _ _ _ _ _ _ _ _ _ _ W SN S2 RE2 A2) as (_ & _ & KV2 & _).
  unfold keyState in AK. cbn [fst snd] in *. rewrite XE, PM in KV2. rewrite PM in KV.
  split; [|split].
  - unfold keyState, kget. cbn [fst snd]. rewrite KV, KV2. cbn [option_map]. f_equal.
    pose proof (a_tr _ _ _ _ _ _ _ _ _ _ _ _ _ _ A) as TR. pose proof (a_tr _ _ _ _ _ _ _ _ _ _ _ _ _ _ A2) as TR2.
    pose proof (a_fn _ _ _ _ _ _ _ _ _ _ _ _ _ _ A) as FN. pose proof (a_fn _ _ _ _ _ _ _ _ _ _ _ _ _ _ A2) as FN2.
    pose proof (a_delpre _ _ _ _ _ _ _ _ _ _ _ _ _ _ A) as DP. pose proof (a_delpre _ _ _ _ _ _ _ _ _ _ _ _ _ _ A2) as DP2.
    pose proof (v_delpre _ _ _ _ _ _ _ _ _ _ _ _ _ _ _ _ _ (a_valid _ _ _ _ _ _ _ _ _ _ _ _ _ _ A)) as VD.
    pose proof (v_delpre _ _ _ _ _ _ _ _ _ _ _ _ _ _ _ _ _ (a_valid _ _ _ _ _ _ _ _ _ _ _ _ _ _ A2)) as VD2.
    rewrite XE, PM in FN2. rewrite XE in VD2, TR2. rewrite PM in FN. rewrite AF in FN2. clear A A2 KV KV2.
    inversion TR as [k0 delpre fn dts G1 G2 G3 Q1 Q2|k wits cuts adds fn dts G1 G2 G3 G4 G5 G6 G7 G8 Q1 Q2|k fn dts G1 G2 G3 G4 G5 G6 G7 Q1 Q2]; subst ko k'; rewrite PM in G1; rewrite G1 in AK.
    + assert (IC : e_ilk (m_evt m) = Icp).
      { cbn in IL. destruct IL as [Q|[Q|[Q|[]]]]; [auto| |]; rewrite <- Q in G2; discriminate. }
      rewrite IC in *. cbn in VD, VD2.
      inversion TR2 as [k0' delpre' fn' dts' F1 F2 F3 P1 P2|k' wits' cuts' adds' fn' dts' F1 F2 F3 F4 F5 F6 F7 F8 P1 P2|k' fn' dts' F1 F2 F3 F4 F5 F6 F7 P1 P2]; subst ko2 k2'; rewrite PM in F1; rewrite F1 in AK; try discriminate.
      assert (k0' = k0) by (rewrite G3 in F3; apply ok_inj in F3; auto). subst k0'.
      specialize (DP eq_refl). specialize (DP2 eq_refl). cbn in DP, DP2, FN, FN2. unfold undated. cbn. rewrite DP, DP2, FN, FN2, VD, VD2. reflexivity.
    + destruct (kget d2 x2 p) as [k2|] eqn:KG2; [|discriminate]. cbn [option_map] in AK. apply sm_inj in AK.
      inversion TR2 as [k0' delpre' fn' dts' F1 F2 F3 P1 P2|k3 wits' cuts' adds' fn' dts' F1 F2 F3 F4 F5 F6 F7 F8 P1 P2|k3 fn' dts' F1 F2 F3 F4 F5 F6 F7 P1 P2]; subst ko2 k2'; rewrite PM in F1; [rewrite F1 in KG2; discriminate| |].
      2:{ rewrite F4 in G4. discriminate. }
      assert (k3 = k2) by (rewrite F1 in KG2; apply sm_inj in KG2; exact KG2). subst k3.
      rewrite (rotate_same E H d x d2 x2 p k k2 (m_evt m) (s_inv _ _ _ _ S) (s_inv _ _ _ _ S2) PM AL AK), G8 in F8.
      apply ok_inj in F8. injection F8 as <- <- <-.
      pose proof (f_equal k_pre AK) as U1. pose proof (f_equal k_estOnly AK) as U2. pose proof (f_equal k_dnd AK) as U3. pose proof (f_equal k_delpre AK) as U4.
      cbn in U1, U2, U3, U4, FN, FN2. unfold undated. cbn. rewrite U1, U2, U3, U4, FN, FN2. reflexivity.
    + destruct (kget d2 x2 p) as [k2|] eqn:KG2; [|discriminate]. cbn [option_map] in AK. apply sm_inj in AK.
      inversion TR2 as [k0' delpre' fn' dts' F1 F2 F3 P1 P2|k3 wits' cuts' adds' fn' dts' F1 F2 F3 F4 F5 F6 F7 F8 P1 P2|k3 fn' dts' F1 F2 F3 F4 F5 F6 F7 P1 P2]; subst ko2 k2'; rewrite PM in F1; [rewrite F1 in KG2; discriminate| |].
      1:{ rewrite G4 in F4. discriminate. }
      assert (k3 = k2) by (rewrite F1 in KG2; apply sm_inj in KG2; exact KG2). subst k3.
      pose proof (f_equal k_pre AK) as U1. pose proof (f_equal k_estOnly AK) as U2. pose proof (f_equal k_dnd AK) as U3. pose proof (f_equal k_delpre AK) as U4.
      pose proof (f_equal k_tholder AK) as U5. pose proof (f_equal k_keys AK) as U6. pose proof (f_equal k_ndigs AK) as U7. pose proof (f_equal k_nt AK) as U8.
      pose proof (f_equal k_toad AK) as U9. pose proof (f_equal k_wits AK) as U10. pose proof (f_equal k_cuts AK) as U11. pose proof (f_equal k_adds AK) as U12.
      pose proof (f_equal k_lastS AK) as U13. pose proof (f_equal k_lastD AK) as U14.
      cbn in U1, U2, U3, U4, U5, U6, U7, U8, U9, U10, U11, U12, U13, U14, FN, FN2. unfold undated. cbn.
      rewrite U1, U2, U3, U4, U5, U6, U7, U8, U9, U10, U11, U12, U13, U14, FN, FN2. reflexivity.
  - cbn [fst]. rewrite (a_kels _ _ _ _ _ _ _ _ _ _ _ _ _ _ A), (a_kels _ _ _ _ _ _ _ _ _ _ _ _ _ _ A2), XE, PM, !fset_same, AL. reflexivity.
  - cbn [fst]. rewrite (a_fels _ _ _ _ _ _ _ _ _ _ _ _ _ _ A), (a_fels _ _ _ _ _ _ _ _ _ _ _ _ _ _ A2), XE, PM, !fset_same, AF. reflexivity.
Qed.

(** the messages for the accepted events [l] of [f] *)
Definition arr (f : db) (p : N) (s : N) (m : msg) : Prop :=
  evts (snd f) p s = Some (m_evt m) /\ incl (getSigs (snd f) p s) (m_sigers m) /\ incl (getWigs (snd f) p s) (m_wigers m) /\
  exists R, readable R m.

Lemma skipn_app_le : forall A n (l l' : list A), (n <= List.length l)%nat -> skipn n (l ++ l') = skipn n l ++ l'.
Proof. intros A n l l' L. rewrite skipn_app. replace (n - List.length l)%nat with 0%nat by lia. reflexivity. Qed.

Lemma Forall2_snoc : forall A B (R : A -> B -> Prop) l a m, Forall2 R (l ++ [a]) m ->
  exists m0 b, m = m0 ++ [b] /\ Forall2 R l m0 /\ R a b.
Proof.
  intros A B R l a m X. apply Forall2_app_inv_l in X. destruct X as (m0 & m1 & F1 & F2 & ->).
  inversion F2 as [|? b ? m2 R0 F3]; subst. inversion F3; subst. eauto.
Qed.

Lemma replays : forall E H cf cf' p f, world H -> sane H -> undelegated f p -> bystander cf f p -> bystander cf' f p ->
  forall a b, psts E H cf a b -> sinv E H (fst a) (snd a) -> wnamed p a ->
  forall r0, sinv E H (fst r0) (snd r0) -> agree p r0 a -> more b f ->
  forall ms, Forall2 (arr f p) (skipn (List.length (fels (fst a) p)) (fels (fst b) p)) ms ->
  agree p (run E cf' (map Deliver ms) r0) b /\ sinv E H (fst (run E cf' (map Deliver ms) r0)) (snd (run E cf' (map Deliver ms) r0)) /\ wnamed p b.
Proof.
  intros E H cf cf' p f W SN UN BY BY' a b P S WN r0 SR AG. induction P as [a|a b c P IH Q]; intros MF ms FA.
  - rewrite skipn_all in FA. inversion FA; subst. cbn. auto.
  - specialize (IH S WN AG). pose proof (more_pst _ _ _ _ _ W Q) as MQ. pose proof (more_psts _ _ _ _ _ W P) as MP.
    pose proof (sinv_psts _ _ _ _ _ W SN S P) as SB.
    assert (MB : more b f) by (eapply more_trans; eassumption). specialize (IH MB).
    assert (LE : (List.length (fels (fst a) p) <= List.length (fels (fst b) p))%nat).
    { destruct (mo_fels _ _ MP p) as (l & ->). rewrite app_length. lia. }
    assert (QUIET : fels (fst c) p = fels (fst b) p ->
      agree p (run E cf' (map Deliver ms) r0) c /\ sinv E H (fst (run E cf' (map Deliver ms) r0)) (snd (run E cf' (map Deliver ms) r0)) /\ wnamed p c).
    { intros FQ. rewrite FQ in FA. destruct (IH ms FA) as (I1 & I2 & I3). pose proof (quiet_agree _ _ _ p _ _ W SN SB Q FQ) as QA.
      split; [eapply agree_trans; [exact I1|apply agree_sym; exact QA]|]. split; [exact I2|].
      intros k KS. destruct QA as (QK & _). rewrite KS in QK. destruct (keyState b p) as [kb|] eqn:KB; [|discriminate].
      cbn [option_map] in QK. apply sm_inj in QK. pose proof (f_equal k_wits QK) as QW. cbn in QW. rewrite QW.
      eapply named_more; [exact MQ|]. apply I3. exact KB. }
    inversion Q as [m dx R|d x x' Q1 Q2 Q3 Q4|dx]; subst; [|apply QUIET; reflexivity|apply QUIET; destruct b; reflexivity].
    destruct b as [d x]. destruct (processEvent E cf m (d, x)) as [[d' x'] r] eqn:X. cbn [fst snd] in *.
    pose proof X as X0. apply process_inv in X. destruct X as [(_ & (_ & _ & A3 & _) & _)|(ko & k' & sg & wg & dp & cpl & A)].
    { apply QUIET. rewrite A3. reflexivity. }
    destruct (N.eq_dec p (e_pre (m_evt m))) as [PM|NP].
    2:{ apply QUIET. rewrite (a_fels _ _ _ _ _ _ _ _ _ _ _ _ _ _ A), fset_other by auto. reflexivity. }
    clear QUIET. symmetry in PM.
    assert (FE : fels d' p = fels d p ++ [e_said (m_evt m)]) by (rewrite (a_fels _ _ _ _ _ _ _ _ _ _ _ _ _ _ A), PM, fset_same; reflexivity).
    rewrite FE, skipn_app_le in FA by exact LE. apply Forall2_snoc in FA. destruct FA as (ms0 & m2 & -> & FA & (R1 & R2 & R3 & (RR & R4))).
    destruct (IH ms0 FA) as (I1 & I2 & I3). rewrite map_app, run_app. cbn [map].
    set (r1 := run E cf' (map Deliver ms0) r0) in *. clearbody r1. destruct r1 as [d2 x2]. cbn [fst snd] in *.
    assert (VP : validPre E p = true).
    { destruct (validPre E p) eqn:VP; [reflexivity|]. exfalso. unfold processEvent in X0. cbv zeta in X0. rewrite PM, VP in X0. cbn [negb] in X0.
      injection X0 as <- <- <-. apply (f_equal (@List.length N)) in FE. rewrite app_length in FE. cbn in FE. lia. }
    assert (XE : m_evt m2 = m_evt m).
    { destruct (accept_sinv _ _ _ _ _ _ _ _ _ _ _ _ _ _ _ W SN SB R A) as (S' & _).
      destruct (a_evt _ _ _ _ _ _ _ _ _ _ _ _ _ _ A) as (e' & AE). rewrite PM in AE.
      destruct (i_ev _ _ _ _ (s_inv _ _ _ _ S') _ _ _ AE) as [HE _]. apply (mo_evts _ _ MF) in AE. cbn [snd] in AE. unfold real in R. congruence. }
    assert (ISG : incl sg (m_sigers m2)).
    { eapply incl_tran; [|exact R2]. pose proof (a_sigs _ _ _ _ _ _ _ _ _ _ _ _ _ _ A) as Z. rewrite PM in Z.
      eapply incl_tran; [exact Z|]. apply (mo_sigs _ _ MF). }
    assert (IWG : incl wg (m_wigers m2)).
    { eapply incl_tran; [|exact R3]. pose proof (a_wigs _ _ _ _ _ _ _ _ _ _ _ _ _ _ A) as Z. rewrite PM in Z.
      eapply incl_tran; [exact Z|]. apply (mo_wigs _ _ MF). }
    destruct (next_replayed E H cf cf' p f W SN UN BY BY' RR d x d' x' d2 x2 m m2 r ko k' sg wg dp cpl SB I2 I1 I3 A R PM VP MB MF XE ISG IWG R4) as [GROW WN'].
    assert (PM2 : e_pre (m_evt m2) = p) by (rewrite XE; exact PM).
    destruct (fels_step E cf' m2 (d2, x2) p PM2) as [F|(F & d3 & x3 & r3 & ko2 & k2' & sg2 & wg2 & dp2 & cpl2 & PE & A2)].
    { exfalso. cbn [step fst] in F. rewrite GROW in F. apply (f_equal (@List.length N)) in F. rewrite app_length in F. cbn in F. lia. }
    change (run E cf' [Deliver m2] (d2, x2)) with (fst (processEvent E cf' m2 (d2, x2))). rewrite PE. cbn [fst snd] in *.
    assert (IL : In (e_ilk (m_evt m)) [Icp; Rot; Ixn]).
    { apply UN. apply (accepted_more (d', x')); [exact MF|]. split; cbn [fst snd].
      - rewrite FE. apply in_app_iff. right. cbn. auto.
      - destruct (accept_sinv _ _ _ _ _ _ _ _ _ _ _ _ _ _ _ W SN SB R A) as (S' & _).
        destruct (a_evt _ _ _ _ _ _ _ _ _ _ _ _ _ _ A) as (e' & AE). rewrite PM in AE.
        destruct (i_ev _ _ _ _ (s_inv _ _ _ _ S') _ _ _ AE) as [HE _]. unfold real in R. rewrite AE. congruence. }
    split; [exact (both_accept E H cf cf' p d x d' x' d2 x2 d3 x3 m m2 r ko k' sg wg dp cpl r3 ko2 k2' sg2 wg2 dp2 cpl2 W SN SB I2 I1 R PM XE IL A A2)|]. split; [|exact WN'].
    assert (RE2 : real H (m_evt m2)) by (rewrite XE; exact R).
    apply (accept_sinv _ _ _ _ _ _ _ _ _ _ _ _ _ _ _ W SN I2 RE2 A2).
Qed.

(** ** Every accepted event has a signature *)
Definition signeds (dx : db) : Prop := forall p s, In s (fels (fst dx) p) -> getSigs (snd dx) p s <> [].
Lemma signeds_psts : forall E H cf a b, world H -> psts E H cf a b -> signeds a -> signeds b.
Proof.
  intros E H cf a b W P D. induction P as [|a b c P IH Q]; [exact D|]. specialize (IH D).
  pose proof (more_pst _ _ _ _ _ W Q) as M.
  assert (OLD : forall p s, In s (fels (fst b) p) -> getSigs (snd c) p s <> []).
  { intros p s I Z. pose proof (mo_sigs _ _ M p s) as IN. rewrite Z in IN. apply incl_l_nil in IN. exact (IH _ _ I IN). }
  intros p s I. inversion Q as [m dx R|d x x' Q1 Q2 Q3 Q4|dx]; subst.
  - destruct b as [d x]. destruct (processEvent E cf m (d, x)) as [[d' x'] r] eqn:X. cbn [fst snd] in *.
    apply process_inv in X. destruct X as [(_ & (_ & _ & F & _) & _)|(ko & k' & sg & wg & dp & cpl & A)].
    + rewrite F in I. apply OLD. exact I.
    + rewrite (a_fels _ _ _ _ _ _ _ _ _ _ _ _ _ _ A) in I. unfold fset in I. destruct (p =? e_pre (m_evt m)) eqn:PE; [|apply OLD; exact I].
      apply N.eqb_eq in PE. subst p. apply in_app_iff in I. destruct I as [I|[<-|[]]]; [apply OLD; exact I|].
      intros Z. pose proof (a_sigs _ _ _ _ _ _ _ _ _ _ _ _ _ _ A) as IN. rewrite Z in IN. apply incl_l_nil in IN.
      exact (v_some _ _ _ _ _ _ _ _ _ _ _ _ _ _ _ _ _ (a_valid _ _ _ _ _ _ _ _ _ _ _ _ _ _ A) IN).
  - apply OLD. exact I.
  - destruct b as [d x]. apply OLD. exact I.
Qed.

Definition rowless (dx : db) : Prop := forall p, fels (fst dx) p = [] -> kels (fst dx) p = [].
Lemma rowless_psts : forall E H cf a b, world H -> inv E H (fst a) (snd a) -> psts E H cf a b -> rowless a -> rowless b.
Proof.
  intros E H cf a b W I0 P D. induction P as [|a b c P IH Q]; [exact D|]. specialize (IH I0 D).
  assert (IB : inv E H (fst b) (snd b)) by (eapply psts_micros; eauto).
  inversion Q as [m dx R|d x x' Q1 Q2 Q3 Q4|dx]; subst.
  - destruct b as [d x]. destruct (processEvent E cf m (d, x)) as [[d' x'] r] eqn:X. intros p I. cbn [fst snd] in *.
    apply process_inv in X. destruct X as [(_ & _ & SA)|(ko & k' & sg & wg & dp & cpl & A)].
    + destruct (SA (inv_said_ok _ _ _ _ W IB)) as (K & F & _). rewrite F in I. rewrite K. apply IH. exact I.
    + rewrite (a_fels _ _ _ _ _ _ _ _ _ _ _ _ _ _ A) in I. rewrite (a_kels _ _ _ _ _ _ _ _ _ _ _ _ _ _ A). unfold fset in *.
      destruct (p =? e_pre (m_evt m)) eqn:PE; [|apply IH; exact I]. destruct (fels d (e_pre (m_evt m))); discriminate.
  - exact IH.
  - destruct b as [d x]. exact IH.
Qed.

Lemma reach_all : forall E H cf dx, world H -> reachable E H cf dx ->
  psts E H cf db0 dx /\ inv E H (fst dx) (snd dx) /\ dates dx /\ signeds dx.
Proof.
  intros E H cf dx W (ops & RO & ->). pose proof (pst_run E H cf ops db0 W (inv0 E H) RO) as P.
  split; [exact P|]. split; [eapply psts_micros; eauto; apply (inv0 E H)|].
  split; [eapply dates_psts; eauto; intros p s []|eapply signeds_psts; eauto; intros p s []].
Qed.
Lemma reach_sinv' : forall E H cf dx, world H -> sane H -> reachable E H cf dx -> sinv E H (fst dx) (snd dx).
Proof.
  intros E H cf dx W SN R. destruct (reach_all _ _ _ _ W R) as (P & _). eapply sinv_psts; eauto. apply sinv0.
Qed.

(** ** What is cloned *)
Lemma clone_some : forall E H d x p fn s, inv E H d x -> dates (d, x) -> signeds (d, x) -> In s (fels d p) ->
  exists e dt, evts x p s = Some e /\ e_said e = s /\ real H e /\ e_pre e = p /\ dtss x p s = Some dt /\
    cloneEvtMsg (d, x) p fn s = Some (mkClone e (getSigs x p s) (getWigs x p s) (aess x p s) fn dt).
Proof.
  intros E H d x p fn s I D S IN. destruct (in_log _ _ _ _ _ _ I IN) as (e & EV & SD & RE & PE).
  pose proof (D p s IN) as DT. pose proof (S p s IN) as SG. cbn [snd] in DT, SG. destruct (dtss x p s) as [dt|] eqn:DD; [|congruence].
  exists e, dt. split; [exact EV|]. split; [exact SD|]. split; [exact RE|]. split; [exact PE|]. split; [reflexivity|].
  unfold cloneEvtMsg. cbn [snd]. rewrite EV, DD. destruct (getSigs x p s); [congruence|reflexivity].
Qed.

Lemma numbered_nth : forall l n i, nth_error (numbered n l) i = option_map (fun s => (n + N.of_nat i, s)) (nth_error l i).
Proof.
  induction l as [|s l IH]; intros n [|i]; cbn [numbered nth_error option_map]; try reflexivity.
  - rewrite N.add_0_r. reflexivity.
  - rewrite IH. destruct (nth_error l i); cbn [option_map]; [|reflexivity]. do 2 f_equal. lia.
Qed.
Lemma numbered_len : forall l n, List.length (numbered n l) = List.length l.
Proof. induction l as [|s l IH]; intros n; cbn; [reflexivity|]. rewrite IH. reflexivity. Qed.

Lemma flat_all : forall A B (g : A -> option B) (l : list A), (forall a, In a l -> exists b, g a = Some b) ->
  List.length (flat_map (fun a => match g a with Some b => [b] | None => [] end) l) = List.length l /\
  forall i a, nth_error l i = Some a -> nth_error (flat_map (fun a => match g a with Some b => [b] | None => [] end) l) i = g a.
Proof.
  intros A B g l. induction l as [|a l IH]; intros X; cbn [flat_map].
  - split; [reflexivity|]. intros [|i] a; discriminate.
  - destruct (X a (or_introl eq_refl)) as (b & GB). rewrite GB. destruct IH as [L N0]; [intros; apply X; cbn; auto|].
    cbn [app List.length]. split; [rewrite L; reflexivity|]. intros [|i] c; cbn [nth_error]; [|apply N0].
    intros Q. injection Q as <-. symmetry. exact GB.
Qed.

Lemma skipn_nth : forall A n (l : list A) i, nth_error (skipn n l) i = nth_error l (n + i).
Proof. induction n as [|n IH]; intros [|a l] i; cbn; auto. destruct i; reflexivity. Qed.

Lemma clonePre_all : forall E H cf dx p fn, world H -> reachable E H cf dx ->
  List.length (clonePre dx p fn) = (List.length (fels (fst dx) p) - N.to_nat fn)%nat /\
  forall i s, nth_error (fels (fst dx) p) (N.to_nat fn + i) = Some s ->
    exists e dt, evts (snd dx) p s = Some e /\ e_said e = s /\ real H e /\ e_pre e = p /\ dtss (snd dx) p s = Some dt /\
      nth_error (clonePre dx p fn) i = Some (mkClone e (getSigs (snd dx) p s) (getWigs (snd dx) p s) (aess (snd dx) p s) (fn + N.of_nat i) dt).
Proof.
  intros E H cf [d x] p fn W R. destruct (reach_all _ _ _ _ W R) as (_ & I & D & S). cbn [fst snd] in *.
  unfold clonePre, felsFrom. cbn [fst].
  set (l := skipn (N.to_nat fn) (fels d p)).
  destruct (flat_all _ _ (fun r => cloneEvtMsg (d, x) p (fst r) (snd r)) (numbered fn l)) as [L N0].
  { intros r IR. apply In_nth_error in IR. destruct IR as (i & NI). rewrite numbered_nth in NI. subst l. rewrite skipn_nth in NI.
    destruct (nth_error (fels d p) (N.to_nat fn + i)) as [s|] eqn:NS; [|discriminate]. cbn [option_map] in NI. injection NI as <-.
    apply nth_error_In in NS. destruct (clone_some _ _ _ _ p (fn + N.of_nat i) _ I D S NS) as (e & dt & _ & _ & _ & _ & _ & C). cbn [fst snd]. eauto. }
  split; [rewrite L, numbered_len; subst l; apply skipn_length|].
  intros i s NS. pose proof (nth_error_In _ _ NS) as IS.
  destruct (clone_some _ _ _ _ p (fn + N.of_nat i) _ I D S IS) as (e & dt & A1 & A2 & A3 & A4 & A5 & C).
  exists e, dt. split; [exact A1|]. split; [exact A2|]. split; [exact A3|]. split; [exact A4|]. split; [exact A5|].
  rewrite (N0 i (fn + N.of_nat i, s)); [exact C|]. rewrite numbered_nth. subst l. rewrite skipn_nth, NS. reflexivity.
Qed.

Lemma readable_of : forall m, (forall g g', In g (m_sigers m ++ m_wigers m) -> In g' (m_sigers m ++ m_wigers m) -> sg_qb64 g = sg_qb64 g' -> g = g') ->
  exists R, readable R m.
Proof.
  intros m D. exists (fun q => find (fun g => beq (sg_qb64 g) q) (m_sigers m ++ m_wigers m)).
  intros g I. destruct (find (fun g0 => beq (sg_qb64 g0) (sg_qb64 g)) (m_sigers m ++ m_wigers m)) as [g'|] eqn:F.
  - apply find_some in F. destruct F as [F1 F2]. apply beq_eq in F2. f_equal. apply D; auto.
  - exfalso. apply (find_none _ _ F) in I. rewrite beq_refl in I. discriminate.
Qed.

Lemma nth_Forall2 : forall A B (R : A -> B -> Prop) (l : list A) (l' : list B), List.length l = List.length l' ->
  (forall i a b, nth_error l i = Some a -> nth_error l' i = Some b -> R a b) -> Forall2 R l l'.
Proof.
  induction l as [|a l IH]; intros [|b l'] L X; cbn in L; try discriminate; constructor.
  - apply (X 0%nat); reflexivity.
  - apply IH; [congruence|]. intros i u v U V. apply (X (Datatypes.S i)); assumption.
Qed.
Lemma Forall2_nth : forall A B (R : A -> B -> Prop) (l : list A) (l' : list B), Forall2 R l l' ->
  forall i a b, nth_error l i = Some a -> nth_error l' i = Some b -> R a b.
Proof. intros A B R l l' F. induction F; intros [|i] u v U V; try discriminate; [cbn in *; congruence|cbn in *; eauto]. Qed.
Lemma Forall2_len : forall A B (R : A -> B -> Prop) (l : list A) (l' : list B), Forall2 R l l' -> List.length l = List.length l'.
Proof. intros A B R l l' F. induction F; cbn; congruence. Qed.

Lemma arr_clones : forall E H cf dx p fn ms, world H -> reachable E H cf dx -> texts_differ dx p ->
  Forall2 arrives (clonePre dx p fn) ms -> Forall2 (arr dx p) (skipn (N.to_nat fn) (fels (fst dx) p)) ms.
Proof.
  intros E H cf dx p fn ms W R TD F. destruct (clonePre_all _ _ _ _ p fn W R) as [L N0].
  apply nth_Forall2; [rewrite skipn_length, <- L; eapply Forall2_len; exact F|].
  intros i s m NS NM. rewrite skipn_nth in NS. destruct (N0 i s NS) as (e & dt & A1 & A2 & A3 & A4 & A5 & A6).
  destruct (Forall2_nth _ _ _ _ _ F _ _ _ A6 NM) as (cl & lo & ea & now & ->).
  unfold arr, received. cbn [m_evt m_sigers m_wigers cl_evt cl_sigers cl_wigers]. split; [exact A1|]. split; [apply incl_refl|]. split; [apply incl_refl|].
  apply readable_of. cbn [m_sigers m_wigers cl_sigers cl_wigers]. intros g g'. apply TD. eapply nth_error_In. exact NS.
Qed.
Lemma some_clones : forall (l : list clone), exists ms, Forall2 arrives l ms.
Proof.
  induction l as [|c l (ms & F)]; [exists []; constructor|]. exists (received false false false 0 c :: ms). constructor; [|exact F].
  exists false, false, false, 0. reflexivity.
Qed.

Lemma replay_from : forall E H cf cf' dx dx' p ops dy ms, world H -> sane H -> reachable E H cf dx -> Forall (real_op H) ops ->
  dx' = run E cf ops dx -> undelegated dx' p -> bystander cf dx' p -> bystander cf' dx' p -> texts_differ dx' p ->
  sinv E H (fst dy) (snd dy) -> agree p dy dx -> Forall2 arrives (clonePre dx' p (len (fels (fst dx) p))) ms ->
  agree p (run E cf' (map Deliver ms) dy) dx' /\
  sinv E H (fst (run E cf' (map Deliver ms) dy)) (snd (run E cf' (map Deliver ms) dy)).
Proof.
  intros E H cf cf' dx dx' p ops dy ms W SN R RO -> UN BY BY' TD SY AG F.
  pose proof R as (ops0 & RO0 & E0).
  assert (R' : reachable E H cf (run E cf ops dx)).
  { exists (ops0 ++ ops). split; [apply Forall_app; auto|]. rewrite run_app, <- E0. reflexivity. }
  destruct (reach_all _ _ _ _ W R) as (P & I & _).
  assert (P' : psts E H cf dx (run E cf ops dx)) by (apply pst_run; auto).
  set (f := run E cf ops dx) in *.
  pose proof (more_psts _ _ _ _ _ W P') as MF.
  assert (WN : wnamed p dx).
  { destruct (mo_fels _ _ MF p) as (l & FL).
    destruct (some_clones (clonePre f p 0)) as (ms0 & F0). apply (arr_clones _ _ _ _ _ _ _ W R' TD) in F0. cbn [N.to_nat skipn] in F0.
    rewrite FL in F0. apply Forall2_app_inv_l in F0. destruct F0 as (m1 & m2 & F1 & _ & _).
    destruct (replays E H cf cf' p f W SN UN BY BY' db0 dx P (sinv0 E H)) with (r0 := db0) (ms := m1) as (_ & _ & Q); auto.
    - intros k Q. discriminate.
    - apply sinv0.
    - apply agree_refl. }
  apply (arr_clones _ _ _ _ _ _ _ W R' TD) in F.
  destruct (replays E H cf cf' p f W SN UN BY BY' dx f P' (reach_sinv' _ _ _ _ W SN R) WN dy SY AG (more_refl f) ms) as (A & B & _); auto.
  unfold len in F. rewrite Nat2N.id in F. exact F.
Qed.

(** ** Cleaning *)
Lemma step_other : forall E H cf p m dx, world H -> sane H -> sinv E H (fst dx) (snd dx) -> real H (m_evt m) -> e_pre (m_evt m) <> p ->
  agree p (step E cf (Deliver m) dx) dx /\ sinv E H (fst (step E cf (Deliver m) dx)) (snd (step E cf (Deliver m) dx)).
Proof.
  intros E H cf p m dx W SN S RE NP. cbn [step].
  pose proof (p_proc E H cf m dx RE) as P. split; [|eapply sinv_psts; eauto; apply ps_one; exact P].
  eapply quiet_agree; eauto. destruct dx as [d x]. destruct (processEvent E cf m (d, x)) as [[d' x'] r] eqn:X. cbn [fst snd] in *.
  apply process_inv in X. destruct X as [(_ & (_ & _ & F & _) & _)|(ko & k' & sg & wg & dp & cpl & A)]; [rewrite F; reflexivity|].
  rewrite (a_fels _ _ _ _ _ _ _ _ _ _ _ _ _ _ A), fset_other by auto. reflexivity.
Qed.
Lemma run_other : forall E H cf p ms dx, world H -> sane H -> sinv E H (fst dx) (snd dx) ->
  (forall m, In m ms -> real H (m_evt m) /\ e_pre (m_evt m) <> p) ->
  agree p (run E cf (map Deliver ms) dx) dx /\ sinv E H (fst (run E cf (map Deliver ms) dx)) (snd (run E cf (map Deliver ms) dx)).
Proof.
  intros E H cf p ms. induction ms as [|m ms IH]; intros dx W SN S X; [split; [apply agree_refl|exact S]|].
  cbn [map]. change (run E cf (Deliver m :: map Deliver ms) dx) with (run E cf (map Deliver ms) (step E cf (Deliver m) dx)).
  destruct (X m (or_introl eq_refl)) as [RE NP]. destruct (step_other E H cf p m dx W SN S RE NP) as [A1 S1].
  destruct (IH (step E cf (Deliver m) dx) W SN S1) as [A2 S2]; [intros; apply X; cbn; auto|].
  split; [eapply agree_trans; eassumption|exact S2].
Qed.

Lemma clones_of : forall E H cf dx p c, world H -> reachable E H cf dx -> In c (clonePre dx p 0) -> real H (cl_evt c) /\ e_pre (cl_evt c) = p.
Proof.
  intros E H cf dx p c W R I. destruct (clonePre_all _ _ _ _ p 0 W R) as [L N0]. apply In_nth_error in I. destruct I as (i & NI).
  pose proof (nth_error_len _ _ _ _ NI) as LI. rewrite L in LI. cbn in LI.
  destruct (nth_error (fels (fst dx) p) i) as [s|] eqn:NS; [|apply nth_error_None in NS; lia].
  destruct (N0 i s NS) as (e & dt & A1 & A2 & A3 & A4 & A5 & A6). rewrite NI in A6. injection A6 as ->. cbn. auto.
Qed.

Lemma clean_agree : forall E H cf dx p now ps, world H -> sane H -> reachable E H cf dx -> all_prefixes dx ps ->
  undelegated dx p -> bystander cf dx p -> texts_differ dx p -> agree p (snd (clean E cf now ps dx)) dx.
Proof.
  intros E H cf dx p now ps W SN R [ND AP] UN BY TD.
  assert (BN : bystander nobody dx p).
  { split; [intros []|]. split; [intros []|]. intros e w _ _ []. }
  pose proof (reach_sinv' _ _ _ _ W SN R) as SX.
  assert (CC : agree p (cleanCopy E now ps dx) dx /\ sinv E H (fst (cleanCopy E now ps dx)) (snd (cleanCopy E now ps dx))).
  { unfold cleanCopy. rewrite <- (map_map (received false false false now) Deliver).
    assert (OTH : forall l m, ~ In p l -> In m (map (received false false false now) (cloneAll dx l)) -> real H (m_evt m) /\ e_pre (m_evt m) <> p).
    { intros l m NI IM. apply in_map_iff in IM. destruct IM as (c & <- & IC). unfold cloneAll in IC. apply in_flat_map in IC.
      destruct IC as (q & IQ & IC). destruct (clones_of _ _ _ _ _ _ W R IC) as [RC PC]. cbn [received m_evt]. split; [exact RC|]. rewrite PC. intros ->. auto. }
    destruct (in_dec N.eq_dec p ps) as [IP|NP].
    - apply in_split in IP. destruct IP as (l1 & l2 & ->).
      apply NoDup_remove_2 in ND. rewrite in_app_iff in ND.
      assert (CA : cloneAll dx (l1 ++ p :: l2) = cloneAll dx l1 ++ clonePre dx p 0 ++ cloneAll dx l2).
      { unfold cloneAll. rewrite flat_map_app. reflexivity. }
      rewrite CA, !map_app, !run_app.
      destruct (run_other E H nobody p (map (received false false false now) (cloneAll dx l1)) db0 W SN (sinv0 E H)) as [A1 S1]; [intros m; apply OTH; tauto|].
      set (r1 := run E nobody _ db0) in *. clearbody r1.
      destruct R as (ops & RO & RX). pose proof (ex_intro _ ops (conj RO RX) : reachable E H cf dx) as R.
      destruct (replay_from E H cf nobody db0 dx p ops r1 (map (received false false false now) (clonePre dx p 0)) W SN) as [A2 S2].
      { exists []. split; [constructor|reflexivity]. } { exact RO. } { exact RX. } { exact UN. } { exact BY. } { exact BN. } { exact TD. } { exact S1. } { exact A1. }
      { change (len (fels (fst db0) p)) with 0. generalize (clonePre dx p 0). intros l. induction l; cbn [map]; constructor; auto.
        exists false, false, false, now. reflexivity. }
      set (r2 := run E nobody _ r1) in *. clearbody r2.
      destruct (run_other E H nobody p (map (received false false false now) (cloneAll dx l2)) r2 W SN S2) as [A3 S3]; [intros m; apply OTH; tauto|].
      split; [eapply agree_trans; eassumption|exact S3].
    - destruct (run_other E H nobody p (map (received false false false now) (cloneAll dx ps)) db0 W SN (sinv0 E H)) as [A1 S1]; [intros m; apply OTH; exact NP|].
      split; [|exact S1]. eapply agree_trans; [exact A1|]. apply agree_sym.
      assert (FN : fels (fst dx) p = []). { destruct (fels (fst dx) p) eqn:FE; [reflexivity|]. exfalso. apply NP. apply AP. rewrite FE. discriminate. }
      destruct dx as [d x]. cbn [fst snd] in *. destruct (sinv_kget _ _ _ _ p W SX) as [(K & F & _)|(k & K & G)].
      + unfold agree, keyState. cbn [fst snd]. rewrite K, FN. split; [reflexivity|]. split; [|reflexivity].
        destruct (reach_all _ _ _ _ W R) as (PP & _). pose proof (rowless_psts E H cf db0 _ W (inv0 E H) PP (fun _ _ => eq_refl) p FN) as KN. cbn [fst] in KN. rewrite KN. reflexivity.
      + exfalso. destruct G as (c & ee & l & G & _). apply g_chain in G. apply chain_hd in G. destruct G as (_ & G & _). rewrite FN in G. exact G. }
  destruct CC as [CA CS]. unfold clean. cbn [snd]. destruct (cleanCopy E now ps dx) as [d x]. destruct dx as [d0 x0]. cbn [putStates fst snd] in *.
  destruct CA as (A1 & A2 & A3). cbn [fst snd] in A2, A3. unfold agree. cbn [fst snd].
  split; [|split; assumption]. rewrite <- A1. f_equal. unfold keyState. cbn [fst snd].
  destruct (s_p _ _ _ _ CS p) as [(B1 & B2 & B3)|(k & st & G & B1 & B2 & B3)].
  - assert (S0 : states d0 p = None).
    { destruct (s_p _ _ _ _ SX p) as [(C1 & C2 & C3)|(k & st & G & C1 & C2 & C3)]; [exact C2|].
      exfalso. destruct G as (c & ee & l & G & _). apply g_chain in G. apply chain_hd in G. destruct G as (_ & G & _). rewrite <- A3, B1 in G. exact G. }
    unfold kget. cbn [kevers states set_states]. rewrite B2, B3, S0. reflexivity.
  - unfold kget. cbn [kevers states set_states]. rewrite B2. reflexivity.
Qed.

(** ** Dates in cloned mode *)
Definition dateOf (m : msg) : N := match m_dater m with Some t => t | None => m_now m end.
Lemma step_cases : forall E cf m dx, let dx' := step E cf (Deliver m) dx in let p := e_pre (m_evt m) in let s := e_said (m_evt m) in
  (fels (fst dx') p = fels (fst dx) p \/ (fels (fst dx') p = fels (fst dx) p ++ [s] /\ (isEst (e_ilk (m_evt m)) = true -> dtss (snd dx') p s = Some (dateOf m)))) /\
  (forall t, t <> s -> dtss (snd dx') p t = dtss (snd dx) p t).
Proof.
  intros E cf m [d x]. cbv zeta. cbn [step fst snd]. pose proof (process_onto E cf m d x) as [FR _]. pose proof (process_dated E cf m d x) as DT.
  destruct (processEvent E cf m (d, x)) as [[d' x'] r] eqn:X. cbn [fst snd] in *. split.
  - apply process_inv in X. destruct X as [(_ & (_ & _ & F & _) & _)|(ko & k' & sg & wg & dp & cpl & A)]; [left; rewrite F; reflexivity|].
    right. pose proof (a_fels _ _ _ _ _ _ _ _ _ _ _ _ _ _ A) as F. rewrite F, fset_same. split; [reflexivity|]. intros IE.
    destruct DT as [DT|(t & DT & Q)]; [|cbn [snd] in DT; rewrite DT; f_equal; exact (Q IE)].
    exfalso. cbn [fst] in DT. rewrite DT in F. pose proof (f_equal (fun f => f (e_pre (m_evt m))) F) as Z. cbv beta in Z. rewrite fset_same in Z.
    apply (f_equal (@List.length N)) in Z. rewrite app_length in Z. cbn in Z. lia.
  - intros t NT. apply (fr_dt _ _ _ _ _ FR). tauto.
Qed.
Lemma run_le : forall E cf p ms r, Forall (fun m => e_pre (m_evt m) = p) ms ->
  (List.length (fels (fst (run E cf (map Deliver ms) r)) p) <= List.length (fels (fst r) p) + List.length ms)%nat.
Proof.
  intros E cf p. induction ms as [|m ms IH]; intros r F; [cbn; lia|]. apply Forall_cons_iff in F. destruct F as [P F].
  cbn [map]. change (run E cf (Deliver m :: map Deliver ms) r) with (run E cf (map Deliver ms) (step E cf (Deliver m) r)).
  specialize (IH (step E cf (Deliver m) r) F). destruct (step_cases E cf m r) as [SC _]. rewrite P in SC.
  cbn [List.length]. destruct SC as [SC|[SC _]]; rewrite SC in IH; (eapply Nat.le_trans; [exact IH|]); [clear; lia|]. rewrite app_length. cbn. clear. lia.
Qed.
Lemma run_dt : forall E cf p t ms r, Forall (fun m => e_pre (m_evt m) = p /\ e_said (m_evt m) <> t) ms ->
  dtss (snd (run E cf (map Deliver ms) r)) p t = dtss (snd r) p t.
Proof.
  intros E cf p t. induction ms as [|m ms IH]; intros r F; [reflexivity|]. apply Forall_cons_iff in F. destruct F as [[P NT] F].
  cbn [map]. change (run E cf (Deliver m :: map Deliver ms) r) with (run E cf (map Deliver ms) (step E cf (Deliver m) r)).
  rewrite (IH _ F). destruct (step_cases E cf m r) as [_ SC]. rewrite P in SC. apply SC. auto.
Qed.
Lemma run_dates : forall E cf p ms r, Forall (fun m => e_pre (m_evt m) = p) ms -> NoDup (map (fun m => e_said (m_evt m)) ms) ->
  List.length (fels (fst (run E cf (map Deliver ms) r)) p) = (List.length (fels (fst r) p) + List.length ms)%nat ->
  forall m, In m ms -> isEst (e_ilk (m_evt m)) = true -> dtss (snd (run E cf (map Deliver ms) r)) p (e_said (m_evt m)) = Some (dateOf m).
Proof.
  intros E cf p. induction ms as [|m ms IH]; intros r F ND L m' IM IE; [destruct IM|]. apply Forall_cons_iff in F. destruct F as [P F].
  cbn [map] in *. change (run E cf (Deliver m :: map Deliver ms) r) with (run E cf (map Deliver ms) (step E cf (Deliver m) r)) in *.
  inversion ND as [|? ? NI ND']; subst. destruct (step_cases E cf m r) as [SC _]. set (r1 := step E cf (Deliver m) r) in *.
  pose proof (run_le E cf (e_pre (m_evt m)) ms r1 F) as LE. cbn [List.length] in L.
  destruct SC as [SC|[SC DT]]; rewrite SC in LE; [lia|].
  destruct IM as [<-|IM].
  - rewrite run_dt; [exact (DT IE)|]. rewrite Forall_forall in *. intros a IA. split; [exact (F a IA)|]. intros Q. apply NI. rewrite <- Q. apply in_map_iff. eauto.
  - apply IH; auto. rewrite L, SC, app_length. cbn. lia.
Qed.

Lemma undel_nodup : forall E H cf dx p, world H -> sane H -> reachable E H cf dx -> undelegated dx p -> NoDup (fels (fst dx) p).
Proof.
  intros E H cf [d x] p W SN (ops & RO & RX) UN.
  assert (NV : ninv E H d x).
  { change (ninv E H (fst (d, x)) (snd (d, x))). rewrite RX. apply ninv_run; assumption. }
  destruct NV as [S NI]. apply (t_nodup E H d x p). apply NI. intros i j ei ej LT NI1 NJ _ DR. exfalso.
  unfold seen in NJ. cbn [fst snd] in NJ. rewrite nth_error_map in NJ. destruct (nth_error (fels d p) j) as [s|] eqn:NS; [|discriminate]. cbn in NJ. injection NJ as NJ.
  destruct (in_log _ _ _ _ p s (s_inv _ _ _ _ S) (nth_error_In _ _ NS)) as (e & EV & SD & _). rewrite NJ in EV. injection EV as <-.
  destruct (UN ej) as [IN _]; [split; cbn [fst snd]; rewrite SD; [exact (nth_error_In _ _ NS)|exact NJ]|]. rewrite DR in IN. cbn in IN. intuition discriminate.
Qed.
