(** Key event logs: the rules set by an inception event, without any condition on thresholds *)
From Verif Require Import Prelude B64Model MatterModel SubsModel SubsThms ThModel ThSpec ThThms KelModel KelSpec KelProofs KelInv.
Ltac Zify.zify_post_hook ::= Z.div_mod_to_equations.
Open Scope N_scope.

Definition tight (e : evt) : Prop := len (e_ndigs e) < thsize (e_nt e).

(** The key state [k], whose log is [c], remembers what the inception event [r] said. *)
Definition rooted (k : kever) (c : list evt) (r : evt) : Prop :=
  last c (k_evt k) = r /\ k_estOnly k = e_estOnly r /\ k_delpre k = delegator r.

Definition phaseA (d : acc) (x : aux) (p : N) : Prop :=
  states d p = None /\ kevers d p = None /\
  forall s e, In s (fels d p) -> evts x p s = Some e -> isIncept (e_ilk e) = true /\ tight e.

Definition phaseB (E : env) (H : N -> option evt) (d : acc) (x : aux) (p : N) : Prop :=
  exists r, (forall k, kevers d p = Some k -> exists c ee, goodk E H d x p k c ee /\ rooted k c r) /\
    (exists st k c ee, states d p = Some st /\ goodk E H d x p k c ee /\ kstate k = Ok st /\ rooted k c r) /\
    (forall n s e c, klast (kels d p) n = Some s -> e_said e = s -> chain H d x p (e :: c) -> last c e = r).

Record linv (E : env) (H : N -> option evt) (d : acc) (x : aux) : Prop := mkLinv {
  l_inv : inv E H d x;
  l_p : forall p, phaseA d x p \/ phaseB E H d x p;
  l_law : forall p e c, chain H d x p (e :: c) -> lawful E (e :: c) }.

Lemma kstate_fits : forall E H d x p k c ee, world H -> goodk E H d x p k c ee ->
  (thsize (k_nt k) <= len (k_ndigs k) <-> exists st, kstate k = Ok st).
Proof.
  intros E H d x p k c ee W G. destruct (goodk_threshold _ _ _ _ _ _ _ _ W G) as [T1 T2].
  unfold kstate. rewrite (c12_sith_round_trip _ T1), (c12_sith_round_trip _ T2). cbn [bind].
  destruct G.
  replace (match k_tholder k with TNum n => n <? 1 | TWt _ => false end) with false
    by (destruct (k_tholder k) as [n|]; [symmetry; apply N.ltb_ge; assert (n <> 0) by congruence; lia|reflexivity]).
  rewrite (proj2 (N.ltb_ge _ _) g_size).
  rewrite (oset_id _ g_wits), (oset_id _ g_cuts), (oset_id _ g_adds), !N.eqb_refl. cbn [negb].
  assert (B : (if isnil (k_wits k) then negb (k_toad k =? 0) else (k_toad k <? 1) || (len (k_wits k) <? k_toad k)) = false).
  { unfold inbounds in g_in. destruct (k_wits k); cbn [isnil].
    - rewrite g_in. reflexivity.
    - apply orb_false_iff. split; apply N.ltb_ge; lia. }
  rewrite B. rewrite (proj2 (isnil_inter _ _) g_disj). cbn [negb].
  destruct (N.ltb_spec (len (k_ndigs k)) (thsize (k_nt k))) as [L|L]; split; intros Z; try lia; eauto.
  destruct Z as [st Z]. discriminate Z.
Qed.

Lemma linv_kget : forall E H d x p, world H -> linv E H d x ->
  (kget d x p = None /\ phaseA d x p) \/
  exists k c ee r, kget d x p = Some k /\ goodk E H d x p k c ee /\ rooted k c r /\
    (forall n s e c, klast (kels d p) n = Some s -> e_said e = s -> chain H d x p (e :: c) -> last c e = r) /\
    (exists st k0 c0 ee0, states d p = Some st /\ goodk E H d x p k0 c0 ee0 /\ kstate k0 = Ok st /\ rooted k0 c0 r).
Proof.
  intros E H d x p W L. destruct (l_p _ _ _ _ L p) as [A|(r & B1 & (st & k & c & ee & B2 & B3 & B4 & B5) & B6)].
  - left. split; [|exact A]. destruct A as (A1 & A2 & _). unfold kget. rewrite A1, A2. reflexivity.
  - right. unfold kget. destruct (kevers d p) as [k1|] eqn:KV.
    + destruct (B1 k1 eq_refl) as (c1 & ee1 & G1 & R1). exists k1, c1, ee1, r. split; [reflexivity|]. split; [exact G1|].
      split; [exact R1|]. split; [exact B6|]. exists st, k, c, ee. auto.
    + rewrite B2, (kstate_reload _ _ _ _ _ _ _ _ _ W B3 B4). exists (reloaded k), c, ee, r. split; [reflexivity|].
      split; [apply goodk_reloaded; exact B3|]. split; [exact B5|]. split; [exact B6|]. exists st, k, c, ee. auto.
Qed.

Lemma phase_grows : forall E H d x d' x' p, inv E H d x -> grows d x d' x' ->
  kels d' p = kels d p -> fels d' p = fels d p -> states d' p = states d p -> (kevers d' p = kevers d p \/ kevers d' p = None) ->
  phaseA d x p \/ phaseB E H d x p -> phaseA d' x' p \/ phaseB E H d' x' p.
Proof.
  intros E H d x d' x' p I GR K F ST KV [(A1 & A2 & A3)|(r & B1 & (st & k & c & ee & B2 & B3 & B4 & B5) & B6)].
  - left. split; [congruence|]. split; [destruct KV; congruence|]. rewrite F. intros s e Y1 Y2.
    eapply A3; [exact Y1|]. exact (inv_old _ _ _ _ _ _ _ _ I (proj1 (proj2 GR)) Y1 Y2).
  - right. exists r. split; [|split].
    + intros k0 Z. assert (Z' : kevers d p = Some k0) by (destruct KV; congruence).
      destruct (B1 _ Z') as (c0 & ee0 & G0 & R0). exists c0, ee0. split; [eapply goodk_grows; eauto|exact R0].
    + exists st, k, c, ee. split; [congruence|]. split; [eapply goodk_grows; eauto|]. auto.
    + intros n s e c0 Z1 Z2 Z3. rewrite K in Z1. pose proof (chain_hd _ _ _ _ _ _ Z3) as (_ & Z4 & _).
      eapply B6; [exact Z1|exact Z2|]. eapply chain_old; eauto; [|apply GR]. rewrite <- F. exact Z4.
Qed.

Lemma linv_same : forall E H d x d' x', linv E H d x -> same_acc d d' ->
  (forall p s a, evts x p s = Some a -> evts x' p s = Some a) ->
  (forall p s, incl (getSigs x p s) (getSigs x' p s)) -> inv E H d' x' -> linv E H d' x'.
Proof.
  intros E H d x d' x' L SA X1 X3 I'. pose proof (same_grows _ _ _ _ SA X1 X3) as GR.
  destruct SA as (A1 & A2 & A3 & A4 & A5 & A6). pose proof (l_inv _ _ _ _ L) as I. constructor; [exact I'| |].
  - intros p. apply (phase_grows E H d x); auto. apply (l_p _ _ _ _ L).
  - intros p e c C. pose proof (chain_hd _ _ _ _ _ _ C) as (_ & F & _). rewrite A2 in F.
    eapply l_law; [exact L|]. eapply chain_old; eauto.
Qed.

Lemma accept_linv : forall E H cf m d x d' x' r ko k' sg wg dp cpl, world H -> linv E H d x -> real H (m_evt m) ->
  accept E cf m d x d' x' r ko k' sg wg dp cpl -> linv E H d' x'.
Proof.
  intros E H cf m d x d' x' r ko k' sg wg dp cpl W L R A.
  pose proof (l_inv _ _ _ _ L) as I.
  pose proof (accept_inv _ _ _ _ _ _ _ _ _ _ _ _ _ _ _ W I R A) as I'.
  destruct (accept_attach _ _ _ _ _ _ _ _ _ _ _ _ _ _ _ W I R A) as (c & AT).
  destruct (accept_good _ _ _ _ _ _ _ _ _ _ _ _ _ _ _ _ W I R A AT) as (ee & GK & KE).
  destruct (accept_self _ _ _ _ _ _ _ _ _ _ _ _ _ _ _ W I R A) as (S1 & S2).
  pose proof (accept_grows _ _ _ _ _ _ _ _ _ _ _ _ _ _ A) as GR.
  pose proof (a_fels _ _ _ _ _ _ _ _ _ _ _ _ _ _ A) as AF.
  pose proof (a_kels _ _ _ _ _ _ _ _ _ _ _ _ _ _ A) as AK.
  destruct (tr_flags _ _ _ _ _ _ (a_tr _ _ _ _ _ _ _ _ _ _ _ _ _ _ A)) as (_ & TF).
  pose proof (g_pre _ _ _ _ _ _ _ _ GK) as KP.
  set (p := e_pre (m_evt m)) in *. set (s := e_said (m_evt m)) in *.
  assert (FP : fels d' p = fels d p ++ [s]) by (rewrite AF; apply fset_same).
  assert (KL : kels d' p = kadd (kels d p) (N.to_nat (e_sn (m_evt m))) s) by (rewrite AK; apply fset_same).
  assert (ONE : forall t e0 c0, e_said e0 = t -> chain H d' x' p (e0 :: c0) -> t = s -> e0 = m_evt m /\ c0 = c).
  { intros t e0 c0 Z1 Z2 Z3. pose proof (chain_hd _ _ _ _ _ _ Z2) as (_ & _ & Z4 & _).
    rewrite Z1, Z3, S1 in Z4. inv Z4. split; [reflexivity|]. eapply log_unique; [apply Z2|]. rewrite <- KE. apply GK. }
  (* the last digest at an sn *)
  assert (LAST : forall n t, klast (kels d' p) n = Some t -> t = s \/ klast (kels d p) n = Some t).
  { intros n t Z. rewrite KL in Z. destruct (N.eq_dec n (e_sn (m_evt m))) as [->|NE]; [|rewrite klast_add_other in Z by exact NE; auto].
    destruct (in_dec N.eq_dec s (krow (kels d p) (e_sn (m_evt m)))) as [IN|NI].
    - rewrite kadd_mem in Z by exact IN. auto.
    - rewrite klast_add in Z by exact NI. left. congruence. }
  assert (ROOT : phaseA d' x' p \/ (phaseB E H d' x' p /\ rooted k' c (last c (m_evt m)))).
  { destruct ko as [k|].
    - right. destruct TF as (T1 & T2 & T3 & T4 & T5 & T6 & T7 & T8 & T9).
      destruct (linv_kget _ _ _ _ p W L) as [(KG & _)|(k0 & ck & eek & ro & KG & Gk & (Rk1 & Rk2 & Rk3) & B6 & (st & k1 & c1 & ee1 & B2 & B3 & B4 & B5))];
        [fold p in T4; congruence|].
      assert (k0 = k) by (fold p in T4; congruence). subst k0.
      assert (RT : last c (m_evt m) = ro).
      { inversion AT; subst.
        - rewrite last_cons. match goal with G : goodk E H d x _ k ?c0 _ |- last ?c0 _ = _ =>
            assert (c0 = ck) by (eapply log_unique; [apply G|apply Gk]); subst c0 end. reflexivity.
        - rewrite last_cons. eapply B6; eauto. }
      assert (RK : rooted k' c ro) by (split; [rewrite KE; exact RT|split; congruence]).
      rewrite RT. split; [|exact RK].
      assert (KV : kevers d' p = Some k' /\ (states d' p = states d p \/ exists st, states d' p = Some st /\ kstate k' = Ok st)).
      { destruct (a_pin _ _ _ _ _ _ _ _ _ _ _ _ _ _ A) as [(_ & st' & Z2 & Z3 & Z4)|(ex & _ & _ & Z3 & Z4)]; rewrite Z3, Z4, KP, ?fset_same; eauto. }
      destruct KV as [KV SV]. exists ro. split; [|split].
      + intros k2 Z. rewrite KV in Z. inv Z. eauto.
      + destruct SV as [SV|(st2 & SV & SK)].
        * exists st, k1, c1, ee1. split; [congruence|]. split; [eapply goodk_grows; eauto|auto].
        * exists st2, k', c, ee. auto.
      + intros n t e0 c0 Z1 Z2 Z3. destruct (LAST _ _ Z1) as [Q|Q].
        * destruct (ONE _ _ _ Z2 Z3 Q) as [-> ->]. exact RT.
        * eapply B6; [exact Q|exact Z2|]. eapply chain_old; eauto; [|apply GR]. rewrite Z2. eapply i_kf; [exact I|]. apply klast_In. exact Q.
    - destruct TF as (T1 & T2 & T3 & T4 & T5).
      destruct (linv_kget _ _ _ _ p W L) as [(KG & (A1 & A2 & A3))|(k0 & ck & eek & ro & KG & _)]; [|fold p in T5; congruence].
      assert (c = []) by (inversion AT; reflexivity). subst c. cbn [last].
      assert (EE : ee = m_evt m).
      { pose proof (g_est _ _ _ _ _ _ _ _ GK) as GE. rewrite KE in GE. unfold est_of in GE. cbn [find] in GE.
        assert (IE : isEst (e_ilk (m_evt m)) = true) by (destruct (e_ilk (m_evt m)); (reflexivity || discriminate)).
        rewrite IE in GE. congruence. }
      pose proof (kstate_fits _ _ _ _ _ _ _ _ W GK) as FIT.
      rewrite (g_nt _ _ _ _ _ _ _ _ GK), (g_ndigs _ _ _ _ _ _ _ _ GK), EE in FIT.
      destruct (a_pin _ _ _ _ _ _ _ _ _ _ _ _ _ _ A) as [(_ & st' & Z2 & Z3 & Z4)|(ex & _ & Z2 & Z3 & Z4)].
      + right.
        assert (NW : forall t e0 c0, In t (fels d p) -> e_said e0 = t -> chain H d' x' p (e0 :: c0) -> tight e0 /\ t <> s).
        { intros t e0 c0 Y1 Y2 Y3. pose proof (chain_hd _ _ _ _ _ _ Y3) as (_ & _ & Y4 & _). rewrite Y2 in Y4.
          pose proof (inv_old _ _ _ _ _ _ _ _ I (proj1 (proj2 GR)) Y1 Y4) as Y5. destruct (A3 _ _ Y1 Y5) as [_ Y6].
          split; [exact Y6|]. intros ->. rewrite S1 in Y4. inv Y4. unfold tight in Y6.
          assert (X : thsize (e_nt (m_evt m)) <= len (e_ndigs (m_evt m))) by (apply FIT; eauto). lia. }
        assert (RK : rooted k' [] (m_evt m)).
        { split; [exact KE|]. split; [exact T1|].
          rewrite (a_delpre _ _ _ _ _ _ _ _ _ _ _ _ _ _ A eq_refl).
          pose proof (a_valid _ _ _ _ _ _ _ _ _ _ _ _ _ _ A) as V. cbn beta iota in V.
          rewrite (v_delpre _ _ _ _ _ _ _ _ _ _ _ _ _ _ _ _ _ V).
          unfold delegator. destruct (e_ilk (m_evt m)); try discriminate; auto. }
        split; [|exact RK]. exists (m_evt m). rewrite Z3, Z4, KP, !fset_same. split; [|split].
        * intros k2 Z. inv Z. eauto.
        * exists st', k', [], ee. auto.
        * intros n t e0 c0 Y1 Y2 Y3. destruct (LAST _ _ Y1) as [Q|Q].
          -- destruct (ONE _ _ _ Y2 Y3 Q) as [-> ->]. reflexivity.
          -- exfalso. pose proof (klast_In _ _ _ Q) as QI. destruct (i_kf _ _ _ _ I _ _ _ QI) as (QF & e1 & QE & QN).
             destruct (A3 _ _ QF QE) as [QI1 _].
             assert (n = 0). { destruct (i_fe _ _ _ _ I _ _ QF) as (e2 & c2 & ee2 & V1 & V2 & _).
               pose proof (chain_hd _ _ _ _ _ _ V2) as (_ & _ & V3 & _). rewrite V1, QE in V3. injection V3 as V3.
               rewrite <- QN, V3. rewrite V3 in QI1. destruct V2 as [V2 _]. inversion V2; subst; congruence. }
             clear QN. subst n. assert (E0 : e_sn (m_evt m) = 0) by (inversion AT; assumption).
             assert (NIs : ~ In s (krow (kels d p) 0)).
             { intros IN. destruct (i_kf _ _ _ _ I _ _ _ IN) as (IF & e3 & IE & _). rewrite E0 in *.
               assert (X : forall t, In t (fels d p) -> t <> s).
               { intros t0 IT. destruct (i_fe _ _ _ _ I' p t0) as (e4 & c4 & ee4 & V1 & V2 & _); [apply GR; exact IT|].
                 exact (proj2 (NW _ _ _ IT V1 V2)). }
               exact (X _ IF eq_refl). }
             rewrite KL in Y1. rewrite E0 in Y1. pose proof (klast_add (kels d p) 0 s NIs) as Y7. rewrite Y7 in Y1. injection Y1 as Y1.
             exact (proj2 (NW _ _ _ QF Y2 Y3) (eq_sym Y1)).
      + left. cbn beta iota in Z4. split; [rewrite Z3; exact A1|]. split; [rewrite Z4; exact A2|].
        intros t e0 Y1 Y2. rewrite FP in Y1. apply in_app_or in Y1. destruct Y1 as [Y1|[<-|[]]].
        * eapply A3; [exact Y1|]. exact (inv_old _ _ _ _ _ _ _ _ I (proj1 (proj2 GR)) Y1 Y2).
        * rewrite S1 in Y2. inv Y2. split; [exact T4|]. unfold tight.
          destruct (N.lt_ge_cases (len (e_ndigs (m_evt m))) (thsize (e_nt (m_evt m)))) as [Q|Q]; [exact Q|].
          apply FIT in Q. destruct Q as [st Q]. congruence. }
  constructor; [exact I'| |].
  - intros q. destruct (N.eq_dec q p) as [->|NE]; [destruct ROOT as [ROOT|[ROOT _]]; auto|].
    apply (phase_grows E H d x); auto.
    + rewrite AK. apply fset_other. exact NE.
    + rewrite AF. apply fset_other. exact NE.
    + destruct (a_pin _ _ _ _ _ _ _ _ _ _ _ _ _ _ A) as [(_ & st' & Z2 & Z3 & Z4)|(ex & _ & Z2 & Z3 & Z4)]; [|congruence].
      rewrite Z4, KP. apply fset_other. exact NE.
    + left. destruct (a_pin _ _ _ _ _ _ _ _ _ _ _ _ _ _ A) as [(_ & st' & Z2 & Z3 & Z4)|(ex & _ & Z2 & Z3 & Z4)].
      * rewrite Z3, KP. apply fset_other. exact NE.
      * rewrite Z4. destruct ko; [rewrite KP; apply fset_other; exact NE|reflexivity].
    + apply (l_p _ _ _ _ L).
  - intros q e0 c0 C. pose proof (chain_hd _ _ _ _ _ _ C) as (P1 & F & EV & _). rewrite AF in F.
    assert (OLD : In (e_said e0) (fels d q) -> lawful E (e0 :: c0)).
    { intros Z. eapply l_law; [exact L|]. eapply chain_old; eauto. apply GR. }
    destruct (fset_cases _ (fels d) p (fels d p ++ [s]) q) as [(-> & Z)|(_ & Z)]; rewrite Z in F; [|auto].
    apply in_app_or in F. destruct F as [F|[F|[]]]; [auto|].
    destruct (ONE _ _ _ (eq_sym F) C eq_refl) as [-> ->]. cbn [lawful]. split.
    + intros NN. destruct ko as [k|]; [|inversion AT; congruence].
      destruct TF as (T1 & T2 & T3 & T4 & T5 & T6 & T7 & T8 & T9).
      destruct ROOT as [(_ & ROOT & _)|[_ (_ & Rk2 & Rk3)]].
      { exfalso. destruct (a_pin _ _ _ _ _ _ _ _ _ _ _ _ _ _ A) as [(_ & st' & Z2 & Z3 & Z4)|(ex & _ & Z2 & Z3 & Z4)];
          rewrite ?Z3, ?Z4, KP, fset_same in ROOT; discriminate ROOT. }
      split.
      { unfold transferable in T5. destruct (k_ndigs k); [discriminate|]. rewrite T6 in T5. exact T5. }
      rewrite <- Rk2, <- Rk3, T1, T3. split; [|exact T8].
      intros EO. destruct T7 as [(R1 & _)|(_ & _ & R1)]; [apply isRot_facts; exact R1|congruence].
    + inversion AT; subst; [exact Logic.I| |].
      * eapply l_law; [exact L|]. eapply g_chain; eauto.
      * eapply l_law; [exact L|]. eauto.
Qed.

Lemma linv_restart : forall E H d x, linv E H d x -> linv E H (set_kevers (fun _ => None) d) x.
Proof.
  intros E H d x L. assert (GR : grows d x (set_kevers (fun _ => None) d) x).
  { split; [|split]; auto. intros. apply incl_refl. }
  constructor.
  - apply inv_restart. apply L.
  - intros p. apply (phase_grows E H d x); auto; apply L.
  - intros p e c C. apply (l_law _ _ _ _ L p). exact C.
Qed.

Lemma linv_micro : forall E H cf d x d' x', world H -> linv E H d x -> micro E H cf (d, x) (d', x') -> linv E H d' x'.
Proof.
  intros E H cf d x d' x' W L M. pose proof (inv_micro _ _ _ _ _ _ _ W (l_inv _ _ _ _ L) M) as I'.
  inversion M as [e0 d0 x0 d1 x1 R X SA|d0 x0 x1 Q1 Q2 Q3|m d0 x0 d1 x1 r ko k' sg wg dp cpl R A|d0 x0]; subst.
  - eapply linv_same; eauto; apply X.
  - eapply linv_same; eauto using same_acc_refl; unfold getSigs; intros; rewrite ?Q1, ?Q2; auto using incl_refl.
  - eapply accept_linv; eauto.
  - apply linv_restart. exact L.
Qed.
Lemma linv_micros : forall E H cf a b, world H -> linv E H (fst a) (snd a) -> micros E H cf a b -> linv E H (fst b) (snd b).
Proof.
  intros E H cf a b W L M. induction M; [exact L|]. destruct b as [d x], c as [d' x'].
  eapply linv_micro; [exact W|exact (IHM L)|eassumption].
Qed.
Lemma reach_linv : forall E H cf dx, world H -> reachable E H cf dx -> linv E H (fst dx) (snd dx).
Proof.
  intros E H cf dx W (ops & R & ->). eapply (linv_micros E H cf db0); [exact W| |].
  - constructor; [apply inv0| |].
    + intros p. left. split; [reflexivity|]. split; [reflexivity|]. intros s e [].
    + intros p e c C. apply chain_hd in C. destruct C as (_ & [] & _).
  - apply micro_run; auto. apply inv0.
Qed.
