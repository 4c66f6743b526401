(** Invariants of key event processing with receipts, over all executions. *)
From Verif Require Import Prelude B64Model MatterModel SubsModel ThModel ThSpec ThThms KelModel KelSpec KelProofs KelInv
  RcModel RcSpec RcProofs.
Ltac Zify.zify_post_hook ::= Z.div_mod_to_equations.
Open Scope N_scope.

Lemma quietw_micros : forall E H cf d x x', world H -> inv E H d x -> quietw x x' -> micros E H cf (d, x) (d, x').
Proof.
  intros E H cf d x x' W I Q. apply ms_one. pose proof (quietw_evts _ _ Q) as EV.
  assert (SG : sigs x' = sigs x) by (rewrite (q_eq _ _ Q); reflexivity).
  destruct (q_none _ _ Q) as [A|(p & s & e & A)].
  - apply mi_quiet; assumption.
  - apply (mi_same E H cf e); [|split; [|split; [|split]]|apply same_acc_refl].
    + apply (i_ev _ _ _ _ I) in A. destruct A as [A _]. unfold real. rewrite (proj1 (W _ _ A)). exact A.
    + intros p' s' a. rewrite EV. auto.
    + intros p' s' a. rewrite EV. auto.
    + intros p' s'. unfold getSigs. rewrite SG. apply incl_refl.
    + apply Q.
Qed.

Section Rinv.
  Variables (E : env) (H : N -> option evt) (rc : rconf).
  Hypothesis WH : world H.
  Let cf := rc_conf rc.
  (** what holds of every stored transferable receipt *)
  Variable T : db -> N -> N -> src -> siger -> Prop.
  Hypothesis T_mono : forall dx dx' p s o g,
    (forall q t, In t (fels (fst dx) q) -> In t (fels (fst dx') q)) ->
    (forall q t a, evts (snd dx) q t = Some a -> evts (snd dx') q t = Some a) ->
    T dx p s o g -> T dx' p s o g.
  Hypothesis T_vs : forall d x p s o g, inv E H d x -> Vs E d (evts x) p s o g -> T (d, x) p s o g.

  Record rinv (s : rdb) : Prop := mkRinv {
    ri_inv : inv E H (fst (fst s)) (snd (fst s));
    ri_rct : forall p t c, In c (receiptsOf s p t) -> exists e, eventAt s p t = Some e /\ endorses E e c;
    ri_ure : forall p n t c, In (p, n, (t, c)) (ures (snd s)) -> transf E (cg_key c) = false;
    ri_vrc : forall p t o g, In (o, g) (transReceiptsOf s p t) -> T (fst s) p t o g }.

  Lemma rinv_kel : forall s dx', rinv s -> micros E H cf (fst s) dx' -> rinv (dx', snd s).
  Proof.
    intros s dx' R M. pose proof (micros_grows _ _ _ _ _ WH (ri_inv _ R) M) as (G1 & G2 & _).
    destruct R as [R1 R2 R3 R4]. constructor.
    - cbn [fst snd]. eapply (inv_micros E H cf (fst s)); eauto.
    - intros p t c I. destruct (R2 p t c I) as (e & A & B). exists e. split; [apply G2; exact A|exact B].
    - exact R3.
    - intros p t o g I. cbn [fst]. eapply T_mono; [| |exact (R4 p t o g I)]; [|exact G2].
      intros q u J. destruct (G1 q) as (l & L). rewrite L. apply in_or_app. auto.
  Qed.

  Lemma rinv_adv : forall d x r V w', rinv ((d, x), r) -> adv E V (x, r) w' ->
    (forall p s o g, V (evts x) p s o g -> T (d, x) p s o g) ->
    rinv (join d w') /\ micros E H cf (d, x) (d, fst w').
  Proof.
    intros d x r V [x' r'] R AD VT.
    assert (M : micros E H cf (d, x) (d, x')) by (apply quietw_micros; [exact WH|apply R|apply AD]).
    split; [|exact M]. pose proof (rinv_kel _ _ R M) as [K1 K2 K3 K4]. pose proof (ri_vrc _ R) as RV.
    pose proof (quietw_evts _ _ (ad_x _ _ _ _ AD)) as EV.
    unfold join. cbn [fst snd] in *. constructor; cbn [fst snd].
    - exact K1.
    - intros p t c I. destruct (ad_rct _ _ _ _ AD _ _ _ I) as [J|(e & J1 & J2)]; [exact (K2 _ _ _ J)|].
      exists e. split; [|exact J2]. unfold eventAt. cbn [fst snd] in *. rewrite EV. exact J1.
    - intros p n t c I. destruct (ad_ure _ _ _ _ AD _ _ _ _ I) as [J|J]; [exact (K3 _ _ _ _ J)|exact J].
    - intros p t o g I. destruct (ad_vrc _ _ _ _ AD _ _ _ _ I) as [J|J]; [exact (K4 _ _ _ _ J)|].
      eapply (T_mono (d, x)); [auto| |apply VT; exact J]. cbn [snd]. intros q u a. rewrite EV. auto.
  Qed.

  Lemma rinv_evok : forall s, rinv s -> evok (snd (fst s)).
  Proof. intros s R. exact (inv_said_ok _ _ _ _ WH (ri_inv _ R)). Qed.

  Lemma attached_evt : forall d x e fo, inv E H d x -> real H e ->
    attachedTo d (e_pre e) (e_sn e) fo = Some (e_said e) -> evts x (e_pre e) (e_said e) = Some e.
  Proof.
    intros d x e fo I R A.
    assert (F : In (e_said e) (fels d (e_pre e))).
    { unfold attachedTo in A. destruct fo as [fn|]; [apply nth_error_In in A; exact A|].
      apply klast_In in A. apply (i_kf _ _ _ _ I) in A. tauto. }
    destruct (i_fe _ _ _ _ I _ _ F) as (e1 & c & ee & S1 & S2 & _). destruct (chain_hd _ _ _ _ _ _ S2) as (_ & _ & X & R1).
    rewrite S1 in X. unfold real in R, R1. rewrite S1 in R1. rewrite R in R1. inversion R1; subst. exact X.
  Qed.

  Definition rmicros (s s' : rdb) : Prop := micros E H cf (fst s) (fst s').

  Lemma rinv_pass : forall now s q, rinv s -> rinv (runPass E rc now s q) /\ rmicros s (runPass E rc now s q).
  Proof.
    intros now [[d x] r] q R. unfold runPass, split, rmicros. pose proof (rinv_evok _ R) as OK.
    destruct q as [q| | |].
    - cbn [fst snd].
      assert (M : micros E H cf (d, x) (unescrow E cf now q (d, x))).
      { unfold unescrow. apply micro_fold; [exact WH|apply R|]. intros dx a I. apply micro_unescrow1; assumption. }
      split; [apply (rinv_kel _ _ R M)|exact M].
    - assert (A : adv E (Vs E d) (x, r) (fold_left (unUW E rc d now) (uwes (snd (x, r))) (x, r))).
      { apply (adv_fold _ E (Vs E d) (fun _ => True)); [exact OK|apply Forall_forall; auto|]. intros w a O _. apply adv_unUW. exact O. }
      apply (rinv_adv _ _ _ _ _ R A). intros. apply T_vs; [apply R|assumption].
    - assert (A : adv E (Vs E d) (x, r) (fold_left (unNT E rc d now) (ures (snd (x, r))) (x, r))).
      { apply (adv_fold _ E (Vs E d) (fun row => transf E (cg_key (snd (snd row))) = false)); [exact OK| |].
        - apply Forall_forall. intros [[p n] [t c]] I. exact (ri_ure _ R _ _ _ _ I).
        - intros w a O P. apply adv_unNT; assumption. }
      apply (rinv_adv _ _ _ _ _ R A). intros. apply T_vs; [apply R|assumption].
    - assert (A : adv E (Vs E d) (x, r) (fold_left (unT E rc d now) (vres (snd (x, r))) (x, r))).
      { apply (adv_fold _ E (Vs E d) (fun _ => True)); [exact OK|apply Forall_forall; auto|]. intros w a O _. apply adv_unT. exact O. }
      apply (rinv_adv _ _ _ _ _ R A). intros. apply T_vs; [apply R|assumption].
  Qed.

  Lemma rinv_escrows : forall now s, rinv s -> rinv (rescrows E rc now s) /\ rmicros s (rescrows E rc now s).
  Proof.
    intros now s R. unfold rescrows.
    assert (G : forall l s, rinv s -> rinv (fold_left (runPass E rc now) l s) /\ rmicros s (fold_left (runPass E rc now) l s)).
    { clear s R. intros l. induction l as [|q l IH]; intros s R; [split; [exact R|apply ms_nil]|]. cbn [fold_left].
      destruct (rinv_pass now s q R) as [A B]. destruct (IH _ A) as [C D]. split; [exact C|].
      eapply ms_trans; [exact B|exact D]. }
    apply G. exact R.
  Qed.

  Lemma rinv_event : forall m s, rinv s -> real H (m_evt (em_msg m)) ->
    rinv (fst (dispatchEvt E rc m s)) /\ rmicros s (fst (dispatchEvt E rc m s)).
  Proof.
    intros m [[d x] r] R RE. unfold dispatchEvt, rmicros. cbn [fst snd].
    destruct (isnil (m_sigers (em_msg m))); [split; [exact R|apply ms_nil]|].
    destruct (processEvent E (rc_conf rc) (em_msg m) (d, x)) as [[d1 x1] [u|ex]] eqn:P.
    2:{ pose proof (micro_process _ _ _ _ _ _ _ _ _ WH (ri_inv _ R) RE P) as M. split; [apply (rinv_kel _ _ R M)|exact M]. }
    pose proof (micro_process _ _ _ _ _ _ _ _ _ WH (ri_inv _ R) RE P) as M. pose proof (rinv_kel _ _ R M) as R1. cbn [fst snd] in R1.
    set (e := m_evt (em_msg m)) in *.
    match goal with |- context [seqa ?a ?b (x1, r)] => set (act1 := seqa a b) end.
    assert (G : goodAt E (Vs E d1) (fun ev => attachedTo d1 (e_pre e) (e_sn e) (em_firner m) = Some (e_said e) -> ev (e_pre e) (e_said e) = Some e) act1).
    { apply goodAt_seq.
      - destruct (isnil (em_cigars m)); [apply good_at, good_ok|apply adv_attachedCouples].
      - destruct (isnil (em_rsgs m)); [apply good_at, good_ok|apply adv_attachedGroups]. }
    assert (A : adv E (Vs E d1) (x1, r) (fst (act1 (x1, r)))).
    { apply G. cbn [fst]. apply attached_evt; [apply R1|exact RE]. }
    destruct (act1 (x1, r)) as [w1 r1]. cbn [fst] in *.
    destruct (rinv_adv _ _ _ _ _ R1 A) as [B1 B2]. { intros. apply T_vs; [apply R1|assumption]. }
    split; [exact B1|]. eapply ms_trans; [exact M|exact B2].
  Qed.

  Lemma rinv_receipt : forall m s V, rinv s ->
    (forall w, adv E V w (fst (processReceipt E rc (fst (fst s)) m w))) ->
    (forall p t o g, V (evts (snd (fst s))) p t o g -> T (fst s) p t o g) ->
    rinv (fst (dispatchRct E rc m s)) /\ rmicros s (fst (dispatchRct E rc m s)).
  Proof.
    intros m [[d x] r] V R A VT. unfold dispatchRct, rmicros, split. cbn [fst snd] in *.
    destruct (isnil (rm_cigars m) && isnil (rm_wigers m) && isnil (rm_tsgs m) && isnil (rm_rsgs m)); [split; [exact R|apply ms_nil]|].
    specialize (A (x, r)). destruct (processReceipt E rc d m (x, r)) as [w1 r1]. cbn [fst] in *.
    exact (rinv_adv _ _ _ _ _ R A VT).
  Qed.

  Lemma rinv_restart : forall s, rinv s -> rinv (rstep E rc s RRestart) /\ rmicros s (rstep E rc s RRestart).
  Proof.
    intros [[d x] r] R. unfold rmicros. cbn [rstep fst snd].
    assert (M : micros E H cf (d, x) (restart (d, x))) by (apply ms_one; apply mi_restart).
    split; [apply (rinv_kel _ _ R M)|exact M].
  Qed.

  Lemma rinv0 : rinv rdb0.
  Proof.
    constructor; cbn.
    - apply (inv0 E H).
    - intros p t c [].
    - intros p n t c [].
    - intros p t o g [].
  Qed.
End Rinv.

(** ** The two readings of stored transferable receipts *)
Definition Tstrong (E : env) (dx : db) (p t : N) (o : src) (g : siger) : Prop :=
  exists e, evts (snd dx) p t = Some e /\ transEndorses E (dx, rdbs0) e o g.
Definition Tweak (E : env) (dx : db) (p t : N) (o : src) (g : siger) : Prop :=
  exists t' e, evts (snd dx) p t' = Some e /\ transEndorses E (dx, rdbs0) e o g.

Lemma te_mono : forall E (dx dx' : db) e o g,
  (forall q t, In t (fels (fst dx) q) -> In t (fels (fst dx') q)) ->
  (forall q t a, evts (snd dx) q t = Some a -> evts (snd dx') q t = Some a) ->
  transEndorses E (dx, rdbs0) e o g -> transEndorses E (dx', rdbs0) e o g.
Proof.
  intros E dx dx' e [[sp ssn] sd] g A B (se & C1 & C2 & C3 & C4). exists se.
  split; [apply A; exact C1|]. split; [apply B; exact C2|]. auto.
Qed.
Lemma Tstrong_mono : forall E (dx dx' : db) p s o g,
  (forall q t, In t (fels (fst dx) q) -> In t (fels (fst dx') q)) ->
  (forall q t a, evts (snd dx) q t = Some a -> evts (snd dx') q t = Some a) ->
  Tstrong E dx p s o g -> Tstrong E dx' p s o g.
Proof. intros E dx dx' p s o g A B (e & C1 & C2). exists e. split; [auto|]. eapply te_mono; eauto. Qed.
Lemma Tweak_mono : forall E (dx dx' : db) p s o g,
  (forall q t, In t (fels (fst dx) q) -> In t (fels (fst dx') q)) ->
  (forall q t a, evts (snd dx) q t = Some a -> evts (snd dx') q t = Some a) ->
  Tweak E dx p s o g -> Tweak E dx' p s o g.
Proof. intros E dx dx' p s o g A B (t' & e & C1 & C2). exists t', e. split; [auto|]. eapply te_mono; eauto. Qed.

Lemma srcOk_te : forall E H d x e o g se, world H -> inv E H d x -> srcOk d (evts x) o se -> verified E (e_keys se) (e_raw e) g ->
  transEndorses E ((d, x), rdbs0) e o g.
Proof.
  intros E H d x e [[sp ssn] sd] g se W I (sdig & KL & EV & SD) VE. exists se.
  apply klast_In in KL. destruct (i_kf _ _ _ _ I _ _ _ KL) as (F & e' & EV' & SN). cbn [fst snd] in *.
  rewrite EV in EV'. inversion EV'; subst e'.
  assert (Q : e_said se = sdig) by (eapply (inv_said_ok _ _ _ _ W I); eauto). rewrite Q in SD. subst sd.
  split; [exact F|]. split; [exact EV|]. split; [exact SN|exact VE].
Qed.
Lemma Tstrong_vs : forall E H d x p s o g, world H -> inv E H d x -> Vs E d (evts x) p s o g -> Tstrong E (d, x) p s o g.
Proof. intros E H d x p s o g W I (e & se & A & B & C). exists e. split; [exact A|]. eapply srcOk_te; eauto. Qed.
Lemma Tweak_vw : forall E H d x p s o g, world H -> inv E H d x -> Vw E d (evts x) p s o g -> Tweak E (d, x) p s o g.
Proof. intros E H d x p s o g W I (t & e & se & A & B & C). exists t, e. split; [exact A|]. eapply srcOk_te; eauto. Qed.

Lemma rinv_weak_step : forall E H rc s o, world H -> rinv E H (Tweak E) s -> rreal H o ->
  rinv E H (Tweak E) (rstep E rc s o) /\ micros E H (rc_conf rc) (fst s) (fst (rstep E rc s o)).
Proof.
  intros E H rc s o W R RO.
  assert (TV : forall d x p s o g, inv E H d x -> Vs E d (evts x) p s o g -> Tweak E (d, x) p s o g)
    by (intros; eapply Tweak_vw; eauto using Vs_Vw).
  destruct o as [m|m|now|]; cbn [rstep].
  - exact (rinv_event E H rc W (Tweak E) (Tweak_mono E) TV m s R RO).
  - apply (rinv_receipt E H rc W (Tweak E) (Tweak_mono E) m s (Vw E (fst (fst s))) R).
    + intros w. apply adv_processReceipt. intros ldig ev o g le se _ _ A B C. exists (rm_said m), le, se. auto.
    + intros. destruct s as [[d x] r]. eapply Tweak_vw; eauto. apply R.
  - exact (rinv_escrows E H rc W (Tweak E) (Tweak_mono E) TV now s R).
  - exact (rinv_restart E H rc W (Tweak E) (Tweak_mono E) s R).
Qed.

Lemma rrun_weak : forall E H rc ops s, world H -> rinv E H (Tweak E) s -> Forall (rreal H) ops ->
  rinv E H (Tweak E) (rrun E rc ops s) /\ micros E H (rc_conf rc) (fst s) (fst (rrun E rc ops s)).
Proof.
  intros E H rc ops. induction ops as [|o ops IH]; intros s W R F; [split; [exact R|apply ms_nil]|].
  inversion F; subst. destruct (rinv_weak_step E H rc s o W R H2) as [A B]. cbn [rrun fold_left].
  destruct (IH _ W A H3) as [C D]. split; [exact C|]. eapply ms_trans; [exact B|exact D].
Qed.

Lemma rreach_rinv : forall E H rc s, world H -> rreachable E H rc s -> rinv E H (Tweak E) s /\ micros E H (rc_conf rc) db0 (fst s).
Proof. intros E H rc s W (ops & F & ->). apply (rrun_weak E H rc ops rdb0 W (rinv0 E H (Tweak E)) F). Qed.

Lemma creach_rinv : forall E H rc s, world H -> creachable E H rc s -> rinv E H (Tstrong E) s.
Proof.
  intros E H rc s W C. induction C as [|s o C IH RO OK]; [apply rinv0|].
  assert (TV : forall d x p s o g, inv E H d x -> Vs E d (evts x) p s o g -> Tstrong E (d, x) p s o g)
    by (intros; eapply Tstrong_vs; eauto).
  destruct o as [m|m|now|]; cbn [rstep].
  - exact (proj1 (rinv_event E H rc W (Tstrong E) (Tstrong_mono E) TV m s IH RO)).
  - apply (rinv_receipt E H rc W (Tstrong E) (Tstrong_mono E) m s (Vs E (fst (fst s))) IH).
    + intros w. apply adv_processReceipt. intros ldig ev o g le se KL NE A B D.
      destruct OK as [[O1 O2]|OK]; [rewrite O1, O2 in NE; cbn in NE; congruence|].
      rewrite (OK _ KL). exists le, se. auto.
    + intros. destruct s as [[d x] r]. eapply Tstrong_vs; eauto. apply IH.
  - exact (proj1 (rinv_escrows E H rc W (Tstrong E) (Tstrong_mono E) TV now s IH)).
  - exact (proj1 (rinv_restart E H rc W (Tstrong E) (Tstrong_mono E) s IH)).
Qed.
