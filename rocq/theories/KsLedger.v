(** The published next keys over all histories *)
From Coq Require Import Lia.
From Verif Require Import Prelude B64Model MatterModel SubsModel ThModel JsonModel KsModel KsSpec JsonProofs KsProofs KsInv KsRun KsHab.
Open Scope N_scope.
Ltac Zify.zify_post_hook ::= Z.div_mod_to_equations.

(** fields left alone by the elementary writes *)
Definition others (d d' : ksdb) : Prop :=
  g_aeid d' = g_aeid d /\ g_pidx d' = g_pidx d /\ g_algo d' = g_algo d /\ g_salt d' = g_salt d /\ g_tier d' = g_tier d /\
  pres d' = pres d /\ prms d' = prms d /\ sits d' = sits d.
Lemma others_refl : forall d, others d d.
Proof. intros; repeat split. Qed.
Lemma others_trans : forall a b c, others a b -> others b c -> others a c.
Proof. unfold others; intros a b c H1 H2; intuition congruence. Qed.
Lemma addPri_others : forall e d sg, others d (addPri e d sg).
Proof. intros; unfold addPri. destruct (encSecret _ _); [destruct (dget _ _)|]; repeat split. Qed.
Lemma addPris_others : forall e sgs d, others d (fold_left (addPri e) sgs d).
Proof.
  induction sgs; cbn; intros; [apply others_refl|]. eapply others_trans; [apply addPri_others|apply IHsgs].
Qed.
Lemma addPubs_others : forall k l d, others d (addPubs k l d).
Proof. intros; unfold addPubs. destruct (dget _ _); repeat split. Qed.
Lemma erase_others : forall l d, others d (erasePris l d).
Proof. unfold erasePris. induction l; cbn; intros; [apply others_refl|]. eapply others_trans; [|apply IHl]. repeat split. Qed.
Lemma addPris_pubs : forall e sgs d, pubs (fold_left (addPri e) sgs d) = pubs d.
Proof.
  induction sgs as [|s sgs IH]; cbn; intros; auto. rewrite IH. unfold addPri. destruct (encSecret _ _); [destruct (dget _ _)|]; reflexivity.
Qed.
Lemma erase_pubs : forall l d, pubs (erasePris l d) = pubs d.
Proof. unfold erasePris. induction l as [|p l IH]; cbn; intros; auto. rewrite IH. reflexivity. Qed.
Lemma addPubs_pris : forall k l d, pris (addPubs k l d) = pris d.
Proof. intros; unfold addPubs. destruct (dget _ _); reflexivity. Qed.

Section Ledger.
Variable c : kcfg.
Hypothesis TR : forall cd sd tr, trans c (vk c cd sd tr) = tr.

Definition linv (m : mgr) (L : ledger) : Prop :=
  priOk c (ks m) /\ forall pre dc ds, dget L pre = Some (dc, ds) ->
    exists ps, frame pre ps (ks m) /\ ds = map (dig c dc) (l_pubs (t_nxt ps)).

Lemma linv_keep : forall m L o t m' r L', linv m L -> exec c o m = (t, (m', r)) ->
  (forall pre x, dget L' pre = Some x -> dget L pre = Some x /\
     match o with ORotate p _ | OReplay p _ _ _ | OHabRotate p _ _ | OMove p _ => p <> pre | _ => True end) ->
  linv m' L'.
Proof.
  intros m L o t m' r L' [P H] E HL. split.
  - eapply (exec_priOk c TR o); eauto; exact Logic.I.
  - intros pre dc ds G. destruct (HL _ _ G) as [G0 N]. destruct (H _ _ _ G0) as (ps & F & D). exists ps. split; auto.
    eapply (exec_frame c o pre ps N); eauto; exact Logic.I.
Qed.
Lemma linv_kill : forall m L o d seed rnd, linv m L -> In d (fst (exec c o m)) -> linv (mkMgr d None None seed rnd) (forget o L).
Proof.
  intros m L o d seed rnd [P H] Hin. destruct (exec c o m) as [t [m' r]] eqn:E. cbn in Hin. split; cbn.
  - destruct (exec_priOk c TR o _ _ _ _ E Logic.I P) as (F & _). eapply Forall_forall in F; eauto.
  - intros pre dc ds G.
    assert (X : dget L pre = Some (dc, ds) /\
       match o with ORotate p _ | OReplay p _ _ _ | OHabRotate p _ _ | OMove p _ => p <> pre | _ => True end).
    { destruct o; cbn in G; auto; rewrite dget_krem in G;
      match type of G with context [beq pre ?q] => destruct (beq pre q) eqn:Eq end; try discriminate;
      split; auto; intros ->; rewrite beq_refl in Eq; discriminate. }
    destruct X as [G0 N]. destruct (H _ _ _ G0) as (ps & F & D). exists ps. split; auto.
    destruct (exec_frame c o pre ps N _ _ _ _ E Logic.I F) as (Fo & _). eapply Forall_forall in Fo; eauto.
Qed.

(** calls that publish *)
Lemma linv_pub : forall m L o t m' r pre ps dc ds, linv m L -> exec c o m = (t, (m', r)) ->
  (match o with ORotate p _ | OReplay p _ _ _ | OHabRotate p _ _ | OMove p _ => p = pre | _ => True end) ->
  frame pre ps (ks m') -> ds = map (dig c dc) (l_pubs (t_nxt ps)) -> linv m' (dset L pre (dc, ds)).
Proof.
  intros m L o t m' r pre ps dc ds [P H] E Hp F D. split.
  - eapply (exec_priOk c TR o); eauto; exact Logic.I.
  - intros q dc' ds' G. rewrite dget_dset in G. destruct (beq q pre) eqn:Eq.
    + apply beq_eq in Eq; subst q. injection G; intros; subst. eauto.
    + assert (Nq : pre <> q) by (intros ->; rewrite beq_refl in Eq; discriminate).
      destruct (H _ _ _ G) as (ps' & F' & D'). exists ps'. split; auto.
      eapply (exec_frame c o q ps'); eauto; try exact Logic.I. destruct o; auto; congruence.
Qed.

Lemma rotate_frame : forall pre a m t m' vs ds, priOk c (ks m) -> rotate c pre a m = (t, (m', Ok (vs, ds))) ->
  exists ps', frame pre ps' (ks m') /\ ds = map (dig c (r_dcode a)) (l_pubs (t_nxt ps')).
Proof.
  intros pre a m t m' vs ds P E. destruct (rotate_ok c _ _ _ _ _ _ _ P E) as (pp & ps & sgs & cr & H1 & H2 & _ & _ & Hd & _ & _ & X).
  cbv zeta in X. destruct X as (_ & _ & _ & K).
  eexists (mkSit _ _ (mkLot (pubsOf sgs) _ _)). split; [|exact Hd].
  match type of K with ks m' = _ (addPubs ?k ?l (fold_left (addPri ?e) ?s ?d)) =>
    assert (O : others d (ks m')) end.
  { rewrite K. eapply others_trans; [|destruct (r_erase a); [apply erase_others|apply others_refl]].
    eapply others_trans; [|apply addPubs_others]. apply addPris_others. }
  destruct O as (_ & _ & _ & _ & _ & _ & O1 & O2). unfold frame. rewrite O1, O2. cbn. rewrite H1, dget_dset, beq_refl. split; [discriminate|reflexivity].
Qed.
Lemma replay_frame : forall pre dc ad er m t m' vs ds, priOk c (ks m) -> replay c pre dc ad er m = (t, (m', Ok (vs, ds))) ->
  exists ps', frame pre ps' (ks m') /\ ds = map (dig c dc) (l_pubs (t_nxt ps')).
Proof.
  intros pre dc ad er m t m' vs ds P E. destruct (replay_ok c _ _ _ _ _ _ _ _ _ P E) as (pp & ps & H1 & H2 & _ & X).
  destruct ad.
  - destruct X as (l & _ & _ & Hd & _ & K). eexists (mkSit _ _ (mkLot l _ _)). split; [|exact Hd].
    match type of K with ks m' = _ ?d => assert (O : others d (ks m')) end.
    { rewrite K. destruct er; [apply erase_others|apply others_refl]. }
    destruct O as (_ & _ & _ & _ & _ & _ & O1 & O2). unfold frame. rewrite O1, O2. cbn. rewrite H1, dget_dset, beq_refl. split; [discriminate|reflexivity].
  - destruct X as (_ & Hd & K). exists ps. split; auto. unfold frame. rewrite K, H1, H2. split; [discriminate|reflexivity].
Qed.
Lemma hab_frame : forall pre a m m1 vd, priOk c (ks m) -> habKeys c pre a m m1 vd ->
  exists ps', frame pre ps' (ks m1) /\ snd vd = map (dig c (r_dcode a)) (l_pubs (t_nxt ps')).
Proof.
  intros pre a m m1 [vs ds] P [(t & E)|(t & m0 & _ & K0 & _ & E)].
  - eapply replay_frame; eauto.
  - rewrite <- K0 in P. eapply (rotate_frame pre (noErase a)); eauto.
Qed.
Lemma habKeys_vs : forall pre a m m1 vd, priOk c (ks m) -> habKeys c pre a m m1 vd ->
  exists ps, dget (sits (ks m)) pre = Some ps /\ fst vd = l_pubs (t_nxt ps).
Proof.
  intros pre a m m1 [vs ds] P [(t & E)|(t & m0 & _ & K0 & _ & E)].
  - destruct (replay_ok c _ _ _ _ _ _ _ _ _ P E) as (pp & ps & _ & H & _ & l & _ & Hv & _). eauto.
  - rewrite <- K0 in P. destruct (rotate_ok c _ _ _ _ _ _ _ P E) as (pp & ps & sgs & cr & _ & H & _ & Hv & _). rewrite <- K0. eauto.
Qed.

Lemma hist_linv : forall m L, hist c m L -> linv m L.
Proof.
  intros m L H. induction H as [seed rnd | m L o t m' r H IH E | m L o t m' e H IH E | m L o d seed rnd H IH Hin].
  - split; [intros pub v cd sd []|intros pre dc ds G; discriminate].
  - destruct o; cbn [publish].
    + eapply linv_keep; eauto.
    + eapply linv_keep; eauto.
    + destruct r as [[vs ds]|]; [|eapply linv_keep; eauto].
      pose proof E as E'. cbn [exec] in E'. apply bindM_ok in E'. destruct E' as (? & m1 & x & ? & E1 & E2 & _).
      apply ret_ok in E2. destruct E2 as (_ & -> & E2). injection E2; intros; subst x.
      destruct (incept_ok c _ _ _ _ _ _ E1) as (pidx & algo & cr & isg & nsg & pp & _ & _ & _ & _ & _ & _ & _ & _ & _ & Hv & _ & Hd & _ & _ & _ & _ & K).
      eapply (linv_pub m L (OIncept a) _ _ _ _ (mkSit lot0 (mkLot (pubsOf isg) 0 0) (mkLot (pubsOf nsg) 1 (len (a_icodes a))))); [exact IH|exact E|exact Logic.I| |exact Hd].
      match type of K with ks m1 = incepted ?e ?pre ?pidx ?pp ?ps ?i ?n ?d => assert (O : others
        (setSits (setPidx (setPrms (setPres d (dset (pres d) pre pre)) (dset (prms d) pre pp)) (Some (pidx + 1))) (dset (sits d) pre ps)) (ks m1)) end.
      { rewrite K. unfold incepted. cbv zeta. eapply others_trans; [|apply addPubs_others]. eapply others_trans; [|apply addPris_others].
        eapply others_trans; [|apply addPubs_others]. apply addPris_others. }
      destruct O as (_ & _ & _ & _ & _ & _ & O1 & O2). unfold frame. rewrite O1, O2. cbn. rewrite !dget_dset, !beq_refl. split; [discriminate|reflexivity].
    + destruct (beq old new) eqn:Eb.
      { cbn [exec] in E. unfold move in E. rewrite Eb in E. injection E; intros; subst. exact IH. }
      assert (Nn : old <> new) by (intros ->; rewrite beq_refl in Eb; discriminate).
      pose proof E as E'. cbn [exec] in E'. apply bindM_ok in E'. destruct E' as (? & m1 & x & ? & E1 & E2 & _).
      apply ret_ok in E2. destruct E2 as (_ & -> & _).
      destruct (move_ok _ _ _ _ _ _ E1 Nn) as (pp & ps & p' & H1 & H2 & H3 & H4 & _ & _ & _ & _ & K).
      destruct IH as [P IH].
      split; [eapply (exec_priOk c TR (OMove old new)); eauto; exact Logic.I|].
      assert (Keep : forall q dc ds, q <> old -> dget L q = Some (dc, ds) -> exists ps0, frame q ps0 (ks m1) /\ ds = map (dig c dc) (l_pubs (t_nxt ps0))).
      { intros q dc ds Nq G. destruct (IH _ _ _ G) as (ps0 & F & D). exists ps0. split; auto.
        eapply (exec_frame c (OMove old new) q ps0); eauto; exact Logic.I. }
      intros q dc ds G. destruct (dget L old) as [[dc0 ds0]|] eqn:Lo.
      * rewrite dget_dset, dget_krem in G. destruct (beq q new) eqn:Eq.
        -- apply beq_eq in Eq; subst q. injection G; intros; subst. destruct (IH _ _ _ Lo) as (ps0 & F & D).
           destruct F as (_ & F). rewrite H2 in F. injection F; intros; subst ps0. exists ps. split; auto.
           unfold frame. rewrite K. cbn. rewrite !dget_krem. rewrite !dget_dset. rewrite beq_refl.
           destruct (beq new old) eqn:E3; [apply beq_eq in E3; congruence|]. split; [discriminate|reflexivity].
        -- destruct (beq q old) eqn:Eo; [discriminate|]. apply Keep; auto. intros ->; rewrite beq_refl in Eo; discriminate.
      * apply Keep; auto. intros ->; congruence.
    + destruct r as [[vs ds]|].
      2:{ cbn [exec] in E. apply bindM_ok in E. destruct E as (? & ? & ? & ? & _ & E & _). apply ret_ok in E. destruct E as (_ & _ & E); discriminate. }
      pose proof E as E'. cbn [exec] in E'. apply bindM_ok in E'. destruct E' as (? & m1 & x & ? & E1 & E2 & _).
      apply ret_ok in E2. destruct E2 as (_ & -> & E2). injection E2; intros; subst x.
      destruct (rotate_frame _ _ _ _ _ _ _ (proj1 IH) E1) as (ps' & F & D).
      eapply (linv_pub m L (ORotate pre a)); eauto.
    + destruct r as [[vs ds]|].
      2:{ cbn [exec] in E. apply bindM_ok in E. destruct E as (? & ? & ? & ? & _ & E & _). apply ret_ok in E. destruct E as (_ & _ & E); discriminate. }
      pose proof E as E'. cbn [exec] in E'. apply bindM_ok in E'. destruct E' as (? & m1 & x & ? & E1 & E2 & _).
      apply ret_ok in E2. destruct E2 as (_ & -> & E2). injection E2; intros; subst x.
      destruct (replay_frame _ _ _ _ _ _ _ _ _ (proj1 IH) E1) as (ps' & F & D).
      eapply (linv_pub m L (OReplay pre dcode advance erase)); eauto.
    + destruct r as [[vs ds]|].
      2:{ cbn [exec] in E. apply bindM_ok in E. destruct E as (? & ? & ? & ? & _ & E & _). apply ret_ok in E. destruct E as (_ & _ & E); discriminate. }
      pose proof E as E'. cbn [exec] in E'. apply bindM_ok in E'. destruct E' as (? & m1 & x & ? & E1 & E2 & _).
      apply ret_ok in E2. destruct E2 as (_ & -> & E2). injection E2; intros; subst x.
      destruct (hab_ok c _ _ _ _ _ _ _ E1) as (ps & m2 & _ & HK & _ & K & _).
      destruct (hab_frame _ _ _ _ _ (proj1 IH) HK) as (ps' & F & D). cbn in D.
      eapply (linv_pub m L (OHabRotate pre a valid) _ _ _ pre ps'); eauto.
      destruct (erase_others (l_pubs (t_old ps)) (ks m2)) as (_ & _ & _ & _ & _ & _ & O1 & O2).
      unfold frame in *. rewrite K, O1, O2. exact F.
    + eapply linv_keep; eauto.
  - destruct t as [|d0 t].
    + assert (Ks : ks m' = ks m) by exact (tr_exec c o _ _ _ _ E). destruct IH as [P IH]. split; rewrite Ks; auto.
    + assert (Dflt : linv m' (forget o L)).
      { eapply linv_keep; eauto. intros pre x G. destruct o; cbn in G; auto; rewrite dget_krem in G;
        match type of G with context [beq pre ?q] => destruct (beq pre q) eqn:Eq end; try discriminate;
        split; auto; intros ->; rewrite beq_refl in Eq; discriminate. }
      assert (Hab : forall p a v, o = OHabRotate p a v -> e = ValidationError -> linv m' L).
      { intros p a v -> ->. pose proof E as E'. cbn [exec] in E'.
        destruct (bindM_inv _ _ _ _ _ _ _ _ E') as [(? & ? & ? & ? & _ & E2 & _)|(y & E1 & E2)]; [discriminate|].
        injection E2; intros; subst y. destruct (hab_refused c _ _ _ _ _ _ E1) as (ps & m1 & vd & Hs & HK & _ & K & _).
        destruct IH as [P IH]. split; [eapply (exec_priOk c TR (OHabRotate p a v)); eauto; exact Logic.I|].
        intros q dc ds G. destruct (beq q p) eqn:Eq.
        - apply beq_eq in Eq; subst q. destruct (IH _ _ _ G) as (ps0 & (F1 & F2) & D). rewrite Hs in F2. injection F2; intros; subst ps0.
          exists ps. split; auto. destruct (hab_frame _ _ _ _ _ P HK) as (ps' & (F3 & _) & _).
          unfold frame. rewrite K. cbn. rewrite dget_dset, beq_refl. auto.
        - destruct (IH _ _ _ G) as (ps0 & F & D). exists ps0. split; auto.
          eapply (exec_frame c (OHabRotate p a v) q ps0); eauto; try exact Logic.I. intros ->; rewrite beq_refl in Eq; discriminate. }
      destruct o; auto. destruct e; auto. eapply Hab; eauto.
  - eapply linv_kill; eauto.
Qed.
End Ledger.
