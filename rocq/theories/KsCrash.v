(** What is left of the keys when a call is cut short *)
From Coq Require Import Lia.
From Verif Require Import Prelude B64Model MatterModel SubsModel ThModel JsonModel KsModel KsSpec JsonProofs KsProofs KsInv KsRun KsHab KsLedger KsSeal KsHeld.
Open Scope N_scope.
Ltac Zify.zify_post_hook ::= Z.div_mod_to_equations.

Section Crash.
Variable c : kcfg.
Hypothesis TR : forall cd sd tr, trans c (vk c cd sd tr) = tr.
Variable P : bytes -> Prop.
Definition keeps (d : ksdb) : Prop := forall p, P p -> dget (pris d) p <> None.
Notation Hd := (holds anyK keeps).
Lemma keeps_add : forall d k v, keeps d -> keeps (setPris d (dset (pris d) k v)).
Proof. intros d k v H p Hp. cbn. rewrite dget_dset. destruct (beq p k); [discriminate|auto]. Qed.
Lemma kp_quiet : forall A (p : M A), quiet p -> Hd p (fun _ => True).
Proof. intros A p Q m t m' r E k j. apply Q in E. destruct E as (-> & E & _). rewrite E. repeat split; auto. Qed.
Lemma kp_write : forall f, (forall d, pris (f d) = pris d) -> Hd (write f) (fun _ => True).
Proof. intros f H. apply holds_write. intros d Hd p Hp. rewrite H. auto. Qed.
Lemma kp_put : forall V (sel : ksdb -> list (bytes * V)) upd k v, (forall d x, pris (upd d x) = pris d) -> Hd (putM sel upd k v) (fun _ => True).
Proof. intros. eapply holds_true. apply holds_put. intros d Hd _ p Hp. rewrite H. auto. Qed.
Lemma kp_putPris : forall e sgs, Hd (forM sgs (putPri e)) (fun _ => True).
Proof.
  intros e sgs. apply holds_forM. intros sg _. unfold putPri.
  eapply holds_bind; [apply holds_lift with (Q := fun _ => True); auto|]. intros v _.
  eapply holds_bind; [apply holds_put|intros; apply holds_ret; auto]. intros d Jd _. apply keeps_add; auto.
Qed.
Lemma kp_erase : forall l, (forall p, In p l -> ~ P p) -> Hd (forM l (fun p => remM pris setPris p)) (fun _ => True).
Proof.
  intros l H. apply holds_forM. intros x Hx. apply holds_rem. intros d Jd p Hp. cbn. rewrite dget_krem, beq_neq; auto.
  intros ->. eapply H; eauto.
Qed.
Ltac kq1 := first [solve [apply kp_quiet; auto using q_ret, q_lift, q_reads, q_guard, q_raise, q_getSalt, q_mkCreator, q_create, q_verfersOf]
  | solve [apply kp_write; reflexivity] | solve [apply kp_put; reflexivity] | solve [apply kp_putPris]].
Ltac kq := lazymatch goal with |- holds _ _ (bindM _ _) _ => eapply holds_bind with (Q1 := fun _ => True); [kq1|intros ? _] end.

Lemma kp_incept : forall a, Hd (incept c a) (fun _ => True).
Proof.
  intros a. unfold incept. kq. cbv zeta. eapply holds_bind with (Q1 := fun _ => True).
  { destruct (a_salt a); [apply holds_ret; auto|]. destruct (a_rooted a); [apply kp_quiet, q_getSalt|apply holds_ret; auto]. }
  intros salt _. repeat kq. apply holds_ret; auto.
Qed.
Lemma kp_rotate : forall pre a m t m' r, (forall ps, dget (sits (ks m)) pre = Some ps -> r_erase a = true -> forall p, In p (l_pubs (t_old ps)) -> ~ P p) ->
  rotate c pre a m = (t, (m', r)) -> keeps (ks m) -> Forall keeps t /\ keeps (ks m').
Proof.
  intros pre a m t m' r H E J. unfold rotate in E.
  destruct (bindM_inv _ _ _ _ _ _ _ _ E) as [(t1 & m1 & d & t2 & E1 & E2 & ->)|(y & E1 & _)]; [|discriminate].
  apply reads_ok in E1. destruct E1 as (-> & -> & ->). cbn [app].
  match type of E2 with ?p m = _ => assert (X : Hd p (fun _ => True)) end.
  { kq. eapply holds_bind; [apply holds_lift; intros x Hx; exact Hx|]. intros ps Hps. cbn in Hps.
    kq. cbv zeta. kq. kq. eapply holds_bind with (Q1 := fun _ => True).
    { destruct (p_salt _) as [s|]; [|apply holds_ret; auto]. destruct (negb _); [destruct (m_dec _); [|hret]|destruct s; hret].
      kq. apply holds_ret; auto. }
    intros salt _. repeat kq. eapply holds_bind with (Q1 := fun _ => True); [|intros; apply holds_ret; auto].
    destruct (r_erase a) eqn:Er; [|apply holds_ret; auto]. apply kp_erase. apply H; auto.
    destruct (dget (sits (ks m)) pre); [congruence|discriminate]. }
  destruct (X _ _ _ _ E2 Logic.I J) as (A & _ & B & _). auto.
Qed.
Lemma kp_replay : forall pre dc ad er m t m' r, (forall ps, dget (sits (ks m)) pre = Some ps -> er = true -> forall p, In p (l_pubs (t_old ps)) -> ~ P p) ->
  replay c pre dc ad er m = (t, (m', r)) -> keeps (ks m) -> Forall keeps t /\ keeps (ks m').
Proof.
  intros pre dc ad er m t m' r H E J. unfold replay in E.
  destruct (bindM_inv _ _ _ _ _ _ _ _ E) as [(t1 & m1 & d & t2 & E1 & E2 & ->)|(y & E1 & _)]; [|discriminate].
  apply reads_ok in E1. destruct E1 as (-> & -> & ->). cbn [app].
  match type of E2 with ?p m = _ => assert (X : Hd p (fun _ => True)) end.
  { kq. eapply holds_bind; [apply holds_lift; intros x Hx; exact Hx|]. intros ps Hps. cbn in Hps.
    eapply holds_bind with (Q1 := fun _ => True).
    { destruct ad; [|apply holds_ret; auto]. cbv zeta. destruct (dget (pubs _) _); hret. }
    intros ps' _. kq. cbv zeta. eapply holds_bind with (Q1 := fun _ => True); [|intros; apply holds_ret; auto].
    destruct ad; [|apply holds_ret; auto]. kq. destruct er eqn:Er; [|apply holds_ret; auto]. apply kp_erase. apply H; auto.
    destruct (dget (sits (ks m)) pre); [congruence|discriminate]. }
  destruct (X _ _ _ _ E2 Logic.I J) as (A & _ & B & _). auto.
Qed.
Lemma kp_movePubs : forall f old new i, Hd (movePubs f old new i) (fun _ => True).
Proof. induction f as [|f IH]; cbn; intros; [apply holds_ret; auto|]. kq. destruct (dget _ _); [|apply holds_ret; auto]. kq. kq. apply IH. Qed.
Lemma kp_move : forall old new, Hd (move old new) (fun _ => True).
Proof.
  intros old new. unfold move. destruct (beq old new); [apply holds_ret; auto|]. do 13 kq.
  eapply holds_bind; [apply kp_movePubs|]. intros _ _. kq. kq. apply kp_quiet, q_guard.
Qed.
Lemma kp_hab : forall pre a valid m t m' r, (forall ps, dget (sits (ks m)) pre = Some ps -> forall p, In p (l_pubs (t_old ps)) -> ~ P p) ->
  habRotate c pre a valid m = (t, (m', r)) -> keeps (ks m) -> Forall keeps t /\ keeps (ks m').
Proof.
  intros pre a valid m t m' r H E J. unfold habRotate in E.
  destruct (bindM_inv _ _ _ _ _ _ _ _ E) as [(t1 & m1 & d & t2 & E1 & E2 & ->)|(y & E1 & _)]; [|discriminate].
  apply reads_ok in E1. destruct E1 as (-> & -> & ->). cbn [app]. cbv zeta in E2.
  assert (X : forall tt0 mm rr, (let '(t, (m1, r)) := replay c pre (r_dcode a) true false m in
                  match r with
                  | Err IndexError => let '(t2, o) := rotate c pre (mkRargs (r_ncodes a) (r_dcode a) (r_transferable a) (r_temp a) false) m1 in (t ++ t2, o)
                  | _ => (t, (m1, r))
                  end) = (tt0, (mm, rr)) -> Forall keeps tt0 /\ keeps (ks mm)).
  { intros tt0 mm rr EE. destruct (replay c pre (r_dcode a) true false m) as [t1 [m1 r1]] eqn:E1.
    destruct (kp_replay pre (r_dcode a) true false m t1 m1 r1 ltac:(intros; discriminate) E1 J) as (A & B).
    assert (D : (t1, (m1, r1)) = (tt0, (mm, rr)) -> Forall keeps tt0 /\ keeps (ks mm)) by (intros Q; injection Q; intros; subst; auto).
    destruct r1 as [x|e]; [auto|]. destruct e; auto. destruct (rotate _ _ _ _) as [t3 [m3 r3]] eqn:E3.
    destruct (kp_rotate _ (mkRargs (r_ncodes a) (r_dcode a) (r_transferable a) (r_temp a) false) _ _ _ _ ltac:(intros; discriminate) E3 B) as (A' & B'). injection EE; intros; subst. split; auto. apply Forall_app; auto. }
  destruct (bindM_inv _ _ _ _ _ _ _ _ E2) as [(t3 & m3 & vd & t4 & E3 & E4 & ->)|(y & E3 & ->)].
  2:{ eapply X; eauto. }
  destruct (X _ _ _ E3) as (A & B).
  match type of E4 with ?p m3 = _ => assert (Y : Hd p (fun _ => True)) end.
  { destruct (dget (sits (ks m)) pre) as [ps|] eqn:S; [|hret]. destruct (valid _ _).
    - eapply holds_bind; [apply kp_erase; eauto|intros; apply holds_ret; auto].
    - kq. hret. }
  destruct (Y _ _ _ _ E4 Logic.I B) as (A' & _ & B' & _). split; auto. apply Forall_app; auto.
Qed.
(** no key in [P] is retired by the call *)
Definition spares (d : ksdb) (o : op) : Prop :=
  match o with ORotate pre _ | OReplay pre _ _ _ | OHabRotate pre _ _ =>
    forall ps, dget (sits d) pre = Some ps -> forall p, In p (l_pubs (t_old ps)) -> ~ P p | _ => True end.
Lemma kp_exec : forall o m t m' r, usesKeys o = true -> spares (ks m) o -> exec c o m = (t, (m', r)) -> keeps (ks m) -> Forall keeps t /\ keeps (ks m').
Proof.
  intros o m t m' r U S E J.
  assert (Fin : forall A (p : M A) (f : A -> out), (forall t1 m1 r1, p m = (t1, (m1, r1)) -> Forall keeps t1 /\ keeps (ks m1)) ->
    (x <~ p ;; ret (f x)) m = (t, (m', r)) -> Forall keeps t /\ keeps (ks m')).
  { intros A p f H EE. destruct (bindM_inv _ _ _ _ _ _ _ _ EE) as [(t1 & m1 & x & t2 & E1 & E2 & ->)|(y & E1 & _)]; [|eauto].
    injection E2; intros; subst. rewrite app_nil_r. eauto. }
  destruct o; try discriminate; cbn [exec] in E; cbn [spares] in S; (eapply Fin; [|exact E]); intros t1 m1 r1 E1.
  - destruct (kp_incept _ _ _ _ _ E1 Logic.I J) as (A & _ & B & _); auto.
  - destruct (kp_move _ _ _ _ _ _ E1 Logic.I J) as (A & _ & B & _); auto.
  - eapply kp_rotate; eauto.
  - eapply kp_replay; eauto.
  - eapply kp_hab; eauto.
Qed.
End Crash.

Section Survive.
Variable c : kcfg.
Hypothesis TR : forall cd sd tr, trans c (vk c cd sd tr) = tr.

Lemma inUse_held : forall d p, kinv d -> inUse d p -> dget (pris d) p <> None.
Proof.
  intros d p KI (pre & ps & S & Hp). pose proof (ki_sit _ KI _ _ S) as SO. apply in_app_or in Hp. destruct Hp as [Hp|Hp].
  - eapply (so_held _ _ _ SO); [|apply (so_new _ _ _ SO)|]; auto. lia.
  - eapply (so_held _ _ _ SO); [|apply (so_nxt _ _ _ SO)|]; auto. rewrite (so_r _ _ _ SO). lia.
Qed.
Lemma inUse_spared : forall d pre ps p, kinv d -> dget (sits d) pre = Some ps -> In p (l_pubs (t_old ps)) -> ~ inUse d p.
Proof.
  intros d pre ps p KI S Ho (q & qs & T & Hp). pose proof (ki_sit _ KI _ _ S) as SO. pose proof (ki_sit _ KI _ _ T) as TO.
  destruct (so_old _ _ _ SO) as [Z|(Z1 & Z2)]; [rewrite Z in Ho; destruct Ho|].
  assert (X : exists i l, lotOf d q i = Some l /\ In p l /\ l_ridx (t_new qs) <= i).
  { apply in_app_or in Hp. destruct Hp as [Hp|Hp].
    - exists (l_ridx (t_new qs)), (l_pubs (t_new qs)). split; [apply TO|]. split; [auto|lia].
    - exists (l_ridx (t_nxt qs)), (l_pubs (t_nxt qs)). split; [apply TO|]. split; [auto|]. rewrite (so_r _ _ _ TO). lia. }
  destruct X as (i & l & X1 & X2 & X3).
  destruct (ki_disj _ KI pre q (l_ridx (t_old ps)) i (l_pubs (t_old ps)) l p) as (R1 & R2); auto; try (unfold live; congruence).
  subst q. rewrite S in T. injection T; intros; subst qs. lia.
Qed.
Lemma survive : forall m o d p, fhist c m -> usesKeys o = true -> In d (ks m :: fst (exec c o m)) -> inUse (ks m) p -> dget (pris d) p <> None.
Proof.
  intros m o d p H U Hin Hp. destruct (fhist_inv c TR _ H) as (CH & PO & KI).
  destruct Hin as [<-|Hin]; [apply inUse_held; auto|].
  destruct (exec c o m) as [t [m' r]] eqn:E. cbn in Hin.
  destruct (kp_exec c (inUse (ks m)) o m t m' r) as (F & _); auto.
  - destruct o; cbn; auto; intros ps S q; eapply inUse_spared; eauto.
  - intros q Hq. apply inUse_held; auto.
  - eapply Forall_forall in F; [|exact Hin]. apply F; auto.
Qed.
Lemma survive_sign : forall m o d p seed aeid pidx algo salt tier rnd t m', fhist c m -> usesKeys o = true -> In d (ks m :: fst (exec c o m)) -> inUse (ks m) p ->
  (aeidOf (ks m) = [] -> aeid = [] /\ seed = []) ->
  setup c aeid pidx algo salt tier (mkMgr d None None seed rnd) = (t, (m', Ok tt)) ->
  exists cd sd, signersOf c [p] m' = ([], (m', Ok [((cd, sd), p)])) /\ vk c cd sd (trans c p) = p.
Proof.
  intros m o d p seed aeid pidx algo salt tier rnd t m' H U Hin Hp HS E.
  pose proof (survive _ _ _ _ H U Hin Hp) as G. destruct (fhist_inv c TR _ H) as (CH & PO & KI).
  assert (CH' : chist c m') by (eapply c_kill; eauto).
  assert (PD : priOk c d).
  { destruct Hin as [<-|Hin]; auto. destruct (exec c o m) as [t0 [m0 r0]] eqn:E0. cbn in Hin.
    destruct (exec_priOk c TR o _ _ _ _ E0 Logic.I PO) as (F & _). eapply Forall_forall in F; eauto. }
  assert (PO' : priOk c (ks m')) by (eapply setup_pri; [exact TR| |exact E]; exact PD).
  assert (Ep : pris (ks m') = pris d).
  { destruct (chist_consistent c _ CH) as (CO & CS).
    assert (R : restsAs m d).
    { destruct Hin as [<-|Hin].
      - split; [auto|]. split; [auto|]. unfold aeidOf. destruct CO as [(A1 & _ & _ & A2)|(a & Na & A1 & _ & _ & _ & _ & A2)]; rewrite A1; auto.
        destruct a; [congruence|auto].
      - destruct (exec c o m) as [t0 [m0 r0]] eqn:E0. destruct (call_consistent c _ _ _ _ _ CO U E0) as (_ & _ & _ & F). eapply Forall_forall in F; eauto. }
    destruct R as (R1 & R2 & R3). apply setup_consistent in E; [tauto|].
    unfold aeidOf in *. destruct CO as [(A1 & _)|(a & Na & A1 & _)]; rewrite A1 in *.
    + left. destruct (HS eq_refl) as (-> & ->). split; [auto|]. split; [auto|]. split; [auto|]. congruence.
    + right. exists a. split; [auto|]. split; [auto|]. split; [destruct a; [congruence|auto]|]. congruence. }
  destruct (chist_consistent c _ CH') as (CO & _). rewrite <- Ep in G.
  destruct (dget (pris (ks m')) p) as [v|] eqn:G'; [|congruence].
  destruct (readable c _ _ _ CO PO' G') as (cd & sd & R1 & _ & _ & R2). eauto.
Qed.
End Survive.

Section Extra.
Variable c : kcfg.
Hypothesis TR : forall cd sd tr, trans c (vk c cd sd tr) = tr.

Lemma chist_priOk : forall m, chist c m -> priOk c (ks m).
Proof.
  intros m H. induction H as [aeid pidx algo salt tier seed rnd t m' HS E | m o t m' r H IH U E | m aeid seed t m' H IH N1 N2 HS E
    | m o d seed aeid pidx algo salt tier rnd t m' H IH U Hin HS E].
  - eapply setup_pri; [exact TR| |exact E]. intros pub v cd sd [].
  - eapply (exec_priOk c TR o); eauto; exact Logic.I.
  - destruct (exec_priOk c TR (OUpdate aeid seed) m t m' (Ok None)) as (_ & _ & R & _); auto; try exact Logic.I.
    cbn [exec]. unfold bindM. rewrite E. cbn. rewrite app_nil_r. reflexivity.
  - eapply setup_pri; [exact TR| |exact E]. cbn. destruct Hin as [<-|Hin]; auto. destruct (exec c o m) as [t0 [m0 r0]] eqn:E0. cbn in Hin.
    destruct (exec_priOk c TR o _ _ _ _ E0 Logic.I IH) as (F & _). eapply Forall_forall in F; eauto.
Qed.

Definition once (d : ksdb) : Prop := NoDup (keysOf (pris d)).
Lemma NoDup_dset : forall V (l : list (bytes * V)) k v, NoDup (keysOf l) -> NoDup (keysOf (dset l k v)).
Proof.
  intros V l k v H. destruct (in_dec (list_eq_dec N.eq_dec) k (keysOf l)) as [I|I]; [rewrite keys_dset; auto|].
  induction l as [|[a x] l IH]; cbn [dset keysOf map fst] in *; [repeat constructor; auto|].
  inversion H; subst. rewrite beq_neq by (intros ->; apply I; left; auto). cbn [map fst]. constructor; [|apply IH; auto; intros Z; apply I; right; auto].
  intros Z. apply in_map_iff in Z. destruct Z as ([q y] & Q1 & Q2). cbn in Q1. subst q. apply In_dset in Q2. destruct Q2 as [Q2|Q2].
  - injection Q2; intros; subst. apply I; left; auto.
  - apply H2. apply in_map_iff. exists (a, y). auto.
Qed.
Lemma NoDup_krem : forall V (l : list (bytes * V)) k, NoDup (keysOf l) -> NoDup (keysOf (krem l k)).
Proof.
  intros V l k H. unfold krem. induction l as [|[a x] l IH]; [constructor|]. cbn [keysOf map fst] in H. inversion H; subst. specialize (IH H3).
  cbn [filter fst]. destruct (negb _); auto. cbn [keysOf map fst]. constructor; auto.
  intros Z. apply H2. apply in_map_iff in Z. destruct Z as (q & Q1 & Q2). apply filter_In in Q2. apply in_map_iff. exists q. tauto.
Qed.
Lemma once_stable : stable c anyK once (fun _ => True).
Proof. constructor; intros; unfold once in *; cbn [pris setPris setPres setPrms setPidx setSits setPubs]; auto using NoDup_dset, NoDup_krem. Qed.
Lemma once_ustable : ustable once.
Proof. constructor; intros; unfold once in *; cbn [pris setPris setPres setPrms setPidx setSits setPubs setAeid setAlgo setSalt setTier]; auto using NoDup_dset. Qed.
Lemma exec_once : forall o, holds anyK once (exec c o) (fun _ => True).
Proof.
  intros o. eapply exec_holds with (touch := fun _ => True); auto using once_stable, once_ustable.
  - intros d sg tr H _. unfold once in *. cbn [pris setPris]. apply NoDup_dset; auto.
  - destruct o; auto.
Qed.
Lemma chist_once : forall m, chist c m -> once (ks m).
Proof.
  intros m H. induction H as [aeid pidx algo salt tier seed rnd t m' HS E | m o t m' r H IH U E | m aeid seed t m' H IH N1 N2 HS E
    | m o d seed aeid pidx algo salt tier rnd t m' H IH U Hin HS E].
  - destruct (setup_us c once aeid pidx algo salt tier once_ustable _ _ _ _ E Logic.I) as (_ & _ & R & _); auto. constructor.
  - eapply (exec_once o); eauto; exact Logic.I.
  - destruct (updateAeid_us c once aeid seed once_ustable _ _ _ _ E Logic.I) as (_ & _ & R & _); auto.
  - destruct (setup_us c once aeid pidx algo salt tier once_ustable _ _ _ _ E Logic.I) as (_ & _ & R & _); auto.
    cbn. destruct Hin as [<-|Hin]; auto. destruct (exec c o m) as [t0 [m0 r0]] eqn:E0. cbn in Hin.
    destruct (exec_once o _ _ _ _ E0 Logic.I IH) as (F & _). eapply Forall_forall in F; eauto.
Qed.

Lemma addPris_same : forall e sgs d p v, dget (pris d) p = Some v -> dget (pris (fold_left (addPri e) sgs d)) p = Some v.
Proof.
  induction sgs as [|sg sgs IH]; cbn; intros d p v H; auto. apply IH. unfold addPri. destruct (encSecret _ _); [|auto].
  destruct (dget (pris d) (snd sg)) eqn:G; auto. cbn. rewrite dget_dset. destruct (beq p (snd sg)) eqn:E; auto. apply beq_eq in E. congruence.
Qed.
Lemma signers_inv : forall m p sg, priOk c (ks m) -> signersOf c [p] m = ([], (m, Ok [sg])) -> snd sg = p /\ exists v, dget (pris (ks m)) p = Some v /\ content v = Some (fst sg).
Proof.
  intros m p sg P E. unfold signersOf in E. cbn [mapM] in E.
  apply bindM_ok in E. destruct E as (? & m1 & x & ? & E1 & E & _).
  apply bindM_ok in E1. destruct E1 as (? & m2 & mm & ? & E2 & E1 & _). apply reads_ok in E2. destruct E2 as (_ & -> & ->).
  apply bindM_ok in E1. destruct E1 as (? & m2 & u & ? & E2 & E1 & _). apply guard_ok in E2. destruct E2 as (_ & -> & _).
  apply bindM_ok in E1. destruct E1 as (? & m3 & o & ? & E2 & E1 & _). destruct o as [sg'|]; [|discriminate].
  destruct (getPri_ok c _ _ _ _ _ P E2) as (A1 & -> & v0 & A2 & A3). apply ret_ok in E1. destruct E1 as (_ & -> & ->).
  apply bindM_ok in E. destruct E as (? & m4 & ys & ? & E3 & E & _). apply ret_ok in E3. destruct E3 as (_ & -> & ->). apply ret_ok in E. destruct E as (_ & _ & E).
  injection E; intros; subst. eauto.
Qed.
Lemma change_keeps : forall m aeid seed t m' p sg, chist c m -> aeidOf (ks m) <> [] -> aeid <> aeidOf (ks m) -> (aeid = [] -> seed = []) ->
  updateAeid c aeid seed m = (t, (m', Ok tt)) -> signersOf c [p] m = ([], (m, Ok [sg])) -> signersOf c [p] m' = ([], (m', Ok [sg])).
Proof.
  intros m aeid seed t m' p sg H N1 N2 HS E Sg.
  assert (H' : chist c m') by (eapply c_change; eauto).
  pose proof (chist_priOk _ H) as P. pose proof (chist_priOk _ H') as P'. pose proof (chist_once _ H) as O.
  destruct (signers_inv _ _ _ P Sg) as (<- & v & G & Cv).
  destruct (chist_consistent c _ H) as (CO & _). destruct (chist_consistent c _ H') as (CO' & _).
  destruct CO as [(A1 & _)|(a & Na & A1 & A2 & A3 & A4 & A5 & A6 & A7)]; [unfold aeidOf in N1; rewrite A1 in N1; congruence|].
  assert (N3 : aeid <> a) by (unfold aeidOf in N2; rewrite A1 in N2; exact N2).
  destruct (update_ok c _ _ _ _ _ _ _ E Na A1 A3 N3) as (_ & _ & _ & _ & sv & x & p' & q' & _ & _ & K & _ & HQ).
  destruct (HQ (snd sg)) as [(_ & HN)|(w & y & w' & W1 & W2 & W3 & W4)]; [exfalso; eapply HN; apply dget_In'; eauto|].
  apply In_dget in W1; [|exact O]. rewrite G in W1. injection W1; intros; subst w.
  assert (Cw : content v = Some y).
  { destruct v; cbn in W2; try discriminate. destruct (seedOk c a0 (m_seed m)); [|discriminate]. injection W2; intros; subst; reflexivity. }
  assert (Cw' : content w' = Some y).
  { unfold encSecret in W3. destruct (match aeid with [] => None | _ => Some aeid end); [destruct (beq _ _); [|discriminate]|]; injection W3; intros; subst; reflexivity. }
  assert (G' : dget (pris (ks m')) (snd sg) = Some w') by (rewrite K; exact W4).
  destruct (readable c _ _ _ CO' P' G') as (cd & sd & R1 & R2 & _). rewrite R1.
  assert (Y : (cd, sd) = fst sg) by congruence. rewrite Y. destruct sg; reflexivity.
Qed.
(** Hab.rotate whose event is refused *)
Lemma refused : forall m pre a valid t m', priOk c (ks m) -> exec c (OHabRotate pre a valid) m = (t, (m', Err ValidationError)) ->
  (forall q, dget (sits (ks m')) q = dget (sits (ks m)) q) /\ prms (ks m') = prms (ks m) /\ pres (ks m') = pres (ks m) /\ memOf m' = memOf m /\
  (forall p v, dget (pris (ks m)) p = Some v -> dget (pris (ks m')) p = Some v) /\
  exists ps vs ds l, dget (sits (ks m)) pre = Some ps /\ valid vs ds = false /\ vs = l_pubs (t_nxt ps) /\
    dget (pubs (ks m')) (riKey pre (l_ridx (t_nxt ps) + 1)) = Some l /\ ds = map (dig c (r_dcode a)) l.
Proof.
  intros m pre a valid t m' P E. cbn [exec] in E.
  destruct (bindM_inv _ _ _ _ _ _ _ _ E) as [(? & ? & ? & ? & _ & E2 & _)|(y & E1 & E2)]; [discriminate|].
  injection E2; intros; subst y. destruct (hab_refused c _ _ _ _ _ _ E1) as (ps & m1 & [vs ds] & S & HK & V & K & MM). cbn in V.
  destruct HK as [(t1 & HK)|(t1 & m0 & ER & K0 & M0 & HK)].
  - destruct (replay_ok c _ _ _ _ _ _ _ _ _ P HK) as (pp & ps' & _ & S' & M1 & l & Hl & Hv & Hds & _ & K1). rewrite S in S'. injection S'; intros; subst ps'.
    cbn in K1. rewrite K, K1. cbn. split. { intros q. rewrite !dget_dset. destruct (beq q pre) eqn:Eq; auto. apply beq_eq in Eq; subst; auto. }
    split; [auto|]. split; [auto|]. split; [congruence|]. split; [auto|]. exists ps, vs, ds, l. auto.
  - rewrite <- K0 in P, S. pose proof (replay_err _ _ _ _ _ _ _ _ _ ER) as (_ & _ & _ & _ & X). destruct (X eq_refl) as (ps0 & S0 & N0).
    rewrite <- K0 in S0, N0. rewrite S in S0. injection S0; intros; subst ps0.
    destruct (rotate_ok c _ _ _ _ _ _ _ P HK) as (pp & ps' & sgs & cr & _ & S' & _ & Hv & Hds & _ & _ & Y). cbv zeta in Y. destruct Y as (_ & _ & M1 & K1).
    rewrite S in S'. injection S'; intros; subst ps'. cbn [r_erase noErase] in K1.
    match type of K1 with ks m1 = addPubs ?k ?l (fold_left (addPri ?e) ?s ?d) => assert (O : others d (ks m1)) end.
    { rewrite K1. eapply others_trans; [|apply addPubs_others]. apply addPris_others. }
    destruct O as (_ & _ & _ & _ & _ & O1 & O3 & O2). cbn in O1, O2, O3.
    rewrite K. cbn. split. { intros q. rewrite O2, K0, !dget_dset. destruct (beq q pre) eqn:Eq; auto. apply beq_eq in Eq; subst. rewrite <- K0; auto. }
    rewrite O1, O3, K0. split; [auto|]. split; [auto|]. split; [congruence|]. split.
    { intros p v Hp. rewrite K1, addPubs_pris. apply addPris_same. cbn. rewrite K0. exact Hp. }
    exists ps, vs, ds, (pubsOf sgs). rewrite <- K0. split; [auto|]. split; [auto|]. split; [auto|]. split; [|exact Hds].
    rewrite K1, addPubs_get, addPris_pubs. cbn. rewrite N0, beq_refl. reflexivity.
Qed.
Lemma retried : forall m pre a valid t m' a2 valid2 t2 m2 vs2 ds2, priOk c (ks m) -> exec c (OHabRotate pre a valid) m = (t, (m', Err ValidationError)) ->
  exec c (OHabRotate pre a2 valid2) m' = (t2, (m2, Ok (Some (vs2, ds2)))) ->
  exists ks, valid vs2 (map (dig c (r_dcode a)) ks) = false /\ valid2 vs2 ds2 = true /\ ds2 = map (dig c (r_dcode a2)) ks.
Proof.
  intros m pre a valid t m' a2 valid2 t2 m2 vs2 ds2 P E E2. destruct (refused _ _ _ _ _ _ P E) as (Ssame & _ & _ & _ & _ & ps & vs & ds & l & S & V & Hv & Hl & Hd).
  assert (P' : priOk c (ks m')) by (eapply (exec_priOk c TR (OHabRotate pre a valid)); eauto; exact Logic.I).
  rewrite <- Ssame in S. cbn [exec] in E2. apply exec_some in E2. destruct E2 as ([vs' ds'] & E2 & R). injection R; intros; subst vs' ds'.
  destruct (hab_ok c _ _ _ _ _ _ _ E2) as (ps' & m1 & S' & HK & V2 & _). rewrite S in S'. injection S'; intros; subst ps'. cbn in V2.
  destruct HK as [(t1 & HK)|(t1 & m0 & ER & _)].
  - destruct (replay_ok c _ _ _ _ _ _ _ _ _ P' HK) as (pp & ps' & _ & S'' & M1 & l' & Hl' & Hv' & Hds & _ & K1). rewrite S in S''. injection S''; intros; subst ps'.
    rewrite Hl in Hl'. injection Hl'; intros; subst l'. exists l. subst. auto.
  - exfalso. pose proof (replay_err _ _ _ _ _ _ _ _ _ ER) as (_ & _ & _ & _ & X). destruct (X eq_refl) as (ps0 & S0 & N0).
    rewrite S in S0. injection S0; intros; subst ps0. congruence.
Qed.
End Extra.
