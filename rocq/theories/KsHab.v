(** Hab.rotate and the exceptions of the key manager *)
From Coq Require Import Lia.
From Verif Require Import Prelude B64Model MatterModel SubsModel ThModel JsonModel KsModel KsSpec JsonProofs KsProofs KsInv KsRun.
Open Scope N_scope.
Ltac Zify.zify_post_hook ::= Z.div_mod_to_equations.

(** [nx e p]: the program never raises [e] *)
Definition nx (e : exn) {A} (p : M A) : Prop := forall m t m' x, p m = (t, (m', Err x)) -> x <> e.
Lemma nx_ret : forall e A (a : A), nx e (ret a). Proof. intros e A a m t m' x E; discriminate. Qed.
Lemma nx_reads : forall e A (f : mgr -> A), nx e (reads f). Proof. intros e A a m t m' x E; discriminate. Qed.
Lemma nx_write : forall e f, nx e (write f). Proof. intros e a m t m' x E; discriminate. Qed.
Lemma nx_memory : forall e f, nx e (memory f). Proof. intros e a m t m' x E; discriminate. Qed.
Lemma nx_raise : forall e A x, x <> e -> nx e (@raise A x).
Proof. intros e A x N m t m' y E. injection E; intros; subst; auto. Qed.
Lemma nx_guard : forall e b x, x <> e -> nx e (guard b x).
Proof. intros e [] x N; [apply nx_raise; auto|apply nx_ret]. Qed.
Lemma nx_lift : forall e A (x : res A), (forall y, x = Err y -> y <> e) -> nx e (lift x).
Proof. intros e A x H m t m' y E. injection E; intros; subst; auto. Qed.
Lemma nx_bind : forall e A B (p : M A) (f : A -> M B), nx e p -> (forall a, nx e (f a)) -> nx e (bindM p f).
Proof.
  intros e A B p f Hp Hf m t m' x E. destruct (bindM_inv _ _ _ _ _ _ _ _ E) as [(t1 & m1 & a & t2 & E1 & E2 & _)|(y & E1 & E2)].
  - eapply Hf; eauto.
  - injection E2; intros; subst. eapply Hp; eauto.
Qed.
Lemma nx_forM : forall e A (l : list A) f, (forall x, nx e (f x)) -> nx e (forM l f).
Proof. induction l; cbn; intros; [apply nx_ret|]. apply nx_bind; auto. Qed.
Lemma nx_mapM : forall e A B (l : list A) (f : A -> M B), (forall x, nx e (f x)) -> nx e (mapM l f).
Proof. induction l; cbn; intros; [apply nx_ret|]. apply nx_bind; auto. intros; apply nx_bind; auto. intros; apply nx_ret. Qed.
Lemma nx_put : forall e V (sel : ksdb -> list (bytes * V)) upd k v, nx e (putM sel upd k v).
Proof.
  intros. unfold putM. apply nx_bind; [apply nx_reads|]. intros m. destruct (dget _ _); [apply nx_ret|].
  apply nx_bind; [apply nx_write|]. intros; apply nx_ret.
Qed.

Section Hab.
Variable c : kcfg.
Variable e0 : exn.
(** exceptions that neither rotate nor the key look up of replay raises *)
Hypothesis E0 : e0 = IndexError \/ e0 = ValidationError.
Ltac ne := destruct E0; subst e0; discriminate.
Ltac nxs := repeat (first
  [ solve [auto using nx_ret, nx_reads, nx_write, nx_memory, nx_put] | apply nx_raise; ne | apply nx_guard; ne
  | apply nx_lift; let Y := fresh in intros ? Y;
      repeat (first [ discriminate Y | injection Y; intros; subst; ne
                    | match type of Y with context [match ?x with _ => _ end] => destruct x end
                    | match type of Y with context [if ?x then _ else _] => destruct x end ])
  | apply nx_bind; [|intros ?] | apply nx_forM; intros ? | apply nx_mapM; intros ?
  | match goal with |- nx _ (match ?x with _ => _ end) => destruct x end
  | match goal with |- nx _ (if ?x then _ else _) => destruct x end ]).
Lemma nx_opened : forall A s (v : stored A), nx e0 (lift (opened c s v)).
Proof. intros. unfold opened. nxs. Qed.
Lemma nx_mkSigner : forall a b d, nx e0 (lift (mkSigner c a b d)).
Proof. intros. unfold mkSigner. nxs. Qed.
Lemma nx_encSecret : forall a b, nx e0 (lift (encSecret a b)).
Proof. intros. unfold encSecret. nxs. Qed.
Lemma nx_getPri : forall p, nx e0 (getPri c p).
Proof.
  intros. unfold getPri. apply nx_bind; [apply nx_reads|]. intros m. destruct (dget _ _); [|apply nx_ret].
  apply nx_bind. { destruct (m_dec m); [apply nx_opened|]. nxs. }
  intros [cd sd]. apply nx_bind; [apply nx_mkSigner|]. intros; apply nx_ret.
Qed.
Lemma nx_verfersOf : forall p, nx e0 (verfersOf c p).
Proof.
  intros. unfold verfersOf. apply nx_mapM. intros x. apply nx_bind; [apply nx_reads|]. intros m. apply nx_bind; [nxs|]. intros _.
  apply nx_bind; [apply nx_getPri|]. intros o. nxs.
Qed.
Lemma nx_mkCreator : forall a s st t, nx e0 (mkCreator c a s st t).
Proof. intros. unfold mkCreator, draw. nxs. Qed.
Lemma nx_create : forall cr codes pidx ridx kidx tr temp, nx e0 (create c cr codes pidx ridx kidx tr temp).
Proof.
  intros cr codes pidx ridx; induction codes; cbn; intros; [apply nx_ret|]. apply nx_bind; [unfold draw; nxs|]. intros s.
  apply nx_bind; [apply nx_mkSigner|]. intros sg. apply nx_bind; auto. intros; apply nx_ret.
Qed.
Lemma nx_putPris : forall e l, nx e0 (forM l (putPri e)).
Proof.
  intros. apply nx_forM. intros x. unfold putPri. apply nx_bind; [apply nx_encSecret|]. intros v. apply nx_bind; [apply nx_put|]. intros; apply nx_ret.
Qed.
Lemma nx_erase : forall l, nx e0 (forM l (fun p => remM pris setPris p)).
Proof. intros. apply nx_forM. intros; apply nx_write. Qed.
Lemma nx_rotate : forall p a, nx e0 (rotate c p a).
Proof.
  intros p a. unfold rotate, pinM. cbv zeta.
  apply nx_bind; [apply nx_reads|]. intros d. apply nx_bind; [nxs|]. intros pp. apply nx_bind; [nxs|]. intros ps.
  apply nx_bind; [nxs|]. intros _. apply nx_bind; [apply nx_verfersOf|]. intros vs. apply nx_bind; [apply nx_reads|]. intros m.
  apply nx_bind.
  { destruct (p_salt pp); [|apply nx_ret]. destruct (negb _); [destruct (m_dec m); [|nxs]|nxs].
    apply nx_bind; [apply nx_opened|]. intros; apply nx_ret. }
  intros salt. apply nx_bind; [apply nx_mkCreator|]. intros cr. apply nx_bind; [apply nx_create|]. intros sgs.
  apply nx_bind; [apply nx_write|]. intros _. apply nx_bind; [apply nx_putPris|]. intros _. apply nx_bind; [apply nx_put|]. intros b.
  apply nx_bind; [destruct (r_erase a); [apply nx_erase|apply nx_ret]|]. intros; apply nx_ret.
Qed.
End Hab.

Section Hab2.
Variable c : kcfg.
Hypothesis TR : forall cd sd tr, trans c (vk c cd sd tr) = tr.

(** a replay that raises has changed nothing; IndexError tells that there is no later key set *)
Lemma replay_err : forall pre dc ad er m t m' e, replay c pre dc ad er m = (t, (m', Err e)) ->
  t = [] /\ ks m' = ks m /\ memOf m' = memOf m /\ e <> ValidationError /\
  (e = IndexError -> exists ps, dget (sits (ks m)) pre = Some ps /\ dget (pubs (ks m)) (riKey pre (l_ridx (t_nxt ps) + 1)) = None).
Proof.
  intros pre dc ad er m t m' e E. unfold replay in E.
  destruct (bindM_inv _ _ _ _ _ _ _ _ E) as [(t1 & m1 & d & t2 & E1 & E2 & ->)|(y & E1 & E2)]; [|discriminate]. clear E.
  apply reads_ok in E1. destruct E1 as (-> & -> & ->).
  destruct (bindM_inv _ _ _ _ _ _ _ _ E2) as [(t1 & m1 & pp & t3 & E1 & E & ->)|(y & E1 & E)].
  2:{ injection E; intros; subst y. destruct (dget (prms (ks m)) pre); [discriminate|]. injection E1; intros; subst. repeat split; auto; discriminate. }
  apply lift_ok in E1. destruct E1 as (-> & -> & _). clear E2.
  destruct (bindM_inv _ _ _ _ _ _ _ _ E) as [(t1 & m1 & ps & t2 & E1 & E2 & ->)|(y & E1 & E2)].
  2:{ injection E2; intros; subst y. destruct (dget (sits (ks m)) pre); [discriminate|]. injection E1; intros; subst. repeat split; auto; discriminate. }
  apply lift_ok in E1. destruct E1 as (-> & -> & Eps). clear E.
  destruct (dget (sits (ks m)) pre) as [ps'|] eqn:Es; [|discriminate]. injection Eps; intros; subst ps'. clear Eps.
  destruct (bindM_inv _ _ _ _ _ _ _ _ E2) as [(t1 & m1 & ps' & t3 & E1 & E & ->)|(y & E1 & E)].
  2:{ injection E; intros; subst y. destruct ad; [|discriminate]. cbv zeta in E1. destruct (dget (pubs (ks m)) _) eqn:Ep; [discriminate|].
      injection E1; intros; subst. repeat split; auto; [discriminate|]. intros _; eauto. }
  assert (X : t1 = [] /\ m1 = m) by (destruct ad; cbv zeta in E1; [destruct (dget (pubs (ks m)) _); [|discriminate]|]; apply ret_ok in E1; tauto).
  destruct X as (-> & ->). clear E1 E2.
  destruct (bindM_inv _ _ _ _ _ _ _ _ E) as [(t1 & m1 & vs & t2 & E1 & E2 & ->)|(y & E1 & E2)].
  2:{ injection E2; intros; subst y.
      pose proof (nx_verfersOf c IndexError (or_introl eq_refl) _ _ _ _ _ E1) as N1.
      pose proof (nx_verfersOf c ValidationError (or_intror eq_refl) _ _ _ _ _ E1) as N2.
      apply (q_verfersOf c) in E1. destruct E1 as (-> & A1 & A2). repeat split; auto. intros; congruence. }
  cbv zeta in E2. exfalso. destruct (bindM_inv _ _ _ _ _ _ _ _ E2) as [(t3 & m2 & u & t4 & E3 & E4 & ->)|(y & E3 & _)]; [discriminate|].
  destruct ad; [|discriminate].
  destruct (bindM_inv _ _ _ _ _ _ _ _ E3) as [(t5 & m3 & u & t6 & E5 & E6 & ->)|(z & E5 & _)]; [|discriminate].
  destruct er; [|discriminate]. eapply (nx_erase y); eauto.
Qed.

Definition noErase (a : rargs) : rargs := mkRargs (r_ncodes a) (r_dcode a) (r_transferable a) (r_temp a) false.
(** the keys used by Hab.rotate *)
Definition habKeys (pre : bytes) (a : rargs) (m m1 : mgr) (vd : list bytes * list bytes) : Prop :=
  (exists t, replay c pre (r_dcode a) true false m = (t, (m1, Ok vd))) \/
  (exists t m0, replay c pre (r_dcode a) true false m = ([], (m0, Err IndexError)) /\ ks m0 = ks m /\ memOf m0 = memOf m /\
     rotate c pre (noErase a) m0 = (t, (m1, Ok vd))).
Lemma hab_ok : forall pre a valid m t m' vd, habRotate c pre a valid m = (t, (m', Ok vd)) ->
  exists ps m1, dget (sits (ks m)) pre = Some ps /\ habKeys pre a m m1 vd /\ valid (fst vd) (snd vd) = true /\
    ks m' = erasePris (l_pubs (t_old ps)) (ks m1) /\ memOf m' = memOf m1.
Proof.
  intros pre a valid m t m' vd E. unfold habRotate in E.
  apply bindM_ok in E. destruct E as (? & m1 & d & ? & E1 & E & _). apply reads_ok in E1. destruct E1 as (_ & -> & ->). cbv zeta in E.
  apply bindM_ok in E. destruct E as (? & m1 & vd' & ? & E1 & E & _).
  destruct (dget (sits (ks m)) pre) as [ps|]; [|discriminate].
  destruct (valid (fst vd') (snd vd')) eqn:Ev.
  2:{ apply bindM_ok in E. destruct E as (? & ? & ? & ? & _ & E & _). discriminate. }
  apply bindM_ok in E. destruct E as (? & m2 & ? & ? & E2 & E & _). apply ret_ok in E. destruct E as (_ & -> & ->).
  apply erase_ok in E2. exists ps, m1. split; auto. split; [|tauto].
  destruct (replay c pre (r_dcode a) true false m) as [t1 [m0 r0]] eqn:Er.
  destruct r0 as [y|e].
  - injection E1; intros; subst. left; eauto.
  - destruct e; try discriminate. destruct (rotate c pre _ m0) as [t2 [m3 r3]] eqn:E3. injection E1; intros; subst.
    pose proof (replay_err _ _ _ _ _ _ _ _ Er) as (? & A1 & A2 & _). subst. right. exists t2, m0. split; [exact Er|]. split; [exact A1|]. split; [exact A2|exact E3].
Qed.
Lemma hab_refused : forall pre a valid m t m', habRotate c pre a valid m = (t, (m', Err ValidationError)) ->
  exists ps m1 vd, dget (sits (ks m)) pre = Some ps /\ habKeys pre a m m1 vd /\ valid (fst vd) (snd vd) = false /\
    ks m' = setSits (ks m1) (dset (sits (ks m1)) pre ps) /\ memOf m' = memOf m1.
Proof.
  intros pre a valid m t m' E. unfold habRotate in E.
  destruct (bindM_inv _ _ _ _ _ _ _ _ E) as [(t1 & m1 & d & t2 & E1 & E2 & ->)|(y & E1 & E2)]; [|discriminate]. clear E.
  apply reads_ok in E1. destruct E1 as (-> & -> & ->). cbv zeta in E2.
  destruct (bindM_inv _ _ _ _ _ _ _ _ E2) as [(t1 & m1 & vd & t3 & E1 & E & ->)|(y & E1 & E)].
  2:{ exfalso. injection E; intros; subst y. destruct (replay c pre (r_dcode a) true false m) as [t1 [m0 r0]] eqn:Er.
      destruct r0 as [y|e]; [discriminate|]. apply replay_err in Er. destruct Er as (_ & _ & _ & N & _).
      destruct e; try discriminate; try congruence.
      destruct (rotate c pre _ m0) as [t4 [m3 r3]] eqn:E3. injection E1; intros; subst.
      eapply (nx_rotate c ValidationError); eauto. }
  destruct (dget (sits (ks m)) pre) as [ps|]; [|discriminate].
  exists ps, m1, vd. destruct (valid (fst vd) (snd vd)) eqn:Ev.
  { exfalso. destruct (bindM_inv _ _ _ _ _ _ _ _ E) as [(? & ? & ? & ? & _ & E3 & _)|(y & E3 & E4)]; [discriminate|].
    injection E4; intros; subst. eapply (nx_erase ValidationError); eauto. }
  destruct (bindM_inv _ _ _ _ _ _ _ _ E) as [(t4 & m2 & u & t5 & E3 & E4 & ->)|(y & E3 & E4)]; [|discriminate].
  apply write_ok in E3. injection E4; intros; subst. split; auto. split; [|tauto].
  destruct (replay c pre (r_dcode a) true false m) as [t1' [m0 r0]] eqn:Er.
  destruct r0 as [y|e].
  - injection E1; intros; subst. left; eauto.
  - destruct e; try discriminate. destruct (rotate c pre _ m0) as [t6 [m3 r3]] eqn:E5. injection E1; intros; subst.
    pose proof (replay_err _ _ _ _ _ _ _ _ Er) as (? & A1 & A2 & _). subst. right. exists t6, m0. split; [exact Er|]. split; [exact A1|]. split; [exact A2|exact E5].
Qed.
End Hab2.
