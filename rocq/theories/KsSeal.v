(** Encryption at rest of the key store *)
From Coq Require Import Lia.
From Verif Require Import Prelude B64Model MatterModel SubsModel ThModel JsonModel KsModel KsSpec JsonProofs KsProofs KsInv KsRun KsHab KsLedger.
Open Scope N_scope.
Ltac Zify.zify_post_hook ::= Z.div_mod_to_equations.

(** what every stored secret looks like *)
Definition form := forall A, stored A -> Prop.
Definition sealedF (a : bytes) : form := fun A v => exists x, v = Sealed a x.
Definition plainF : form := fun A v => exists x, v = Plain x.
Definition allS (F : form) (d : ksdb) : Prop :=
  (forall p v, dget (pris d) p = Some v -> F _ v) /\ (forall s, salts d s -> F _ s).

Section Seal.
Variable c : kcfg.
Variable e : option bytes.
Variable F : form.
Variable G : option bytes * option (stored bytes) -> Prop. (* values of aeid and salt *)
Hypothesis Fsalt : forall x, F _ (encSalt e (Plain x)).
Hypothesis Fsec : forall s v, encSecret e s = Ok v -> F _ v.
Definition JF (d : ksdb) : Prop := G (g_aeid d, g_salt d) /\ allS F d.

Lemma salts_prms : forall d k p s, salts (setPrms d (dset (prms d) k p)) s -> salts d s \/ p_salt p = Some s.
Proof.
  intros d k p s [H|(q & x & H1 & H2)].
  - left; left; exact H.
  - cbn in H1. rewrite dget_dset in H1. destruct (beq q k); [injection H1; intros; subst; auto|]. left; right; eauto.
Qed.
Lemma JF_stable : forall K : mem -> Prop, (forall m, K m -> fst (fst m) = e) -> stable c K JF (fun _ => True).
Proof.
  intros K HK. constructor; unfold JF; intros; try exact H; try exact H0.
  - destruct H as (A1 & A2 & A3). split; auto. split; auto. intros s Hs. apply salts_prms in Hs. destruct Hs as [Hs|Hs]; auto.
    destruct H0 as [H0|(d0 & k0 & (_ & _ & B3) & B)].
    + unfold saltOk in H0. rewrite Hs in H0. destruct H0 as (e' & dc & sd & x & HK' & ->). apply HK in HK'. cbn in HK'. subst e'. apply Fsalt.
    + apply B3. right; eauto.
  - destruct H0 as (A1 & A2 & A3). split; auto. split; auto. intros s [Hs|(q & x & H1 & H2)]; [apply A3; left; exact Hs|].
    cbn in H1. rewrite dget_krem in H1. destruct (beq q k); [discriminate|]. apply A3. right; eauto.
  - destruct H as (A1 & A2 & A3). split; auto. split; auto. intros p w Hw. cbn in Hw. rewrite dget_dset in Hw.
    destruct (beq p (snd sg)); [|eapply A2; eauto]. injection Hw; intros; subst w. eapply Fsec. apply HK in H0. cbn in H0. subst e0. exact H2.
  - destruct H as (A1 & A2 & A3). split; auto. split; auto. intros p w Hw. cbn in Hw. rewrite dget_krem in Hw.
    destruct (beq p k); [discriminate|]. eapply A2; eauto.
Qed.
Lemma call_holds : forall (K : mem -> Prop) o, (forall m, K m -> fst (fst m) = e) -> usesKeys o = true -> holds K JF (exec c o) (fun _ => True).
Proof.
  intros K o HK U. pose proof (JF_stable K HK) as S. destruct o; try discriminate; cbn [exec];
    (eapply holds_bind; [|intros; apply holds_ret; exact Logic.I]).
  - eapply incept_st; eauto.
  - eapply move_st; [exact S|exact Logic.I].
  - eapply rotate_st; [exact S|exact Logic.I].
  - eapply replay_st; [exact S|exact Logic.I].
  - eapply habRotate_st; [exact S|exact Logic.I].
Qed.
End Seal.

Section C50.
Variable c : kcfg.

Definition consistent (m : mgr) : Prop :=
  (g_aeid (ks m) = Some [] /\ m_enc m = None /\ m_dec m = None /\ plainStore (ks m)) \/
  (exists a, a <> [] /\ g_aeid (ks m) = Some a /\ m_enc m = Some a /\ m_dec m = Some (m_seed m) /\ m_seed m <> [] /\
     seedOk c a (m_seed m) = true /\ sealedUnder a (ks m)).
Definition restsAs (m : mgr) (d : ksdb) : Prop :=
  g_aeid d = g_aeid (ks m) /\ g_salt d = g_salt (ks m) /\ (match aeidOf (ks m) with [] => plainStore d | a => sealedUnder a d end).

Lemma call_consistent : forall m o t m' r, consistent m -> usesKeys o = true -> exec c o m = (t, (m', r)) ->
  consistent m' /\ memOf m' = memOf m /\ g_salt (ks m') = g_salt (ks m) /\ Forall (restsAs m) t.
Proof.
  intros m o t m' r C U E. destruct C as [(A1 & A2 & A3 & A4)|(a & Na & A1 & A2 & A3 & A4 & A5 & A6)].
  - destruct (call_holds c None plainF (fun x => x = (Some [], g_salt (ks m))) (fun x => ex_intro _ x eq_refl)) with (K := eq (memOf m)) (o := o) (m := m) (t := t) (m' := m') (r := r) as (B1 & B2 & B3 & _); auto.
    + intros s v H. injection H; intros; subst. exists s; auto.
    + intros x <-. exact A2.
    + split; [rewrite A1; reflexivity|exact A4].
    + split; [|split; [auto|split]].
      * left. injection B2; intros. destruct B3 as (B3 & B4). injection B3; intros _ B3'. rewrite B3'. repeat split; try congruence; try apply B4.
      * destruct B3 as (B3 & _). injection B3; auto.
      * eapply Forall_impl; [|exact B1]. intros d (D1 & D2). injection D1; intros D1a D1b. unfold restsAs, aeidOf. rewrite A1. split; [congruence|]. split; [congruence|exact D2].
  - destruct (call_holds c (Some a) (sealedF a) (fun x => x = (Some a, g_salt (ks m))) (fun x => ex_intro _ x eq_refl)) with (K := eq (memOf m)) (o := o) (m := m) (t := t) (m' := m') (r := r) as (B1 & B2 & B3 & _); auto.
    + intros s v H. cbn in H. destruct (beq _ _); [|discriminate]. injection H; intros; subst. exists s; auto.
    + intros x <-. exact A2.
    + split; [rewrite A1; reflexivity|exact A6].
    + split; [|split; [auto|split]].
      * right. exists a. injection B2; intros. destruct B3 as (B3 & B4). injection B3; intros _ B3'. rewrite B3'. repeat split; try congruence; try apply B4.
      * destruct B3 as (B3 & _). injection B3; auto.
      * eapply Forall_impl; [|exact B1]. intros d (D1 & D2). injection D1; intros D1a D1b. unfold restsAs, aeidOf. rewrite A1. split; [congruence|]. split; [congruence|].
        destruct a; [congruence|exact D2].
Qed.

(** loops of updateAeid *)
Lemma bind_lift_ok : forall A B (x : res A) (f : A -> M B) m t m' b, bindM (lift x) f m = (t, (m', Ok b)) -> exists a, x = Ok a /\ f a m = (t, (m', Ok b)).
Proof.
  intros A B x f m t m' b E. apply bindM_ok in E. destruct E as (t1 & m1 & a & t2 & E1 & E & ->). apply lift_ok in E1. destruct E1 as (-> & -> & E1). eauto.
Qed.
Lemma prms_loop : forall old e l m t m' u,
  forM l (fun kv => match p_salt (snd kv) with
                   | None => ret tt
                   | Some s => x <~ lift (opened c old s) ;;
                       let p := snd kv in
                       pinM prms setPrms (fst kv) (mkPrm (p_pidx p) (p_algo p) (Some (encSalt e (Plain x))) (p_stem p) (p_tier p))
                   end) m = (t, (m', Ok u)) ->
  exists p', ks m' = setPrms (ks m) p' /\ memOf m' = memOf m /\
    forall k, (dget p' k = dget (prms (ks m)) k /\ (forall p, In (k, p) l -> p_salt p = None)) \/
              (exists p s x, In (k, p) l /\ p_salt p = Some s /\ opened c old s = Ok x /\
                 dget p' k = Some (mkPrm (p_pidx p) (p_algo p) (Some (encSalt e (Plain x))) (p_stem p) (p_tier p))).
Proof.
  intros old e. induction l as [|[k0 p0] l IH]; cbn [forM fst snd]; intros m t m' u E.
  - apply ret_ok in E. destruct E as (_ & -> & _). exists (prms (ks m)). split; [destruct (ks m); reflexivity|]. split; [auto|]. intros k; left; split; [reflexivity|]. intros ? [].
  - apply bindM_ok in E. destruct E as (t1 & m1 & a & t2 & E1 & E & ->).
    destruct (p_salt p0) as [s|] eqn:Es.
    + apply bind_lift_ok in E1. destruct E1 as (x & Ex & E1). cbv zeta in E1. apply write_ok in E1. destruct E1 as (K1 & M1 & _).
      destruct (IH _ _ _ _ E) as (p' & K2 & M2 & H). exists p'. split; [rewrite K2, K1; reflexivity|]. split; [congruence|].
      intros k. rewrite K1 in H. destruct (H k) as [(H1 & H2)|(p & s' & x' & H1 & H2 & H3 & H4)].
      * cbn in H1. rewrite dget_dset in H1. destruct (beq k k0) eqn:Ek.
        -- apply beq_eq in Ek; subst. right. exists p0, s, x. split; [left; reflexivity|]. auto.
        -- left. split; auto. intros p [Hp|Hp]; auto. injection Hp; intros; subst. rewrite beq_refl in Ek; discriminate.
      * right. exists p, s', x'. split; [right; exact H1|]. auto.
    + apply ret_ok in E1. destruct E1 as (_ & -> & _). destruct (IH _ _ _ _ E) as (p' & K2 & M2 & H). exists p'. split; auto. split; auto.
      intros k. destruct (H k) as [(H1 & H2)|(p & s' & x' & H1 & H2 & H3 & H4)].
      * left. split; auto. intros p [Hp|Hp]; auto. injection Hp; intros; subst; auto.
      * right. exists p, s', x'. split; [right; exact H1|]. auto.
Qed.
Lemma pris_loop : forall old e l m t m' u,
  forM l (fun kv => '(cd, sd) <~ lift (opened c old (snd kv)) ;;
                   sg <~ lift (mkSigner c cd sd (trans c (fst kv))) ;;
                   v <~ lift (encSecret e (fst sg)) ;;
                   pinM pris setPris (fst kv) v) m = (t, (m', Ok u)) ->
  exists p', ks m' = setPris (ks m) p' /\ memOf m' = memOf m /\
    forall k, (dget p' k = dget (pris (ks m)) k /\ (forall v, ~ In (k, v) l)) \/
              (exists v x v', In (k, v) l /\ opened c old v = Ok x /\ encSecret e x = Ok v' /\ dget p' k = Some v').
Proof.
  intros old e. induction l as [|[k0 v0] l IH]; cbn [forM fst snd]; intros m t m' u E.
  - apply ret_ok in E. destruct E as (_ & -> & _). exists (pris (ks m)). split; [destruct (ks m); reflexivity|]. split; [auto|]. intros k; left; split; [reflexivity|]. intros ? [].
  - apply bindM_ok in E. destruct E as (t1 & m1 & a & t2 & E1 & E & ->).
    apply bind_lift_ok in E1. destruct E1 as ([cd sd] & Ex & E1). apply bind_lift_ok in E1. destruct E1 as (sg & Eg & E1).
    apply bind_lift_ok in E1. destruct E1 as (v & Ev & E1). apply write_ok in E1. destruct E1 as (K1 & M1 & _).
    apply mkSigner_ok in Eg. destruct Eg as (_ & Eg). rewrite Eg in Ev.
    destruct (IH _ _ _ _ E) as (p' & K2 & M2 & H). exists p'. split; [rewrite K2, K1; reflexivity|]. split; [congruence|].
    intros k. rewrite K1 in H. destruct (H k) as [(H1 & H2)|(w & x & w' & H1 & H2 & H3 & H4)].
    + cbn in H1. rewrite dget_dset in H1. destruct (beq k k0) eqn:Ek.
      * apply beq_eq in Ek; subst. right. exists v0, (cd, sd), v. split; [left; reflexivity|]. auto.
      * left. split; auto. intros w [Hw|Hw]; [|eapply H2; eauto]. injection Hw; intros; subst. rewrite beq_refl in Ek; discriminate.
    + right. exists w, x, w'. split; [right; exact H1|]. auto.
Qed.

(** what a successful change of an encrypted store does *)
Lemma update_ok : forall aeid seed m t m' a s0, updateAeid c aeid seed m = (t, (m', Ok tt)) ->
  a <> [] -> g_aeid (ks m) = Some a -> m_dec m = Some s0 -> aeid <> a ->
  let e := match aeid with [] => None | _ => Some aeid end in
  (aeid <> [] -> seedOk c aeid seed = true /\ seed <> []) /\
  m_enc m' = e /\ m_dec m' = (match seed with [] => None | _ => Some seed end) /\ m_seed m' = seed /\
  exists sv x p' q', g_salt (ks m) = Some sv /\ opened c s0 sv = Ok x /\
    ks m' = mkKs (Some aeid) (g_pidx (ks m)) (g_algo (ks m)) (Some (encSalt e (Plain x))) (g_tier (ks m)) q' (pres (ks m)) p' (sits (ks m)) (pubs (ks m)) /\
    (forall k, (dget p' k = dget (prms (ks m)) k /\ (forall p, In (k, p) (prms (ks m)) -> p_salt p = None)) \/
              (exists p s x, In (k, p) (prms (ks m)) /\ p_salt p = Some s /\ opened c s0 s = Ok x /\
                 dget p' k = Some (mkPrm (p_pidx p) (p_algo p) (Some (encSalt e (Plain x))) (p_stem p) (p_tier p)))) /\
    (forall k, (dget q' k = dget (pris (ks m)) k /\ (forall v, ~ In (k, v) (pris (ks m)))) \/
              (exists v x v', In (k, v) (pris (ks m)) /\ opened c s0 v = Ok x /\ encSecret e x = Ok v' /\ dget q' k = Some v')).
Proof.
  intros aeid seed m t m' a s0 E Na Ga Gd Ne e. unfold updateAeid in E.
  apply bindM_ok in E. destruct E as (? & m1 & mm & ? & E1 & E & _). apply reads_ok in E1. destruct E1 as (_ & -> & ->). cbv zeta in E.
  apply bindM_ok in E. destruct E as (? & m1 & u1 & ? & E1 & E & _). apply guard_ok in E1. destruct E1 as (_ & -> & _).
  apply bindM_ok in E. destruct E as (? & m1 & u2 & ? & E1 & E & _).
  assert (X : ks m1 = ks m /\ m_enc m1 = e /\ m_dec m1 = m_dec m /\ (aeid <> [] -> seedOk c aeid seed = true /\ seed <> [])).
  { destruct aeid as [|a0 aeid'] eqn:Ea; cbn [isEmpty] in E1.
    - injection E1; intros; subst. repeat (split; [solve [auto]|]). intros HH; congruence.
    - rewrite <- Ea in *. destruct (beq aeid (aeidOf (ks m))) eqn:Eb.
      { exfalso. apply beq_eq in Eb. unfold aeidOf in Eb. rewrite Ga in Eb. congruence. }
      cbn [negb] in E1. apply bindM_ok in E1. destruct E1 as (? & m2 & u3 & ? & E2 & E1 & _). injection E2; intros; subst m2.
      apply guard_ok in E1. destruct E1 as (_ & -> & Hg). apply orb_false_iff in Hg. destruct Hg as (Hg1 & Hg2). cbn.
      split; [auto|]. split; [subst e; rewrite Ea; reflexivity|]. split; [auto|]. intros _. split.
      + destruct (seedOk c aeid seed); auto.
      + intros ->; discriminate. }
  clear E1. destruct X as (K1 & ME1 & MD1 & SO).
  apply bindM_ok in E. destruct E as (? & m2 & salt & ? & E1 & E & _).
  unfold getSalt in E1. apply bindM_ok in E1. destruct E1 as (? & m3 & mm & ? & E2 & E1 & _). apply reads_ok in E2. destruct E2 as (_ & -> & ->).
  rewrite MD1, Gd, K1 in E1. destruct (g_salt (ks m)) as [sv|] eqn:Gs; [|discriminate].
  apply bind_lift_ok in E1. destruct E1 as (xs & Ex0 & E1). apply ret_ok in E1. destruct E1 as (_ & -> & ->).
  apply bindM_ok in E. destruct E as (? & m2 & u3 & ? & E1 & E & _). unfold setSaltM in E1.
  apply bindM_ok in E1. destruct E1 as (? & m3 & mm & ? & E2 & E1 & _). apply reads_ok in E2. destruct E2 as (_ & -> & ->).
  apply write_ok in E1. destruct E1 as (K2 & M2 & _).
  apply bindM_ok in E. destruct E as (? & m3 & mm & ? & E1 & E & _). apply reads_ok in E1. destruct E1 as (_ & -> & ->).
  assert (MD2 : m_dec m2 = Some s0) by (unfold memOf in M2; congruence). rewrite MD2 in E.
  assert (ME2 : m_enc m2 = e) by (unfold memOf in M2; congruence). rewrite ME2 in E.
  apply bindM_ok in E. destruct E as (? & m3 & u4 & ? & E1 & E & _).
  apply bindM_ok in E1. destruct E1 as (? & m4 & u5 & ? & E2 & E1 & _).
  apply prms_loop in E2. destruct E2 as (p' & K3 & M3 & HP). apply pris_loop in E1. destruct E1 as (q' & K4 & M4 & HQ).
  apply bindM_ok in E. destruct E as (? & m5 & u6 & ? & E1 & E & _). apply write_ok in E1. destruct E1 as (K5 & M5 & _).
  injection E; intros; subst m'. cbn [m_enc m_dec m_seed ks].
  split; [exact SO|]. split; [unfold memOf in *; congruence|]. split; [destruct seed; reflexivity|]. split; [reflexivity|].
  exists sv, xs, p', q'. split; [auto|]. split; [exact Ex0|].
  rewrite K2, K1 in HP, HQ. cbn in HP, HQ. rewrite K3 in HQ. rewrite K2, K1 in HQ. cbn in HQ.
  split; [|split; [exact HP|exact HQ]].
  rewrite K5, K4, K3, K2, K1, ME1. reflexivity.
Qed.

Lemma change_consistent : forall aeid seed m t m', consistent m -> aeidOf (ks m) <> [] -> aeid <> aeidOf (ks m) -> (aeid = [] -> seed = []) ->
  updateAeid c aeid seed m = (t, (m', Ok tt)) -> consistent m'.
Proof.
  intros aeid seed m t m' C N1 N2 S E. destruct C as [(A1 & _)|(a & Na & A1 & A2 & A3 & A4 & A5 & A6 & A7)].
  { unfold aeidOf in N1. rewrite A1 in N1. congruence. }
  assert (N3 : aeid <> a) by (unfold aeidOf in N2; rewrite A1 in N2; exact N2).
  destruct (update_ok _ _ _ _ _ _ _ E Na A1 A3 N3) as (B1 & B2 & B3 & B4 & sv & x & p' & q' & G1 & G2 & K & HP & HQ). cbv zeta in *.
  assert (AA : forall (F : form), (forall x, F _ (encSalt (match aeid with [] => None | _ => Some aeid end) (Plain x))) ->
     (forall s v, encSecret (match aeid with [] => None | _ => Some aeid end) s = Ok v -> F _ v) -> allS F (ks m')).
  { intros F F1 F2. rewrite K. split; cbn.
    - intros p v Hv. destruct (HQ p) as [(H1 & H2)|(w & y & w' & H1 & H2 & H3 & H4)].
      + exfalso. rewrite Hv in H1. symmetry in H1. apply dget_In' in H1. eapply H2; eauto.
      + rewrite Hv in H4. injection H4; intros; subst. eapply F2; eauto.
    - intros s [Hs|(p & q & H1 & H2)]; cbn in *.
      + injection Hs; intros; subst. apply F1.
      + destruct (HP p) as [(H3 & H4)|(p0 & s0 & y & H3 & H4 & H5 & H6)].
        * rewrite H1 in H3. symmetry in H3. apply dget_In' in H3. rewrite (H4 _ H3) in H2. discriminate.
        * rewrite H1 in H6. injection H6; intros; subst. cbn in H2. injection H2; intros; subst. apply F1. }
  destruct aeid as [|a0 ae] eqn:Ea.
  - left. rewrite (S eq_refl) in *. split; [rewrite K; reflexivity|]. split; auto. split; auto.
    apply (AA plainF); [intros y; exists y; auto|]. intros s v H; injection H; intros; subst; exists s; auto.
  - right. exists (a0 :: ae). destruct (B1 ltac:(discriminate)) as (C1 & C2).
    split; [discriminate|]. split; [rewrite K; reflexivity|]. split; auto. split; [rewrite B3, B4; destruct seed; [congruence|reflexivity]|].
    split; [congruence|]. split; [congruence|].
    apply (AA (sealedF (a0 :: ae))); [intros y; exists y; auto|]. intros s v H. cbn in H. destruct (beq _ _); [|discriminate]. injection H; intros; subst; exists s; auto.
Qed.

(** setup of an encrypted store only writes defaults that were missing *)
Lemma setup_consistent : forall aeid pidx algo salt tier d seed rnd t m',
  ((g_aeid d = Some [] \/ (g_aeid d = None /\ pris d = [] /\ prms d = [] /\ g_salt d = None)) /\ plainStore d /\ (aeid = [] -> seed = []) /\
     (aeid <> [] -> pris d = [] /\ prms d = [])) \/
    (exists a, a <> [] /\ g_aeid d = Some a /\ sealedUnder a d /\ g_salt d <> None) ->
  setup c aeid pidx algo salt tier (mkMgr d None None seed rnd) = (t, (m', Ok tt)) ->
  consistent m' /\ pris (ks m') = pris d /\ sits (ks m') = sits d /\ pubs (ks m') = pubs d /\ prms (ks m') = prms d /\ pres (ks m') = pres d /\
  (g_algo (ks m') = match g_algo d with Some x => Some x | None => Some algo end) /\ g_salt (ks m') <> None.
Proof.
  intros aeid pidx algo salt tier d seed rnd t m' HD E. unfold setup in E.
  apply bindM_ok in E. destruct E as (? & m1 & d1 & ? & E1 & E & _). apply reads_ok in E1. destruct E1 as (_ & -> & ->). cbn [ks] in E.
  set (m0 := mkMgr d None None seed rnd) in *.
  apply bindM_ok in E. destruct E as (? & m1 & u1 & ? & E1 & E & _).
  assert (X1 : exists v, ks m1 = setPidx d v /\ memOf m1 = memOf m0).
  { destruct (g_pidx d) eqn:Gp; [apply ret_ok in E1; destruct E1 as (_ & -> & _); exists (g_pidx d); split; auto; destruct d; reflexivity|].
    apply write_ok in E1. destruct E1 as (E1 & E2 & _). eauto. }
  destruct X1 as (v1 & K1 & M1). clear E1.
  apply bindM_ok in E. destruct E as (? & m2 & u2 & ? & E1 & E & _).
  assert (X2 : ks m2 = setAlgo (ks m1) (match g_algo d with Some x => Some x | None => Some algo end) /\ memOf m2 = memOf m1).
  { destruct (g_algo d) eqn:Gp; [apply ret_ok in E1; destruct E1 as (_ & -> & _); split; auto; rewrite K1, <- Gp; destruct d; reflexivity|].
    apply write_ok in E1. tauto. }
  destruct X2 as (K2 & M2). clear E1.
  assert (MN : m_enc m2 = None /\ m_dec m2 = None /\ m_seed m2 = seed) by (rewrite M1 in M2; injection M2; auto).
  destruct MN as (ME & MD & MS).
  apply bindM_ok in E. destruct E as (? & m3 & s3 & ? & E1 & E & _).
  unfold getSalt in E1. apply bindM_ok in E1. destruct E1 as (? & m4 & mm & ? & E2 & E1 & _). apply reads_ok in E2. destruct E2 as (_ & -> & ->).
  rewrite MD in E1. apply ret_ok in E1. destruct E1 as (_ & -> & ->).
  apply bindM_ok in E. destruct E as (? & m3 & u3 & ? & E1 & E & _).
  assert (Gs2 : g_salt (ks m2) = g_salt d) by (rewrite K2, K1; reflexivity). rewrite Gs2 in E1.
  assert (X3 : ks m3 = setSalt (ks m2) (Some (match g_salt d with Some x => x | None => Plain salt end)) /\ memOf m3 = memOf m2).
  { destruct (g_salt d) as [sv|] eqn:Gp; [apply ret_ok in E1; destruct E1 as (_ & -> & _); split; auto; rewrite <- Gs2; destruct (ks m2); reflexivity|].
    unfold setSaltM in E1. apply bindM_ok in E1. destruct E1 as (? & m4 & mm & ? & E2 & E1 & _). apply reads_ok in E2. destruct E2 as (_ & -> & ->).
    apply write_ok in E1. rewrite ME in E1. cbn [encSalt] in E1. tauto. }
  destruct X3 as (K3 & M3). clear E1.
  apply bindM_ok in E. destruct E as (? & m4 & u4 & ? & E1 & E & _).
  assert (X4 : exists v, ks m4 = setTier (ks m3) v /\ memOf m4 = memOf m3).
  { destruct (g_tier d) eqn:Gp; [apply ret_ok in E1; destruct E1 as (_ & -> & _); exists (g_tier (ks m3)); split; auto; destruct (ks m3); reflexivity|].
    apply write_ok in E1. destruct E1 as (E1 & E2 & _). eauto. }
  destruct X4 as (v4 & K4 & M4). clear E1.
  apply bindM_ok in E. destruct E as (? & m5 & mm & ? & E1 & E & _). apply reads_ok in E1. destruct E1 as (_ & -> & ->).
  assert (MN : m_enc m4 = None /\ m_dec m4 = None /\ m_seed m4 = seed) by (rewrite M3 in M4; unfold memOf in M4; rewrite ME, MD, MS in M4; injection M4; auto).
  clear ME MD MS. destruct MN as (ME & MD & MS).
  assert (KK : ks m4 = mkKs (g_aeid d) v1 (match g_algo d with Some x => Some x | None => Some algo end)
                        (Some (match g_salt d with Some x => x | None => Plain salt end)) v4 (pris d) (pres d) (prms d) (sits d) (pubs d)).
  { rewrite K4, K3, K2, K1. reflexivity. }
  clear K1 K2 K3 K4 M1 M2 M3 M4 Gs2. clearbody m0. clear m1 m2 m3 m0.
  assert (Ae : aeidOf (ks m4) = aeidOf d) by (rewrite KK; reflexivity). rewrite Ae, MS in E.
  destruct HD as [(A0 & A1 & A2 & A3)|(a & Na & A1 & A2 & A3)].
  - assert (Ed : aeidOf d = []) by (unfold aeidOf; destruct A0 as [->|(-> & _)]; reflexivity).
    rewrite Ed in E. cbn [isEmpty] in E. unfold updateAeid in E.
    apply bindM_ok in E. destruct E as (? & m1 & mm & ? & E1 & E & _). apply reads_ok in E1. destruct E1 as (_ & -> & ->). cbv zeta in E.
    rewrite Ae, Ed in E.
    apply bindM_ok in E. destruct E as (? & m1 & u1' & ? & E1 & E & _). apply guard_ok in E1. destruct E1 as (_ & -> & _).
    apply bindM_ok in E. destruct E as (? & m1 & u2' & ? & E1 & E & _).
    set (e := match aeid with [] => None | _ => Some aeid end).
    assert (X : ks m1 = ks m4 /\ m_enc m1 = e /\ m_dec m1 = None /\ m_seed m1 = seed /\ (aeid <> [] -> seedOk c aeid seed = true /\ seed <> [])).
    { destruct aeid as [|a0 aeid'] eqn:Ea; cbn [isEmpty] in E1.
      - injection E1; intros; subst. repeat (split; [solve [auto]|]). intros HH; congruence.
      - cbn [beq negb] in E1. apply bindM_ok in E1. destruct E1 as (? & m2 & u3' & ? & E2 & E1 & _). injection E2; intros; subst m2.
        apply guard_ok in E1. destruct E1 as (_ & -> & Hg). apply orb_false_iff in Hg. destruct Hg as (Hg1 & Hg2). cbn.
        split; [auto|]. split; [reflexivity|]. split; [auto|]. split; [auto|]. intros _. split.
        + destruct (seedOk c (a0 :: aeid') seed); auto.
        + intros ->; discriminate. }
    clear E1. destruct X as (K1 & ME1 & MD1 & MS1 & SO).
    apply bindM_ok in E. destruct E as (? & m2 & salt' & ? & E1 & E & _).
    unfold getSalt in E1. apply bindM_ok in E1. destruct E1 as (? & m3 & mm & ? & E2 & E1 & _). apply reads_ok in E2. destruct E2 as (_ & -> & ->).
    rewrite MD1, K1, KK in E1. cbn [g_salt] in E1. apply ret_ok in E1. destruct E1 as (_ & -> & ->).
    apply bindM_ok in E. destruct E as (? & m2 & u3' & ? & E1 & E & _). unfold setSaltM in E1.
    apply bindM_ok in E1. destruct E1 as (? & m3 & mm & ? & E2 & E1 & _). apply reads_ok in E2. destruct E2 as (_ & -> & ->).
    apply write_ok in E1. destruct E1 as (K2 & M2 & _).
    apply bindM_ok in E. destruct E as (? & m3 & mm & ? & E1 & E & _). apply reads_ok in E1. destruct E1 as (_ & -> & ->).
    assert (MD2 : m_dec m2 = None /\ m_enc m2 = e) by (unfold memOf in M2; split; congruence). destruct MD2 as (MD2 & ME2). rewrite MD2 in E.
    apply bindM_ok in E. destruct E as (? & m3 & u4' & ? & E1 & E & _). apply ret_ok in E1. destruct E1 as (_ & -> & _).
    apply bindM_ok in E. destruct E as (? & m5 & u6 & ? & E1 & E & _). apply write_ok in E1. destruct E1 as (K5 & M5 & _).
    injection E; intros; subst m'. cbn [m_enc m_dec m_seed ks]. rewrite K5, K2, K1, KK, ME1. cbn.
    repeat (split; [|solve [repeat split; auto; discriminate]]).
    destruct A1 as (P1 & P2).
    assert (Sv : exists y, (match g_salt d with Some x => x | None => Plain salt end) = Plain y).
    { destruct (g_salt d) as [sv|] eqn:Gs; [|eauto]. apply P2. left; exact Gs. }
    destruct Sv as (y & Sv). rewrite Sv.
    assert (ME5 : m_enc m5 = e) by (unfold memOf in M5; congruence).
    destruct aeid as [|a0 ae] eqn:Ea.
    + left. cbn. rewrite (A2 eq_refl). subst e. split; auto. split; auto. split; auto.
      split; cbn; [exact P1|]. intros s [Hs|(p & q & H1 & H2)]; cbn in *; [injection Hs; intros; subst; eauto|]. apply P2. right; eauto.
    + right. exists (a0 :: ae). destruct (SO ltac:(discriminate)) as (C1 & C2). destruct (A3 ltac:(discriminate)) as (D1 & D2).
      cbn. subst e. split; [discriminate|]. split; auto. split; auto. split; [destruct seed; [congruence|reflexivity]|]. split; auto. split; auto.
      split; cbn; rewrite ?D1, ?D2; [intros; discriminate|]. intros s [Hs|(p & q & H1 & H2)]; cbn in *; [injection Hs; intros; subst; eauto|].
      discriminate.
  - assert (Ed : aeidOf d = a) by (unfold aeidOf; rewrite A1; reflexivity). rewrite Ed in E. destruct a as [|a0 a]; [congruence|]. cbn [isEmpty] in E.
    apply bindM_ok in E. destruct E as (? & m5 & u5 & ? & E1 & E & _). injection E1; intros; subst m5.
    apply bindM_ok in E. destruct E as (? & m6 & u6 & ? & E2 & E & _). apply guard_ok in E2. destruct E2 as (_ & -> & Hg).
    apply orb_false_iff in Hg. destruct Hg as (Hg1 & Hg2).
    injection E; intros; subst m'. cbn [ks m_enc m_dec m_seed]. rewrite KK. cbn.
    repeat (split; [|solve [repeat split; auto; discriminate]]).
    right. exists (a0 :: a). cbn [ks m_enc m_dec m_seed g_aeid]. rewrite MS.
    split; [discriminate|]. split; [auto|]. split. { unfold aeidOf. cbn. rewrite A1. reflexivity. }
    split; [reflexivity|]. split; [intros ->; discriminate|]. split; [destruct (seedOk c (a0 :: a) seed); auto; discriminate|].
    destruct A2 as (P1 & P2). split; cbn; [exact P1|].
    intros s [Hs|(p & q & HA & HB)]; cbn in *; [|apply P2; right; eauto].
    destruct (g_salt d) as [sv|] eqn:Gs; [|congruence]. injection Hs; intros; subst. apply P2. left; exact Gs.
Qed.
Lemma plain0 : plainStore ks0.
Proof. split; [intros p v X; discriminate|]. intros s [X|(p & q & X & _)]; discriminate. Qed.
Lemma chist_consistent : forall m, chist c m -> consistent m /\ g_salt (ks m) <> None.
Proof.
  intros m H. induction H as [aeid pidx algo salt tier seed rnd t m' HS E | m o t m' r H [IH IS] U E | m aeid seed t m' H [IH IS] N1 N2 HS E
    | m o d seed aeid pidx algo salt tier rnd t m' H [IH IS] U Hin HS E].
  - apply setup_consistent in E; [tauto|]. left. split; [right; auto|]. split; [apply plain0|]. split; [auto|]. auto.
  - destruct (call_consistent _ _ _ _ _ IH U E) as (A & _ & B & _). split; [auto|congruence].
  - split; [eapply change_consistent; eauto|].
    destruct IH as [(A1 & _)|(a & Na & A1 & A2 & A3 & _)]; [unfold aeidOf in N1; rewrite A1 in N1; congruence|].
    assert (N3 : aeid <> a) by (unfold aeidOf in N2; rewrite A1 in N2; exact N2).
    destruct (update_ok _ _ _ _ _ _ _ E Na A1 A3 N3) as (_ & _ & _ & _ & sv & x & p' & q' & _ & _ & K & _). rewrite K. cbn. discriminate.
  - assert (R : restsAs m d).
    { destruct Hin as [<-|Hin].
      - split; [auto|]. split; [auto|]. unfold aeidOf. destruct IH as [(A1 & _ & _ & A2)|(a & Na & A1 & _ & _ & _ & _ & A2)]; rewrite A1; auto.
        destruct a; [congruence|auto].
      - destruct (exec c o m) as [t0 [m0 r0]] eqn:E0. destruct (call_consistent _ _ _ _ _ IH U E0) as (_ & _ & _ & F). eapply Forall_forall in F; eauto. }
    destruct R as (R1 & R2 & R3). apply setup_consistent in E; [tauto|].
    unfold aeidOf in *. destruct IH as [(A1 & _)|(a & Na & A1 & _)]; rewrite A1 in *.
    + left. destruct (HS eq_refl) as (-> & ->). split; [auto|]. split; [auto|]. split; [auto|]. congruence.
    + right. exists a. split; [auto|]. split; [auto|]. split; [destruct a; [congruence|auto]|]. congruence.
Qed.

(** private keys that can be used *)
Lemma readable : forall m p v, consistent m -> priOk c (ks m) -> dget (pris (ks m)) p = Some v ->
  exists cd sd, signersOf c [p] m = ([], (m, Ok [((cd, sd), p)])) /\ content v = Some (cd, sd) /\ memB cd SeedDex = true /\ vk c cd sd (trans c p) = p.
Proof.
  intros m p v C P G. 
  assert (X : exists x, content v = Some x /\ (match m_dec m with Some seed => opened c seed v | None => match v with Plain x => Ok x | _ => Err ValueError end end) = Ok x /\
     negb (isEmpty (aeidOf (ks m))) && match m_dec m with None => true | Some _ => false end = false).
  { destruct C as [(A1 & A2 & A3 & A4 & _)|(a & Na & A1 & A2 & A3 & A4 & A5 & A6 & _)].
    - destruct (A4 _ _ G) as (x & ->). exists x. rewrite A3. unfold aeidOf. rewrite A1. auto.
    - destruct (A6 _ _ G) as (x & ->). exists x. rewrite A3. cbn. rewrite A5. rewrite andb_false_r. auto. }
  destruct X as ([cd sd] & X1 & X2 & X3). exists cd, sd.
  destruct (P p v cd sd) as (P1 & P2); [apply dget_In'; auto|auto|]. split; [|auto].
  unfold signersOf. cbn [mapM]. unfold bindM at 1 2 3. unfold reads at 1. unfold guard. rewrite X3. unfold bindM at 1. unfold ret at 1.
  unfold getPri. unfold bindM at 1 2. unfold reads. rewrite G, X2. unfold lift. unfold bindM. unfold mkSigner. rewrite P1, P2. reflexivity.
Qed.
End C50.
