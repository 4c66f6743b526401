(** What the calls of the key manager do when they return *)
From Coq Require Import Lia.
From Verif Require Import Prelude B64Model MatterModel SubsModel ThModel JsonModel KsModel KsSpec JsonProofs KsProofs KsInv.
Open Scope N_scope.
Ltac Zify.zify_post_hook ::= Z.div_mod_to_equations.

(** ** The last database of the trace is that of the manager *)
Definition traced {A} (p : M A) : Prop := forall m t m' r, p m = (t, (m', r)) -> ks m' = last t (ks m).
Lemma last_app' : forall A (a b : list A) x, last (a ++ b) x = last b (last a x).
Proof.
  induction a as [|y a IH]; intros b x; [reflexivity|]. destruct a as [|z a].
  - cbn [app]. destruct b as [|w b]; [reflexivity|]. cbn [last]. clear. revert w. induction b as [|v b IHb]; intros w; [reflexivity|]. cbn. cbn in IHb. apply IHb.
  - change (last ((z :: a) ++ b) x = last b (last (z :: a) x)). apply IH.
Qed.
Lemma tr_ret : forall A (a : A), traced (ret a).
Proof. intros A a m t m' r E; injection E; intros; subst; reflexivity. Qed.
Lemma tr_raise : forall A e, traced (@raise A e).
Proof. intros A e m t m' r E; injection E; intros; subst; reflexivity. Qed.
Lemma tr_lift : forall A (x : res A), traced (lift x).
Proof. intros A x m t m' r E; injection E; intros; subst; reflexivity. Qed.
Lemma tr_reads : forall A (f : mgr -> A), traced (reads f).
Proof. intros A f m t m' r E; injection E; intros; subst; reflexivity. Qed.
Lemma tr_write : forall f, traced (write f).
Proof. intros f m t m' r E; injection E; intros; subst; reflexivity. Qed.
Lemma tr_memory : forall f, (forall m, ks (f m) = ks m) -> traced (memory f).
Proof. intros f H m t m' r E; injection E; intros; subst; cbn; auto. Qed.
Lemma tr_guard : forall b e, traced (guard b e).
Proof. intros [] e; [apply tr_raise|apply tr_ret]. Qed.
Lemma tr_bind : forall A B (p : M A) (f : A -> M B), traced p -> (forall a, traced (f a)) -> traced (bindM p f).
Proof.
  intros A B p f Hp Hf m t m' r E. destruct (bindM_inv _ _ _ _ _ _ _ _ E) as [(t1 & m1 & a & t2 & E1 & E2 & ->)|(e & E1 & ->)].
  - rewrite last_app'. rewrite <- (Hp _ _ _ _ E1). exact (Hf _ _ _ _ _ E2).
  - exact (Hp _ _ _ _ E1).
Qed.
Lemma tr_put : forall V (sel : ksdb -> list (bytes * V)) upd k v, traced (putM sel upd k v).
Proof.
  intros. unfold putM. apply tr_bind; [apply tr_reads|]. intros m. destruct (dget _ _); [apply tr_ret|].
  apply tr_bind; [apply tr_write|]. intros; apply tr_ret.
Qed.
Lemma tr_forM : forall A (l : list A) f, (forall x, traced (f x)) -> traced (forM l f).
Proof. induction l; cbn; intros; [apply tr_ret|]. apply tr_bind; auto. Qed.
Lemma tr_mapM : forall A B (l : list A) (f : A -> M B), (forall x, traced (f x)) -> traced (mapM l f).
Proof. induction l; cbn; intros; [apply tr_ret|]. apply tr_bind; auto. intros; apply tr_bind; auto. intros; apply tr_ret. Qed.
Create HintDb tr.
#[export] Hint Resolve tr_ret tr_raise tr_lift tr_reads tr_write tr_guard tr_put tr_memory : tr.
Ltac trs := repeat (first
  [ solve [auto with tr] | apply tr_bind; [|intros ?] | apply tr_forM; intros ? | apply tr_mapM; intros ?
  | match goal with |- traced (match ?x with _ => _ end) => destruct x end
  | match goal with |- traced (if ?x then _ else _) => destruct x end ]).

Section Run.
Variable c : kcfg.
Lemma tr_draw : traced draw.
Proof. unfold draw. trs. Qed.
Hint Resolve tr_draw : tr.
Lemma tr_getSalt : traced (getSalt c).
Proof. unfold getSalt. trs. Qed.
Hint Resolve tr_getSalt : tr.
Lemma tr_getPri : forall p, traced (getPri c p).
Proof. intros; unfold getPri. trs. Qed.
Hint Resolve tr_getPri : tr.
Lemma tr_putPri : forall e s, traced (putPri e s).
Proof. intros; unfold putPri. trs. Qed.
Hint Resolve tr_putPri : tr.
Lemma tr_setSaltM : forall s, traced (setSaltM s).
Proof. intros; unfold setSaltM. trs. Qed.
Hint Resolve tr_setSaltM : tr.
Lemma tr_mkCreator : forall a s st t, traced (mkCreator c a s st t).
Proof. intros; unfold mkCreator. trs. Qed.
Hint Resolve tr_mkCreator : tr.
Lemma tr_create : forall cr codes pidx ridx kidx tr temp, traced (create c cr codes pidx ridx kidx tr temp).
Proof. intros cr codes pidx ridx; induction codes; intros; cbn; trs. Qed.
Hint Resolve tr_create : tr.
Lemma tr_verfersOf : forall l, traced (verfersOf c l).
Proof. intros; unfold verfersOf. trs. Qed.
Hint Resolve tr_verfersOf : tr.
Lemma tr_update : forall a s, traced (updateAeid c a s).
Proof.
  intros; unfold updateAeid, pinM. cbv zeta. trs.
Qed.
Hint Resolve tr_update : tr.
Lemma tr_setup : forall a p al s t, traced (setup c a p al s t).
Proof. intros; unfold setup. trs. Qed.
Lemma tr_incept : forall a, traced (incept c a).
Proof. intros; unfold incept. cbv zeta. trs. Qed.
Lemma tr_movePubs : forall f o n i, traced (movePubs f o n i).
Proof. induction f; cbn; intros; trs. Qed.
Hint Resolve tr_movePubs : tr.
Lemma tr_move : forall o n, traced (move o n).
Proof. intros; unfold move, remM, pinM. trs. Qed.
Lemma tr_rotate : forall p a, traced (rotate c p a).
Proof. intros; unfold rotate, remM, pinM. cbv zeta. trs. Qed.
Lemma tr_replay : forall p d a e, traced (replay c p d a e).
Proof. intros; unfold replay, remM, pinM. cbv zeta. trs. Qed.
Hint Resolve tr_rotate tr_replay : tr.
Lemma tr_hab : forall p a v, traced (habRotate c p a v).
Proof.
  intros p a v. unfold habRotate, remM, pinM. apply tr_bind; [auto with tr|]. intros d. cbv zeta.
  apply tr_bind.
  - intros m t m' r E. destruct (replay c p (r_dcode a) true false m) as [t1 [m1 r1]] eqn:E1.
    assert (D : (t1, (m1, r1)) = (t, (m', r)) -> ks m' = last t (ks m)).
    { intros Q; injection Q; intros; subst. exact (tr_replay _ _ _ _ _ _ _ _ E1). }
    destruct r1 as [x|e]; [auto|]. destruct e; auto.
    destruct (rotate _ _ _ _) as [t2 [m2 r2]] eqn:E2. injection E; intros; subst.
    rewrite last_app'. rewrite <- (tr_replay _ _ _ _ _ _ _ _ E1). exact (tr_rotate _ _ _ _ _ _ E2).
  - intros vd. trs.
Qed.
Lemma tr_ingestLoop : forall e i tr p ss r k, traced (ingestLoop c e i tr p ss r k).
Proof. intros e i tr p ss; induction ss; intros; cbn [ingestLoop]; unfold pinM; cbv zeta; trs. Qed.
Hint Resolve tr_ingestLoop : tr.
Lemma tr_ingest : forall ss i n st tr te, traced (ingest c ss i n st tr te).
Proof. intros; unfold ingest, pinM; cbv zeta. trs. Qed.
Lemma tr_exec : forall o, traced (exec c o).
Proof.
  destruct o; cbn [exec]; apply tr_bind; intros; try apply tr_ret;
  auto using tr_setup, tr_incept, tr_move, tr_hab, tr_ingest with tr.
Qed.

(** ** Programs that only read *)
Definition quiet {A} (p : M A) : Prop := forall m t m' r, p m = (t, (m', r)) -> t = [] /\ ks m' = ks m /\ memOf m' = memOf m.
Lemma q_bind : forall A B (p : M A) (f : A -> M B), quiet p -> (forall a, quiet (f a)) -> quiet (bindM p f).
Proof.
  intros A B p f Hp Hf m t m' r E. destruct (bindM_inv _ _ _ _ _ _ _ _ E) as [(t1 & m1 & a & t2 & E1 & E2 & ->)|(e & E1 & ->)].
  - destruct (Hp _ _ _ _ E1) as (-> & A1 & A2). destruct (Hf _ _ _ _ _ E2) as (-> & B1 & B2). cbn. rewrite B1, B2; auto.
  - exact (Hp _ _ _ _ E1).
Qed.
Ltac q0 := let E := fresh in intros ? ? ? ? E; injection E; intros; subst; auto.
Lemma q_ret : forall A (a : A), quiet (ret a). Proof. intros A a; q0. Qed.
Lemma q_raise : forall A e, quiet (@raise A e). Proof. intros A e; q0. Qed.
Lemma q_lift : forall A (x : res A), quiet (lift x). Proof. intros A e; q0. Qed.
Lemma q_reads : forall A (f : mgr -> A), quiet (reads f). Proof. intros A e; q0. Qed.
Lemma q_guard : forall b e, quiet (guard b e). Proof. intros [] e; q0. Qed.
Lemma q_mapM : forall A B (l : list A) (f : A -> M B), (forall x, quiet (f x)) -> quiet (mapM l f).
Proof. induction l; cbn; intros; [apply q_ret|]. apply q_bind; auto. intros; apply q_bind; auto. intros; apply q_ret. Qed.
Lemma q_draw : quiet draw.
Proof. unfold draw. intros m t m' r E. unfold bindM, reads, memory, ret in E. injection E; intros; subst. auto. Qed.
Hint Resolve q_ret q_raise q_lift q_reads q_guard q_draw : tr.
Ltac qs := repeat (first
  [ solve [auto with tr] | apply q_bind; [|intros ?] | apply q_mapM; intros ?
  | match goal with |- quiet (match ?x with _ => _ end) => destruct x end
  | match goal with |- quiet (if ?x then _ else _) => destruct x end ]).
Lemma q_getSalt : quiet (getSalt c). Proof. unfold getSalt; qs. Qed.
Lemma q_getPri : forall p, quiet (getPri c p). Proof. intros; unfold getPri; qs. Qed.
Lemma q_mkCreator : forall a s st t, quiet (mkCreator c a s st t). Proof. intros; unfold mkCreator; qs. Qed.
Hint Resolve q_getSalt q_getPri q_mkCreator : tr.
Lemma q_verfersOf : forall l, quiet (verfersOf c l). Proof. intros; unfold verfersOf; qs. Qed.
Lemma q_signersOf : forall l, quiet (signersOf c l). Proof. intros; unfold signersOf; qs. Qed.
Lemma q_create : forall cr codes pidx ridx kidx tr temp, quiet (create c cr codes pidx ridx kidx tr temp).
Proof. intros cr codes pidx ridx; induction codes; intros; cbn; qs. Qed.

(** ** Results of calls that return *)
Lemma reads_ok : forall A (f : mgr -> A) m t m' a, reads f m = (t, (m', Ok a)) -> t = [] /\ m' = m /\ a = f m.
Proof. intros A f m t m' a E; injection E; intros; subst; auto. Qed.
Lemma lift_ok : forall A (x : res A) m t m' a, lift x m = (t, (m', Ok a)) -> t = [] /\ m' = m /\ x = Ok a.
Proof. intros A f m t m' a E; injection E; intros; subst; auto. Qed.
Lemma ret_ok : forall A (x : A) m t m' a, ret x m = (t, (m', Ok a)) -> t = [] /\ m' = m /\ a = x.
Proof. intros A f m t m' a E; injection E; intros; subst; auto. Qed.
Lemma guard_ok : forall b e m t m' a, guard b e m = (t, (m', Ok a)) -> t = [] /\ m' = m /\ b = false.
Proof. intros [] e m t m' a E; injection E; intros; subst; try discriminate; auto. Qed.
Lemma write_ok : forall f m t m' a, write f m = (t, (m', Ok a)) -> ks m' = f (ks m) /\ memOf m' = memOf m /\ t = [f (ks m)].
Proof. intros f m t m' a E; injection E; intros; subst; auto. Qed.
Lemma putM_ok : forall V (sel : ksdb -> list (bytes * V)) upd k v m t m' b, putM sel upd k v m = (t, (m', Ok b)) ->
  memOf m' = memOf m /\ ((b = true /\ dget (sel (ks m)) k = None /\ ks m' = upd (ks m) (dset (sel (ks m)) k v)) \/
                         (b = false /\ dget (sel (ks m)) k <> None /\ ks m' = ks m)).
Proof.
  intros V sel upd k v m t m' b E. unfold putM, bindM, reads in E. destruct (dget (sel (ks m)) k) eqn:G; cbn in E; injection E; intros; subst.
  - split; auto. right. repeat split; auto. discriminate.
  - split; auto.
Qed.

Definition addPri (e : option bytes) (d : ksdb) (sg : signer) : ksdb :=
  match encSecret e (fst sg), dget (pris d) (snd sg) with
  | Ok v, None => setPris d (dset (pris d) (snd sg) v)
  | _, _ => d
  end.
Definition addPubs (k : bytes) (l : list bytes) (d : ksdb) : ksdb :=
  match dget (pubs d) k with None => setPubs d (dset (pubs d) k l) | Some _ => d end.
Definition erasePris (l : list bytes) (d : ksdb) : ksdb := fold_left (fun d p => setPris d (krem (pris d) p)) l d.

Lemma putPri_ok : forall e sg m t m' u, putPri e sg m = (t, (m', Ok u)) ->
  ks m' = addPri e (ks m) sg /\ memOf m' = memOf m /\ exists v, encSecret e (fst sg) = Ok v.
Proof.
  intros e sg m t m' u E. unfold putPri in E. apply bindM_ok in E. destruct E as (t1 & m1 & v & t2 & E1 & E2 & _).
  apply lift_ok in E1. destruct E1 as (_ & -> & Ev). apply bindM_ok in E2. destruct E2 as (t3 & m2 & b & t4 & E3 & E4 & _).
  apply ret_ok in E4. destruct E4 as (_ & -> & _). apply putM_ok in E3. unfold addPri. rewrite Ev.
  destruct E3 as (Em & [(_ & -> & E)|(_ & N & E)]); split; eauto. rewrite E. destruct (dget _ _); [reflexivity|congruence].
Qed.
Lemma putPris_ok : forall e sgs m t m' u, forM sgs (putPri e) m = (t, (m', Ok u)) ->
  ks m' = fold_left (addPri e) sgs (ks m) /\ memOf m' = memOf m /\ Forall (fun sg => exists v, encSecret e (fst sg) = Ok v) sgs.
Proof.
  induction sgs as [|sg sgs IH]; cbn; intros m t m' u E.
  - apply ret_ok in E. destruct E as (_ & -> & _); auto.
  - apply bindM_ok in E. destruct E as (t1 & m1 & v & t2 & E1 & E2 & _). apply putPri_ok in E1. destruct E1 as (A1 & A2 & A3).
    apply IH in E2. destruct E2 as (B1 & B2 & B3). rewrite B1, A1, B2, A2. auto.
Qed.
Lemma erase_ok : forall l m t m' u, forM l (fun p => remM pris setPris p) m = (t, (m', Ok u)) -> ks m' = erasePris l (ks m) /\ memOf m' = memOf m.
Proof.
  induction l as [|p l IH]; cbn [forM]; intros m t m' u E.
  - apply ret_ok in E. destruct E as (_ & -> & _); auto.
  - apply bindM_ok in E. destruct E as (t1 & m1 & v & t2 & E1 & E2 & _). apply write_ok in E1. destruct E1 as (A1 & A2 & _).
    apply IH in E2. destruct E2 as (B1 & B2). rewrite B1, A1, B2, A2. auto.
Qed.

Definition made (cr : creator) (pidx ridx kidx : N) (tr temp : bool) (codes : list bytes) (sgs : list signer) : Prop :=
  List.length sgs = List.length codes /\
  forall i sg, nth_error sgs i = Some sg -> exists code seed, nth_error codes i = Some code /\ memB code SeedDex = true /\
    sg = ((code, seed), vk c code seed tr) /\
    match cr with
    | CSalty salt stem tier => seed = stretch c salt (pathOf stem pidx ridx (kidx + N.of_nat i)) tier temp code
    | CRandy => True
    end.
Lemma create_ok : forall cr codes pidx ridx kidx tr temp m t m' sgs,
  create c cr codes pidx ridx kidx tr temp m = (t, (m', Ok sgs)) -> made cr pidx ridx kidx tr temp codes sgs.
Proof.
  intros cr codes pidx ridx. induction codes as [|code rest IH]; cbn; intros kidx tr temp m t m' sgs E.
  - apply ret_ok in E. destruct E as (_ & _ & ->). split; auto. intros [|i] sg; discriminate.
  - apply bindM_ok in E. destruct E as (t1 & m1 & seed & t2 & E1 & E2 & _).
    apply bindM_ok in E2. destruct E2 as (t3 & m2 & sg & t4 & E3 & E4 & _). apply lift_ok in E3. destruct E3 as (_ & -> & E3).
    apply bindM_ok in E4. destruct E4 as (t5 & m3 & sgs' & t6 & E5 & E6 & _). apply ret_ok in E6. destruct E6 as (_ & -> & ->).
    apply IH in E5. destruct E5 as [L P]. split; [cbn; auto|].
    intros [|i] s; cbn [nth_error].
    + intros H; injection H; intros; subst. unfold mkSigner in E3. destruct (memB code SeedDex) eqn:D; [|discriminate].
      injection E3; intros; subst. exists code, seed. repeat split; auto.
      destruct cr; auto. apply ret_ok in E1. destruct E1 as (_ & _ & ->). rewrite N.add_0_r. reflexivity.
    + intros H. destruct (P _ _ H) as (cd & sd & A1 & A2 & A3 & A4). exists cd, sd. repeat split; auto.
      destruct cr; auto. rewrite A4. replace (kidx + N.of_nat (S i)) with (kidx + 1 + N.of_nat i) by lia. reflexivity.
Qed.
Lemma made_ok : forall cr p r k tr te codes sgs, made cr p r k tr te codes sgs -> Forall (signerOk c tr) sgs.
Proof.
  intros cr p r k tr te codes sgs [_ H]. apply Forall_forall. intros sg Hin. apply In_nth_error in Hin. destruct Hin as [i Hi].
  destruct (H _ _ Hi) as (cd & sd & _ & H1 & -> & _). split; auto.
Qed.
Lemma mkCreator_ok : forall al salt stem tier m t m' cr, mkCreator c (Some al) salt stem tier m = (t, (m', Ok cr)) ->
  (al = Randy /\ cr = CRandy) \/ (al = Salty /\ exists s ti, cr = CSalty s stem ti).
Proof.
  intros al salt stem tier m t m' cr E. unfold mkCreator in E. destruct (beq al Randy) eqn:E1.
  - apply beq_eq in E1. apply ret_ok in E. left. tauto.
  - destruct (beq al Salty) eqn:E2; [|discriminate]. apply beq_eq in E2. apply bindM_ok in E.
    destruct E as (t1 & m1 & s & t2 & _ & E & _). apply ret_ok in E. right. destruct E as (_ & _ & ->). eauto.
Qed.

Hypothesis TR : forall cd sd tr, trans c (vk c cd sd tr) = tr.
Lemma getPri_ok : forall p m t m' sg, priOk c (ks m) -> getPri c p m = (t, (m', Ok (Some sg))) ->
  snd sg = p /\ m' = m /\ exists v, dget (pris (ks m)) p = Some v /\ content v = Some (fst sg).
Proof.
  intros p m t m' sg P E. unfold getPri in E. apply bindM_ok in E. destruct E as (t1 & m1 & x & t2 & E1 & E & _).
  apply reads_ok in E1. destruct E1 as (_ & -> & ->). destruct (dget (pris (ks m)) p) as [v|] eqn:G; [|apply ret_ok in E; destruct E as (_ & _ & E); discriminate].
  apply bindM_ok in E. destruct E as (t3 & m2 & [cd sd] & t4 & E1 & E & _). apply lift_ok in E1. destruct E1 as (_ & -> & E1).
  apply bindM_ok in E. destruct E as (t5 & m3 & sg' & t6 & E2 & E & _). apply lift_ok in E2. destruct E2 as (_ & -> & E2).
  apply ret_ok in E. destruct E as (_ & -> & E). injection E; intros; subst sg'.
  assert (Cv : content v = Some (cd, sd)).
  { destruct (m_dec m) as [s|]; destruct v; cbn in E1; try discriminate.
    - destruct (seedOk c a s); [|discriminate]. injection E1; intros; subst; auto.
    - injection E1; intros; subst; auto. }
  apply mkSigner_ok in E2. destruct E2 as ((_ & E2) & E3). split; [|split; auto].
  - rewrite E2, E3. cbn. eapply P; eauto. apply dget_In'; eauto.
  - exists v. rewrite E3. auto.
Qed.
Lemma verfersOf_ok : forall ps m t m' vs, priOk c (ks m) -> verfersOf c ps m = (t, (m', Ok vs)) ->
  vs = ps /\ m' = m /\ t = [] /\ forall p, In p ps -> exists v x, dget (pris (ks m)) p = Some v /\ content v = Some x.
Proof.
  induction ps as [|p ps IH]; intros m t m' vs P E; unfold verfersOf in E; cbn [mapM] in E.
  - apply ret_ok in E. destruct E as (-> & -> & ->). repeat split; auto. intros p [].
  - assert (Et : t = []) by (eapply (q_verfersOf (p :: ps)); exact E).
    apply bindM_ok in E. destruct E as (t1 & m1 & v & t2 & E1 & E & _).
    apply bindM_ok in E1. destruct E1 as (t3 & m2 & mm & t4 & E2 & E1 & _). apply reads_ok in E2. destruct E2 as (_ & -> & ->).
    apply bindM_ok in E1. destruct E1 as (t5 & m3 & u & t6 & E2 & E1 & _). apply guard_ok in E2. destruct E2 as (_ & -> & _).
    apply bindM_ok in E1. destruct E1 as (t7 & m4 & o & t8 & E2 & E1 & _). destruct o as [sg|]; [|discriminate].
    destruct (getPri_ok _ _ _ _ _ P E2) as (A1 & -> & v0 & A2 & A3).
    apply ret_ok in E1. destruct E1 as (_ & -> & ->). rewrite A1 in E. clear A1.
    apply bindM_ok in E. destruct E as (t9 & m5 & ys & t10 & E3 & E & _). fold (verfersOf c ps) in E3.
    destruct (IH _ _ _ _ P E3) as (-> & -> & _ & B). apply ret_ok in E. destruct E as (_ & -> & ->).
    repeat split; auto. intros q [<-|Hq]; eauto.
Qed.

Lemma rotate_ok : forall pre a m t m' vs ds, priOk c (ks m) -> rotate c pre a m = (t, (m', Ok (vs, ds))) ->
  exists pp ps sgs cr,
    dget (prms (ks m)) pre = Some pp /\ dget (sits (ks m)) pre = Some ps /\ l_pubs (t_nxt ps) <> [] /\
    vs = l_pubs (t_nxt ps) /\ ds = map (dig c (r_dcode a)) (pubsOf sgs) /\
    (forall p, In p vs -> exists v x, dget (pris (ks m)) p = Some v /\ content v = Some x) /\
    (p_algo pp = Salty -> exists s ti, cr = CSalty s (p_stem pp) ti) /\
    let ridx := l_ridx (t_nxt ps) + 1 in let kidx := l_kidx (t_nxt ps) + len (l_pubs (t_nxt ps)) in
    made cr (p_pidx pp) ridx kidx (r_transferable a) (r_temp a) (r_ncodes a) sgs /\
    Forall (fun sg => exists v, encSecret (m_enc m) (fst sg) = Ok v) sgs /\
    memOf m' = memOf m /\
    ks m' = (if r_erase a then erasePris (l_pubs (t_old ps)) else fun d => d)
              (addPubs (riKey pre ridx) (pubsOf sgs)
                (fold_left (addPri (m_enc m)) sgs
                  (setSits (ks m) (dset (sits (ks m)) pre (mkSit (t_new ps) (t_nxt ps) (mkLot (pubsOf sgs) ridx kidx)))))).
Proof.
  intros pre a m t m' vs ds P E. unfold rotate in E.
  apply bindM_ok in E. destruct E as (? & m1 & d & ? & E1 & E & _). apply reads_ok in E1. destruct E1 as (_ & -> & ->).
  apply bindM_ok in E. destruct E as (? & m1 & pp & ? & E1 & E & _). apply lift_ok in E1. destruct E1 as (_ & -> & Epp).
  apply bindM_ok in E. destruct E as (? & m1 & ps & ? & E1 & E & _). apply lift_ok in E1. destruct E1 as (_ & -> & Eps).
  apply bindM_ok in E. destruct E as (? & m1 & u & ? & E1 & E & _). apply guard_ok in E1. destruct E1 as (_ & -> & Eg).
  cbv zeta in E.
  apply bindM_ok in E. destruct E as (? & m1 & vs' & ? & E1 & E & _). destruct (verfersOf_ok _ _ _ _ _ P E1) as (-> & -> & _ & Hv).
  apply bindM_ok in E. destruct E as (? & m1 & mm & ? & E2 & E & _). apply reads_ok in E2. destruct E2 as (_ & -> & ->).
  apply bindM_ok in E. destruct E as (? & m1 & salt & ? & E2 & E & _).
  assert (Q1 : ks m1 = ks m /\ memOf m1 = memOf m).
  { match type of E2 with ?p _ = _ => assert (Q : quiet p) end.
    { destruct (p_salt pp) as [s|]; [|apply q_ret]. destruct (negb _); [destruct (m_dec m); [|apply q_raise]|destruct s; auto using q_ret, q_raise].
      apply q_bind; [apply q_lift|]. intros; apply q_ret. }
    apply Q in E2. tauto. }
  apply bindM_ok in E. destruct E as (? & m2 & cr & ? & E3 & E & _).
  pose proof (mkCreator_ok _ _ _ _ _ _ _ _ E3) as Hcr. apply q_mkCreator in E3.
  apply bindM_ok in E. destruct E as (? & m3 & sgs & ? & E4 & E & _).
  pose proof (create_ok _ _ _ _ _ _ _ _ _ _ _ E4) as Hsg. apply q_create in E4.
  assert (Q3 : ks m3 = ks m /\ memOf m3 = memOf m).
  { destruct Q1, E3 as (_ & ? & ?), E4 as (_ & ? & ?). split; congruence. }
  apply bindM_ok in E. destruct E as (? & m4 & u4 & ? & E5 & E & _). apply write_ok in E5. destruct E5 as (A1 & A2 & _).
  apply bindM_ok in E. destruct E as (? & m5 & u5 & ? & E6 & E & _). apply putPris_ok in E6. destruct E6 as (B1 & B2 & B3).
  apply bindM_ok in E. destruct E as (? & m6 & b & ? & E7 & E & _). apply putM_ok in E7.
  apply bindM_ok in E. destruct E as (? & m7 & u7 & ? & E8 & E & _). apply ret_ok in E. destruct E as (_ & -> & E).
  injection E; intros; subst vs ds.
  exists pp, ps, sgs, cr.
  assert (X6 : memOf m6 = memOf m5 /\ ks m6 = addPubs (riKey pre (l_ridx (t_nxt ps) + 1)) (pubsOf sgs) (ks m5)).
  { unfold addPubs. destruct E7 as (Y1 & [(_ & Y2 & Y3)|(_ & Y2 & Y3)]); (split; [exact Y1|]).
    - rewrite Y2; exact Y3.
    - destruct (dget (pubs (ks m5)) (riKey pre (l_ridx (t_nxt ps) + 1))); [exact Y3|congruence]. }
  assert (X7 : memOf m7 = memOf m6 /\ ks m7 = (if r_erase a then erasePris (l_pubs (t_old ps)) else fun d => d) (ks m6)).
  { destruct (r_erase a); [apply erase_ok in E8; tauto|]. apply ret_ok in E8. destruct E8 as (_ & -> & _). auto. }
  destruct (dget (prms (ks m)) pre) as [pp'|]; [|discriminate]. injection Epp; intros; subst pp'.
  destruct (dget (sits (ks m)) pre) as [ps'|]; [|discriminate]. injection Eps; intros; subst ps'.
  repeat (split; [solve [auto]|]).
  split. { intros N; rewrite N in Eg; discriminate. }
  repeat (split; [solve [auto]|]).
  split. { intros Ha. destruct Hcr as [(Ha' & _)|(_ & Hs)]; [rewrite Ha in Ha'; discriminate|exact Hs]. }
  cbv zeta. split; [exact Hsg|]. split; [exact B3|].
  destruct Q3 as (Q31 & Q32). split; [destruct X7, X6; congruence|].
  destruct X7 as (_ & ->). destruct X6 as (_ & ->). rewrite B1, A1, Q31. reflexivity.
Qed.

Definition incepted (e : option bytes) (pre : bytes) (pidx : N) (pp : preprm) (ps : presit) (isg nsg : list signer) (d : ksdb) : ksdb :=
  let d1 := setPres d (dset (pres d) pre pre) in
  let d2 := setPrms d1 (dset (prms d1) pre pp) in
  let d3 := setPidx d2 (Some (pidx + 1)) in
  let d4 := setSits d3 (dset (sits d3) pre ps) in
  let d5 := addPubs (riKey pre 0) (pubsOf isg) (fold_left (addPri e) isg d4) in
  addPubs (riKey pre 1) (pubsOf nsg) (fold_left (addPri e) nsg d5).

Lemma put_guard_ok : forall V (sel : ksdb -> list (bytes * V)) upd k v (q : M unit) B (f : unit -> M B) m t m' r,
  bindM (putM sel upd k v) (fun b => bindM (guard (negb b) ValueError) f) m = (t, (m', Ok r)) ->
  exists t' m1, f tt m1 = (t', (m', Ok r)) /\ dget (sel (ks m)) k = None /\ ks m1 = upd (ks m) (dset (sel (ks m)) k v) /\ memOf m1 = memOf m.
Proof.
  intros V sel upd k v q B f m t m' r E.
  apply bindM_ok in E. destruct E as (? & m1 & b & ? & E1 & E & _). apply putM_ok in E1.
  apply bindM_ok in E. destruct E as (? & m2 & [] & ? & E2 & E & _). apply guard_ok in E2. destruct E2 as (_ & -> & Eb).
  destruct E1 as (E1 & [(_ & E3 & E4)|(-> & _)]); [|discriminate]. eauto 6.
Qed.

Lemma addPubs_put : forall k l m t m' b, putM pubs setPubs k l m = (t, (m', Ok b)) -> ks m' = addPubs k l (ks m) /\ memOf m' = memOf m.
Proof.
  intros k l m t m' b E. apply putM_ok in E. unfold addPubs. destruct E as (Y1 & [(_ & Y2 & Y3)|(_ & Y2 & Y3)]); (split; [|exact Y1]).
  - rewrite Y2; exact Y3.
  - destruct (dget (pubs (ks m)) k); [exact Y3|congruence].
Qed.

Lemma incept_ok : forall a m t m' vs ds, incept c a m = (t, (m', Ok (vs, ds))) ->
  exists pidx algo cr isg nsg pp,
    g_pidx (ks m) = Some pidx /\
    algo = (match a_algo a with Some x => Some x | None => if a_rooted a then g_algo (ks m) else None end) /\
    (algo = Some Salty -> exists s ti, cr = CSalty s (a_stem a) ti) /\ (algo <> Some Salty -> cr = CRandy) /\
    pp = mkPrm pidx (match algo with Some x => x | None => [] end)
           (match crSalt cr with Some s => Some (encSalt (m_enc m) (Plain s)) | None => None end) (crStem cr) (crTier cr) /\
    made cr pidx 0 0 (a_transferable a) (a_temp a) (a_icodes a) isg /\
    made cr pidx 1 (len (a_icodes a)) (a_transferable a) (a_temp a) (a_ncodes a) nsg /\
    Forall (fun sg => exists v, encSecret (m_enc m) (fst sg) = Ok v) isg /\
    Forall (fun sg => exists v, encSecret (m_enc m) (fst sg) = Ok v) nsg /\
    vs = pubsOf isg /\ vs <> [] /\ ds = map (dig c (a_dcode a)) (pubsOf nsg) /\
    dget (pres (ks m)) (hd [] vs) = None /\ dget (prms (ks m)) (hd [] vs) = None /\ dget (sits (ks m)) (hd [] vs) = None /\
    memOf m' = memOf m /\
    ks m' = incepted (m_enc m) (hd [] vs) pidx pp
              (mkSit lot0 (mkLot (pubsOf isg) 0 0) (mkLot (pubsOf nsg) 1 (len (a_icodes a)))) isg nsg (ks m).
Proof.
  intros a m t m' vs ds E. unfold incept in E.
  apply bindM_ok in E. destruct E as (? & m1 & d & ? & E1 & E & _). apply reads_ok in E1. destruct E1 as (_ & -> & ->). cbv zeta in E.
  apply bindM_ok in E. destruct E as (? & m1 & salt & ? & E1 & E & _).
  assert (Q1 : ks m1 = ks m /\ memOf m1 = memOf m).
  { match type of E1 with ?p _ = _ => assert (Q : quiet p) end.
    { destruct (a_salt a); [apply q_ret|]. destruct (a_rooted a); [apply q_getSalt|apply q_ret]. }
    apply Q in E1. tauto. }
  clear E1.
  apply bindM_ok in E. destruct E as (? & m2 & pidx & ? & E1 & E & _). apply lift_ok in E1. destruct E1 as (_ & -> & Ep).
  set (algo := match a_algo a with Some x => Some x | None => if a_rooted a then g_algo (ks m) else None end) in *.
  apply bindM_ok in E. destruct E as (? & m2 & cr & ? & E3 & E & _).
  destruct algo as [al|] eqn:Eal; [|discriminate].
  pose proof (mkCreator_ok _ _ _ _ _ _ _ _ E3) as Hcr. apply q_mkCreator in E3.
  apply bindM_ok in E. destruct E as (? & m3 & u & ? & E1 & E & _). apply guard_ok in E1. destruct E1 as (_ & -> & Eg).
  apply bindM_ok in E. destruct E as (? & m3 & isg & ? & E4 & E & _).
  pose proof (create_ok _ _ _ _ _ _ _ _ _ _ _ E4) as Hi. apply q_create in E4.
  apply bindM_ok in E. destruct E as (? & m4 & nsg & ? & E5 & E & _).
  pose proof (create_ok _ _ _ _ _ _ _ _ _ _ _ E5) as Hn. apply q_create in E5.
  apply bindM_ok in E. destruct E as (? & m5 & enc & ? & E1 & E & _). apply reads_ok in E1. destruct E1 as (_ & -> & ->).
  assert (Q4 : ks m4 = ks m /\ memOf m4 = memOf m).
  { destruct Q1, E3 as (_ & ? & ?), E4 as (_ & ? & ?), E5 as (_ & ? & ?). split; congruence. }
  clear E3 E4 E5 Q1. destruct Q4 as (Q41 & Q42).
  assert (Qe : m_enc m4 = m_enc m) by (unfold memOf in Q42; congruence). rewrite Qe in E.
  assert (Hpre : (match isg with [] => [] | (_, p) :: _ => p end) = hd [] (pubsOf isg)) by (destruct isg as [|[]]; reflexivity).
  rewrite Hpre in E.
  apply (put_guard_ok _ _ _ _ _ (ret tt)) in E. destruct E as (? & m5 & E & P1 & K1 & M1).
  apply (put_guard_ok _ _ _ _ _ (ret tt)) in E. destruct E as (? & m6 & E & P2 & K2 & M2).
  apply bindM_ok in E. destruct E as (? & m7 & u7 & ? & E1 & E & _). apply write_ok in E1. destruct E1 as (K3 & M3 & _).
  apply (put_guard_ok _ _ _ _ _ (ret tt)) in E. destruct E as (? & m8 & E & P4 & K4 & M4).
  apply bindM_ok in E. destruct E as (? & m9 & u9 & ? & E1 & E & _). apply putPris_ok in E1. destruct E1 as (K5 & M5 & F5).
  apply bindM_ok in E. destruct E as (? & m10 & b10 & ? & E1 & E & _). apply addPubs_put in E1. destruct E1 as (K6 & M6).
  apply bindM_ok in E. destruct E as (? & m11 & u11 & ? & E1 & E & _). apply putPris_ok in E1. destruct E1 as (K7 & M7 & F7).
  apply bindM_ok in E. destruct E as (? & m12 & b12 & ? & E1 & E & _). apply addPubs_put in E1. destruct E1 as (K8 & M8).
  apply ret_ok in E. destruct E as (_ & -> & E). injection E; intros; subst vs ds.
  exists pidx, (Some al), cr, isg, nsg. eexists.
  split. { destruct (g_pidx (ks m)); [congruence|discriminate]. }
  split; [reflexivity|].
  split. { intros X; injection X; intros; subst al. destruct Hcr as [(X1 & _)|(_ & X1)]; [discriminate|exact X1]. }
  split. { intros X. destruct Hcr as [(_ & X1)|(X1 & _)]; [exact X1|]. elim X; rewrite X1; reflexivity. }
  split; [reflexivity|]. split; [exact Hi|]. split; [exact Hn|]. split; [exact F5|]. split; [exact F7|].
  split; [reflexivity|].
  split. { intros X. destruct Hi as [L _]. destruct isg; [|discriminate]. destruct (a_icodes a); discriminate. }
  split; [reflexivity|].
  split; [rewrite Q41 in P1; exact P1|]. split; [rewrite K1, Q41 in P2; exact P2|]. split; [rewrite K3, K2, K1, Q41 in P4; exact P4|].
  split; [congruence|].
  unfold incepted. cbv zeta. rewrite K8, K7, K6, K5, K4, K3, K2, K1, Q41. reflexivity.
Qed.

Lemma replay_ok : forall pre dc ad er m t m' vs ds, priOk c (ks m) -> replay c pre dc ad er m = (t, (m', Ok (vs, ds))) ->
  exists pp ps,
    dget (prms (ks m)) pre = Some pp /\ dget (sits (ks m)) pre = Some ps /\ memOf m' = memOf m /\
    if ad then exists l,
      dget (pubs (ks m)) (riKey pre (l_ridx (t_nxt ps) + 1)) = Some l /\
      vs = l_pubs (t_nxt ps) /\ ds = map (dig c dc) l /\
      (forall p, In p vs -> exists v x, dget (pris (ks m)) p = Some v /\ content v = Some x) /\
      ks m' = (if er then erasePris (l_pubs (t_old ps)) else fun d => d)
         (setSits (ks m) (dset (sits (ks m)) pre (mkSit (t_new ps) (t_nxt ps)
            (mkLot l (l_ridx (t_nxt ps) + 1) (l_kidx (t_nxt ps) + len (l_pubs (t_nxt ps)))))))
    else vs = l_pubs (t_new ps) /\ ds = map (dig c dc) (l_pubs (t_nxt ps)) /\ ks m' = ks m.
Proof.
  intros pre dc ad er m t m' vs ds P E. unfold replay in E.
  apply bindM_ok in E. destruct E as (? & m1 & d & ? & E1 & E & _). apply reads_ok in E1. destruct E1 as (_ & -> & ->).
  apply bindM_ok in E. destruct E as (? & m1 & pp & ? & E1 & E & _). apply lift_ok in E1. destruct E1 as (_ & -> & Epp).
  apply bindM_ok in E. destruct E as (? & m1 & ps & ? & E1 & E & _). apply lift_ok in E1. destruct E1 as (_ & -> & Eps).
  apply bindM_ok in E. destruct E as (? & m1 & ps' & ? & E1 & E & _).
  destruct (dget (prms (ks m)) pre) as [pp'|]; [|discriminate]. injection Epp; intros; subst pp'.
  destruct (dget (sits (ks m)) pre) as [ps0|]; [|discriminate]. injection Eps; intros; subst ps0.
  exists pp, ps. split; [auto|]. split; [auto|].
  destruct ad; cbv zeta in *.
  - destruct (dget (pubs (ks m)) _) as [l|]; [|discriminate]. apply ret_ok in E1. destruct E1 as (_ & -> & ->). cbn [t_new t_nxt l_pubs] in E.
    apply bindM_ok in E. destruct E as (? & m1 & vs' & ? & E1 & E & _). destruct (verfersOf_ok _ _ _ _ _ P E1) as (-> & -> & _ & Hv).
    apply bindM_ok in E. destruct E as (? & m2 & u2 & ? & E2 & E & _). apply ret_ok in E. destruct E as (_ & -> & E). injection E; intros; subst vs ds.
    apply bindM_ok in E2. destruct E2 as (? & m3 & u3 & ? & E3 & E2 & _). apply write_ok in E3. destruct E3 as (A1 & A2 & _).
    assert (X : memOf m2 = memOf m3 /\ ks m2 = (if er then erasePris (l_pubs (t_old ps)) else fun d => d) (ks m3)).
    { destruct er; [apply erase_ok in E2; tauto|]. apply ret_ok in E2. destruct E2 as (_ & -> & _); auto. }
    destruct X as (X1 & X2). split; [congruence|]. exists l. repeat (split; [solve [auto]|]). rewrite X2, A1. reflexivity.
  - apply ret_ok in E1. destruct E1 as (_ & -> & ->).
    apply bindM_ok in E. destruct E as (? & m1 & vs' & ? & E1 & E & _). destruct (verfersOf_ok _ _ _ _ _ P E1) as (-> & -> & _ & Hv).
    apply bindM_ok in E. destruct E as (? & m2 & u2 & ? & E2 & E & _). apply ret_ok in E. destruct E as (_ & -> & E). injection E; intros; subst vs ds.
    apply ret_ok in E2. destruct E2 as (_ & -> & _). repeat split; auto.
Qed.

Lemma movePubs_sits : forall f o n i m t m' r, movePubs f o n i m = (t, (m', r)) ->
  exists p', ks m' = setPubs (ks m) p' /\ memOf m' = memOf m.
Proof.
  assert (Z : forall d, d = setPubs d (pubs d)) by (intros []; reflexivity).
  induction f as [|f IH]; cbn [movePubs]; intros o n i m t m' r E.
  - injection E; intros; subst. eauto.
  - destruct (bindM_inv _ _ _ _ _ _ _ _ E) as [(t1 & m1 & d & t2 & E1 & E2 & _)|(e & E1 & _)]; [|discriminate].
    apply reads_ok in E1. destruct E1 as (_ & -> & ->). destruct (dget _ _) as [pl|]; [|injection E2; intros; subst; eauto].
    destruct (bindM_inv _ _ _ _ _ _ _ _ E2) as [(t3 & m2 & b & t4 & E3 & E4 & _)|(e & E3 & _)].
    + apply putM_ok in E3. destruct (bindM_inv _ _ _ _ _ _ _ _ E4) as [(t5 & m3 & u & t6 & E5 & E6 & _)|(e & E5 & _)].
      * apply guard_ok in E5. destruct E5 as (_ & -> & _). apply IH in E6. destruct E6 as (p' & F1 & F2).
        destruct E3 as (G1 & [(_ & _ & G2)|(_ & _ & G2)]); rewrite F1, G2; exists p'; (split; [reflexivity|congruence]).
      * destruct b; [discriminate|]. injection E5; intros; subst. destruct E3 as (G1 & [(? & _ & G2)|(_ & _ & G2)]); [discriminate|]. rewrite G2. eauto.
    + exfalso. unfold putM, bindM, reads in E3. destruct (dget _ _); discriminate.
Qed.

Lemma move_ok : forall old new m t m' u, move old new m = (t, (m', Ok u)) -> old <> new ->
  exists pp ps p', dget (prms (ks m)) old = Some pp /\ dget (sits (ks m)) old = Some ps /\ dget (sits (ks m)) new = None /\
    dget (prms (ks m)) new = None /\ dget (pres (ks m)) new = None /\ dget (pres (ks m)) old <> None /\ memOf m' = memOf m /\
    (exists f t1 m1 t2 m2, movePubs f old new 0 m1 = (t1, (m2, Ok t2)) /\ pubs (ks m1) = pubs (ks m) /\ f = S (List.length (pubs (ks m))) /\ p' = pubs (ks m2)) /\
    ks m' = mkKs (g_aeid (ks m)) (g_pidx (ks m)) (g_algo (ks m)) (g_salt (ks m)) (g_tier (ks m)) (pris (ks m))
              (dset (dset (pres (ks m)) old new) new new) (krem (dset (prms (ks m)) new pp) old)
              (krem (dset (sits (ks m)) new ps) old) p'.
Proof.
  intros old new m t m' u E Ne. unfold move in E. destruct (beq old new) eqn:Eb; [apply beq_eq in Eb; congruence|].
  apply bindM_ok in E. destruct E as (? & m1 & d & ? & E1 & E & _). apply reads_ok in E1. destruct E1 as (_ & -> & ->).
  apply bindM_ok in E. destruct E as (? & m1 & ? & ? & E1 & E & _). apply guard_ok in E1. destruct E1 as (_ & -> & G1).
  apply bindM_ok in E. destruct E as (? & m1 & ? & ? & E1 & E & _). apply guard_ok in E1. destruct E1 as (_ & -> & G2).
  apply bindM_ok in E. destruct E as (? & m1 & pp & ? & E1 & E & _). apply lift_ok in E1. destruct E1 as (_ & -> & Epp).
  apply bindM_ok in E. destruct E as (? & m1 & ? & ? & E1 & E & _). apply guard_ok in E1. destruct E1 as (_ & -> & G3).
  apply bindM_ok in E. destruct E as (? & m1 & ps & ? & E1 & E & _). apply lift_ok in E1. destruct E1 as (_ & -> & Eps).
  apply bindM_ok in E. destruct E as (? & m1 & ? & ? & E1 & E & _). apply guard_ok in E1. destruct E1 as (_ & -> & G4).
  apply (put_guard_ok _ _ _ _ _ (ret tt)) in E. destruct E as (? & m5 & E & P1 & K1 & M1).
  apply bindM_ok in E. destruct E as (? & m6 & ? & ? & E1 & E & _). apply write_ok in E1. destruct E1 as (K2 & M2 & _).
  apply (put_guard_ok _ _ _ _ _ (ret tt)) in E. destruct E as (? & m7 & E & P3 & K3 & M3).
  apply bindM_ok in E. destruct E as (? & m8 & ? & ? & E1 & E & _). apply write_ok in E1. destruct E1 as (K4 & M4 & _).
  apply bindM_ok in E. destruct E as (? & m9 & ? & ? & E1 & E & _). pose proof E1 as EM. apply movePubs_sits in E1. destruct E1 as (p' & K5 & M5).
  apply bindM_ok in E. destruct E as (? & m10 & ? & ? & E1 & E & _). apply write_ok in E1. destruct E1 as (K6 & M6 & _).
  apply bindM_ok in E. destruct E as (? & m11 & b & ? & E1 & E & _). apply putM_ok in E1. destruct E1 as (M7 & E1).
  apply guard_ok in E. destruct E as (_ & -> & Eb2). destruct b; [|discriminate]. destruct E1 as [(_ & P7 & K7)|(? & _)]; [|discriminate].
  exists pp, ps, p'. unfold has in *.
  split. { destruct (dget (prms (ks m)) old); [congruence|discriminate]. }
  split. { destruct (dget (sits (ks m)) old); [congruence|discriminate]. }
  split. { destruct (dget (sits (ks m)) new); [discriminate|reflexivity]. }
  split. { destruct (dget (prms (ks m)) new); [discriminate|reflexivity]. }
  split. { destruct (dget (pres (ks m)) new); [discriminate|reflexivity]. }
  split. { destruct (dget (pres (ks m)) old); [discriminate|discriminate]. }
  split; [congruence|].
  split. { eexists _, _, m8, _, m9. split; [exact EM|]. rewrite K4, K3, K2, K1. split; [reflexivity|]. split; [reflexivity|]. rewrite K5. reflexivity. }
  rewrite K7, K6, K5, K4, K3, K2, K1. reflexivity.
Qed.
End Run.
