(** The private keys at hand over histories without key collisions *)
From Coq Require Import Lia FinFun.
From Verif Require Import Prelude B64Model MatterModel SubsModel ThModel B64Proofs SubsProofs JsonModel KsModel KsSpec JsonProofs KsProofs KsInv KsRun KsHab KsLedger KsSeal.
From Verif Require DbModel DbProofs.
Open Scope N_scope.
Ltac Zify.zify_post_hook ::= Z.div_mod_to_equations.

Lemma split_last : forall (s : N) a b x y, a ++ s :: x = b ++ s :: y -> ~ In s x -> ~ In s y -> a = b /\ x = y.
Proof.
  intros s. induction a as [|c a IH]; intros [|d b] x y E Nx Ny; cbn in E.
  - injection E; auto.
  - injection E; intros E1 E2; subst. elim Nx. apply in_or_app; right; left; auto.
  - injection E; intros E1 E2; subst. elim Ny. apply in_or_app; right; left; auto.
  - injection E; intros E1 E2; subst. destruct (IH _ _ _ E1 Nx Ny) as (-> & ->). auto.
Qed.
Lemma riKey_inj : forall p q i j, riKey p i = riKey q j -> p = q /\ i = j.
Proof.
  intros p q i j E. unfold riKey in E. apply split_last in E; try (apply DbProofs.hexpad_nosep; reflexivity).
  destruct E as (-> & E). split; auto. pose proof (hexint_hexpad 32 i) as A. rewrite E, hexint_hexpad in A. injection A; auto.
Qed.
Lemma beq_neq : forall a b, a <> b -> beq a b = false.
Proof. intros a b N. destruct (beq a b) eqn:E; auto. apply beq_eq in E. congruence. Qed.

Definition lotOf (d : ksdb) (pre : bytes) (i : N) : option (list bytes) := dget (pubs d) (riKey pre i).
Record sitOk (d : ksdb) (pre : bytes) (ps : presit) : Prop := {
  so_pres : dget (pres d) pre <> None;
  so_new : lotOf d pre (l_ridx (t_new ps)) = Some (l_pubs (t_new ps));
  so_nxt : lotOf d pre (l_ridx (t_nxt ps)) = Some (l_pubs (t_nxt ps));
  so_r : l_ridx (t_nxt ps) = l_ridx (t_new ps) + 1;
  so_k : l_kidx (t_nxt ps) = l_kidx (t_new ps) + len (l_pubs (t_new ps));
  so_old : l_pubs (t_old ps) = [] \/ (lotOf d pre (l_ridx (t_old ps)) = Some (l_pubs (t_old ps)) /\ l_ridx (t_new ps) = l_ridx (t_old ps) + 1);
  so_count : exists L, len L = l_ridx (t_new ps) /\ l_kidx (t_new ps) = keyCount L /\ forall i l, nth_error L i = Some l -> lotOf d pre (N.of_nat i) = Some l;
  so_below : forall i j, i <= j -> lotOf d pre j <> None -> lotOf d pre i <> None;
  so_held : forall i l p, l_ridx (t_new ps) <= i -> lotOf d pre i = Some l -> In p l -> dget (pris d) p <> None }.
Definition live (d : ksdb) (pre : bytes) : Prop := dget (sits d) pre <> None.
Record kinv (d : ksdb) : Prop := {
  ki_pres : forall k i, lotOf d k i <> None -> dget (pres d) k <> None;
  ki_sit : forall pre ps, dget (sits d) pre = Some ps -> sitOk d pre ps;
  ki_disj : forall p1 p2 i j l1 l2 x, live d p1 -> live d p2 -> lotOf d p1 i = Some l1 -> lotOf d p2 j = Some l2 ->
     In x l1 -> In x l2 -> p1 = p2 /\ i = j }.

Lemma kinv0 : kinv ks0.
Proof. constructor; cbn; intros; try discriminate; unfold lotOf in *; cbn in *; congruence. Qed.
Lemma kinv_same : forall d d', kinv d -> pres d' = pres d -> sits d' = sits d -> pubs d' = pubs d ->
  (forall p, dget (pris d) p <> None -> dget (pris d') p <> None) -> kinv d'.
Proof.
  intros d d' [A B C] E1 E2 E3 E4. constructor; unfold lotOf, live in *; rewrite ?E1, ?E2, ?E3; auto.
  intros pre ps H. destruct (B _ _ H). constructor; unfold lotOf in *; rewrite ?E1, ?E2, ?E3; auto. eauto.
Qed.

(** a further key set becomes known for [pre] *)
Lemma kinv_addLot : forall d d1 pre ps l, kinv d -> dget (sits d) pre = Some ps ->
  pres d1 = pres d -> (forall q, dget (sits d1) q = dget (sits d) q) ->
  (forall k, k <> riKey pre (l_ridx (t_nxt ps) + 1) -> dget (pubs d1) k = dget (pubs d) k) ->
  lotOf d pre (l_ridx (t_nxt ps) + 1) = None -> lotOf d1 pre (l_ridx (t_nxt ps) + 1) = Some l ->
  (forall p, dget (pris d) p <> None -> dget (pris d1) p <> None) -> (forall p, In p l -> dget (pris d1) p <> None) ->
  (forall p k l', In p l -> dget (pubs d1) k = Some l' -> In p l' -> k = riKey pre (l_ridx (t_nxt ps) + 1)) -> kinv d1.
Proof.
  intros d d1 pre ps l [A B C] S Ep Es Eq N1 N2 P1 P2 Fr. pose proof (B _ _ S) as SO.
  set (n := l_ridx (t_nxt ps) + 1) in *.
  assert (LO : forall q i, (q = pre /\ i = n) \/ lotOf d1 q i = lotOf d q i).
  { intros q i. destruct (list_eq_dec N.eq_dec (riKey q i) (riKey pre n)) as [E|E].
    - apply riKey_inj in E. left; exact E.
    - right. apply Eq; auto. }
  assert (LK : forall q i x, lotOf d q i = Some x -> lotOf d1 q i = Some x).
  { intros q i x H. destruct (LO q i) as [(-> & ->)|E]; [congruence|]. rewrite E; auto. }
  constructor.
  - intros k i H. rewrite Ep. destruct (LO k i) as [(-> & ->)|E]; [apply SO|]. rewrite E in H. eauto.
  - intros q qs H. rewrite Es in H. destruct (B _ _ H). constructor; auto.
    + rewrite Ep; auto.
    + destruct so_old0 as [?|(? & ?)]; auto.
    + destruct so_count0 as (L & L1 & L2 & L3). exists L. auto.
    + intros i j Hij Hj. destruct (LO q i) as [(-> & ->)|Ei]; [congruence|]. rewrite Ei.
      destruct (LO q j) as [(-> & ->)|Ej]; [|rewrite Ej in Hj; eauto].
      destruct (N.eq_dec i n) as [->|Ni]; [congruence|].
      apply (so_below0 i (l_ridx (t_nxt ps))); [unfold n in *; lia|]. rewrite (so_nxt _ _ _ SO). discriminate.
    + intros i l0 p Hi Hl Hp. destruct (LO q i) as [(-> & ->)|Ei].
      * rewrite N2 in Hl. injection Hl; intros; subst. auto.
      * rewrite Ei in Hl. eauto.
  - intros p1 p2 i j l1 l2 x V1 V2 H1 H2 X1 X2. unfold live in *. rewrite Es in V1, V2.
    destruct (LO p1 i) as [(-> & ->)|E1]; destruct (LO p2 j) as [(-> & ->)|E2]; auto.
    + rewrite N2 in H1. injection H1; intros; subst l1. pose proof (Fr _ _ _ X1 H2 X2) as R. apply riKey_inj in R. destruct R; auto.
    + rewrite N2 in H2. injection H2; intros; subst l2. pose proof (Fr _ _ _ X2 H1 X1) as R. apply riKey_inj in R. destruct R; auto.
    + rewrite E1 in H1. rewrite E2 in H2. eauto.
Qed.

Lemma keyCount_app : forall a b, keyCount (a ++ b) = keyCount a + keyCount b.
Proof. induction a; cbn [keyCount app]; intros; [lia|]. rewrite IHa. lia. Qed.

(** the situation of [pre] advances to key sets already known *)
Lemma kinv_advance : forall d d2 pre ps l, kinv d -> dget (sits d) pre = Some ps ->
  pres d2 = pres d -> pubs d2 = pubs d ->
  (forall q, dget (sits d2) q = if beq q pre then Some (mkSit (t_new ps) (t_nxt ps) (mkLot l (l_ridx (t_nxt ps) + 1) (l_kidx (t_nxt ps) + len (l_pubs (t_nxt ps))))) else dget (sits d) q) ->
  lotOf d pre (l_ridx (t_nxt ps) + 1) = Some l ->
  (forall p, dget (pris d) p <> None -> ~ In p (l_pubs (t_old ps)) -> dget (pris d2) p <> None) -> kinv d2.
Proof.
  intros d d2 pre ps l [A B C] S Ep Eq Es N1 P1. pose proof (B _ _ S) as SO.
  assert (LO : forall q i, lotOf d2 q i = lotOf d q i) by (intros; unfold lotOf; rewrite Eq; reflexivity).
  assert (V : forall q, live d2 q -> live d q).
  { unfold live. intros q H. rewrite Es in H. destruct (beq q pre) eqn:E; auto. apply beq_eq in E; subst. rewrite S; discriminate. }
  assert (Keep : forall q qs i l0 p, dget (sits d) q = Some qs -> l_ridx (t_new qs) <= i -> lotOf d q i = Some l0 -> In p l0 -> (q = pre -> l_ridx (t_nxt ps) <= i) -> dget (pris d2) p <> None).
  { intros q qs i l0 p Hs Hi Hl Hp Hq. apply P1; [eapply (so_held _ _ _ (B _ _ Hs)); eauto|].
    intros Ho. destruct (so_old _ _ _ SO) as [Z|(Z1 & Z2)]; [rewrite Z in Ho; destruct Ho|].
    assert (R : pre = q /\ l_ridx (t_old ps) = i).
    { eapply C; eauto; unfold live; congruence. }
    destruct R as (<- & <-). specialize (Hq eq_refl). pose proof (so_r _ _ _ SO). lia. }
  constructor.
  - intros k i. rewrite LO, Ep. apply A.
  - intros q qs H. rewrite Es in H. destruct (beq q pre) eqn:E.
    + apply beq_eq in E; subst q. injection H; intros; subst qs. clear H. destruct SO. constructor; cbn [t_old t_new t_nxt l_pubs l_ridx l_kidx]; try setoid_rewrite LO; rewrite ?Ep; auto.
      * destruct so_count0 as (L & L1 & L2 & L3). exists (L ++ [l_pubs (t_new ps)]). split; [|split].
        -- rewrite so_r0, <- L1. unfold len. rewrite app_length. cbn [List.length]. lia.
        -- rewrite so_k0, L2, keyCount_app. cbn [keyCount]. lia.
        -- intros i l0 Hi. destruct (Nat.lt_ge_cases i (List.length L)) as [Hlt|Hge].
           ++ rewrite nth_error_app1 in Hi by assumption. auto.
           ++ rewrite nth_error_app2 in Hi by assumption. destruct (i - List.length L)%nat eqn:Ei; cbn in Hi; [|destruct n; discriminate].
              injection Hi; intros; subst l0. replace (N.of_nat i) with (l_ridx (t_new ps)); auto. rewrite <- L1. unfold len. lia.
      * intros i l0 p Hi Hl Hp. eapply Keep; eauto. pose proof so_r0. lia.
    + destruct (B _ _ H) as [b1 b2 b3 b4 b5 b6 b7 b8 b9]. constructor; try setoid_rewrite LO; rewrite ?Ep; auto.
      intros i l0 p Hi Hl Hp. eapply Keep; eauto. intros ->. rewrite beq_refl in E; discriminate.
  - intros p1 p2 i j l1 l2 x V1 V2. rewrite !LO. eauto.
Qed.

(** a new identifier *)
Lemma kinv_new : forall d d' pre ps, kinv d -> dget (pres d) pre = None ->
  pres d' = dset (pres d) pre pre -> sits d' = dset (sits d) pre ps ->
  t_old ps = lot0 -> l_ridx (t_new ps) = 0 -> l_kidx (t_new ps) = 0 -> l_ridx (t_nxt ps) = 1 -> l_kidx (t_nxt ps) = len (l_pubs (t_new ps)) ->
  lotOf d' pre 0 = Some (l_pubs (t_new ps)) -> lotOf d' pre 1 = Some (l_pubs (t_nxt ps)) ->
  (forall k, k <> riKey pre 0 -> k <> riKey pre 1 -> dget (pubs d') k = dget (pubs d) k) ->
  (forall p, dget (pris d) p <> None -> dget (pris d') p <> None) ->
  (forall p, In p (l_pubs (t_new ps)) \/ In p (l_pubs (t_nxt ps)) -> dget (pris d') p <> None) ->
  freshKeys d d' -> kinv d'.
Proof.
  intros d d' pre ps [A B C] Np Ep Es T1 T2 T3 T4 T5 N0 N1 Eq P1 P2 Fr.
  assert (NL : forall i, lotOf d pre i = None).
  { intros i. destruct (lotOf d pre i) eqn:E; auto. elim (A pre i); congruence. }
  assert (LO : forall q i, (q = pre /\ (i = 0 \/ i = 1)) \/ lotOf d' q i = lotOf d q i).
  { intros q i. destruct (list_eq_dec N.eq_dec (riKey q i) (riKey pre 0)) as [E|E]; [apply riKey_inj in E; destruct E; left; auto|].
    destruct (list_eq_dec N.eq_dec (riKey q i) (riKey pre 1)) as [E'|E']; [apply riKey_inj in E'; destruct E'; left; auto|].
    right. apply Eq; auto. }
  assert (NS : dget (sits d) pre = None).
  { destruct (dget (sits d) pre) eqn:E; auto. elim (so_pres _ _ _ (B _ _ E)). exact Np. }
  assert (LK : forall q i x, lotOf d q i = Some x -> lotOf d' q i = Some x).
  { intros q i x H. destruct (LO q i) as [(-> & _)|E]; [rewrite NL in H; discriminate|]. rewrite E; auto. }
  assert (LX : forall i l, lotOf d' pre i = Some l -> (i = 0 /\ l = l_pubs (t_new ps)) \/ (i = 1 /\ l = l_pubs (t_nxt ps))).
  { intros i l H. destruct (LO pre i) as [(_ & [->| ->])|E].
    - left. split; congruence.
    - right. split; congruence.
    - rewrite E, NL in H. discriminate. }
  constructor.
  - intros k i H. rewrite Ep, dget_dset. destruct (beq k pre) eqn:E; [discriminate|].
    destruct (LO k i) as [(-> & _)|E']; [rewrite beq_refl in E; discriminate|]. rewrite E' in H. eauto.
  - intros q qs H. rewrite Es, dget_dset in H. destruct (beq q pre) eqn:E.
    + apply beq_eq in E; subst q. injection H; intros; subst qs. constructor.
      * rewrite Ep, dget_dset, beq_refl. discriminate.
      * rewrite T2; auto.
      * rewrite T4; auto.
      * rewrite T2, T4; reflexivity.
      * rewrite T3, T5; lia.
      * left. rewrite T1. reflexivity.
      * exists []. rewrite T2, T3. split; [reflexivity|]. split; [reflexivity|]. intros [|i] l; discriminate.
      * intros i j Hij Hj. destruct (lotOf d' pre j) as [l|] eqn:El; [|congruence]. destruct (LX _ _ El) as [(-> & _)|(-> & _)].
        -- assert (i = 0) by lia. subst. congruence.
        -- assert (X : i = 0 \/ i = 1) by lia. destruct X; subst; congruence.
      * intros i l p Hi Hl Hp. destruct (LX _ _ Hl) as [(-> & ->)|(-> & ->)]; auto.
    + destruct (B _ _ H) as [b1 b2 b3 b4 b5 b6 b7 b8 b9]. assert (Nq : q <> pre) by (intros ->; rewrite beq_refl in E; discriminate).
      assert (LQ : forall i, lotOf d' q i = lotOf d q i) by (intros i; destruct (LO q i) as [(? & _)|?]; [congruence|auto]).
      constructor; try setoid_rewrite LQ; auto.
      * rewrite Ep, dget_dset, E. auto.
      * intros i l p Hi Hl Hp. eauto.
  - intros p1 p2 i j l1 l2 x V1 V2 H1 H2 X1 X2.
    assert (F : forall q1 q2 i1 i2 m1 m2, lotOf d q1 i1 = None -> lotOf d' q1 i1 = Some m1 -> lotOf d' q2 i2 = Some m2 -> In x m1 -> In x m2 -> q1 = q2 /\ i1 = i2).
    { intros q1 q2 i1 i2 m1 m2 Z1 Z2 Z3 Z4 Z5. pose proof (Fr _ _ _ _ _ Z1 Z2 Z4 Z3 Z5) as R. apply riKey_inj in R. destruct R; auto. }
    destruct (lotOf d p1 i) eqn:E1; [|eapply F; eauto].
    destruct (lotOf d p2 j) eqn:E2.
    + pose proof (LK _ _ _ E1). pose proof (LK _ _ _ E2). rewrite H1 in H. rewrite H2 in H0. injection H; injection H0; intros; subst.
      assert (Q1 : p1 <> pre) by (intros ->; rewrite NL in E1; discriminate). assert (Q2 : p2 <> pre) by (intros ->; rewrite NL in E2; discriminate).
      unfold live in *. rewrite Es, dget_dset, beq_neq in V1, V2 by auto. eauto.
    + destruct (F p2 p1 j i l2 l1); auto.
Qed.

(** renaming *)
Lemma movePubs_ok : forall f old new i m t m' u, old <> new -> movePubs f old new i m = (t, (m', Ok u)) ->
  exists n : nat, (n <= f)%nat /\ (n < f -> lotOf (ks m) old (i + N.of_nat n) = None)%nat /\
    (forall j, i <= j < i + N.of_nat n -> lotOf (ks m) old j <> None /\ lotOf (ks m') new j = lotOf (ks m) old j) /\
    (forall k, (forall j, i <= j < i + N.of_nat n -> k <> riKey new j) -> dget (pubs (ks m')) k = dget (pubs (ks m)) k).
Proof.
  induction f as [|f IH]; cbn [movePubs]; intros old new i m t m' u Ne E.
  - apply ret_ok in E. destruct E as (_ & -> & _). exists O. split; [lia|]. split; [lia|]. split; [lia|auto].
  - apply bindM_ok in E. destruct E as (? & m1 & d & ? & E1 & E & _). apply reads_ok in E1. destruct E1 as (_ & -> & ->).
    destruct (dget (pubs (ks m)) (riKey old i)) as [pl|] eqn:G.
    2:{ apply ret_ok in E. destruct E as (_ & -> & _). exists O. split; [lia|]. split; [intros _; cbn; rewrite N.add_0_r; exact G|]. split; [lia|auto]. }
    apply (put_guard_ok _ _ _ _ _ (ret tt)) in E. destruct E as (? & m5 & E & P1 & K1 & M1).
    assert (LO : forall j, lotOf (ks m5) old j = lotOf (ks m) old j).
    { intros j. unfold lotOf. rewrite K1. cbn. rewrite dget_dset, beq_neq; auto. intros R; apply riKey_inj in R. destruct R; congruence. }
    destruct (IH _ _ _ _ _ _ _ Ne E) as (n & H1 & H2 & H3 & H4). exists (S n).
    split; [lia|]. split. { intros Hn. specialize (H2 ltac:(lia)). rewrite LO in H2. replace (i + N.of_nat (S n)) with (i + 1 + N.of_nat n) by lia. exact H2. }
    split.
    + intros j Hj. destruct (N.eq_dec j i) as [->|Nj].
      * split; [unfold lotOf; rewrite G; discriminate|]. unfold lotOf. rewrite H4.
        -- rewrite K1. cbn. rewrite dget_dset, beq_refl. auto.
        -- intros j Hj' R. apply riKey_inj in R. destruct R. lia.
      * destruct (H3 j ltac:(lia)) as (A1 & A2). rewrite LO in A1, A2. auto.
    + intros k Hk. rewrite H4 by (intros j Hj; apply Hk; lia). rewrite K1. cbn. rewrite dget_dset, beq_neq; auto. apply Hk. lia.
Qed.

Lemma lots_fit : forall (d : ksdb) pre n, (forall j, j < N.of_nat n -> lotOf d pre j <> None) -> (n <= List.length (pubs d))%nat.
Proof.
  intros d pre n H.
  assert (X : (List.length (map (fun j => riKey pre (N.of_nat j)) (seq 0 n)) <= List.length (keysOf (pubs d)))%nat).
  { apply NoDup_incl_length.
    - apply Injective_map_NoDup; [|apply seq_NoDup]. intros a b R. apply riKey_inj in R. destruct R. lia.
    - intros k Hk. apply in_map_iff in Hk. destruct Hk as (j & <- & Hj). apply in_seq in Hj.
      specialize (H (N.of_nat j) ltac:(lia)). unfold lotOf in H. destruct (dget (pubs d) (riKey pre (N.of_nat j))) eqn:G; [|congruence].
      apply dget_In' in G. unfold keysOf. apply in_map_iff. eexists (_, _). split; [|exact G]. reflexivity. }
  unfold keysOf in X. rewrite !map_length, seq_length in X. exact X.
Qed.

Lemma kinv_move : forall old new m t m' u, kinv (ks m) -> old <> new -> move old new m = (t, (m', Ok u)) -> kinv (ks m').
Proof.
  intros old new m t m' u KI Ne E.
  destruct (move_ok _ _ _ _ _ _ E Ne) as (pp & ps & p' & _ & S & Sn & _ & Pn & Po & _ & (f & t1 & m1 & t2 & m2 & EM & Q1 & Hf & ->) & K).
  destruct (movePubs_ok _ _ _ _ _ _ _ _ Ne EM) as (n & H1 & H2 & H3 & H4).
  assert (L1 : forall q i, lotOf (ks m1) q i = lotOf (ks m) q i) by (intros; unfold lotOf; rewrite Q1; auto).
  destruct KI as [A B C]. pose proof (B _ _ S) as SO.
  assert (NL : forall i, lotOf (ks m) new i = None).
  { intros i. destruct (lotOf (ks m) new i) eqn:Z; auto. elim (A new i); congruence. }
  assert (Hn : (n < f)%nat).
  { subst f. pose proof (lots_fit (ks m1) old n) as X. rewrite Q1 in X. enough (n <= List.length (pubs (ks m)))%nat by lia. apply X. intros j Hj. apply H3; lia. }
  specialize (H2 Hn). rewrite L1, N.add_0_l in H2.
  assert (LO : forall q i, lotOf (ks m') q i = lotOf (ks m) (if beq q new then old else q) i).
  { intros q i. unfold lotOf at 1. rewrite K. cbn [pubs]. destruct (beq q new) eqn:Eq.
    - apply beq_eq in Eq; subst q. destruct (N.lt_ge_cases i (N.of_nat n)) as [Hi|Hi].
      + destruct (H3 i ltac:(lia)) as (_ & R). unfold lotOf in R at 1. rewrite R, L1. reflexivity.
      + rewrite H4. 2:{ intros j Hj R. apply riKey_inj in R. destruct R. lia. }
        rewrite Q1. fold (lotOf (ks m) new i). rewrite NL.
        destruct (lotOf (ks m) old i) eqn:Z; auto. exfalso. refine (so_below _ _ _ SO _ i _ _ H2); [lia|congruence].
    - rewrite H4, Q1; auto. intros j _ R. apply riKey_inj in R. destruct R as (-> & _). rewrite beq_refl in Eq; discriminate. }
  assert (PR : forall q, dget (pres (ks m')) q = (if beq q new then Some new else if beq q old then Some new else dget (pres (ks m)) q)).
  { intros q. rewrite K. cbn [pres]. rewrite !dget_dset. reflexivity. }
  assert (SI : forall q, dget (sits (ks m')) q = (if beq q old then None else if beq q new then Some ps else dget (sits (ks m)) q)).
  { intros q. rewrite K. cbn [sits]. rewrite dget_krem, dget_dset. reflexivity. }
  assert (PI : pris (ks m') = pris (ks m)) by (rewrite K; reflexivity).
  constructor.
  - intros q i. rewrite LO, PR. destruct (beq q new); [discriminate|]. destruct (beq q old); [discriminate|]. apply A.
  - intros q qs H. rewrite SI in H. destruct (beq q old) eqn:Eo; [discriminate|]. destruct (beq q new) eqn:En.
    + injection H; intros; subst qs. destruct SO. assert (LQ : forall i, lotOf (ks m') q i = lotOf (ks m) old i) by (intros; rewrite LO, En; auto).
      constructor; try setoid_rewrite LQ; auto.
      * rewrite PR, En. discriminate.
      * rewrite PI. eauto.
    + destruct (B _ _ H). assert (LQ : forall i, lotOf (ks m') q i = lotOf (ks m) q i) by (intros; rewrite LO, En; auto).
      constructor; try setoid_rewrite LQ; auto.
      * rewrite PR, En, Eo. auto.
      * rewrite PI. eauto.
  - assert (V : forall q, live (ks m') q -> live (ks m) (if beq q new then old else q) /\ q <> old).
    { unfold live. intros q H. rewrite SI in H. destruct (beq q old) eqn:Eo; [congruence|]. assert (q <> old) by (intros ->; rewrite beq_refl in Eo; discriminate).
      destruct (beq q new); [rewrite S|]; split; auto; congruence. }
    intros p1 p2 i j l1 l2 x V1 V2. rewrite !LO. intros X1 X2 X3 X4. apply V in V1, V2. destruct V1 as (V1 & N1), V2 as (V2 & N2).
    destruct (C _ _ _ _ _ _ _ V1 V2 X1 X2 X3 X4) as (R1 & R2). split; auto.
    destruct (beq p1 new) eqn:E1; destruct (beq p2 new) eqn:E2; try apply beq_eq in E1; try apply beq_eq in E2; congruence.
Qed.

(** ** Private keys after the elementary writes *)
Lemma addPri_has : forall e d sg p, dget (pris d) p <> None -> dget (pris (addPri e d sg)) p <> None.
Proof.
  intros e d sg p H. unfold addPri. destruct (encSecret _ _); [|auto]. destruct (dget (pris d) (snd sg)); [auto|].
  cbn. rewrite dget_dset. destruct (beq _ _); [discriminate|auto].
Qed.
Lemma addPris_has : forall e sgs d p, dget (pris d) p <> None -> dget (pris (fold_left (addPri e) sgs d)) p <> None.
Proof. induction sgs; cbn; intros; auto. apply IHsgs. apply addPri_has; auto. Qed.
Lemma addPris_new : forall e sgs d p, Forall (fun sg => exists v, encSecret e (fst sg) = Ok v) sgs -> In p (pubsOf sgs) ->
  dget (pris (fold_left (addPri e) sgs d)) p <> None.
Proof.
  induction sgs as [|sg sgs IH]; cbn; intros d p F H; [destruct H|]. inversion F; subst. destruct H as [<-|H]; [|auto].
  apply addPris_has. destruct H2 as (v & E). unfold addPri. rewrite E. destruct (dget (pris d) (snd sg)) eqn:G; [congruence|].
  cbn. rewrite dget_dset, beq_refl. discriminate.
Qed.
Lemma erase_has : forall l d p, ~ In p l -> dget (pris (erasePris l d)) p = dget (pris d) p.
Proof.
  unfold erasePris. induction l as [|q l IH]; cbn; intros d p N; auto. rewrite IH by tauto. cbn. rewrite dget_krem, beq_neq; auto.
Qed.
Lemma addPubs_get : forall k l d q, dget (pubs (addPubs k l d)) q =
  (match dget (pubs d) k with None => if beq q k then Some l else dget (pubs d) q | Some _ => dget (pubs d) q end).
Proof. intros. unfold addPubs. destruct (dget (pubs d) k); auto. cbn. apply dget_dset. Qed.

Section Held.
Variable c : kcfg.
Hypothesis TR : forall cd sd tr, trans c (vk c cd sd tr) = tr.

Lemma kinv_rotate : forall pre a m t m' vs ds, kinv (ks m) -> priOk c (ks m) -> rotate c pre a m = (t, (m', Ok (vs, ds))) ->
  (forall ps, dget (sits (ks m)) pre = Some ps -> lotOf (ks m) pre (l_ridx (t_nxt ps) + 1) = None) -> freshKeys (ks m) (ks m') ->
  kinv (ks m') /\ (r_erase a = false -> forall ps, dget (sits (ks m)) pre = Some ps -> kinv (setSits (ks m') (dset (sits (ks m')) pre ps))).
Proof.
  intros pre a m t m' vs ds KI P E NR Fr.
  destruct (rotate_ok c _ _ _ _ _ _ _ P E) as (pp & ps & sgs & cr & H1 & H2 & _ & _ & _ & _ & _ & X). cbv zeta in X. destruct X as (_ & F & _ & K).
  specialize (NR _ H2).
  set (n := l_ridx (t_nxt ps) + 1) in *. set (lt := mkLot (pubsOf sgs) n (l_kidx (t_nxt ps) + len (l_pubs (t_nxt ps)))) in *.
  set (d1 := addPubs (riKey pre n) (pubsOf sgs) (fold_left (addPri (m_enc m)) sgs (setSits (ks m) (dset (sits (ks m)) pre (mkSit (t_new ps) (t_nxt ps) lt))))) in *.
  assert (O : others (setSits (ks m) (dset (sits (ks m)) pre (mkSit (t_new ps) (t_nxt ps) lt))) d1).
  { unfold d1. eapply others_trans; [|apply addPubs_others]. apply addPris_others. }
  destruct O as (_ & _ & _ & _ & _ & O1 & _ & O2). cbn in O1, O2.
  assert (PU : forall q, dget (pubs d1) q = if beq q (riKey pre n) then Some (pubsOf sgs) else dget (pubs (ks m)) q).
  { intros q. unfold d1. rewrite addPubs_get, addPris_pubs. cbn [pubs setSits]. unfold lotOf in NR. rewrite NR. reflexivity. }
  assert (PK : pubs (ks m') = pubs d1) by (rewrite K; destruct (r_erase a); [apply erase_pubs|reflexivity]).
  assert (Has : forall p, dget (pris (ks m)) p <> None \/ In p (pubsOf sgs) -> dget (pris d1) p <> None).
  { intros p Hp. unfold d1. rewrite addPubs_pris. destruct Hp; [apply addPris_has; auto|apply addPris_new; auto]. }
  assert (FrK : forall p k l', In p (pubsOf sgs) -> dget (pubs d1) k = Some l' -> In p l' -> k = riKey pre n).
  { intros p k l' Hp Hk Hl. eapply (Fr (riKey pre n) (pubsOf sgs) p k l'); rewrite ?PK; auto. rewrite PU, beq_refl. reflexivity. }
  set (d0 := setSits d1 (sits (ks m))).
  assert (K0 : kinv d0).
  { eapply (kinv_addLot (ks m) d0 pre ps (pubsOf sgs)); eauto.
    all: try (intros k Nk; cbn; rewrite PU, beq_neq; auto; fail).
    all: try (intros p Hp; cbn; auto; fail).
    unfold lotOf. cbn. fold n. rewrite PU, beq_refl. reflexivity. }
  split.
  - eapply (kinv_advance d0 (ks m') pre ps (pubsOf sgs)); eauto.
    + rewrite K. cbn. destruct (r_erase a); [rewrite (proj1 (proj2 (proj2 (proj2 (proj2 (proj2 (erase_others _ _)))))))|]; reflexivity.
    + intros q. cbn. rewrite <- dget_dset. fold n lt. rewrite <- O2. rewrite K. destruct (r_erase a); auto.
      destruct (erase_others (l_pubs (t_old ps)) d1) as (_ & _ & _ & _ & _ & _ & _ & R). rewrite R. reflexivity.
    + unfold lotOf. cbn. fold n. rewrite PU, beq_refl. reflexivity.
    + intros p Hp No. cbn in Hp. rewrite K. destruct (r_erase a); auto. rewrite erase_has; auto.
  - intros Er ps0 Hs. rewrite H2 in Hs. injection Hs; intros; subst ps0. rewrite Er in K. rewrite K, O2.
    eapply (kinv_addLot (ks m) _ pre ps (pubsOf sgs)); eauto.
    all: try (intros q; cbn; rewrite !dget_dset; destruct (beq q pre) eqn:Eq; auto; apply beq_eq in Eq; subst; auto; fail).
    all: try (intros k Nk; cbn; rewrite PU, beq_neq; auto; fail).
    all: try (intros p Hp; cbn; auto; fail).
    unfold lotOf. cbn. fold n. rewrite PU, beq_refl. reflexivity.
Qed.

Lemma kinv_replay : forall pre dc ad er m t m' vs ds, kinv (ks m) -> priOk c (ks m) -> replay c pre dc ad er m = (t, (m', Ok (vs, ds))) ->
  kinv (ks m').
Proof.
  intros pre dc ad er m t m' vs ds KI P E. destruct (replay_ok c _ _ _ _ _ _ _ _ _ P E) as (pp & ps & H1 & H2 & _ & X). destruct ad.
  - destruct X as (l & Hl & _ & _ & _ & K).
    eapply (kinv_advance (ks m) (ks m') pre ps l); eauto.
    + rewrite K. destruct er; [|reflexivity]. destruct (erase_others (l_pubs (t_old ps)) (setSits (ks m) (dset (sits (ks m)) pre (mkSit (t_new ps) (t_nxt ps)
            (mkLot l (l_ridx (t_nxt ps) + 1) (l_kidx (t_nxt ps) + len (l_pubs (t_nxt ps)))))))) as (_ & _ & _ & _ & _ & R & _ & _). exact R.
    + rewrite K. destruct er; [rewrite erase_pubs|]; reflexivity.
    + intros q. rewrite <- dget_dset. rewrite K. destruct er; [|reflexivity]. destruct (erase_others (l_pubs (t_old ps)) (setSits (ks m) (dset (sits (ks m)) pre (mkSit (t_new ps) (t_nxt ps)
            (mkLot l (l_ridx (t_nxt ps) + 1) (l_kidx (t_nxt ps) + len (l_pubs (t_nxt ps)))))))) as (_ & _ & _ & _ & _ & _ & _ & R). rewrite R. reflexivity.
    + intros p Hp No. rewrite K. destruct er; [rewrite erase_has by auto|]; exact Hp.
  - destruct X as (_ & _ & K). rewrite K. exact KI.
Qed.
Lemma kinv_ext : forall d d', kinv d -> (forall q, dget (pres d') q = dget (pres d) q) -> (forall q, dget (sits d') q = dget (sits d) q) ->
  (forall q, dget (pubs d') q = dget (pubs d) q) -> (forall p, dget (pris d) p <> None -> dget (pris d') p <> None) -> kinv d'.
Proof.
  intros d d' [A B C] E1 E2 E3 E4. 
  assert (LO : forall q i, lotOf d' q i = lotOf d q i) by (intros; apply E3).
  constructor; unfold live in *; try setoid_rewrite LO; try setoid_rewrite E1; try setoid_rewrite E2; auto.
  intros pre ps H. destruct (B _ _ H). constructor; try setoid_rewrite LO; try setoid_rewrite E1; auto. eauto.
Qed.
(** erasing the keys retired by the advance that was just made *)
Lemma hab_erase : forall pre a m m1 vd ps, kinv (ks m) -> priOk c (ks m) -> habKeys c pre a m m1 vd -> dget (sits (ks m)) pre = Some ps ->
  freshKeys (ks m) (ks m1) ->
  kinv (erasePris (l_pubs (t_old ps)) (ks m1)) /\ kinv (setSits (ks m1) (dset (sits (ks m1)) pre ps)).
Proof.
  intros pre a m m1 [vs ds] ps KI P HK S Fr. destruct HK as [(t & E)|(t & m0 & ER & K0 & M0 & E)].
  - destruct (replay_ok c _ _ _ _ _ _ _ _ _ P E) as (pp & ps' & _ & S' & _ & l & Hl & _ & _ & _ & K). rewrite S in S'. injection S'; intros; subst ps'. cbn in K.
    split.
    + destruct (erase_others (l_pubs (t_old ps)) (ks m1)) as (_ & _ & _ & _ & _ & R1 & _ & R2). rewrite K in R1, R2. cbn in R1, R2. rewrite K.
      eapply (kinv_advance (ks m) _ pre ps l); eauto.
      * rewrite erase_pubs. reflexivity.
      * intros q. rewrite R2. apply dget_dset.
      * intros p Hp No. rewrite erase_has by auto. exact Hp.
    + rewrite K. eapply kinv_ext; [exact KI|auto| |auto|auto]. intros q. cbn. rewrite !dget_dset. destruct (beq q pre) eqn:Eq; auto. apply beq_eq in Eq; subst. auto.
  - rewrite <- K0 in KI, P, S, Fr. pose proof (replay_err _ _ _ _ _ _ _ _ _ ER) as (_ & _ & _ & _ & X). destruct (X eq_refl) as (ps0 & S0 & N0).
    rewrite <- K0 in S0, N0. rewrite S in S0. injection S0; intros; subst ps0.
    assert (NR : forall q, dget (sits (ks m0)) pre = Some q -> lotOf (ks m0) pre (l_ridx (t_nxt q) + 1) = None).
    { intros q Hq. rewrite S in Hq. injection Hq; intros; subst q. exact N0. }
    destruct (kinv_rotate _ _ _ _ _ _ _ KI P E NR Fr) as (_ & KB). specialize (KB eq_refl _ S). split; [|exact KB].
    destruct (rotate_ok c _ _ _ _ _ _ _ P E) as (pp & ps' & sgs & cr & _ & S' & _ & _ & _ & _ & _ & Y). cbv zeta in Y. destruct Y as (_ & _ & _ & K).
    rewrite S in S'. injection S'; intros; subst ps'. cbn [r_erase noErase] in K.
    match type of K with ks m1 = addPubs ?k ?l (fold_left (addPri ?e) ?s ?d) => assert (O : others d (ks m1)) end.
    { rewrite K. eapply others_trans; [|apply addPubs_others]. apply addPris_others. }
    destruct O as (_ & _ & _ & _ & _ & O1 & _ & O2). cbn in O1, O2.
    destruct (erase_others (l_pubs (t_old ps)) (ks m1)) as (_ & _ & _ & _ & _ & R1 & _ & R2).
    eapply (kinv_advance (setSits (ks m1) (dset (sits (ks m1)) pre ps)) _ pre ps (pubsOf sgs)); eauto.
    + cbn. rewrite dget_dset, beq_refl. reflexivity.
    + rewrite erase_pubs. reflexivity.
    + intros q. rewrite R2, O2. cbn. rewrite !dget_dset. destruct (beq q pre); reflexivity.
    + unfold lotOf. rewrite K. cbn. rewrite addPubs_get, addPris_pubs. cbn. rewrite N0, beq_refl. reflexivity.
    + intros p Hp No. rewrite erase_has by auto. exact Hp.
Qed.
Lemma kinv_incept : forall a m t m' vs ds, kinv (ks m) -> incept c a m = (t, (m', Ok (vs, ds))) -> freshKeys (ks m) (ks m') -> kinv (ks m').
Proof.
  intros a m t m' vs ds KI E Fr.
  destruct (incept_ok c _ _ _ _ _ _ E) as (pidx & algo & cr & isg & nsg & pp & _ & _ & _ & _ & _ & Mi & Mn & Fi & Fn & Hv & _ & _ & Np & _ & _ & _ & K).
  assert (Li : len (a_icodes a) = len (pubsOf isg)) by (unfold len, pubsOf; rewrite map_length; f_equal; symmetry; exact (proj1 Mi)).
  set (pre := hd [] vs) in *. set (ps := mkSit lot0 (mkLot (pubsOf isg) 0 0) (mkLot (pubsOf nsg) 1 (len (a_icodes a)))) in *.
  unfold incepted in K. cbv zeta in K.
  match type of K with ks m' = addPubs _ _ (fold_left _ _ (addPubs _ _ (fold_left _ _ ?d))) => set (d4 := d) in * end.
  assert (O : others d4 (ks m')).
  { rewrite K. eapply others_trans; [|apply addPubs_others]. eapply others_trans; [|apply addPris_others].
    eapply others_trans; [|apply addPubs_others]. apply addPris_others. }
  destruct O as (_ & _ & _ & _ & _ & O1 & _ & O2). cbn in O1, O2.
  assert (N : forall i, dget (pubs (ks m)) (riKey pre i) = None).
  { intros i. destruct (dget (pubs (ks m)) (riKey pre i)) eqn:G; auto. elim (ki_pres _ KI pre i); [unfold lotOf; congruence|exact Np]. }
  assert (N01 : beq (riKey pre 1) (riKey pre 0) = false) by (apply beq_neq; intros R; apply riKey_inj in R; destruct R; discriminate).
  assert (PU : forall q, dget (pubs (ks m')) q = if beq q (riKey pre 1) then Some (pubsOf nsg) else if beq q (riKey pre 0) then Some (pubsOf isg) else dget (pubs (ks m)) q).
  { intros q. rewrite K. rewrite addPubs_get, addPris_pubs, !addPubs_get, addPris_pubs. cbn [pubs d4]. unfold d4. cbn [pubs setSits setPidx setPrms setPres].
    rewrite !N, N01. reflexivity. }
  eapply (kinv_new (ks m) (ks m') pre ps); auto.
  - unfold lotOf. rewrite PU. replace (beq (riKey pre 0) (riKey pre 1)) with false; [rewrite beq_refl; reflexivity|].
    symmetry. apply beq_neq; intros R; apply riKey_inj in R; destruct R; discriminate.
  - unfold lotOf. rewrite PU, beq_refl. reflexivity.
  - intros k N0 N1. rewrite PU, !beq_neq; auto.
  - intros p Hp. rewrite K, addPubs_pris. apply addPris_has. rewrite addPubs_pris. apply addPris_has. exact Hp.
  - intros p Hp. rewrite K, addPubs_pris. cbn in Hp. destruct Hp as [Hp|Hp]; [|apply addPris_new; auto].
    apply addPris_has. rewrite addPubs_pris. apply addPris_new; auto.
Qed.

Lemma exec_some : forall A (p : M (list bytes * list bytes)) (f : list bytes * list bytes -> A) m t m' r, (x <~ p ;; ret (f x)) m = (t, (m', Ok r)) ->
  exists x, p m = (t, (m', Ok x)) /\ r = f x.
Proof.
  intros A p f m t m' r E. apply bindM_ok in E. destruct E as (t1 & m1 & x & t2 & E1 & E2 & ->). apply ret_ok in E2.
  destruct E2 as (-> & -> & ->). exists x. rewrite app_nil_r. auto.
Qed.
Lemma setup_pri : forall ae p al s t m tr m' u, priOk c (ks m) -> setup c ae p al s t m = (tr, (m', Ok u)) -> priOk c (ks m').
Proof.
  intros ae p al s t m tr m' u P E. destruct (exec_priOk c TR (OSetup ae p al s t) m tr m' (Ok None)) as (_ & _ & R & _); auto; try exact Logic.I.
  cbn [exec]. unfold bindM. rewrite E. cbn. rewrite app_nil_r. reflexivity.
Qed.
Lemma fhist_inv : forall m, fhist c m -> chist c m /\ priOk c (ks m) /\ kinv (ks m).
Proof.
  intros m H. induction H as [aeid pidx algo salt tier seed rnd t m' HS E | m a t m' r H (CH & P & KI) E Fr | m old new t m' r H (CH & P & KI) E
    | m pre a t m' r m0 H (CH & P & KI) ER E Fr | m pre dc ad er t m' r H (CH & P & KI) E | m pre a valid t m' r H (CH & P & KI) E HR Fr
    | m o m' r H (CH & P & KI) U E | m aeid seed t m' H (CH & P & KI) N1 N2 HS E | m seed aeid pidx algo salt tier rnd t m' H (CH & P & KI) HS E].
  - split; [eapply c_new; eauto|]. split.
    + eapply setup_pri in E; [exact E|]. intros pub v cd sd [].
    + apply setup_consistent in E. 2:{ left. split; [right; auto|]. split; [apply plain0|]. auto. }
      destruct E as (_ & E1 & E2 & E3 & _ & E4 & _). apply (kinv_same ks0); auto using kinv0.
  - assert (CH' : chist c m') by (eapply (c_call c m (OIncept a)); eauto). split; [exact CH'|]. split.
    + eapply (exec_priOk c TR (OIncept a)); eauto; exact Logic.I.
    + cbn [exec] in E. apply exec_some in E. destruct E as ([vs ds] & E & _). eapply kinv_incept; eauto.
  - split; [eapply (c_call c m (OMove old new)); eauto|]. split; [eapply (exec_priOk c TR (OMove old new)); eauto; exact Logic.I|].
    cbn [exec] in E. apply bindM_ok in E. destruct E as (t1 & m1 & x & t2 & E1 & E2 & ->). apply ret_ok in E2. destruct E2 as (-> & -> & ->).
    destruct (beq old new) eqn:Eb.
    + unfold move in E1. rewrite Eb in E1. apply ret_ok in E1. destruct E1 as (_ & -> & _). exact KI.
    + eapply kinv_move; eauto. intros ->. rewrite beq_refl in Eb; discriminate.
  - split; [eapply (c_call c m (ORotate pre a)); eauto|]. split; [eapply (exec_priOk c TR (ORotate pre a)); eauto; exact Logic.I|].
    cbn [exec] in E. apply exec_some in E. destruct E as ([vs ds] & E & _).
    pose proof (replay_err _ _ _ _ _ _ _ _ _ ER) as (_ & _ & _ & _ & X). destruct (X eq_refl) as (ps0 & S0 & N0).
    eapply kinv_rotate; eauto. intros ps Hs. rewrite S0 in Hs. injection Hs; intros; subst; auto.
  - split; [eapply (c_call c m (OReplay pre dc ad er)); eauto|]. split; [eapply (exec_priOk c TR (OReplay pre dc ad er)); eauto; exact Logic.I|].
    cbn [exec] in E. apply exec_some in E. destruct E as ([vs ds] & E & _). eapply kinv_replay; eauto.
  - split; [eapply (c_call c m (OHabRotate pre a valid)); eauto|]. split; [eapply (exec_priOk c TR (OHabRotate pre a valid)); eauto; exact Logic.I|].
    cbn [exec] in E. destruct r as [r|e].
    + apply exec_some in E. destruct E as ([vs ds] & E & _). destruct (hab_ok c _ _ _ _ _ _ _ E) as (ps & m1 & S & HK & _ & K & _). rewrite K.
      apply (hab_erase pre a m m1 (vs, ds) ps); auto. intros k l p k' l' H1 H2 H3 H4. apply (Fr k l p k' l'); auto; rewrite K, erase_pubs; auto.
    + subst e. destruct (bindM_inv _ _ _ _ _ _ _ _ E) as [(? & ? & ? & ? & _ & E2 & _)|(y & E1 & E2)]; [discriminate|].
      injection E2; intros; subst y. destruct (hab_refused c _ _ _ _ _ _ E1) as (ps & m1 & vd & S & HK & _ & K & _). rewrite K.
      apply (hab_erase pre a m m1 vd ps); auto. intros k l p k' l' H1 H2 H3 H4. apply (Fr k l p k' l'); auto; rewrite K; auto.
  - assert (Ks : ks m' = ks m) by exact (tr_exec c o _ _ _ _ E). split; [eapply c_call; eauto|]. rewrite Ks. auto.
  - split; [eapply c_change; eauto|]. split.
    + destruct (exec_priOk c TR (OUpdate aeid seed) m t m' (Ok None)) as (_ & _ & R & _); auto; try exact Logic.I.
      cbn [exec]. unfold bindM. rewrite E. cbn. rewrite app_nil_r. reflexivity.
    + destruct (chist_consistent c _ CH) as (CO & _).
      destruct CO as [(A1 & _)|(a & Na & A1 & A2 & A3 & _)]; [unfold aeidOf in N1; rewrite A1 in N1; congruence|].
      assert (N3 : aeid <> a) by (unfold aeidOf in N2; rewrite A1 in N2; exact N2).
      destruct (update_ok c _ _ _ _ _ _ _ E Na A1 A3 N3) as (_ & _ & _ & _ & sv & x & p' & q' & _ & _ & K & _ & HQ).
      apply (kinv_same (ks m)); auto; rewrite K; cbn; auto.
      intros p Hp. destruct (HQ p) as [(HQ1 & _)|(v & y & v' & _ & _ & _ & HQ4)]; congruence.
  - split. { eapply (c_kill c m (OReplay [] [] false false)); eauto. left; reflexivity. }
    split. { eapply setup_pri in E; [exact E|]. exact P. }
    destruct (chist_consistent c _ CH) as (CO & CS).
    apply setup_consistent in E.
    + destruct E as (_ & E1 & E2 & E3 & _ & E4 & _). apply (kinv_same (ks m)); auto. rewrite E1; auto.
    + unfold aeidOf in *. destruct CO as [(A1 & _ & _ & A2)|(a & Na & A1 & _ & _ & _ & _ & A2)]; rewrite A1 in *.
      * left. destruct (HS eq_refl) as (-> & ->). split; [auto|]. split; [auto|]. split; [auto|]. congruence.
      * right. exists a. auto.
Qed.

Lemma held : forall m pre ps p, fhist c m -> dget (sits (ks m)) pre = Some ps -> In p (l_pubs (t_new ps) ++ l_pubs (t_nxt ps)) ->
  exists cd sd, signersOf c [p] m = ([], (m, Ok [((cd, sd), p)])) /\ vk c cd sd (trans c p) = p.
Proof.
  intros m pre ps p H S Hp. destruct (fhist_inv _ H) as (CH & P & KI). destruct (chist_consistent c _ CH) as (CO & _).
  pose proof (ki_sit _ KI _ _ S) as SO.
  assert (G : dget (pris (ks m)) p <> None).
  { apply in_app_or in Hp. destruct Hp as [Hp|Hp].
    - eapply (so_held _ _ _ SO); [|apply (so_new _ _ _ SO)|]; auto. lia.
    - eapply (so_held _ _ _ SO); [|apply (so_nxt _ _ _ SO)|]; auto. rewrite (so_r _ _ _ SO). lia. }
  destruct (dget (pris (ks m)) p) as [v|] eqn:G'; [|congruence].
  destruct (readable c _ _ _ CO P G') as (cd & sd & R1 & _ & _ & R2). eauto.
Qed.
End Held.

(** ** Derivation paths *)
Lemma hexstr_inj : forall a b, hexstr a = hexstr b -> a = b.
Proof. intros a b E. pose proof (hexint_hexstr a) as A. rewrite E, hexint_hexstr in A. injection A; auto. Qed.
Lemma hexstr_len : forall a, List.length (hexstr a) = ndigits (N.size_nat a) 16 a.
Proof. intros. unfold hexstr. rewrite map_length, to_digits_length. reflexivity. Qed.
Lemma hexstr_len_mono : forall a b, a <= b -> (List.length (hexstr a) <= List.length (hexstr b))%nat.
Proof.
  intros a b H. rewrite !hexstr_len. destruct (Nat.le_gt_cases (ndigits (N.size_nat a) 16 a) (ndigits (N.size_nat b) 16 b)) as [L|L]; auto. exfalso.
  pose proof (ndigits_bound (N.size_nat b) 16 b ltac:(lia) (size_bound b)) as B. pose proof (ndigits_pos (N.size_nat b) 16 b) as P.
  destruct (ndigits_min (N.size_nat a) 16 a ltac:(lia)) as [E|E]; [lia|].
  set (na := ndigits (N.size_nat a) 16 a) in *. set (nb := ndigits (N.size_nat b) 16 b) in *.
  assert (16 ^ N.of_nat nb <= 16 ^ N.of_nat (na - 1)) by (apply N.pow_le_mono_r; lia). lia.
Qed.
Lemma app_inj_len : forall (A : Type) (a b x y : list A), List.length a = List.length b -> a ++ x = b ++ y -> a = b /\ x = y.
Proof.
  intros A. induction a as [|c a IH]; intros [|d b] x y L E; try discriminate; auto.
  cbn in *. injection E; intros E1 E2. injection L; intros L1. destruct (IH _ _ _ L1 E1). subst; auto.
Qed.
Lemma path_inj : forall stem pidx r k r' k', r <= r' -> k <= k' -> pathOf stem pidx r k = pathOf stem pidx r' k' -> r = r' /\ k = k'.
Proof.
  intros stem pidx r k r' k' Hr Hk E. unfold pathOf in E. apply app_inv_head in E.
  pose proof (hexstr_len_mono _ _ Hr) as L1. pose proof (hexstr_len_mono _ _ Hk) as L2.
  assert (L : List.length (hexstr r ++ hexstr k) = List.length (hexstr r' ++ hexstr k')) by (rewrite E; reflexivity).
  rewrite !app_length in L. apply app_inj_len in E; [|lia]. destruct E as (E1 & E2). split; apply hexstr_inj; auto.
Qed.
Lemma app_overlap : forall (a b u v : bytes), a ++ u = b ++ v -> exists w, a = b ++ w \/ b = a ++ w.
Proof.
  induction a as [|x a IH]; intros [|y b] u v E.
  - exists []. auto.
  - exists (y :: b). auto.
  - exists (x :: a). auto.
  - cbn in E. injection E; intros E1 E2. subst y. destruct (IH _ _ _ E1) as (w & [->| ->]); exists w; auto.
Qed.
Lemma path_stems : forall s1 p1 s2 p2 r k r' k',
  let a := match s1 with [] => hexstr p1 | _ => s1 end in let b := match s2 with [] => hexstr p2 | _ => s2 end in
  pathOf s1 p1 r k = pathOf s2 p2 r' k' -> exists w, a = b ++ w \/ b = a ++ w.
Proof. intros s1 p1 s2 p2 r k r' k' a b E. unfold pathOf in E. exact (app_overlap _ _ _ _ E). Qed.
