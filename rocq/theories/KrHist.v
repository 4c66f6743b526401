(** Histories of request authentication. *)
From Verif Require Import Prelude B64Model SubsModel ThModel ThProofs JsonModel JsonProofs Lex SerProofs RpModel RpProofs RpLive KrModel KrSpec KrProofs.
Open Scope N_scope.
Ltac Zify.zify_post_hook ::= Z.div_mod_to_equations.

Lemma keys_dset_nodup : forall {V} (d : list (bytes * V)) k v, NoDup (keysOf d) -> NoDup (keysOf (dset d k v)).
Proof.
  intros V d k v. induction d as [|[a x] d IH]; intros H; cbn [dset keysOf map fst].
  - constructor; [intros []|constructor].
  - inversion H as [|? ? N1 N2]; subst. destruct (beq k a) eqn:E.
    + apply beq_eq in E. subst a. cbn [map fst]. constructor; assumption.
    + cbn [map fst]. constructor; [|apply IH; exact N2]. intros J. apply N1. clear - J E. 
      assert (Q : forall (d : list (bytes * V)), In a (map fst (dset d k v)) -> a = k \/ In a (map fst d)).
      { induction d0 as [|[b y] d0 IH]; cbn [dset map fst]; intros J0; [destruct J0 as [<-|[]]; left; reflexivity|].
        destruct (beq k b) eqn:Eb; cbn [map fst] in J0; destruct J0 as [<-|J0]; try (right; left; reflexivity).
        - left. apply beq_eq in Eb. congruence.
        - right. right. exact J0.
        - destruct (IH J0) as [->|J1]; [left; reflexivity|right; right; exact J1]. }
      destruct (Q d J) as [->|J']; [rewrite beq_refl in E; discriminate|exact J'].
Qed.
Lemma keys_drem_nodup : forall {V} (d : list (bytes * V)) k, NoDup (keysOf d) -> NoDup (keysOf (drem d k)).
Proof.
  intros V d k. induction d as [|[a x] d IH]; intros H; [constructor|]. inversion H as [|? ? N1 N2]; subst.
  unfold drem in *. cbn [filter fst]. destruct (beq a k); cbn [negb keysOf map fst]; [apply IH; exact N2|].
  constructor; [|apply IH; exact N2]. intros J. apply N1. apply in_map_iff in J. destruct J as ((b & y) & <- & J).
  apply filter_In in J. apply in_map. apply J.
Qed.

Lemma addSigs_nodup : forall new old, NoDup old -> NoDup (addSigs old new).
Proof.
  induction new as [|s new IH]; intros old H; cbn [addSigs]; [exact H|].
  destruct (memB (sg_qb64 s) (map sg_qb64 old)) eqn:M; [apply IH; exact H|]. apply IH.
  rewrite <- (rev_involutive (old ++ [s])). apply NoDup_rev. rewrite rev_app_distr. cbn [rev app].
  constructor; [|apply NoDup_rev; exact H]. intros J. apply in_rev in J.
  assert (memB (sg_qb64 s) (map sg_qb64 old) = true) by (apply SerProofs.memB_In, in_map; exact J). congruence.
Qed.

Lemma NoDup_app2 : forall {A} (a b : list A), NoDup a -> NoDup b -> (forall x, In x a -> ~ In x b) -> NoDup (a ++ b).
Proof.
  intros A a b Ha Hb D. induction a as [|x a IH]; [exact Hb|]. inversion Ha; subst. cbn [app]. constructor.
  - intros J. apply in_app_or in J. destruct J as [J|J]; [contradiction|]. exact (D x (or_introl eq_refl) J).
  - apply IH; [assumption|]. intros y Y. apply D. right. exact Y.
Qed.

(** ** Reading *)
Lemma sigsAt_dset : forall d k v k' t1 t2 t3 t4 t5, sigsAt (mkKdb t1 t2 t3 t4 (dset (pmks d) k v) t5) k' = if beq k' k then v else sigsAt d k'.
Proof. intros. unfold sigsAt. cbn [pmks]. rewrite dget_dset. destruct (beq k' k); reflexivity. Qed.

Definition cleanM (m : kmsg) : Prop := ~ In 46 (m_pre m) /\ ~ In 46 (m_said m).
Definition sameId (m m' : kmsg) : Prop := m_pre m = m_pre m' /\ m_said m = m_said m'.

Lemma pkey_id : forall m m', cleanM m -> cleanM m' -> pkey m = pkey m' -> sameId m m'.
Proof. intros m m' [A B] [C D] E. exact (pkey_inj m m' A B C D E). Qed.
Lemma id_pkey : forall m m', sameId m m' -> pkey m = pkey m'.
Proof. intros m m' [A B]. unfold pkey. rewrite A, B. reflexivity. Qed.
Lemma tkey_id : forall m x m' x', cleanM m -> cleanM m' -> tkey m x = tkey m' x' -> sameId m m'.
Proof. intros m x m' x' [A B] [C D] E. exact (tkey_inj m x m' x' A B C D E). Qed.

Lemma cache_pin_same : forall m h d, cacheOf m (pinOf m h d) = Some h.
Proof.
  intros m h d. unfold cacheOf, pinOf. destruct (exchangeId m); cbn [msgc tmsc setMsgc setTmsc]; rewrite dget_dset, beq_refl; reflexivity.
Qed.
Lemma cache_pin_other : forall m m' h d, cleanM m -> cleanM m' -> ~ sameId m m' -> cacheOf m' (pinOf m h d) = cacheOf m' d.
Proof.
  intros m m' h d C C' N. unfold cacheOf, pinOf. destruct (exchangeId m) as [x|]; destruct (exchangeId m') as [x'|]; cbn [msgc tmsc setMsgc setTmsc]; try reflexivity.
  - rewrite dget_dset. destruct (beq (tkey m' x') (tkey m x)) eqn:E; [|reflexivity]. apply beq_eq in E. symmetry in E. exfalso. apply N. exact (tkey_id _ _ _ _ C C' E).
  - rewrite dget_dset. destruct (beq (pkey m') (pkey m)) eqn:E; [|reflexivity]. apply beq_eq in E. symmetry in E. exfalso. apply N. exact (pkey_id _ _ C C' E).
Qed.
Lemma pin_frame : forall m h d, kctyp (pinOf m h d) = kctyp d /\ pmkm (pinOf m h d) = pmkm d /\ pmks (pinOf m h d) = pmks d /\ pmsk (pinOf m h d) = pmsk d.
Proof. intros. unfold pinOf. destruct (exchangeId m); repeat split. Qed.
Lemma cache_partial : forall m m' k new d, cacheOf m' (addPartial m k new d) = cacheOf m' d.
Proof. intros. unfold cacheOf, addPartial. destruct new; reflexivity. Qed.
Lemma cache_pending : forall m m' k vs d, cacheOf m' (setPending m k vs d) = cacheOf m' d.
Proof. reflexivity. Qed.
Lemma sigs_pin : forall m h d k, sigsAt (pinOf m h d) k = sigsAt d k.
Proof. intros. unfold sigsAt. destruct (pin_frame m h d) as (_ & _ & -> & _). reflexivity. Qed.

(** ** Pruning *)
Definition expired (now : N) (m : kmsg) (h : hcache) : Prop :=
  match exchangeId m with
  | None => ~ (now / 1000 <= h_mdt h / 1000 + h_d h + h_pml h /\ h_mdt h / 1000 <= now / 1000 + h_d h)
  | Some _ => ~ (h_xdt h / 1000 <= now / 1000 /\ now / 1000 <= h_xdt h / 1000 + h_pxl h)
  end.
Definition noPartial (d : kdb) (k : bytes) : Prop := dget (pmkm d) k = None /\ dget (pmks d) k = None /\ dget (pmsk d) k = None.
Definition samePartial (d d' : kdb) (k : bytes) : Prop :=
  dget (pmkm d') k = dget (pmkm d) k /\ dget (pmks d') k = dget (pmks d) k /\ dget (pmsk d') k = dget (pmsk d) k.
Record pruned (now : N) (d d' : kdb) : Prop := mkPruned {
  pr_ctyp : kctyp d' = kctyp d;
  pr_part : forall k, samePartial d d' k \/ noPartial d' k;
  pr_cache : forall m, cleanM m -> cacheOf m d' = cacheOf m d \/
    (cacheOf m d' = None /\ noPartial d' (pkey m) /\ exists h, cacheOf m d = Some h /\ expired now m h);
  pr_nd1 : NoDup (keysOf (msgc d)) -> NoDup (keysOf (msgc d'));
  pr_nd2 : NoDup (keysOf (tmsc d)) -> NoDup (keysOf (tmsc d')) }.

Lemma pruned_refl : forall now d, pruned now d d.
Proof. intros now d. constructor; auto. intros k. left. split; [|split]; reflexivity. Qed.
Lemma pruned_trans : forall now d d1 d2, pruned now d d1 -> pruned now d1 d2 -> pruned now d d2.
Proof.
  intros now d d1 d2 A B. constructor.
  - rewrite (pr_ctyp _ _ _ B). apply (pr_ctyp _ _ _ A).
  - intros k. destruct (pr_part _ _ _ B k) as [(B1 & B2 & B3)|B1]; [|right; exact B1].
    destruct (pr_part _ _ _ A k) as [(A1 & A2 & A3)|(A1 & A2 & A3)]; [left|right].
    + split; [|split]; congruence.
    + split; [|split]; congruence.
  - intros m C. destruct (pr_cache _ _ _ B m C) as [B1|(B1 & B2 & h & B3 & B4)].
    + destruct (pr_cache _ _ _ A m C) as [A1|(A1 & A2 & h & A3 & A4)]; [left; congruence|]. right. split; [congruence|].
      split; [|exists h; split; assumption]. destruct (pr_part _ _ _ B (pkey m)) as [(P1 & P2 & P3)|P]; [|exact P].
      destruct A2 as (Q1 & Q2 & Q3). split; [|split]; congruence.
    + destruct (pr_cache _ _ _ A m C) as [A1|(A1 & _)]; [|congruence]. right. split; [exact B1|]. split; [exact B2|]. exists h. split; [congruence|exact B4].
  - intros H. apply (pr_nd1 _ _ _ B), (pr_nd1 _ _ _ A), H.
  - intros H. apply (pr_nd2 _ _ _ B), (pr_nd2 _ _ _ A), H.
Qed.

Lemma forget_part : forall pk d k, dget (pmkm (forget pk d)) k = (if beq k pk then None else dget (pmkm d) k)
  /\ dget (pmks (forget pk d)) k = (if beq k pk then None else dget (pmks d) k)
  /\ dget (pmsk (forget pk d)) k = (if beq k pk then None else dget (pmsk d) k).
Proof. intros. unfold forget. cbn [pmkm pmks pmsk]. rewrite !dget_drem. repeat split. Qed.

Lemma forget_cases : forall pk d0 d k, pmkm d0 = pmkm d -> pmks d0 = pmks d -> pmsk d0 = pmsk d ->
  samePartial d (forget pk d0) k \/ noPartial (forget pk d0) k.
Proof.
  intros pk d0 d k E1 E2 E3. destruct (forget_part pk d0 k) as (F1 & F2 & F3). unfold samePartial, noPartial.
  rewrite F1, F2, F3, E1, E2, E3. destruct (beq k pk); [right|left]; repeat split.
Qed.

Lemma pruneMessages_ok : forall now l d, NoDup (map fst l) -> (forall k h, In (k, h) l -> dget (msgc d) k = Some h) ->
  pruned now d (fst (pruneMessages now l d)).
Proof.
  intros now l. induction l as [|(key, h) l IH]; intros d ND H; cbn [pruneMessages]; [apply pruned_refl|].
  cbn [map fst] in ND. inversion ND as [|? ? ND1 ND2]; subst.
  destruct (splitb dot key) as [|p1 [|p2 [|p3 ps]]] eqn:S; try (cbn [fst]; apply pruned_refl).
  destruct ((now / 1000 <=? h_mdt h / 1000 + h_d h + h_pml h) && (h_mdt h / 1000 <=? now / 1000 + h_d h)) eqn:W.
  - apply IH; [exact ND2|]. intros k h' J. apply H. right. exact J.
  - set (d1 := forget key (setMsgc d (drem (msgc d) key))).
    apply pruned_trans with d1.
    + constructor.
      * reflexivity.
      * intros k. apply forget_cases; reflexivity.
      * intros m C. unfold cacheOf. destruct (exchangeId m) as [x|] eqn:X; [left; reflexivity|].
        unfold d1, forget, setMsgc. cbn [msgc]. rewrite dget_drem. destruct (beq (pkey m) key) eqn:E; [|left; reflexivity].
        apply beq_eq in E. right. split; [reflexivity|]. split.
        -- destruct (forget_part key (setMsgc d (drem (msgc d) key)) (pkey m)) as (F1 & F2 & F3).
           rewrite E, beq_refl in F1, F2, F3. rewrite E. split; [exact F1|split; [exact F2|exact F3]].
        -- exists h. rewrite E. split; [apply H; left; reflexivity|]. unfold expired. rewrite X. intros [Q1 Q2].
           apply N.leb_le in Q1. apply N.leb_le in Q2. rewrite Q1, Q2 in W. discriminate.
      * intros Q. apply keys_drem_nodup. exact Q.
      * intros Q. exact Q.
    + apply IH; [exact ND2|]. intros k h' J. unfold d1, forget, setMsgc. cbn [msgc]. rewrite dget_drem.
      destruct (beq k key) eqn:E; [|apply H; right; exact J]. apply beq_eq in E. subst k. exfalso. apply ND1.
      apply in_map_iff. exists (key, h'). split; [reflexivity|exact J].
Qed.

Lemma pruneExchanges_ok : forall now l d, NoDup (map fst l) -> (forall k h, In (k, h) l -> dget (tmsc d) k = Some h) ->
  pruned now d (fst (pruneExchanges now l d)).
Proof.
  intros now l. induction l as [|(key, h) l IH]; intros d ND H; cbn [pruneExchanges]; [apply pruned_refl|].
  cbn [map fst] in ND. inversion ND as [|? ? ND1 ND2]; subst.
  destruct (splitb dot key) as [|p1 [|p2 [|p3 [|p4 ps]]]] eqn:S; try (cbn [fst]; apply pruned_refl).
  destruct ((h_xdt h / 1000 <=? now / 1000) && (now / 1000 <=? h_xdt h / 1000 + h_pxl h)) eqn:W.
  - apply IH; [exact ND2|]. intros k h' J. apply H. right. exact J.
  - set (d1 := forget (joinb dot [p1; p3]) (setTmsc d (drem (tmsc d) key))).
    apply pruned_trans with d1.
    + constructor.
      * reflexivity.
      * intros k. apply forget_cases; reflexivity.
      * intros m C. unfold cacheOf. destruct (exchangeId m) as [x|] eqn:X; [|left; reflexivity].
        unfold d1, forget, setTmsc. cbn [tmsc]. rewrite dget_drem. destruct (beq (tkey m x) key) eqn:E; [|left; reflexivity].
        apply beq_eq in E. right. split; [reflexivity|]. split.
        -- assert (P : joinb dot [p1; p3] = pkey m) by (destruct C as [C1 C2]; rewrite <- E in S; exact (tkey_three m x p1 p2 p3 C1 C2 S)).
           destruct (forget_part (joinb dot [p1; p3]) (setTmsc d (drem (tmsc d) key)) (pkey m)) as (F1 & F2 & F3).
           rewrite P, beq_refl in F1, F2, F3. rewrite P. split; [exact F1|split; [exact F2|exact F3]].
        -- exists h. rewrite E. split; [apply H; left; reflexivity|]. unfold expired. rewrite X. intros [Q1 Q2].
           apply N.leb_le in Q1. apply N.leb_le in Q2. rewrite Q1, Q2 in W. discriminate.
      * intros Q. exact Q.
      * intros Q. apply keys_drem_nodup. exact Q.
    + apply IH; [exact ND2|]. intros k h' J. unfold d1, forget, setTmsc. cbn [tmsc]. rewrite dget_drem.
      destruct (beq k key) eqn:E; [|apply H; right; exact J]. apply beq_eq in E. subst k. exfalso. apply ND1.
      apply in_map_iff. exists (key, h'). split; [reflexivity|exact J].
Qed.

Lemma prune_ok : forall now d, NoDup (keysOf (msgc d)) -> NoDup (keysOf (tmsc d)) -> pruned now d (fst (prune now d)).
Proof.
  intros now d N1 N2. unfold prune. pose proof (pruneMessages_ok now (msgc d) d N1 (fun k h J => In_dget _ _ _ N1 J)) as P.
  destruct (pruneMessages now (msgc d) d) as [d1 e]. cbn [fst] in P. destruct e as [x|]; [exact P|].
  apply pruned_trans with d1; [exact P|]. pose proof (pr_nd2 _ _ _ P N2) as N3. apply pruneExchanges_ok; [exact N3|].
  intros k h J. exact (In_dget _ _ _ N3 J).
Qed.

(** ** The invariant *)
Section H.
Variable env : kenv.
Variable t0 : list (bytes * ctyp).

Lemma kruns_snoc : forall l x d, kruns env (l ++ [x]) d = kdo env x (kruns env l d).
Proof. intros. unfold kruns. rewrite fold_left_app. reflexivity. Qed.

Definition timelyIn (l : list kact) (m : kmsg) : Prop :=
  exists l0 l1 t v a c mdt lag, l = l0 ++ Deliver t v m a :: l1 /\ m_dt m = Some mdt
    /\ fetchCacheType (kruns env l0 (kdb0 t0)) (m_ilk m) (m_route m) = Some c
    /\ inWindow (c_d c) lag mdt t /\ (lag = c_sl c \/ lag = c_ll c).

Record inv (l : list kact) (d : kdb) : Prop := mkInv {
  iv_sig : forall k s, In s (sigsAt d k) -> exists t v m a ks, In (Deliver t v m a) l /\ pkey m = k /\ kev v (m_pre m) = Some ks
      /\ goodSig env ks m s /\ attachedSig m ks a s /\ dget (pmsk d) k = Some (kv_sn ks, kv_said ks);
  iv_nd : forall k, NoDup (sigsAt d k);
  iv_cached : forall k, ~ noPartial d k -> exists t v m a, In (Deliver t v m a) l /\ pkey m = k /\ cacheOf m d <> None;
  iv_time : forall t v m a h, In (Deliver t v m a) l -> cacheOf m d = Some h -> timelyIn l m;
  iv_mdt : forall t v m a h, In (Deliver t v m a) l -> cacheOf m d = Some h -> m_dt m = Some (h_mdt h);
  iv_from : forall m h, cleanM m -> cacheOf m d = Some h -> exists t v m' a, In (Deliver t v m' a) l /\ sameId m' m;
  iv_n1 : NoDup (keysOf (msgc d));
  iv_n2 : NoDup (keysOf (tmsc d)) }.

Lemma inv0 : inv [] (kdb0 t0).
Proof.
  constructor.
  - intros k s H. destruct H.
  - intros k. constructor.
  - intros k H. exfalso. apply H. split; [|split]; reflexivity.
  - intros t v m a h H. destruct H.
  - intros t v m a h H. destruct H.
  - intros m h C H. unfold cacheOf in H. destruct (exchangeId m); discriminate H.
  - constructor.
  - constructor.
Qed.

Lemma timely_more : forall l x m, timelyIn l m -> timelyIn (l ++ [x]) m.
Proof.
  intros l x m (l0 & l1 & t & v & a & cc & mdt & lag & E & H). exists l0, (l1 ++ [x]), t, v, a, cc, mdt, lag. split; [|exact H].
  rewrite E, <- app_assoc. reflexivity.
Qed.

Lemma in_snoc : forall {A} (l : list A) x y, In y (l ++ [x]) -> In y l \/ y = x.
Proof. intros A l x y H. apply in_app_or in H. destruct H as [H|[H|[]]]; auto. Qed.
Lemma in_snoc_l : forall {A} (l : list A) x y, In y l -> In y (l ++ [x]).
Proof. intros. apply in_or_app. left. assumption. Qed.
Lemma in_snoc_r : forall {A} (l : list A) x, In x (l ++ [x]).
Proof. intros. apply in_or_app. right. left. reflexivity. Qed.

Lemma inv_same : forall l x d, inv l d -> (forall t v m a, x = Deliver t v m a -> cleanM m) -> clean l -> oneMessage (l ++ [x]) -> inv (l ++ [x]) d.
Proof.
  intros l x d I Cx Cl One. constructor.
  - intros k s H. destruct (iv_sig _ _ I k s H) as (t & v & m & a & ks & H1 & H2). exists t, v, m, a, ks. split; [apply in_snoc_l; exact H1|exact H2].
  - apply (iv_nd _ _ I).
  - intros k H. destruct (iv_cached _ _ I k H) as (t & v & m & a & H1 & H2). exists t, v, m, a. split; [apply in_snoc_l; exact H1|exact H2].
  - intros t v m a h H1 H2. apply in_snoc in H1. destruct H1 as [H1|H1].
    + apply timely_more. exact (iv_time _ _ I t v m a h H1 H2).
    + destruct (iv_from _ _ I m h (Cx t v m a (eq_sym H1)) H2) as (t' & v' & m' & a' & J & S1 & S2).
      assert (m' = m) by (apply (One t' v' m' a' t v m a); [apply in_snoc_l; exact J|rewrite H1; apply in_snoc_r|exact S1|exact S2]). subst m'.
      apply timely_more. exact (iv_time _ _ I t' v' m a' h J H2).
  - intros t v m a h H1 H2. apply in_snoc in H1. destruct H1 as [H1|H1].
    + exact (iv_mdt _ _ I t v m a h H1 H2).
    + destruct (iv_from _ _ I m h (Cx t v m a (eq_sym H1)) H2) as (t' & v' & m' & a' & J & S1 & S2).
      assert (m' = m) by (apply (One t' v' m' a' t v m a); [apply in_snoc_l; exact J|rewrite H1; apply in_snoc_r|exact S1|exact S2]). subst m'.
      exact (iv_mdt _ _ I t' v' m a' h J H2).
  - intros m h C H. destruct (iv_from _ _ I m h C H) as (t & v & m' & a & J & S). exists t, v, m', a. split; [apply in_snoc_l; exact J|exact S].
  - apply (iv_n1 _ _ I).
  - apply (iv_n2 _ _ I).
Qed.

(** with nothing else cached under the same identifier and digest *)
Lemma no_cache_no_partial : forall l d t v m a, inv l d -> clean (l ++ [Deliver t v m a]) -> oneMessage (l ++ [Deliver t v m a]) ->
  cacheOf m d = None -> noPartial d (pkey m).
Proof.
  intros l d t v m a I C One H.
  destruct (dget (pmkm d) (pkey m)) as [q1|] eqn:E1; [exfalso|].
  2: destruct (dget (pmks d) (pkey m)) as [q1|] eqn:E2; [exfalso|].
  3: destruct (dget (pmsk d) (pkey m)) as [q1|] eqn:E3; [exfalso|split; [|split]; assumption].
  all: (assert (NP : ~ noPartial d (pkey m)) by (intros (P1 & P2 & P3); congruence);
    destruct (iv_cached _ _ I _ NP) as (t' & v' & m' & a' & J & K & CA);
    pose proof (C t' v' m' a' (in_snoc_l _ _ _ J)) as C1; pose proof (C t v m a (in_snoc_r _ _)) as C2;
    destruct (pkey_id m' m C1 C2 K) as [S1 S2];
    assert (m' = m) by (apply (One t' v' m' a' t v m a); [apply in_snoc_l; exact J|apply in_snoc_r|exact S1|exact S2]); subst m'; congruence).
Qed.
End H.
