(** What histories of request authentication keep. *)
From Verif Require Import Prelude B64Model SubsModel ThModel ThProofs JsonModel JsonProofs Lex SerProofs RpModel RpProofs RpLive KrModel KrSpec KrProofs KrHist.
Open Scope N_scope.
Ltac Zify.zify_post_hook ::= Z.div_mod_to_equations.

Section H.
Variable env : kenv.
Variable t0 : list (bytes * ctyp).
Local Notation inv := (inv env t0).

Lemma cached_one : forall l d t v m a h, inv l d -> clean (l ++ [Deliver t v m a]) -> oneMessage (l ++ [Deliver t v m a]) ->
  cacheOf m d = Some h -> exists t' v' a', In (Deliver t' v' m a') l.
Proof.
  intros l d t v m a h I C One H. destruct (iv_from _ _ _ _ I m h (C t v m a (in_snoc_r _ _)) H) as (t' & v' & m' & a' & J & S1 & S2).
  assert (m' = m) by (apply (One t' v' m' a' t v m a); [apply in_snoc_l; exact J|apply in_snoc_r|exact S1|exact S2]). subst m'.
  exists t', v', a'. exact J.
Qed.

Lemma other_id : forall l t v m a t' v' m' a', oneMessage l -> In (Deliver t v m a) l -> In (Deliver t' v' m' a') l -> m <> m' -> ~ sameId m m'.
Proof. intros l t v m a t' v' m' a' One J J' N [S1 S2]. apply N. exact (One t v m a t' v' m' a' J J' S1 S2). Qed.

Lemma kmsg_dec : forall m m' : kmsg, {m = m'} + {m <> m'}.
Proof.
  assert (L : forall x y : list N, {x = y} + {x <> y}) by (apply list_eq_dec, N.eq_dec).
  assert (O : forall x y : option bytes, {x = y} + {x <> y}) by (decide equality; apply L).
  assert (O' : forall x y : option N, {x = y} + {x <> y}) by (decide equality; apply N.eq_dec).
  intros m m'. decide equality; try apply L; try apply O; try apply O'; apply Bool.bool_dec.
Qed.

Lemma inv_update : forall L d d' t v m a h', inv L d -> clean L -> oneMessage L -> In (Deliver t v m a) L ->
  (forall k, k <> pkey m -> sigsAt d' k = sigsAt d k /\ samePartial d d' k) ->
  (forall m', cleanM m' -> ~ sameId m m' -> cacheOf m' d' = cacheOf m' d) ->
  cacheOf m d' = Some h' -> m_dt m = Some (h_mdt h') -> timelyIn env t0 L m ->
  NoDup (sigsAt d' (pkey m)) ->
  (forall s, In s (sigsAt d' (pkey m)) -> exists t v a ks, In (Deliver t v m a) L /\ kev v (m_pre m) = Some ks
      /\ goodSig env ks m s /\ attachedSig m ks a s /\ dget (pmsk d') (pkey m) = Some (kv_sn ks, kv_said ks)) ->
  NoDup (keysOf (msgc d')) -> NoDup (keysOf (tmsc d')) -> inv L d'.
Proof.
  intros L d d' t v m a h' I C One J Fr Fc Hc Hm Ht Nd Hs N1 N2.
  constructor.
  - intros k s K. destruct (list_eq_dec N.eq_dec k (pkey m)) as [->|Ne].
    + destruct (Hs s K) as (t1 & v1 & a1 & ks & K1 & K2). exists t1, v1, m, a1, ks. split; [exact K1|]. split; [reflexivity|exact K2].
    + destruct (Fr k Ne) as (F1 & F2 & F3 & F4). rewrite F1 in K. destruct (iv_sig _ _ _ _ I k s K) as (t1 & v1 & m1 & a1 & ks & K1 & K2 & K3 & K4 & K5 & K6).
      exists t1, v1, m1, a1, ks. repeat (split; [assumption|]). rewrite F4. exact K6.
  - intros k. destruct (list_eq_dec N.eq_dec k (pkey m)) as [->|Ne]; [exact Nd|]. destruct (Fr k Ne) as (F1 & _). rewrite F1. apply (iv_nd _ _ _ _ I).
  - intros k K. destruct (list_eq_dec N.eq_dec k (pkey m)) as [->|Ne].
    + exists t, v, m, a. split; [exact J|]. split; [reflexivity|]. rewrite Hc. discriminate.
    + destruct (Fr k Ne) as (F1 & F2 & F3 & F4). assert (K' : ~ noPartial d k).
      { intros (P1 & P2 & P3). apply K. split; [|split]; congruence. }
      destruct (iv_cached _ _ _ _ I k K') as (t1 & v1 & m1 & a1 & K1 & K2 & K3). exists t1, v1, m1, a1. split; [exact K1|]. split; [exact K2|].
      rewrite Fc; [exact K3|exact (C _ _ _ _ K1)|]. intros S. apply Ne. rewrite <- K2. symmetry. apply id_pkey. exact S.
  - intros t1 v1 m1 a1 h K1 K2. destruct (kmsg_dec m m1) as [<-|Nm]; [exact Ht|].
    apply (iv_time _ _ _ _ I t1 v1 m1 a1 h K1). rewrite <- Fc; [exact K2|exact (C _ _ _ _ K1)|]. exact (other_id L t v m a t1 v1 m1 a1 One J K1 Nm).
  - intros t1 v1 m1 a1 h K1 K2. destruct (kmsg_dec m m1) as [<-|Nm]; [rewrite Hc in K2; injection K2 as <-; exact Hm|].
    apply (iv_mdt _ _ _ _ I t1 v1 m1 a1 h K1). rewrite <- Fc; [exact K2|exact (C _ _ _ _ K1)|]. exact (other_id L t v m a t1 v1 m1 a1 One J K1 Nm).
  - intros m1 h C1 K. destruct (list_eq_dec N.eq_dec (m_pre m) (m_pre m1)) as [E1|E1]; [destruct (list_eq_dec N.eq_dec (m_said m) (m_said m1)) as [E2|E2]|].
    + exists t, v, m, a. split; [exact J|split; assumption].
    + apply (iv_from _ _ _ _ I m1 h C1). rewrite <- Fc; [exact K|exact C1|]. intros [_ S2]. contradiction.
    + apply (iv_from _ _ _ _ I m1 h C1). rewrite <- Fc; [exact K|exact C1|]. intros [S1 _]. contradiction.
  - exact N1.
  - exact N2.
Qed.

Lemma pin_nd : forall m h d, NoDup (keysOf (msgc d)) -> NoDup (keysOf (tmsc d)) ->
  NoDup (keysOf (msgc (pinOf m h d))) /\ NoDup (keysOf (tmsc (pinOf m h d))).
Proof. intros m h d A B. unfold pinOf. destruct (exchangeId m); cbn [msgc tmsc setMsgc setTmsc]; split; try assumption; apply keys_dset_nodup; assumption. Qed.

Lemma inv_deliver : forall l d t v m a, inv l d -> d = kruns env l (kdb0 t0) ->
  clean (l ++ [Deliver t v m a]) -> oneMessage (l ++ [Deliver t v m a]) ->
  inv (l ++ [Deliver t v m a]) (fst (kramit env v t m a d)).
Proof.
  intros l d t v m a I Ed C One. destruct (kramit env v t m a d) as [d' o] eqn:K. cbn [fst].
  pose proof (C t v m a (in_snoc_r _ _)) as Cm. fold (cleanM m) in Cm.
  set (L := l ++ [Deliver t v m a]) in *.
  assert (JL : In (Deliver t v m a) L) by (unfold L; apply in_snoc_r).
  assert (IS : inv L d).
  { apply inv_same; [exact I| |intros t1 v1 m1 a1 J; exact (C _ _ _ _ (in_snoc_l _ _ _ J))|exact One]. intros t1 v1 m1 a1 E. injection E as <- <- <- <-. exact Cm. }
  apply kramit_spec in K. destruct K as [[-> _]|(mdt & Hdt & K)]; [exact IS|].
  destruct K as [(h & k & vs & Hc & Hk & Hl & _ & _ & Hv & Hst & -> & _)|(cc & k & ty & xdt & Hc & Hf & Hk & Ety & Hw & Hx & Hxw & K)].
  - (* signatures added to a cached message *)
    assert (NN : forall s, In s (newSigs m vs d) -> In s vs) by (intros s J; unfold newSigs in J; apply filter_In in J; apply J).
    destruct (newSigs m vs d) as [|n0 ns] eqn:EN; [exact IS|]. unfold addPartial.
    assert (PM : forall k', dget (dput (pmsk d) (pkey m) (kv_sn k, kv_said k)) k' = if beq k' (pkey m) then Some (kv_sn k, kv_said k) else dget (pmsk d) k').
    { intros k'. rewrite dget_dput. destruct (beq k' (pkey m)) eqn:E.
      - apply beq_eq in E. subst k'. destruct (dget (pmsk d) (pkey m)) as [q|] eqn:Q; [rewrite (Hst q eq_refl)|]; reflexivity.
      - destruct (dget (pmsk d) k'); reflexivity. }
    apply (inv_update L d _ t v m a h IS C One JL).
    + intros k' Ne. rewrite sigsAt_dset. apply beq_neq in Ne. rewrite Ne. split; [reflexivity|]. split; [|split]; cbn [pmkm pmks pmsk].
      * rewrite dget_dput, Ne. destruct (dget (pmkm d) k'); reflexivity.
      * rewrite dget_dset, Ne. reflexivity.
      * rewrite PM, Ne. reflexivity.
    + intros m' _ _. reflexivity.
    + exact Hc.
    + exact (iv_mdt _ _ _ _ IS t v m a h JL Hc).
    + exact (iv_time _ _ _ _ IS t v m a h JL Hc).
    + rewrite sigsAt_dset, beq_refl. apply addSigs_nodup. apply (iv_nd _ _ _ _ IS).
    + intros s J. rewrite sigsAt_dset, beq_refl in J. cbn [pmsk]. rewrite PM, beq_refl. apply addSigs_In in J. destruct J as [J|J].
      * destruct (iv_sig _ _ _ _ IS _ _ J) as (t1 & v1 & m1 & a1 & ks & J1 & J2 & J3 & J4 & J5 & J6).
        destruct (pkey_id m1 m (C _ _ _ _ J1) Cm J2) as [S1 S2].
        assert (m1 = m) by (exact (One t1 v1 m1 a1 t v m a J1 JL S1 S2)). subst m1.
        exists t1, v1, a1, ks. repeat (split; [assumption|]). rewrite (Hst _ J6). reflexivity.
      * destruct (verify_spec env k m a vs Hv) as [[Q _]|(_ & _ & Q)]; [subst vs; destruct (NN s J)|].
        destruct (Q s (NN s J)) as [Q1 Q2]. exists t, v, a, k. repeat (split; [assumption|]). reflexivity.
    + exact (iv_n1 _ _ _ _ IS).
    + exact (iv_n2 _ _ _ _ IS).
  - (* a new entry *)
    assert (Tm : timelyIn env t0 L m).
    { exists l, [], t, v, a, cc, mdt, (lagOf ty cc). split; [reflexivity|]. split; [exact Hdt|]. split; [rewrite <- Ed; exact Hf|]. split; [exact Hw|].
      destruct ty; auto. }
    pose proof (no_cache_no_partial env t0 l d t v m a I C One Hc) as (P1 & P2 & P3).
    assert (P4 : sigsAt d (pkey m) = []) by (unfold sigsAt; rewrite P2; reflexivity).
    cbv zeta in K. set (h := mkH mdt xdt (c_d cc) (lagOf ty cc) (plagOf ty cc) (c_xl cc) (c_pxl cc)) in K.
    destruct (pin_frame m h d) as (F1 & F2 & F3 & F4).
    destruct (pin_nd m h d (iv_n1 _ _ _ _ IS) (iv_n2 _ _ _ _ IS)) as [N1 N2].
    destruct K as [(-> & _ & _)|(_ & _ & vs & Hv & ->)].
    + apply (inv_update L d _ t v m a h IS C One JL).
      * intros k' Ne. split; [apply sigs_pin|]. split; [|split]; congruence.
      * intros m' C' S. apply cache_pin_other; assumption.
      * apply cache_pin_same.
      * exact Hdt.
      * exact Tm.
      * rewrite sigs_pin, P4. constructor.
      * intros s J. rewrite sigs_pin, P4 in J. destruct J.
      * exact N1.
      * exact N2.
    + unfold setPending. rewrite F2, F4. 
      apply (inv_update L d _ t v m a h IS C One JL).
      * intros k' Ne. rewrite sigsAt_dset, sigs_pin. apply beq_neq in Ne. rewrite Ne, sigs_pin. split; [reflexivity|]. split; [|split]; cbn [pmkm pmks pmsk].
        -- rewrite dget_dput, Ne. destruct (dget (pmkm d) k'); reflexivity.
        -- rewrite dget_dset, Ne, F3. reflexivity.
        -- rewrite dget_dset, Ne. reflexivity.
      * intros m' C' S. exact (cache_pin_other m m' h d Cm C' S).
      * exact (cache_pin_same m h d).
      * exact Hdt.
      * exact Tm.
      * rewrite sigsAt_dset, beq_refl. apply addSigs_nodup. rewrite sigs_pin, P4. constructor.
      * intros s J. rewrite sigsAt_dset, beq_refl in J. cbn [pmsk]. rewrite dget_dset, beq_refl. apply addSigs_In in J. rewrite sigs_pin, P4 in J. destruct J as [[]|J].
        destruct (verify_spec env k m a vs Hv) as [[Q _]|(_ & _ & Q)]; [subst vs; destruct J|].
        destruct (Q s J) as [Q1 Q2]. exists t, v, a, k. repeat (split; [assumption|]). reflexivity.
      * exact N1.
      * exact N2.
Qed.

Lemma inv_prune : forall l d now, inv l d -> clean l -> oneMessage l -> inv (l ++ [Prune now]) (fst (prune now d)).
Proof.
  intros l d now I C One. pose proof (prune_ok now d (iv_n1 _ _ _ _ I) (iv_n2 _ _ _ _ I)) as P.
  set (d' := fst (prune now d)) in *.
  assert (IS : inv (l ++ [Prune now]) d).
  { apply inv_same; [exact I|discriminate|exact C|]. intros t v m a t' v' m' a' J J'. apply in_snoc in J. apply in_snoc in J'.
    destruct J as [J|J]; [|discriminate J]. destruct J' as [J'|J']; [|discriminate J']. exact (One t v m a t' v' m' a' J J'). }
  assert (C' : clean (l ++ [Prune now])) by (intros t v m a J; apply in_snoc in J; destruct J as [J|J]; [exact (C t v m a J)|discriminate J]).
  set (L := l ++ [Prune now]) in *.
  assert (CC : forall m h, cleanM m -> cacheOf m d' = Some h -> cacheOf m d = Some h).
  { intros m h Cm H. destruct (pr_cache _ _ _ P m Cm) as [Q|[Q _]]; congruence. }
  constructor.
  - intros k s H. destruct (pr_part _ _ _ P k) as [(Q1 & Q2 & Q3)|(Q1 & Q2 & Q3)].
    + assert (E : sigsAt d' k = sigsAt d k) by (unfold sigsAt; rewrite Q2; reflexivity). rewrite E in H.
      destruct (iv_sig _ _ _ _ IS k s H) as (t & v & m & a & ks & H1 & H2 & H3 & H4 & H5 & H6). exists t, v, m, a, ks. repeat (split; [assumption|]). congruence.
    + unfold sigsAt in H. rewrite Q2 in H. destruct H.
  - intros k. destruct (pr_part _ _ _ P k) as [(Q1 & Q2 & Q3)|(Q1 & Q2 & Q3)]; unfold sigsAt; rewrite Q2; [apply (iv_nd _ _ _ _ IS)|constructor].
  - intros k H. destruct (pr_part _ _ _ P k) as [(Q1 & Q2 & Q3)|Q]; [|contradiction].
    assert (H' : ~ noPartial d k) by (intros (Z1 & Z2 & Z3); apply H; split; [|split]; congruence).
    destruct (iv_cached _ _ _ _ IS k H') as (t & v & m & a & H1 & H2 & H3). exists t, v, m, a. split; [exact H1|]. split; [exact H2|].
    destruct (pr_cache _ _ _ P m (C' _ _ _ _ H1)) as [Z|(_ & Z & _)]; [congruence|]. rewrite H2 in Z. contradiction.
  - intros t v m a h H1 H2. exact (iv_time _ _ _ _ IS t v m a h H1 (CC m h (C' _ _ _ _ H1) H2)).
  - intros t v m a h H1 H2. exact (iv_mdt _ _ _ _ IS t v m a h H1 (CC m h (C' _ _ _ _ H1) H2)).
  - intros m h Cm H. exact (iv_from _ _ _ _ IS m h Cm (CC m h Cm H)).
  - apply (pr_nd1 _ _ _ P), (iv_n1 _ _ _ _ IS).
  - apply (pr_nd2 _ _ _ P), (iv_n2 _ _ _ _ IS).
Qed.

Lemma clean_sub : forall l x, clean (l ++ [x]) -> clean l.
Proof. intros l x C t v m a J. exact (C t v m a (in_snoc_l _ _ _ J)). Qed.
Lemma one_sub : forall l x, oneMessage (l ++ [x]) -> oneMessage l.
Proof. intros l x O t v m a t' v' m' a' J J'. exact (O t v m a t' v' m' a' (in_snoc_l _ _ _ J) (in_snoc_l _ _ _ J')). Qed.

Theorem inv_hist : forall l, clean l -> oneMessage l -> inv l (kruns env l (kdb0 t0)).
Proof.
  intros l. induction l as [|x l IH] using rev_ind; intros C One; [apply inv0|]. rewrite kruns_snoc.
  specialize (IH (clean_sub l x C) (one_sub l x One)). destruct x as [t v m a|now|tb]; cbn [kdo].
  - exact (inv_deliver l _ t v m a IH eq_refl C One).
  - exact (inv_prune l _ now IH (clean_sub _ _ C) (one_sub _ _ One)).
  - assert (IS : inv (l ++ [Config tb]) (kruns env l (kdb0 t0))).
    { apply inv_same; [exact IH|discriminate|exact (clean_sub _ _ C)|exact One]. }
    constructor.
    + apply (iv_sig _ _ _ _ IS).
    + apply (iv_nd _ _ _ _ IS).
    + apply (iv_cached _ _ _ _ IS).
    + apply (iv_time _ _ _ _ IS).
    + apply (iv_mdt _ _ _ _ IS).
    + apply (iv_from _ _ _ _ IS).
    + apply (iv_n1 _ _ _ _ IS).
    + apply (iv_n2 _ _ _ _ IS).
Qed.

(** ** Authenticity and timeliness *)
Theorem authentic : forall l now v m a, clean (l ++ [Deliver now v m a]) -> oneMessage (l ++ [Deliver now v m a]) -> oneKeyState (l ++ [Deliver now v m a]) ->
  admits env v now m a (kruns env l (kdb0 t0)) ->
  sealedBy v m a \/ signedAsSelf env m a \/ signedByKeys env (l ++ [Deliver now v m a]) v m.
Proof.
  intros l now v m a C One OneK H. pose proof (inv_hist l (clean_sub _ _ C) (one_sub _ _ One)) as I.
  set (d := kruns env l (kdb0 t0)) in *. unfold admits in H. destruct (kramit env v now m a d) as [d' o] eqn:K. cbn [snd] in H. subst o.
  pose proof (C now v m a (in_snoc_r _ _)) as Cm. fold (cleanM m) in Cm. set (L := l ++ [Deliver now v m a]) in *.
  assert (JL : In (Deliver now v m a) L) by (unfold L; apply in_snoc_r).
  apply kramit_spec in K. destruct K as [[_ K]|(mdt & Hdt & K)]; [congruence|].
  destruct K as [(h & k & vs & Hc & Hk & Hl & _ & _ & Hv & Hst & _ & Had & _)|(cc & k & ty & xdt & Hc & Hf & Hk & Ety & Hw & Hx & Hxw & K)].
  - destruct (Had eq_refl) as [_ Sat]. right. right. exists k, (sigsAt d (pkey m) ++ newSigs m vs d). split; [exact Hk|]. split.
    + apply NoDup_app2.
      * apply (iv_nd _ _ _ _ I).
      * unfold newSigs. apply NoDup_filter. destruct (verify_spec env k m a vs Hv) as [[-> _]|(_ & Q & _)]; [constructor|exact Q].
      * intros s J1 J2. unfold newSigs in J2. apply filter_In in J2. destruct J2 as [_ J2]. apply negb_true_iff in J2.
        rewrite <- Bool.not_true_iff_false in J2. apply J2. apply existsb_exists. exists (sg_index s). split; [apply in_map; exact J1|apply N.eqb_refl].
    + split.
      * intros s J. apply in_app_or in J. destruct J as [J|J].
        -- destruct (iv_sig _ _ _ _ I _ _ J) as (t1 & v1 & m1 & a1 & ks & J1 & J2 & J3 & J4 & J5 & J6).
           assert (J1' : In (Deliver t1 v1 m1 a1) L) by (unfold L; apply in_snoc_l; exact J1).
           destruct (pkey_id m1 m (C _ _ _ _ J1') Cm J2) as [S1 S2].
           assert (m1 = m) by (exact (One t1 v1 m1 a1 now v m a J1' JL S1 S2)). subst m1.
           pose proof (Hst _ J6) as Q. injection Q as Q1 Q2.
           assert (ks = k) by (exact (OneK t1 v1 m a1 now v m a ks k J1' JL eq_refl J3 Hk Q1 Q2)). subst ks.
           split; [exact J4|]. exists t1, v1, a1. split; [exact J1'|]. split; [exact J3|exact J5].
        -- unfold newSigs in J. apply filter_In in J. destruct J as [J _].
           destruct (verify_spec env k m a vs Hv) as [[Q _]|(_ & _ & Q)]; [subst vs; destruct J|]. destruct (Q s J) as [Q1 Q2].
           split; [exact Q1|]. exists now, v, a. split; [exact JL|]. split; [exact Hk|exact Q2].
      * rewrite Hl. exact Sat.
  - cbv zeta in K. destruct K as [(_ & _ & [K|(_ & vs & Hv & Hs)])|(K & _)]; [left; exact K| |discriminate].
    right. destruct (verify_spec env k m a vs Hv) as [[_ Q]|(Q0 & Q1 & Q2)]; [left; exact Q|right].
    exists k, vs. split; [exact Hk|]. split; [exact Q1|]. split.
    + intros s J. destruct (Q2 s J) as [G1 G2]. split; [exact G1|]. exists now, v, a. split; [exact JL|]. split; [exact Hk|exact G2].
    + destruct (len (kv_keys k) =? 1); assumption.
Qed.

Theorem timely : forall l now v m a, clean (l ++ [Deliver now v m a]) -> oneMessage (l ++ [Deliver now v m a]) ->
  admits env v now m a (kruns env l (kdb0 t0)) -> timelyIn env t0 (l ++ [Deliver now v m a]) m.
Proof.
  intros l now v m a C One H. pose proof (inv_hist l (clean_sub _ _ C) (one_sub _ _ One)) as I.
  set (d := kruns env l (kdb0 t0)) in *. unfold admits in H. destruct (kramit env v now m a d) as [d' o] eqn:K. cbn [snd] in H. subst o.
  apply kramit_spec in K. destruct K as [[_ K]|(mdt & Hdt & K)]; [congruence|].
  destruct K as [(h & k & vs & Hc & _)|(cc & k & ty & xdt & Hc & Hf & Hk & Ety & Hw & _)].
  - destruct (cached_one l d now v m a h I C One Hc) as (t' & v' & a' & J). apply timely_more. exact (iv_time _ _ _ _ I t' v' m a' h J Hc).
  - exists l, [], now, v, a, cc, mdt, (lagOf ty cc). split; [reflexivity|]. split; [exact Hdt|]. split; [exact Hf|]. split; [exact Hw|]. destruct ty; auto.
Qed.
End H.

Lemma admit_has : forall env v now m a d d', kramit env v now m a d = (d', Admit) -> hasSeals (m_pre m) a = true \/ hasSigs (m_pre m) a = true.
Proof.
  intros env v now m a d d' H. unfold kramit in H. destruct (m_dt m); [|discriminate]. destruct (hasSeals (m_pre m) a); [left; reflexivity|].
  destruct (hasSigs (m_pre m) a); [right; reflexivity|]. discriminate.
Qed.

(** a message of a sender with one key, or carrying no signature, is in time when admitted *)
Theorem timely_now : forall env v now m a d, admits env v now m a d ->
  (forall k, kev v (m_pre m) = Some k -> len (kv_keys k) = 1) \/ hasSigs (m_pre m) a = false ->
  exists c mdt, m_dt m = Some mdt /\ fetchCacheType d (m_ilk m) (m_route m) = Some c /\ inWindow (c_d c) (c_sl c) mdt now.
Proof.
  intros env v now m a d H S. unfold admits in H. destruct (kramit env v now m a d) as [d' o] eqn:K. cbn [snd] in H. subst o. pose proof (admit_has _ _ _ _ _ _ _ K) as HH.
  apply kramit_spec in K. destruct K as [[_ K]|(mdt & Hdt & K)]; [congruence|].
  destruct K as [(h & k & vs & Hc & Hk & Hl & HS & _)|(cc & k & ty & xdt & Hc & Hf & Hk & Ety & Hw & _)].
  - exfalso. destruct S as [S|S]; [|congruence]. rewrite (S k Hk) in Hl. discriminate.
  - exists cc, mdt. split; [exact Hdt|]. split; [exact Hf|]. assert (E : lagOf ty cc = c_sl cc); [|rewrite <- E; exact Hw].
    subst ty. unfold resolveAuthType, bySigs. destruct S as [S|S].
    + rewrite (S k Hk). cbn [N.eqb Pos.eqb]. destruct (hasSeals (m_pre m) a); [destruct (hasSigs (m_pre m) a); [destruct (validateSenderSeal v m a) as [[|]|]|]|]; reflexivity.
    + destruct (hasSeals (m_pre m) a) eqn:E1; [rewrite S; reflexivity|]. exfalso. destruct HH; congruence.
Qed.

(** ** No second admission *)
Section Once.
Variable env : kenv.
Variable t0 : list (bytes * ctyp).

Definition settled (m : kmsg) (c : ctyp) (mdt xdt t : N) (d : kdb) : Prop :=
  fetchCacheType d (m_ilk m) (m_route m) = Some c /\ dget (pmkm d) (pkey m) = None /\
  ((exists h, cacheOf m d = Some h /\ h_mdt h = mdt /\ h_xdt h = xdt /\ h_d h = c_d c /\ (exchangeId m = None -> c_ll c <= h_pml h) /\ h_pxl h = c_pxl c)
   \/ (cacheOf m d = None /\ mdt + (c_d c + c_ll c) * 1000 < t)).

(** the cache keeps its entry until the message is too old for any authentication *)
Definition keptLongEnough (m : kmsg) (c : ctyp) (mdt xdt t : N) : Prop :=
  match exchangeId m with
  | None => mdt <= t + c_d c * 1000
  | Some _ => xdt <= t /\ mdt + (c_d c + c_ll c) * 1000 <= xdt + c_pxl c * 1000
  end.

Lemma settled_deliver : forall m c mdt xdt t d t' v a, m_dt m = Some mdt -> settled m c mdt xdt t d -> c_sl c <= c_ll c -> t <= t' ->
  fst (kramit env v t' m a d) = d /\ ~ admits env v t' m a d.
Proof.
  intros m cc mdt xdt t d t' v a Hm (Hf & Hp & Hs) Hll Ht. unfold admits. destruct (kramit env v t' m a d) as [d' o] eqn:K. cbn [fst snd].
  apply kramit_spec in K. destruct K as [K|(mdt' & Hdt & K)]; [exact K|]. rewrite Hm in Hdt. injection Hdt as <-.
  destruct K as [(h & k & vs & Hc & _ & _ & _ & Hn & _)|(c' & k & ty & xd & Hc & Hf' & _ & _ & Hw & _)].
  - exfalso. destruct Hs as [(h' & Hc' & E & _)|[Hc' _]]; [|congruence]. rewrite Hc in Hc'. injection Hc' as <-. destruct Hn as [Hn|Hn]; [congruence|]. rewrite E in Hn. lia.
  - exfalso. destruct Hs as [(h' & Hc' & _)|[_ L]]; [congruence|]. rewrite Hf in Hf'. injection Hf' as <-. destruct Hw as [W _].
    assert (lagOf ty cc <= c_ll cc) by (destruct ty; cbn [lagOf]; lia). clear - H W L Ht. nia.
Qed.

Lemma fetch_ctyp : forall d d' i r, kctyp d' = kctyp d -> fetchCacheType d' i r = fetchCacheType d i r.
Proof. intros d d' i r E. unfold fetchCacheType. rewrite E. reflexivity. Qed.

Lemma deliver_ctyp : forall v t m a d, kctyp (fst (kramit env v t m a d)) = kctyp d.
Proof.
  intros v t m a d. destruct (kramit env v t m a d) as [d' o] eqn:K. cbn [fst]. apply kramit_spec in K.
  destruct K as [[-> _]|(mdt & _ & K)]; [reflexivity|]. destruct K as [(h & k & vs & K)|(cc & k & ty & xd & K)].
  - destruct K as (_ & _ & _ & _ & _ & _ & _ & -> & _). unfold addPartial. destruct (newSigs m vs d); reflexivity.
  - destruct K as (_ & _ & _ & _ & _ & _ & _ & K). cbv zeta in K. destruct K as [(-> & _)|(_ & _ & vs & _ & ->)]; [|unfold setPending; cbn [kctyp]]; apply pin_frame.
Qed.

Lemma deliver_other : forall v t m m' a d, cleanM m -> cleanM m' -> ~ sameId m m' ->
  cacheOf m' (fst (kramit env v t m a d)) = cacheOf m' d /\ dget (pmkm (fst (kramit env v t m a d))) (pkey m') = dget (pmkm d) (pkey m').
Proof.
  intros v t m m' a d C C' S. assert (NE : beq (pkey m') (pkey m) = false).
  { apply beq_neq. intros E. apply S. apply pkey_id; [exact C|exact C'|]. symmetry. exact E. }
  destruct (kramit env v t m a d) as [d' o] eqn:K. cbn [fst]. apply kramit_spec in K.
  destruct K as [[-> _]|(mdt & _ & K)]; [split; reflexivity|]. destruct K as [(h & k & vs & K)|(cc & k & ty & xd & K)].
  - destruct K as (_ & _ & _ & _ & _ & _ & _ & -> & _). rewrite cache_partial. split; [reflexivity|]. unfold addPartial. destruct (newSigs m vs d); [reflexivity|].
    cbn [pmkm]. rewrite dget_dput, NE. destruct (dget (pmkm d) (pkey m')); reflexivity.
  - destruct K as (_ & _ & _ & _ & _ & _ & _ & K). cbv zeta in K.
    set (h := mkH mdt xd (c_d cc) (lagOf ty cc) (plagOf ty cc) (c_xl cc) (c_pxl cc)) in K. destruct (pin_frame m h d) as (_ & F2 & _ & _).
    destruct K as [(-> & _)|(_ & _ & vs & _ & ->)].
    + rewrite cache_pin_other by assumption. rewrite F2. split; reflexivity.
    + rewrite cache_pending, cache_pin_other by assumption. split; [reflexivity|]. unfold setPending. cbn [pmkm]. rewrite F2, dget_dput, NE. destruct (dget (pmkm d) (pkey m')); reflexivity.
Qed.

Lemma settled_runs : forall l m c mdt xdt t d, m_dt m = Some mdt -> settled m c mdt xdt t d -> c_sl c <= c_ll c -> keptLongEnough m c mdt xdt t ->
  NoDup (keysOf (msgc d)) -> NoDup (keysOf (tmsc d)) -> cleanM m ->
  (forall t v m' a, In (Deliver t v m' a) l -> cleanM m' /\ (sameId m' m -> m' = m)) ->
  clockFrom t l -> noConfig l ->
  exists t', t <= t' /\ settled m c mdt xdt t' (kruns env l d) /\ (forall x, clockFrom t (l ++ [x]) -> clockFrom t' [x]).
Proof.
  intros l m cc mdt xdt. induction l as [|x l IH]; intros t d Hm Hs Hll Hk N1 N2 C CL CF NC.
  { exists t. split; [lia|]. split; [exact Hs|]. intros x H. exact H. }
  assert (CL' : forall t v m' a, In (Deliver t v m' a) l -> cleanM m' /\ (sameId m' m -> m' = m)) by (intros t1 v1 m1 a1 J; apply (CL t1 v1 m1 a1); right; exact J).
  assert (NC' : noConfig l) by (intros tb J; apply (NC tb); right; exact J).
  assert (KL : forall t', t <= t' -> keptLongEnough m cc mdt xdt t').
  { intros t' Ht'. unfold keptLongEnough in *. destruct (exchangeId m); lia. }
  assert (MON : forall t', t <= t' -> settled m cc mdt xdt t' d).
  { intros t' Ht'. destruct Hs as (S1 & S2 & [S3|[S3 S4]]); (split; [exact S1|split; [exact S2|]]); [left; exact S3|right; split; [exact S3|lia]]. }
  destruct x as [t1 v1 m1 a1|t1|tb]; cbn [clockFrom actTime] in CF.
  - destruct CF as [CF1 CF2]. destruct (CL t1 v1 m1 a1 (or_introl eq_refl)) as [C1 CE].
    change (kruns env (Deliver t1 v1 m1 a1 :: l) d) with (kruns env l (fst (kramit env v1 t1 m1 a1 d))).
    assert (Hs' : settled m cc mdt xdt t1 (fst (kramit env v1 t1 m1 a1 d))).
    { destruct (kmsg_dec m1 m) as [->|Ne].
      - destruct (settled_deliver m cc mdt xdt t d t1 v1 a1 Hm Hs Hll CF1) as [-> _]. apply MON. exact CF1.
      - assert (NS : ~ sameId m1 m) by (intros S; apply Ne; apply CE; exact S).
        destruct (deliver_other v1 t1 m1 m a1 d C1 C NS) as [E1 E2]. destruct (MON t1 CF1) as (S1 & S2 & S3).
        split; [rewrite (fetch_ctyp d); [exact S1|apply deliver_ctyp]|]. split; [congruence|]. rewrite E1. exact S3. }
    assert (ND : NoDup (keysOf (msgc (fst (kramit env v1 t1 m1 a1 d)))) /\ NoDup (keysOf (tmsc (fst (kramit env v1 t1 m1 a1 d))))).
    { destruct (kramit env v1 t1 m1 a1 d) as [d' o] eqn:K. cbn [fst]. apply kramit_spec in K.
      destruct K as [[-> _]|(mdt1 & _ & K)]; [split; assumption|]. destruct K as [(h & k & vs & K)|(c1 & k & ty & xd & K)].
      - destruct K as (_ & _ & _ & _ & _ & _ & _ & -> & _). unfold addPartial. destruct (newSigs m1 vs d); split; assumption.
      - destruct K as (_ & _ & _ & _ & _ & _ & _ & K). cbv zeta in K. destruct K as [(-> & _)|(_ & _ & vs & _ & ->)]; [|unfold setPending; cbn [msgc tmsc]]; apply pin_nd; assumption. }
    destruct ND as [ND1 ND2]. destruct (IH t1 _ Hm Hs' Hll (KL t1 CF1) ND1 ND2 C CL' CF2 NC') as (t' & T1 & T2 & T3). exists t'. split; [lia|]. split; [exact T2|].
    intros x H. apply T3. cbn [app clockFrom actTime] in H. apply H.
  - destruct CF as [CF1 CF2]. change (kruns env (Prune t1 :: l) d) with (kruns env l (fst (prune t1 d))).
    pose proof (prune_ok t1 d N1 N2) as P. set (d1 := fst (prune t1 d)) in *.
    assert (Hs' : settled m cc mdt xdt t1 d1).
    { destruct (MON t1 CF1) as (S1 & S2 & S3). split; [rewrite (fetch_ctyp d); [exact S1|apply (pr_ctyp _ _ _ P)]|]. split.
      - destruct (pr_part _ _ _ P (pkey m)) as [(Q & _)|(Q & _)]; congruence.
      - destruct (pr_cache _ _ _ P m C) as [Q|(Q & _ & h & Q1 & Q2)]; [rewrite Q; exact S3|]. right. split; [exact Q|].
        destruct S3 as [(h' & R1 & R2 & R3 & R4 & R5 & R6)|[R1 R2]]; [|congruence]. rewrite Q1 in R1. injection R1 as <-.
        pose proof (KL t1 CF1) as KK. clear - Q2 R2 R3 R4 R5 R6 KK. unfold expired, keptLongEnough in *. rewrite R2, R3, R4, R6 in Q2.
        destruct (exchangeId m).
        + destruct KK as [K1 K2]. assert (A : ~ t1 / 1000 <= xdt / 1000 + c_pxl cc) by (intros A; apply Q2; split; [apply N.div_le_mono; lia|exact A]). clear - A K2. lia.
        + specialize (R5 eq_refl). assert (A : ~ t1 / 1000 <= mdt / 1000 + c_d cc + h_pml h) by (intros A; apply Q2; split; [exact A|clear - KK; lia]). clear - A R5. lia. }
    destruct (IH t1 _ Hm Hs' Hll (KL t1 CF1) (pr_nd1 _ _ _ P N1) (pr_nd2 _ _ _ P N2) C CL' CF2 NC') as (t' & T1 & T2 & T3). exists t'. split; [lia|]. split; [exact T2|].
    intros x H. apply T3. cbn [app clockFrom actTime] in H. apply H.
  - exfalso. apply (NC tb). left. reflexivity.
Qed.

Theorem once : forall l1 l2 t1 v1 m a1 t2 v2 a2 mdt c,
  clean (l1 ++ Deliver t1 v1 m a1 :: l2) -> oneMessage (l1 ++ Deliver t1 v1 m a1 :: l2) ->
  neverDelivered m l1 -> m_dt m = Some mdt ->
  fetchCacheType (kruns env l1 (kdb0 t0)) (m_ilk m) (m_route m) = Some c -> ctypOk c = true ->
  match exchangeId m with
  | None => c_ll c <= c_psl c
  | Some _ => mdt <= t1 /\ c_d c + c_ll c + (if beq (m_ilk m) ilkXip then 0 else c_xl c) <= c_pxl c
  end ->
  noConfig l2 -> clockFrom t1 (l2 ++ [Deliver t2 v2 m a2]) ->
  admits env v1 t1 m a1 (kruns env l1 (kdb0 t0)) ->
  ~ admits env v2 t2 m a2 (kruns env (l1 ++ Deliver t1 v1 m a1 :: l2) (kdb0 t0)).
Proof.
  intros l1 l2 t1 v1 m a1 t2 v2 a2 mdt cc C One ND Hm Hf Hok Hex NC CF Ad.
  assert (C1 : clean l1) by (intros t v m' a J; apply (C t v m' a), in_or_app; left; exact J).
  assert (One1 : oneMessage l1) by (intros t v m' a t' v' m'' a' J J'; apply (One t v m' a t' v' m'' a'); apply in_or_app; left; assumption).
  pose proof (inv_hist env t0 l1 C1 One1) as I. set (d := kruns env l1 (kdb0 t0)) in *.
  assert (JM : In (Deliver t1 v1 m a1) (l1 ++ Deliver t1 v1 m a1 :: l2)) by (apply in_or_app; right; left; reflexivity).
  pose proof (C _ _ _ _ JM) as Cm. fold (cleanM m) in Cm.
  assert (Hc : cacheOf m d = None).
  { destruct (cacheOf m d) as [h|] eqn:E; [|reflexivity]. exfalso. destruct (iv_from _ _ _ _ I m h Cm E) as (t & v & m' & a & J & S1 & S2).
    assert (m' = m) by (apply (One t v m' a t1 v1 m a1); [apply in_or_app; left; exact J|exact JM|exact S1|exact S2]). subst m'. exact (ND _ J eq_refl). }
  assert (C1' : clean (l1 ++ [Deliver t1 v1 m a1])) by (intros t v m' a J; apply in_snoc in J; destruct J as [J|J]; [exact (C1 t v m' a J)|injection J as -> -> -> ->; exact Cm]).
  assert (One1' : oneMessage (l1 ++ [Deliver t1 v1 m a1])).
  { assert (SUB : forall x, In x (l1 ++ [Deliver t1 v1 m a1]) -> In x (l1 ++ Deliver t1 v1 m a1 :: l2)).
    { intros x J. apply in_snoc in J. destruct J as [J| ->]; [apply in_or_app; left; exact J|exact JM]. }
    intros t v m' a t' v' m'' a' J J'. apply (One t v m' a t' v' m'' a'); apply SUB; assumption. }
  pose proof (no_cache_no_partial env t0 l1 d t1 v1 m a1 I C1' One1' Hc) as (P1 & P2 & P3).
  unfold kruns. rewrite fold_left_app. cbn [fold_left]. fold (kruns env l1 (kdb0 t0)). fold d.
  change (fold_left (fun d x => kdo env x d) l2 (kdo env (Deliver t1 v1 m a1) d)) with (kruns env l2 (fst (kramit env v1 t1 m a1 d))).
  unfold admits in Ad. destruct (kramit env v1 t1 m a1 d) as [d1 o] eqn:K. cbn [snd] in Ad. subst o. cbn [fst].
  pose proof (deliver_ctyp v1 t1 m a1 d) as KC. rewrite K in KC. cbn [fst] in KC.
  apply kramit_spec in K. destruct K as [[_ K]|(mdt' & Hdt & K)]; [congruence|]. rewrite Hm in Hdt. injection Hdt as <-.
  destruct K as [(h & k & vs & Hc' & _)|(c' & k & ty & xdt & _ & Hf' & Hk & Ety & Hw & Hx & Hxw & K)]; [congruence|].
  rewrite Hf in Hf'. injection Hf' as <-. cbv zeta in K. set (h := mkH mdt xdt (c_d cc) (lagOf ty cc) (plagOf ty cc) (c_xl cc) (c_pxl cc)) in K.
  destruct K as [(-> & _)|(K & _)]; [|discriminate]. destruct (pin_frame m h d) as (F1 & F2 & F3 & F4).
  unfold ctypOk in Hok. apply andb_prop in Hok. destruct Hok as [Hok Q1]. apply andb_prop in Hok. destruct Hok as [Hok Q2]. apply andb_prop in Hok. destruct Hok as [Hok Q3].
  apply andb_prop in Hok. destruct Hok as [Hok Q4]. apply andb_prop in Hok. destruct Hok as [Hok Q5]. apply N.leb_le in Q1, Q2, Q3, Q4, Q5.
  assert (Hs : settled m cc mdt xdt t1 (pinOf m h d)).
  { split; [rewrite (fetch_ctyp d); [exact Hf|exact F1]|]. split; [rewrite F2; exact P1|]. left. exists h. split; [apply cache_pin_same|]. split; [reflexivity|]. split; [reflexivity|]. split; [reflexivity|]. split; [|reflexivity].
    intros X. rewrite X in Hex. cbn [h h_pml]. destruct ty; cbn [plagOf]; assumption. }
  assert (KL : keptLongEnough m cc mdt xdt t1).
  { unfold keptLongEnough. destruct (exchangeId m) as [x|] eqn:X; [|destruct Hw; assumption]. destruct Hex as [X1 X2]. destruct (Hxw ltac:(discriminate)) as [X3 X4].
    split; [lia|]. unfold startOf in Hx. rewrite X in Hx. destruct (beq (m_ilk m) ilkXip); [injection Hx as <-|]; lia. }
  destruct (pin_nd m h d (iv_n1 _ _ _ _ I) (iv_n2 _ _ _ _ I)) as [N1 N2].
  assert (CF' : clockFrom t1 l2).
  { clear - CF. revert t1 CF. induction l2 as [|x l IH]; intros t CF; [exact Logic.I|]. cbn [app clockFrom] in *. destruct (actTime x); [destruct CF as [A B]; split; [exact A|apply IH; exact B]|apply IH; exact CF]. }
  destruct (settled_runs l2 m cc mdt xdt t1 _ Hm Hs Q5 KL N1 N2 Cm) as (t' & T1 & T2 & T3).
  - intros t v m' a J. assert (J' : In (Deliver t v m' a) (l1 ++ Deliver t1 v1 m a1 :: l2)) by (apply in_or_app; right; right; exact J).
    split; [exact (C _ _ _ _ J')|]. intros [S1 S2]. exact (One t v m' a t1 v1 m a1 J' JM S1 S2).
  - exact CF'.
  - exact NC.
  - specialize (T3 _ CF). cbn [clockFrom actTime] in T3. destruct T3 as [T3 _].
    exact (proj2 (settled_deliver m cc mdt xdt t' _ t2 v2 a2 Hm T2 Q5 T3)).
Qed.
End Once.
