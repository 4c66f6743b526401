(** Proofs about adjudications: the verdict, and where records come from. *)
From Coq Require Import Lia.
From Verif Require Import Prelude SubsModel ThModel ThProofs SerProofs JsonModel JsonProofs RpModel RpSpec RpProofs RpFair RpLive WaModel WaSpec WaProofs.
Ltac Zify.zify_post_hook ::= Z.div_mod_to_equations.
Open Scope N_scope.

Lemma age_cases n dg k :
  (age n dg k = Even /\ ks_s k = n /\ ks_d k = dg) \/ (age n dg k = Duplicitous /\ ks_s k = n /\ ks_d k <> dg) \/
  (age n dg k = Behind /\ ks_s k < n) \/ (age n dg k = Ahead /\ n < ks_s k).
Proof.
  unfold age. destruct (n =? ks_s k) eqn:A; [apply N.eqb_eq in A; destruct (beq dg (ks_d k)) eqn:B; [apply beq_eq in B|apply beq_neq in B]|apply N.eqb_neq in A; destruct (ks_s k <? n) eqn:B].
  - left. auto.
  - right. left. split; [reflexivity|]. split; congruence.
  - right. right. left. split; [reflexivity|]. lia.
  - right. right. right. split; [reflexivity|]. lia.
Qed.

Section Verdict.
Context (dec : bytes -> ksr) (pick : list dstate -> nat) (d : rdb) (cid oid : bytes) (n : N) (dg : bytes).
Context (ws : list bytes) (ND : NoDup ws) (IW : forall a, In a ws <-> watches d cid a oid).
Context (l : list dstate) (SO : statesOf dec d oid n dg ws = Ok l).

Lemma one_of s : In s l -> exists k, voice dec d cid oid (ds_wit s) k /\ s = mkDs (ds_wit s) (age n dg k) (ks_s k) (ks_d k).
Proof. intros I. destruct (statesOf_ok _ _ _ _ _ _ _ SO) as (A & _). destruct (A s I) as (k & A1 & A2 & A3 & _). exists k. split; [split; [apply IW; exact A1|exact A2]|exact A3]. Qed.
Lemma all_in a k : voice dec d cid oid a k -> In (mkDs a (age n dg k) (ks_s k) (ks_d k)) l.
Proof. intros (A1 & A2). destruct (statesOf_ok _ _ _ _ _ _ _ SO) as (_ & B & _). apply B; [apply IW; exact A1|exact A2]. Qed.
Lemma tells_dup : tells dec d cid oid (forks dec d cid oid n dg) (filter is_dup l).
Proof.
  split.
  - intros s I. apply filter_In in I. destruct I as [I1 I2]. destruct (one_of s I1) as (k & V & Q). exists k. rewrite Q in I2 |- *. unfold is_dup in I2. cbn [ds_state ds_wit ds_sn ds_dig] in *.
    destruct (age_cases n dg k) as [(G & _)|[(G & G1 & G2)|[(G & _)|(G & _)]]]; rewrite G in I2; try discriminate. unfold forks. auto.
  - intros a k (V & G1 & G2). exists (mkDs a (age n dg k) (ks_s k) (ks_d k)). split; [|auto]. apply filter_In. split; [exact (all_in _ _ V)|].
    unfold is_dup. cbn [ds_state]. destruct (age_cases n dg k) as [(G & X)|[(G & X)|[(G & X)|(G & X)]]]; rewrite G; try reflexivity; exfalso; [tauto|lia|lia].
Qed.
Lemma tells_ahd : tells dec d cid oid (leads dec d cid oid n) (filter is_ahd l).
Proof.
  split.
  - intros s I. apply filter_In in I. destruct I as [I1 I2]. destruct (one_of s I1) as (k & V & Q). exists k. rewrite Q in I2 |- *. unfold is_ahd in I2. cbn [ds_state ds_wit ds_sn ds_dig] in *.
    destruct (age_cases n dg k) as [(G & _)|[(G & _)|[(G & _)|(G & G1)]]]; rewrite G in I2; try discriminate. unfold leads. auto.
  - intros a k (V & G1). exists (mkDs a (age n dg k) (ks_s k) (ks_d k)). split; [|auto]. apply filter_In. split; [exact (all_in _ _ V)|].
    unfold is_ahd. cbn [ds_state]. destruct (age_cases n dg k) as [(G & X)|[(G & X)|[(G & X)|(G & X)]]]; rewrite G; try reflexivity; exfalso; lia.
Qed.
Lemma tells_bhd : tells dec d cid oid (lags dec d cid oid n) (filter is_bhd l).
Proof.
  split.
  - intros s I. apply filter_In in I. destruct I as [I1 I2]. destruct (one_of s I1) as (k & V & Q). exists k. rewrite Q in I2 |- *. unfold is_bhd in I2. cbn [ds_state ds_wit ds_sn ds_dig] in *.
    destruct (age_cases n dg k) as [(G & _)|[(G & _)|[(G & G1)|(G & _)]]]; rewrite G in I2; try discriminate. unfold lags. auto.
  - intros a k (V & G1). exists (mkDs a (age n dg k) (ks_s k) (ks_d k)). split; [|auto]. apply filter_In. split; [exact (all_in _ _ V)|].
    unfold is_bhd. cbn [ds_state]. destruct (age_cases n dg k) as [(G & X)|[(G & X)|[(G & X)|(G & X)]]]; rewrite G; try reflexivity; exfalso; lia.
Qed.
Lemma tells_all : tells dec d cid oid (voice dec d cid oid) l.
Proof.
  split.
  - intros s I. destruct (one_of s I) as (k & V & Q). exists k. rewrite Q. auto.
  - intros a k V. exists (mkDs a (age n dg k) (ks_s k) (ks_d k)). split; [exact (all_in _ _ V)|auto].
Qed.
Lemma tells_nil P : tells dec d cid oid P [] -> forall a k, ~ P a k.
Proof. intros (_ & B) a k H. destruct (B a k H) as (s & [] & _). Qed.
Lemma tells_cons P s r : tells dec d cid oid P (s :: r) -> exists k, P (ds_wit s) k /\ ds_sn s = ks_s k /\ ds_dig s = ks_d k.
Proof. intros (A & _). apply A. left. reflexivity. Qed.
Lemma ahd_wits : NoDup (map ds_wit (filter is_ahd l)) /\ forall a, In a (map ds_wit (filter is_ahd l)) <-> exists k, leads dec d cid oid n a k.
Proof.
  split.
  - destruct (statesOf_ok _ _ _ _ _ _ _ SO) as (_ & _ & C). specialize (C ND). clear - C. induction l as [|s r IH]; cbn [filter map]; [constructor|]. cbn [map] in C. inversion C; subst.
    destruct (is_ahd s); [|auto]. cbn [map]. constructor; [|auto]. intros I. apply H1. apply in_map_iff in I. destruct I as (x & Q & I). apply filter_In in I. apply in_map_iff. exists x. tauto.
  - intros a. destruct tells_ahd as (A & B). rewrite in_map_iff. split.
    + intros (s & <- & I). destruct (A s I) as (k & L & _). eauto.
    + intros (k & L). destruct (B a k L) as (s & I & Q & _). eauto.
Qed.
Lemma enough_ok toad : enough dec d cid oid n toad <-> threshold_of toad (len ws) <= len (filter is_ahd l).
Proof.
  destruct ahd_wits as (N1 & W1). assert (LQ : len (filter is_ahd l) = len (map ds_wit (filter is_ahd l))) by (unfold len; rewrite map_length; reflexivity). rewrite LQ.
  assert (ALL : (forall a, watches d cid a oid -> exists k, leads dec d cid oid n a k) <-> len ws <= len (map ds_wit (filter is_ahd l))).
  { split.
    - intros H. assert (LE : (List.length ws <= List.length (map ds_wit (filter is_ahd l)))%nat) by (apply NoDup_incl_length; [exact ND|]; intros a I; apply W1, H, IW; exact I). unfold len. lia.
    - intros LE a WA. apply IW in WA. apply W1. assert (II : incl ws (map ds_wit (filter is_ahd l))).
      { apply NoDup_length_incl; [exact N1|unfold len in LE; lia|]. intros b I. apply W1 in I. destruct I as (k & (V & _) & _). apply IW. exact V. }
      apply II. exact WA. }
  unfold enough, threshold_of. destruct toad as [[|t]|]; [exact ALL| |exact ALL]. replace (N.pos t =? 0) with false by reflexivity. split.
  - intros (W & NW & FW & LE). rewrite Forall_forall in FW. assert (LL : (List.length W <= List.length (map ds_wit (filter is_ahd l)))%nat) by (apply NoDup_incl_length; [exact NW|]; intros a I; apply W1, FW; exact I).
    unfold len in *. lia.
  - intros LE. exists (map ds_wit (filter is_ahd l)). split; [exact N1|]. split; [apply Forall_forall; intros a I; apply W1; exact I|exact LE].
Qed.
Lemma digs_ok a r : filter is_ahd l = a :: r -> existsb (fun s => negb (beq (ds_dig s) (ds_dig a))) (filter is_ahd l) = false <-> agreed dec d cid oid n.
Proof.
  intros F. destruct tells_ahd as (A & B). assert (IA : In a (filter is_ahd l)) by (rewrite F; left; reflexivity). split.
  - intros X. assert (Y : forall s, In s (filter is_ahd l) -> ds_dig s = ds_dig a).
    { intros s I. destruct (beq (ds_dig s) (ds_dig a)) eqn:Q; [apply beq_eq; exact Q|]. assert (Z : existsb (fun s => negb (beq (ds_dig s) (ds_dig a))) (filter is_ahd l) = true) by (apply existsb_exists; exists s; rewrite Q; auto). congruence. }
    intros x y k k' L1 L2. destruct (B _ _ L1) as (s & I & _ & _ & Q). destruct (B _ _ L2) as (s' & I' & _ & _ & Q'). rewrite <- Q, <- Q', (Y _ I), (Y _ I'). reflexivity.
  - intros AG. destruct (existsb _ _) eqn:X; [|reflexivity]. apply existsb_exists in X. destruct X as (s & I & X). apply negb_true_iff in X. apply beq_neq in X.
    destruct (A _ I) as (k & L1 & _ & Q). destruct (A _ IA) as (k' & L2 & _ & Q'). elim X. rewrite Q, Q'. exact (AG _ _ _ _ L1 L2).
Qed.

(** what each outcome of the judgement means *)
Inductive verdict (toad : option N) : option wcue -> Prop :=
| v_fork l1 : tells dec d cid oid (forks dec d cid oid n dg) l1 -> (exists a k, forks dec d cid oid n dg a k) -> verdict toad (Some (Dup ws l1))
| v_split l1 : no_fork dec d cid oid n dg -> tells dec d cid oid (leads dec d cid oid n) l1 -> (exists a b k k', leads dec d cid oid n a k /\ leads dec d cid oid n b k' /\ ks_d k <> ks_d k') -> verdict toad (Some (Dup ws l1))
| v_update l1 sn : no_fork dec d cid oid n dg -> tells dec d cid oid (leads dec d cid oid n) l1 -> (exists a k, leads dec d cid oid n a k /\ sn = ks_s k) -> agreed dec d cid oid n -> enough dec d cid oid n toad -> verdict toad (Some (Update ws sn l1))
| v_none : no_fork dec d cid oid n dg -> (exists a k, leads dec d cid oid n a k) -> agreed dec d cid oid n -> ~ enough dec d cid oid n toad -> verdict toad None
| v_lag l1 : no_fork dec d cid oid n dg -> no_lead dec d cid oid n -> tells dec d cid oid (lags dec d cid oid n) l1 -> (exists a k, lags dec d cid oid n a k) -> verdict toad (Some (Lagging ws l1))
| v_even l1 : (forall a k, voice dec d cid oid a k -> ks_s k = n /\ ks_d k = dg) -> tells dec d cid oid (voice dec d cid oid) l1 -> verdict toad (Some (Consistent ws l1)).
Lemma judge_verdict toad : verdict toad (judge pick ws (threshold_of toad (len ws)) l).
Proof.
  unfold judge. pose proof tells_dup as TD. pose proof tells_ahd as TA. pose proof tells_bhd as TB. destruct (filter is_dup l) as [|s1 r1] eqn:F1.
  - pose proof (tells_nil _ TD) as NF. destruct (filter is_ahd l) as [|s2 r2] eqn:F2.
    + pose proof (tells_nil _ TA) as NL. destruct (filter is_bhd l) as [|s3 r3] eqn:F3.
      * pose proof (tells_nil _ TB) as NB. apply v_even; [|exact tells_all]. intros a k V. destruct (age_cases n dg k) as [(_ & X)|[(_ & X)|[(_ & X)|(_ & X)]]]; [exact X| | |]; exfalso.
        -- apply (NF a k). split; assumption.
        -- apply (NB a k). split; assumption.
        -- apply (NL a k). split; assumption.
      * apply v_lag; auto. destruct (tells_cons _ _ _ TB) as (k & X & _). eauto.
    + rewrite <- F2 in *. destruct (tells_cons _ _ _ (eq_ind _ (fun z => tells _ _ _ _ _ z) TA _ F2)) as (k0 & X0 & Q0 & _). destruct (existsb (fun s => negb (beq (ds_dig s) (ds_dig s2))) (filter is_ahd l)) eqn:X.
      * apply v_split; auto. apply existsb_exists in X. destruct X as (s & I & X). apply negb_true_iff in X. apply beq_neq in X. destruct TA as (TA & _).
        destruct (TA _ I) as (k & L1 & _ & Q). assert (IA : In s2 (filter is_ahd l)) by (rewrite F2; left; reflexivity). destruct (TA _ IA) as (k' & L2 & _ & Q'). exists (ds_wit s), (ds_wit s2), k, k'. split; [exact L1|]. split; [exact L2|]. congruence.
      * apply (digs_ok _ _ F2) in X. destruct (threshold_of toad (len ws) <=? len (filter is_ahd l)) eqn:LE.
        -- apply N.leb_le in LE. apply v_update; auto; [|apply enough_ok; exact LE]. assert (IN : In (nth (pick (filter is_ahd l)) (filter is_ahd l) s2) (filter is_ahd l)).
           { destruct (Nat.lt_ge_cases (pick (filter is_ahd l)) (List.length (filter is_ahd l))) as [Z|Z]; [apply nth_In; exact Z|]. rewrite nth_overflow by exact Z. rewrite F2. left. reflexivity. }
           destruct TA as (TA & _). destruct (TA _ IN) as (k & L1 & Q & _). eauto.
        -- apply N.leb_gt in LE. apply v_none; eauto. intros EN. apply enough_ok in EN. lia.
  - apply v_fork; [exact TD|]. destruct (tells_cons _ _ _ TD) as (k & X & _). eauto.
Qed.
End Verdict.

(** ** Where the records of key states come from *)
Section Said.
Context (e : renv).
Definition signed_in (l : list act) (a : bytes) (r : reply) : Prop :=
  (exists kv cs gs, In (Msg kv r cs gs) l /\ signedSingle e r a cs) \/ exists x sn dig, In x l /\ signedState e (viewOf x) r a sn dig.
(** a notice [r] with key state [q] from [a] *)
Definition notice (l : list act) (a : bytes) (q : ksr) : Prop :=
  exists r, delivered l r /\ saidOk e r = true /\ findRoute (q_route r) = Some (HKsn a) /\ q_ksr r = Some q /\ signed_in l a r.
Definition one_step (d d' : rdb) (P : bytes -> ksr -> Prop) : Prop :=
  ((forall k, isKsn k = true -> dget (ans d') k = dget (ans d) k) /\ (forall k, isKsn k = true -> dget (vals d') k = dget (vals d) k)) \/
  exists a q, P a q /\ (forall k, isKsn k = true -> dget (ans d') k = dget (dset (ans d) (key tagKsn [ks_i q; a]) (ks_d q)) k) /\
    (forall k, isKsn k = true -> dget (vals d') k = dget (dset (vals d) (key tagKsn [ks_d q]) (ks_rec q)) k).
Lemma ksn_step kv r cs gs d d' x : processReply e kv r cs gs d = (d', x) ->
  one_step d d' (fun a q => saidOk e r = true /\ findRoute (q_route r) = Some (HKsn a) /\ q_ksr r = Some q /\ (signedSingle e r a cs \/ exists sn dig, signedState e kv r a sn dig)).
Proof.
  intros H. apply process_outcome in H. destruct H.
  - left. split; reflexivity.
  - destruct (accept_keeps _ _ _ _ _ _ _ _ _ _ _ H1) as [K1 K2]. left. unfold record. cbn [ans vals setVals setAns].
    assert (B : forall k, isKsn k = true -> beq k (p_key p) = false).
    { intros k IK. apply parse_says in H0. apply says_ksn in H0. apply beq_neq. intros ->. congruence. }
    split; intros k IK; rewrite dget_dset, (B k IK), ?K1, ?K2; reflexivity.
  - destruct (accept_keeps _ _ _ _ _ _ _ _ _ _ _ H1) as [K1 K2]. left. rewrite K1, K2. split; reflexivity.
  - destruct (accept_keeps _ _ _ _ _ _ _ _ _ _ _ H1) as [K1 K2]. left. rewrite K1, K2. split; reflexivity.
  - destruct (accept_keeps _ _ _ _ _ _ _ _ _ _ _ H2) as [K1 K2]. left. rewrite K1, K2. split; reflexivity.
  - destruct (accept_keeps _ _ _ _ _ _ _ _ _ _ _ H2) as [K1 K2]. right. cbn [ans vals setVals setAns]. rewrite K1, K2. exists aid, k. split; [|split; reflexivity].
    do 3 (split; [assumption|]). apply accept_true in H2. destruct H2 as [[S1 _]|(g & _ & _ & S1 & _)]; [left; exact S1|right; eauto].
Qed.
Lemma run_step l d a : hist e l d -> one_step d (run e a d) (notice (a :: l)).
Proof.
  intros H. destruct a as [kv r cs gs|kv now route said]; cbn [run].
  - destruct (processReply e kv r cs gs d) as [d' x] eqn:P. cbn [fst]. destruct (ksn_step _ _ _ _ _ _ _ P) as [Z|(a & q & (S1 & S2 & S3 & S4) & Z)]; [left; exact Z|]. right. exists a, q. split; [|exact Z].
    exists r. split; [exists kv, cs, gs; left; reflexivity|]. do 3 (split; [assumption|]). destruct S4 as [S4|(sn & dig & S4)]; [left; exists kv, cs, gs; split; [left; reflexivity|exact S4]|right].
    exists (Msg kv r cs gs), sn, dig. split; [left; reflexivity|exact S4].
  - unfold unescrow.
    assert (DR : one_step d (removeReply (Some said) (remRpe route said d)) (notice (Item kv now route said :: l))) by (left; split; reflexivity).
    destruct (dget (sdts d) said) as [dt|]; [|exact DR]. destruct (dget (rpys d) said) as [r|] eqn:R1; [|exact DR].
    destruct (fetchTsgs (tsgs d) said None) as [|t ts]; [exact DR|]. set (gs := map _ (t :: ts)) in *.
    destruct (timeoutRPE <? now - dt); [exact DR|]. destruct (processReply e kv r [] gs d) as [d1 x] eqn:P.
    assert (Y : one_step d d1 (notice (Item kv now route said :: l))).
    { destruct (ksn_step _ _ _ _ _ _ _ P) as [Z|(a & q & (S1 & S2 & S3 & S4) & Z)]; [left; exact Z|]. right. exists a, q. split; [|exact Z].
      destruct (hist_rpys e _ _ H _ _ R1) as (_ & kv1 & cs1 & gs1 & I1). exists r. split; [exists kv1, cs1, gs1; right; exact I1|]. do 3 (split; [assumption|]).
      destruct S4 as [(cg & [] & _)|(sn & dig & S4)]. right. exists (Item kv now route said), sn, dig. split; [left; reflexivity|exact S4]. }
    destruct x as [u|x]; [exact Y|]. destruct x; exact Y.
Qed.
Lemma notice_more l a s q : notice l s q -> notice (a :: l) s q.
Proof.
  intros (r & (kv & cs & gs & I) & S1 & S2 & S3 & S4). exists r. split; [exists kv, cs, gs; right; exact I|]. do 3 (split; [assumption|]).
  destruct S4 as [(kv' & cs' & gs' & I' & S4)|(x & sn & dig & I' & S4)]; [left; exists kv', cs', gs'; split; [right; exact I'|exact S4]|right; exists x, sn, dig; split; [right; exact I'|exact S4]].
Qed.
Lemma records l d : hist e l d ->
  (forall k v, isKsn k = true -> dget (ans d) k = Some v -> exists a q, notice l a q /\ k = key tagKsn [ks_i q; a] /\ v = ks_d q /\ dget (vals d) (key tagKsn [v]) <> None) /\
  (forall k v, isKsn k = true -> dget (vals d) k = Some v -> exists a q, notice l a q /\ k = key tagKsn [ks_d q] /\ v = ks_rec q).
Proof.
  intros H. induction H as [|l d a H (IA & IV)]; [split; discriminate|].
  destruct (run_step l d a H) as [(Z1 & Z2)|(s & q & NT & Z1 & Z2)].
  - split; intros k v IK Q.
    + rewrite Z1 in Q by exact IK. destruct (IA k v IK Q) as (s & q & A1 & A2 & A3 & A4). exists s, q. split; [apply notice_more; exact A1|]. do 2 (split; [assumption|]). rewrite Z2 by reflexivity. exact A4.
    + rewrite Z2 in Q by exact IK. destruct (IV k v IK Q) as (s & q & A1 & A2). exists s, q. split; [apply notice_more; exact A1|exact A2].
  - split; intros k v IK Q.
    + rewrite Z1 in Q by exact IK. rewrite dget_dset in Q. rewrite Z2 by reflexivity. destruct (beq k (key tagKsn [ks_i q; s])) eqn:B.
      * apply beq_eq in B. injection Q as <-. exists s, q. do 3 (split; [auto|]). rewrite dget_dset, beq_refl. discriminate.
      * destruct (IA k v IK Q) as (s' & q' & A1 & A2 & A3 & A4). exists s', q'. split; [apply notice_more; exact A1|]. do 2 (split; [assumption|]). rewrite dget_dset. destruct (beq (key tagKsn [v]) (key tagKsn [ks_d q])); [discriminate|exact A4].
    + rewrite Z2 in Q by exact IK. rewrite dget_dset in Q. destruct (beq k (key tagKsn [ks_d q])) eqn:B.
      * apply beq_eq in B. injection Q as <-. exists s, q. auto.
      * destruct (IV k v IK Q) as (s' & q' & A1 & A2). exists s', q'. split; [apply notice_more; exact A1|exact A2].
Qed.
Lemma route_ksn route a : findRoute route = Some (HKsn a) -> route = s2b "/ksn/" ++ a.
Proof.
  intros H. unfold findRoute in H. pose proof (RpProofs.splitb_join 47 route) as J.
  destruct (splitb 47 route) as [|z [|x [|b [|y [|w r]]]]]; try discriminate.
  - destruct z as [|z0 z]; cbn [nonempty] in H; [|discriminate]. destruct (beq x (s2b "loc") && beq b (s2b "scheme")); [discriminate|]. destruct (beq x (s2b "ksn")) eqn:B; [|discriminate].
    apply beq_eq in B. subst x. destruct (nonempty b); [|discriminate]. injection H as <-. rewrite <- J. reflexivity.
  - destruct (nonempty z); [discriminate|]. destruct (beq x (s2b "end") && beq b (s2b "role") && nonempty y); [discriminate|]. destruct (beq x (s2b "watcher") && nonempty b && nonempty y); discriminate.
Qed.
Lemma notice_sent l a q : notice l a q -> has_sent e l a (ks_i q) q.
Proof. intros (r & S0 & S1 & S2 & S3 & S4). exists r. split; [exact S0|]. split; [exact S1|]. split; [exact S3|]. split; [reflexivity|]. split; [apply route_ksn; exact S2|exact S4]. Qed.
Lemma key2 (i a j b : bytes) : ~ In 46 j -> ~ In 46 b -> key tagKsn [i; a] = key tagKsn [j; b] -> i = j /\ a = b.
Proof.
  intros NJ NB Q. unfold key in Q. injection Q as Q. cbn [joinb] in Q. revert j NJ Q. induction i as [|x i IH]; intros [|y j] NJ Q; cbn [app] in Q.
  - injection Q as ->. auto.
  - injection Q as <- _. elim NJ. left. reflexivity.
  - injection Q as -> Q. subst b. exfalso. apply NB. apply in_or_app. right. left. reflexivity.
  - injection Q as -> Q. destruct (IH j) as (-> & ->); auto. intros I. apply NJ. right. exact I.
Qed.
End Said.
