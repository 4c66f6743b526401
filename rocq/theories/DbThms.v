From Verif Require Import Prelude Lex SubsModel SubsProofs DbModel DbSpec DbProofs DbRef DbOn DbOn2 DbDup.
From Coq Require Import Sorting.Sorted.
Ltac Zify.zify_post_hook ::= Z.div_mod_to_equations.
Open Scope N_scope.

(** keys of one length, such as identifiers, are a flat set *)
Lemma flat_length : forall sep n, (0 < n)%nat -> flat sep (fun k => List.length k = n).
Proof.
  intros sep n L. split; [cbn; lia|]. intros k k' t A B E. apply (f_equal (@List.length N)) in E. rewrite app_length in E. cbn in E. lia.
Qed.
Lemma small_le : forall n, n <= MaxON -> small n.
Proof. intros n L. unfold small. assert (X : MaxON + 1 = 16 ^ 32) by (vm_compute; reflexivity). lia. Qed.

Lemma c27_split : forall sep k n, goodsep sep -> splitOnKey sep (onKey sep k n) = Ok (k, n).
Proof. intros. apply split_onKey. assumption. Qed.
Lemma c27_order : forall sep k n m, n <= MaxON -> m <= MaxON -> (blt (onKey sep k n) (onKey sep k m) <-> n < m).
Proof. intros sep k n m A B. unfold blt. rewrite onKey_lt by (apply small_le; assumption). apply N.ltb_lt. Qed.
Lemma c27_injective : forall sep k n k' n', goodsep sep -> onKey sep k n = onKey sep k' n' -> k = k' /\ n = n'.
Proof. intros. eapply onKey_inj; eauto. Qed.


Lemma c28_ordered_sets_partial : forall sep K ops, goodsep sep -> flat sep K ->
  Forall (fun o => K (sop_key o)) ops -> total ops <= MaxON ->
  exists st, do_sops sep ops [] = Ok (st, outs ops sets0) /\
    forall k, K k -> let s := fold_left sop_spec ops sets0 k in
      NoDup s /\ getIoSet sep k 0 st = Ok s /\ getIoSetLast sep k st = Ok (olast s) /\ cntIoSet sep k 0 st = Ok (len s).
Proof.
  intros sep K ops GS FL F SZ. destruct (do_sops_ok sep K GS FL ops [] sets0 0 (inv0 sep K) F SZ) as (st & D & I).
  exists st. split; [exact D|]. intros k KK s. split; [apply I|]. eapply reads; eauto.
Qed.
Lemma c28_extended_key_refuted : exists ops st outp k, do_sops 46 ops [] = Ok (st, outp) /\
  getIoSet 46 k 0 st <> Ok (fold_left sop_spec ops sets0 k).
Proof.
  exists [SPut [97] [[120]; [121]]; SAdd (onKey 46 [97] 0) [122]]. eexists. eexists. exists [97].
  split; [vm_compute; reflexivity|]. vm_compute. discriminate.
Qed.


Lemma c29_ordered_duplicates_partial : forall ops, Forall (fun o => goodkey (sop_key o) /\ distinct o) ops -> total ops <= MaxON ->
  exists st, do_dops ops [] = Ok (st, douts ops sets0) /\
    forall k, goodkey k -> let s := fold_left dop_spec ops sets0 k in
      NoDup s /\ getIoDupVals k st = s /\ getIoDupValLast k st = olast s /\ cntIoDups k st = len s.
Proof.
  intros ops F SZ. destruct (do_dops_ok ops [] sets0 0 dinv0 F SZ) as (st & D & I). exists st. split; [exact D|].
  intros k KK s. split; [apply I|]. eapply dreads; eauto.
Qed.
Lemma c29_repeated_value_refuted : exists k vals st, goodkey k /\ putIoDupVals k vals [] = Ok (st, true) /\ ~ NoDup (getIoDupVals k st).
Proof.
  exists [97], [[1]; [1]]. eexists. split; [split; [discriminate|intros r X; discriminate]|]. split; [vm_compute; reflexivity|].
  vm_compute. intros X. inversion X; subst. apply H1. left. reflexivity.
Qed.
Lemma c29_ordinal_refuted : exists k v st st', putOnIoDupVals 46 k 0 [v] [] = Ok (st, true) /\
  putOnIoDupVals 46 k 1 [v] st = Ok (st', false) /\ getOnIoDupVals 46 k 1 st' = [].
Proof. exists [97], [1]. eexists. eexists. split; [vm_compute; reflexivity|]. split; vm_compute; reflexivity. Qed.
Lemma c29_backwards_refuted : exists k st st', putOnIoDupVals 46 k 0 [[1]] [] = Ok (st, true) /\ putOnIoDupVals 46 k 7 [[2]] st = Ok (st', true) /\
  getOnIoDupBack 46 k 3 st' = Ok [(7, [2]); (0, [1])].
Proof. exists [97]. eexists. eexists. split; [vm_compute; reflexivity|]. split; vm_compute; reflexivity. Qed.


Lemma c30_ordinals_partial : forall sep K ops, goodsep sep -> flat sep K ->
  Forall (fun o => K (oop_key o) /\ oop_on o <= MaxON) ops ->
  let st := fst (do_oops sep ops []) in
  snd (do_oops sep ops []) = oouts ops tabs0 /\
  forall k n, K k -> n <= MaxON -> let l := fold_left oop_spec ops tabs0 k in
    StronglySorted (fun a b => fst a < fst b) l /\
    getOnVal sep k n st = lookup n l /\ getOnAll sep k n st = Ok (filter (fun e => n <=? fst e) l) /\
    cntOnAll sep k n st = len (filter (fun e => n <=? fst e) l).
Proof.
  intros sep K ops GS FL F st. destruct (do_oops_ok sep K GS FL ops [] tabs0 (oinv0 sep K) F) as [D I]. split; [exact D|].
  intros k n KK LE l. split; [|eapply oreads; eauto]. destruct I as [W V]. unfold l. rewrite <- (V k). pose proof (view_asc sep K GS k _ W) as A.
  clear - A. induction (view sep k (fst (do_oops sep ops []))) as [|[m v] l IH]; [constructor|]. destruct A. constructor; auto.
Qed.
Lemma c30_extended_key_refuted : exists ops k v, let st := fst (do_oops 46 ops []) in
  fold_left oop_spec ops tabs0 k = [(0, [1])] /\ appendOnVal 46 k v st = Err ValueError.
Proof.
  exists [OApp [97] [1]; OPut (onKey 46 [97] 5) 0 [2]], [97], [3]. split; vm_compute; reflexivity.
Qed.
Lemma c30_empty_value_refuted : exists k n st, putOnVal 46 k n [] [] = (st, true) /\ getOnVal 46 k n st = Some [] /\ getOnItem 46 k n st = None.
Proof. exists [97], 0. eexists. split; [vm_compute; reflexivity|]. split; vm_compute; reflexivity. Qed.


Lemma c31_isolation_partial : forall sep K ops o st outp k, goodsep sep -> flat sep K ->
  Forall (fun o => K (sop_key o)) (ops ++ [o]) -> total (ops ++ [o]) <= MaxON ->
  do_sops sep ops [] = Ok (st, outp) -> K k -> k <> sop_key o ->
  exists st' b, do_sop sep o st = Ok (st', b) /\ getIoSet sep k 0 st' = getIoSet sep k 0 st /\
    getIoSetLast sep k st' = getIoSetLast sep k st /\ cntIoSet sep k 0 st' = cntIoSet sep k 0 st.
Proof.
  intros sep K ops o st outp k GS FL F SZ D KK NE. apply Forall_app in F. destruct F as [F1 F2]. inversion F2; subst.
  assert (T : total (ops ++ [o]) = total ops + sop_size o). { unfold total. rewrite fold_left_app. reflexivity. }
  rewrite T in SZ. destruct (do_sops_ok sep K GS FL ops [] sets0 0 (inv0 sep K) F1 ltac:(lia)) as (st0 & D0 & I). rewrite D in D0. inversion D0; subst st0.
  destruct (do_sop_ok sep K GS FL o st _ _ I H1 ltac:(lia)) as (st' & D1 & I'). exists st'. eexists. split; [exact D1|].
  destruct (reads sep K GS FL _ _ _ k I KK) as (R1 & R2 & R3). destruct (reads sep K GS FL _ _ _ k I' KK) as (R4 & R5 & R6).
  assert (E : sop_spec (fold_left sop_spec ops sets0) o k = fold_left sop_spec ops sets0 k). { unfold sop_spec at 1. destruct (beq_spec k (sop_key o)); [congruence|reflexivity]. }
  rewrite R1, R2, R3, R4, R5, R6, E. auto.
Qed.
Lemma c31_ordinal_isolation_partial : forall sep K ops o k n, goodsep sep -> flat sep K ->
  Forall (fun o => K (oop_key o) /\ oop_on o <= MaxON) (ops ++ [o]) -> K k -> k <> oop_key o -> n <= MaxON ->
  let st := fst (do_oops sep ops []) in let st' := fst (do_oop sep o st) in
  getOnVal sep k n st' = getOnVal sep k n st /\ getOnAll sep k n st' = getOnAll sep k n st /\ cntOnAll sep k n st' = cntOnAll sep k n st.
Proof.
  intros sep K ops o k n GS FL F KK NE LE st st'. apply Forall_app in F. destruct F as [F1 F2]. inversion F2; subst. destruct H1 as [A B].
  destruct (do_oops_ok sep K GS FL ops [] tabs0 (oinv0 sep K) F1) as [_ I]. destruct (do_oop_ok sep K GS FL o st _ I A B) as [_ I'].
  destruct (oreads sep K GS FL _ _ k n I KK LE) as (R1 & R2 & R3). destruct (oreads sep K GS FL _ _ k n I' KK LE) as (R4 & R5 & R6). fold st in R1, R2, R3. fold st' in R4, R5, R6.
  assert (E : oop_spec (fold_left oop_spec ops tabs0) o k = fold_left oop_spec ops tabs0 k). { unfold oop_spec at 1. destruct (beq_spec k (oop_key o)); [congruence|reflexivity]. }
  rewrite R1, R2, R3, R4, R5, R6, E. auto.
Qed.
Lemma c31_duplicates_isolation_partial : forall ops o st outp k, Forall (fun o => goodkey (sop_key o) /\ distinct o) (ops ++ [o]) -> total (ops ++ [o]) <= MaxON ->
  do_dops ops [] = Ok (st, outp) -> goodkey k -> k <> sop_key o ->
  exists st' b, do_dop o st = Ok (st', b) /\ getIoDupVals k st' = getIoDupVals k st /\
    getIoDupValLast k st' = getIoDupValLast k st /\ cntIoDups k st' = cntIoDups k st.
Proof.
  intros ops o st outp k F SZ D KK NE. apply Forall_app in F. destruct F as [F1 F2]. inversion F2; subst. destruct H1 as [A B].
  assert (T : total (ops ++ [o]) = total ops + sop_size o). { unfold total. rewrite fold_left_app. reflexivity. }
  rewrite T in SZ. destruct (do_dops_ok ops [] sets0 0 dinv0 F1 ltac:(lia)) as (st0 & D0 & I). rewrite D in D0. inversion D0; subst st0.
  destruct (do_dop_ok o st _ _ I A B ltac:(lia)) as (st' & D1 & I'). exists st'. eexists. split; [exact D1|].
  destruct (dreads _ _ _ k I KK) as (R1 & R2 & R3). destruct (dreads _ _ _ k I' KK) as (R4 & R5 & R6).
  assert (E : dop_spec (fold_left dop_spec ops sets0) o k = fold_left dop_spec ops sets0 k). { unfold dop_spec at 1. destruct (beq_spec k (sop_key o)); [congruence|reflexivity]. }
  rewrite R1, R2, R3, R4, R5, R6, E. auto.
Qed.
Lemma c31_extended_key_refuted : exists st st' b k o, k <> sop_key o /\ do_sops 46 [SPut k [[1]; [2]]] [] = Ok (st, [true]) /\
  do_sop 46 o st = Ok (st', b) /\ getIoSet 46 k 0 st' <> getIoSet 46 k 0 st.
Proof.
  eexists. eexists. eexists. exists [97], (SAdd (onKey 46 [97] 0) [3]). split; [discriminate|]. split; [vm_compute; reflexivity|]. split; [vm_compute; reflexivity|].
  vm_compute. discriminate.
Qed.

Lemma c46_history_partial : forall sep K L ops, goodsep sep -> flat sep K ->
  Forall (nop_ok K L) ops -> L + len ops <= MaxON -> ntotal ops <= MaxON ->
  exists st t, nhist sep [] nsets0 ops st t /\
    forall k on, K k -> on <= MaxON ->
      getOnIoSet sep k on st = Ok (t k on) /\ getOnIoSetLast sep k on st = Ok (olast (t k on)) /\ cntOnIoSet sep k on st = Ok (len (t k on)) /\
      (exists r, getOnAllIoSet sep k on st = Ok r /\ flat_of on (t k) r) /\
      (exists r, getOnAllIoSetLast sep k on st = Ok r /\ StronglySorted (fun x y => fst x < fst y) r /\ last_of (fun o => on <=? o) (t k) r) /\
      ((exists r, getOnAllIoSetBack sep k on st = Ok r /\ back_of on (t k) r) \/
       (getOnAllIoSetBack sep k on st = Err ValueError /\ forall o, o <= on -> t k o = [])) /\
      ((exists r, getOnAllIoSetLastBack sep k on st = Ok r /\ StronglySorted (fun x y => fst y < fst x) r /\ last_of (fun o => o <=? on) (t k) r) \/
       (getOnAllIoSetLastBack sep k on st = Err ValueError /\ forall o, o <= on -> t k o = [])).
Proof.
  intros sep K L ops GS FL F LM SZ.
  assert (U : used sep [] L) by (intros k; constructor).
  destruct (nhist_ok sep K GS FL ops [] sets0 0 L L (inv0 sep (K2 sep K)) U F ltac:(lia) LM SZ) as (st & t & B & H & I).
  exists st, (tbl sep t). split; [exact H|]. intros k on KK LE. pose proof (small_le _ LE) as S.
  assert (KK2 : K2 sep K (onKey sep k on)) by (exists k, on; auto).
  destruct (reads sep (K2 sep K) GS (FL2 sep K GS FL) st t B (onKey sep k on) I KK2) as (R1 & R2 & R3).
  split; [exact R1|]. split; [exact R2|]. split; [exact R3|]. split; [eapply allIoSet_ok; eauto|]. split; [eapply lastIoSet_ok; eauto|].
  split; [eapply backIoSet_ok; eauto|eapply lastBackIoSet_ok; eauto].
Qed.
Lemma c46_append_refuted : exists k vals st, appendOnIoSetVals 46 k vals [] = Ok (st, 0) /\ getOnIoSet 46 k 0 st = Ok vals /\ ~ NoDup vals.
Proof.
  exists [97], [[1]; [1]]. eexists. split; [vm_compute; reflexivity|]. split; [vm_compute; reflexivity|]. intros X. inversion X; subst. apply H1. left. reflexivity.
Qed.
Lemma c46_backwards_refuted : exists k k' st, addOnIoSetVal 46 k' 0 [1] [] = Ok (st, true) /\ getOnAllIoSetBack 46 k MaxON st = Err ValueError.
Proof. exists [97], [98]. eexists. split; [vm_compute; reflexivity|]. vm_compute. reflexivity. Qed.


(** a database as any sequence of writes and deletions leaves it *)
Inductive stored : store -> Prop :=
| stored_nil : stored []
| stored_put : forall ow k v st st' b, stored st -> put ow k v st = (st', b) -> stored st'
| stored_del : forall k st st' b, stored st -> del k st = (st', b) -> stored st'.
Lemma stored_sorted : forall st, stored st -> sorted st.
Proof. induction 1; [exact I|eapply put_sorted; eauto|eapply del_sorted; eauto]. Qed.
Lemma startswith_ge : forall top s, startswith s top = true -> bltb s top = false.
Proof.
  induction top as [|x top IH]; intros [|y s] H; cbn in *; try discriminate; try reflexivity. apply andb_true_iff in H. destruct H as [H1 H2]. apply N.eqb_eq in H1. subst. rewrite N.ltb_irrefl. cbn. rewrite (IH _ H2), andb_false_r. reflexivity.
Qed.
Lemma startswith_between : forall top s r, bltb s top = false -> startswith s top = false -> bltb s r = true -> startswith r top = false.
Proof.
  induction top as [|x top IH]; intros [|y s] [|z r] A B C; cbn in *; try discriminate; try reflexivity. apply orb_false_iff in A. destruct A as [A1 A2]. apply N.ltb_ge in A1.
  apply orb_true_iff in C. destruct (N.eqb_spec z x) as [->|NE]; [|reflexivity]. cbn. destruct C as [C|C]; [apply N.ltb_lt in C; lia|]. apply andb_true_iff in C. destruct C as [C1 C2]. apply N.eqb_eq in C1. subst y. rewrite N.eqb_refl in *. cbn in *. eapply IH; eauto.
Qed.
Lemma top_split : forall top st, sorted st -> getTop top st = filter (fun e => startswith (fst e) top) st /\
  before top st ++ dropwhile (fun e => startswith (fst e) top) (setRange top st) = filter (fun e => negb (startswith (fst e) top)) st.
Proof.
  intros top st S. unfold getTop, before, setRange. induction st as [|[k v] st IH]; [auto|]. destruct S as [S1 S2]. destruct (IH S2) as [I1 I2]. cbn [dropwhile takewhile fst filter].
  destruct (bltb k top) eqn:L.
  - assert (N : startswith k top = false) by (destruct (startswith k top) eqn:Q; [rewrite (startswith_ge _ _ Q) in L; discriminate|reflexivity]). rewrite N. cbn [negb app]. rewrite I2. auto.
  - clear IH I1 I2. destruct (startswith k top) eqn:Q; cbn [takewhile dropwhile fst negb app]; rewrite Q.
    + assert (G : forall l, sorted l -> Forall (fun e => bltb (fst e) top = false) l -> takewhile (fun e => startswith (fst e) top) l = filter (fun e => startswith (fst e) top) l /\ dropwhile (fun e => startswith (fst e) top) l = filter (fun e => negb (startswith (fst e) top)) l).
      { clear. induction l as [|[k v] l IH]; intros S F; [auto|]. destruct S as [S1 S2]. inversion F; subst. cbn [takewhile dropwhile filter fst]. destruct (startswith k top) eqn:Q; cbn [negb].
        - destruct (IH S2 H2) as [A B]. rewrite A, B. auto.
        - assert (NO : forall e, In e l -> startswith (fst e) top = false). { intros e IN. rewrite Forall_forall in S1. eapply startswith_between; [exact H1|exact Q|]. apply (S1 _ IN). }
          split; [symmetry; clear - NO; induction l as [|e l IH]; [reflexivity|]; cbn; rewrite (NO e) by (left; reflexivity); apply IH; intros; apply NO; right; assumption|].
          f_equal. symmetry. apply filter_all. intros e IN. rewrite (NO _ IN). reflexivity. }
      assert (F : Forall (fun e => bltb (fst e) top = false) st). { eapply Forall_impl; [|exact S1]. intros e B. unfold below in B. destruct (bltb (fst e) top) eqn:X; [|reflexivity]. rewrite (blt_trans _ _ _ B X) in L. discriminate. }
      destruct (G st S2 F) as [A B]. rewrite A, B. auto.
    + assert (NO : forall e, In e st -> startswith (fst e) top = false). { intros e IN. rewrite Forall_forall in S1. eapply startswith_between; [exact L|exact Q|]. apply (S1 _ IN). }
      split; [symmetry; clear - NO; induction st as [|e l IH]; [reflexivity|]; cbn; rewrite (NO e) by (left; reflexivity); apply IH; intros; apply NO; right; assumption|].
      f_equal. symmetry. apply filter_all. intros e IN. rewrite (NO _ IN). reflexivity.
Qed.
Lemma c47_branch : forall top st, stored st ->
  (forall k v, In (k, v) (getTop top st) <-> In (k, v) st /\ exists r, k = top ++ r) /\
  cntTop top st = len (getTop top st) /\
  (forall k v, In (k, v) (fst (remTop top st)) <-> In (k, v) st /\ ~ exists r, k = top ++ r) /\
  (snd (remTop top st) = true <-> exists k v, In (k, v) st /\ exists r, k = top ++ r).
Proof.
  intros top st S. apply stored_sorted in S. destruct (top_split top st S) as [A B].
  assert (SW : forall k, startswith k top = true <-> exists r, k = top ++ r).
  { clear. induction top as [|x top IH]; intros k; cbn; [split; [intros _; exists k; reflexivity|intros _; destruct k; reflexivity]|]. destruct k as [|y k]; [split; [discriminate|intros (r & X); discriminate]|].
    cbn [startswith]. rewrite andb_true_iff, N.eqb_eq, IH. split; [intros (-> & r & ->); exists r; reflexivity|intros (r & X); inversion X; subst; split; [reflexivity|exists r; reflexivity]]. }
  split; [|split; [reflexivity|split]].
  - intros k v. rewrite A, filter_In, SW. reflexivity.
  - intros k v. unfold remTop. cbn [fst]. rewrite B, filter_In, negb_true_iff. cbn [fst]. rewrite <- SW. destruct (startswith k top); split; intros [X Y]; split; auto; try congruence; try discriminate.
  - unfold remTop. cbn [snd]. rewrite negb_true_iff, isnil_false, A. split.
    + intros N. destruct (filter (fun e => startswith (fst e) top) st) as [|[k v] l] eqn:E; [congruence|]. exists k, v. assert (X : In (k, v) (filter (fun e => startswith (fst e) top) st)) by (rewrite E; left; reflexivity). apply filter_In in X. rewrite <- SW. exact X.
    + intros (k & v & IN & R) X. apply SW in R. assert (Y : In (k, v) (filter (fun e => startswith (fst e) top) st)) by (apply filter_In; auto). rewrite X in Y. destruct Y.
Qed.

