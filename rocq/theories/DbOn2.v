(** Ordinal numbered ordered sets: reading backwards, appending, removing, histories. *)
From Verif Require Import Prelude Lex SubsModel SubsProofs DbModel DbSpec DbProofs DbRef DbOn.
From Coq Require Import Sorting.Sorted.
Ltac Zify.zify_post_hook ::= Z.div_mod_to_equations.
Open Scope N_scope.

Section On2.
Variable sep : N.
Variable K : bytes -> Prop.
Hypothesis GS : goodsep sep.
Hypothesis FL : flat sep K.
Notation K2 := (K2 sep K).
Notation W2 := (wf sep K2).
Notation I2 := (Inv sep K2).
Notation view2 := (view2 sep).
Notation key2 := (key2 sep).
Notation tbl := (tbl sep).
Notation do_nop := (do_nop sep).
Notation nhist := (nhist sep).
Notation nop_ok := (nop_ok K).

Lemma FL2 : flat sep K2.
Proof. apply flat2; assumption. Qed.

Lemma sorted_rev : forall A (R Q : A -> A -> Prop) l, (forall x y, R x y -> Q y x) -> StronglySorted R l -> StronglySorted Q (rev l).
Proof.
  induction l as [|x l IH]; intros H S; cbn; [constructor|]. inversion S; subst. specialize (IH H H2).
  assert (G : forall l', StronglySorted Q l' -> Forall (fun y => Q y x) l' -> StronglySorted Q (l' ++ [x])).
  { clear. induction l' as [|y l' IH]; intros X1 X2; cbn; [repeat constructor|]. inversion X1; subst. inversion X2; subst. constructor; [auto|]. apply Forall_app. split; [assumption|constructor; [assumption|constructor]]. }
  apply G; [exact IH|]. rewrite Forall_forall in *. intros y IN. apply H. apply H3. apply in_rev. exact IN.
Qed.
Lemma at_app : forall o a b, at_ o (a ++ b) = at_ o a ++ at_ o b.
Proof. intros. unfold at_. rewrite filter_app, map_app. reflexivity. Qed.
Lemma at_rev : forall o l, at_ o (rev l) = rev (at_ o l).
Proof. induction l as [|[[a i] v] l IH]; [reflexivity|]. cbn [rev]. rewrite at_app, IH, at_cons. destruct (N.eqb_spec a o) as [->|NE]; cbn [rev]; rewrite at_cons; [rewrite N.eqb_refl; reflexivity|]. destruct (N.eqb_spec a o); [congruence|]. rewrite app_nil_r. reflexivity. Qed.
Lemma at_filter_le : forall o on l, at_ o (filter (fun e => fst (fst e) <=? on) l) = if o <=? on then at_ o l else [].
Proof.
  induction l as [|[[a i] v] l IH]; [cbn; destruct (o <=? on); reflexivity|]. unfold at_ in *. cbn. destruct (N.leb_spec a on) as [L|L]; cbn.
  - destruct (N.eqb_spec a o) as [->|NE]; cbn; [|exact IH]. rewrite IH. replace (o <=? on) with true by (symmetry; apply N.leb_le; exact L). reflexivity.
  - rewrite IH. destruct (N.eqb_spec a o) as [->|NE]; [|reflexivity]. replace (o <=? on) with false by (symmetry; apply N.leb_gt; exact L). reflexivity.
Qed.
Lemma ge2_back : forall k on st, W2 st -> StronglySorted (fun x y : N * N * bytes => fst (fst y) <= fst (fst x)) (back on (view2 k st)).
Proof. intros k on st W. unfold back. eapply sorted_rev; [|apply sorted_filter, (view2_sorted sep K GS); exact W]. intros x y L. exact L. Qed.
Lemma at_back : forall st t B k on o, I2 st t B -> map snd (at_ o (back on (view2 k st))) = if o <=? on then rev (tbl t k o) else [].
Proof.
  intros st t B k on o I. unfold back. rewrite at_rev, map_rev, at_filter_le. destruct (o <=? on); [|reflexivity]. rewrite (at_tbl sep K GS st t B k o I). reflexivity.
Qed.
Lemma back_nil : forall st t B k on, I2 st t B -> back on (view2 k st) = [] -> forall o, o <= on -> tbl t k o = [].
Proof.
  intros st t B k on I E o L. pose proof (at_back st t B k on o I) as X. rewrite E in X. replace (o <=? on) with true in X by (symmetry; apply N.leb_le; exact L). cbn in X.
  rewrite <- (rev_involutive (tbl t k o)), <- X. reflexivity.
Qed.
Lemma backIoSet_ok : forall st t B k on, I2 st t B -> K k -> small on ->
  (exists r, getOnAllIoSetBack sep k on st = Ok r /\ back_of on (tbl t k) r) \/
  (getOnAllIoSetBack sep k on st = Err ValueError /\ forall o, o <= on -> tbl t k o = []).
Proof.
  intros st t B k on I KK S. pose proof I as (W & _). unfold getOnAllIoSetBack. destruct (back_spec sep K GS FL k on st W KK S) as (l & [(A1 & A2)|(A1 & A2)]); rewrite A1; cbn [bind].
  - left. rewrite A2. cbn [bind]. eexists. split; [reflexivity|]. change (fun '(o, _, v) => (o, v)) with pr. split.
    + eapply sorted_map; [|apply ge2_back; exact W]. intros [[a i] v] [[b j] w] L. exact L.
    + intros o. rewrite pr_at. eapply at_back; eauto.
  - right. split; [reflexivity|]. eapply back_nil; eauto.
Qed.
Definition ohead {A} (l : list A) : option A := match l with [] => None | x :: _ => Some x end.
Lemma ohead_rev : forall A (l : list A), ohead (rev l) = olast l.
Proof. intros. reflexivity. Qed.
Lemma firstPer_ok : forall l p, StronglySorted (fun x y : N * N * bytes => fst (fst y) <= fst (fst x)) l ->
  (forall q, p = Some q -> Forall (fun e => fst (fst e) <= q) l) ->
  StronglySorted (fun x y : N * bytes => fst y < fst x) (firstPer p l) /\
  (forall q, p = Some q -> Forall (fun e => fst e < q) (firstPer p l)) /\ (forall a, Forall (fun e => fst (fst e) <= a) l -> Forall (fun e => fst e <= a) (firstPer p l)) /\
  (forall o v, In (o, v) (firstPer p l) <-> p <> Some o /\ ohead (map snd (at_ o l)) = Some v).
Proof.
  induction l as [|[[a i] w] l IH]; intros p S P.
  - cbn. split; [constructor|]. split; [constructor|]. split; [constructor|]. intros o v. split; [intros []|intros [_ X]; discriminate].
  - inversion S; subst. cbn [firstPer]. set (same := match p with Some q => q =? a | None => false end). destruct same eqn:SA.
    + destruct p as [q|]; [|discriminate]. subst same. apply N.eqb_eq in SA. subst q. specialize (P _ eq_refl). inversion P; subst.
      destruct (IH (Some a) H1) as (I1 & I3 & I4 & I5). { intros q X. inversion X; subst. assumption. }
      split; [exact I1|]. split; [exact I3|]. split; [intros a0 F; inversion F; subst; auto|]. intros o v. rewrite I5, at_cons. destruct (N.eqb_spec a o) as [->|NE]; [|reflexivity]. split; intros [X _]; congruence.
    + assert (PN : p <> Some a). { intros ->. subst same. rewrite N.eqb_refl in SA. discriminate. }
      destruct (IH (Some a) H1) as (I1 & I3 & I4 & I5). { intros q X. inversion X; subst. exact H2. }
      specialize (I3 _ eq_refl). split; [constructor; [exact I1|exact I3]|]. split; [|split].
      * intros q ->. specialize (P _ eq_refl). inversion P; subst. cbn [fst] in *. assert (a < q). { subst same. apply N.eqb_neq in SA. lia. } constructor; [assumption|]. eapply Forall_impl; [|exact I3]. cbn. intros; lia.
      * intros a0 F. inversion F; subst. constructor; [assumption|auto].
      * intros o v. cbn [In]. rewrite I5, at_cons. destruct (N.eqb_spec a o) as [->|NE].
        -- cbn. split; [intros [X|[X _]]; [inversion X; subst; auto|congruence]|intros [_ X]; left; congruence].
        -- assert (PO : p = Some o -> at_ o l = []).
           { intros ->. specialize (P _ eq_refl). inversion P; subst. cbn [fst] in *. assert (a < o) by lia. rewrite Forall_forall in H2. clear - H2 H. induction l as [|[[b j] x] l IH]; [reflexivity|].
             rewrite at_cons. pose proof (H2 (b, j, x) (or_introl eq_refl)) as Q. cbn in Q. destruct (N.eqb_spec b o); [lia|]. apply IH. intros; apply H2; right; assumption. }
           split.
           ++ intros [X|[_ X]]; [congruence|]. split; [|exact X]. intros Y. rewrite (PO Y) in X. discriminate.
           ++ intros [X Y]. right. split; [congruence|exact Y].
Qed.
Lemma lastBackIoSet_ok : forall st t B k on, I2 st t B -> K k -> small on ->
  (exists r, getOnAllIoSetLastBack sep k on st = Ok r /\ StronglySorted (fun x y => fst y < fst x) r /\ last_of (fun o => o <=? on) (tbl t k) r) \/
  (getOnAllIoSetLastBack sep k on st = Err ValueError /\ forall o, o <= on -> tbl t k o = []).
Proof.
  intros st t B k on I KK S. pose proof I as (W & _). unfold getOnAllIoSetLastBack. destruct (isnil st) eqn:NS.
  - right. split; [reflexivity|]. apply isnil_true in NS. subst st. intros o _. destruct I as (_ & V & _). unfold DbOn.tbl. rewrite <- (V (onKey sep k o)). reflexivity.
  - destruct (back_spec sep K GS FL k on st W KK S) as (l & [(A1 & A2)|(A1 & A2)]); rewrite A1; cbn [bind].
    + left. rewrite A2. cbn [bind]. eexists. split; [reflexivity|]. destruct (firstPer_ok _ None (ge2_back k on st W)) as (F1 & _ & _ & F2); [discriminate|]. split; [exact F1|].
      intros o v. rewrite F2, (at_back st t B k on o I). destruct (o <=? on).
      * rewrite ohead_rev. split; [intros [_ X]; auto|intros [_ X]; split; [discriminate|exact X]].
      * split; [intros [_ X]; discriminate|intros [X _]; discriminate].
    + right. split; [reflexivity|]. eapply back_nil; eauto.
Qed.

(** ** Appending *)
Definition used (st : store) (L : N) : Prop := forall k, Forall (fun e => fst (fst e) < L) (view2 k st).
Lemma view2_has : forall k a i v st, W2 st -> small a -> small i -> In (key2 k a i, v) st -> In (a, i, v) (view2 k st).
Proof.
  intros k a i v st. induction st as [|e st IH]; intros W A I IN; [destruct IN|].
  apply (W2_cons sep K) in W. destruct W as (k0 & a0 & i0 & v0 & -> & KK & B & C & W & _). rewrite (view2_cons sep GS). destruct IN as [E|IN].
  - inversion E. apply (key2_inj sep GS) in H0. destruct H0 as (-> & -> & ->). rewrite beq_refl. left. reflexivity.
  - destruct (beq k0 k); [right|]; auto.
Qed.
Lemma tbl_small : forall st t B k o, I2 st t B -> tbl t k o <> [] -> exists i v, In (o, i, v) (view2 k st).
Proof.
  intros st t B k o I NE. rewrite <- (at_tbl sep K GS st t B k o I) in NE. destruct (at_ o (view2 k st)) as [|[i v] l] eqn:E; [exfalso; apply NE; reflexivity|].
  assert (IN : In (i, v) (at_ o (view2 k st))) by (rewrite E; left; reflexivity). unfold at_ in IN. apply in_map_iff in IN. destruct IN as ([[a j] w] & X & Y). inversion X; subst.
  apply filter_In in Y. destruct Y as [Y Z]. apply N.eqb_eq in Z. subst a. exists i, v. exact Y.
Qed.
Lemma appendFrom_view : forall k vals ion st, W2 st -> K2 k -> tnext (view sep k st) <= ion -> ion + len vals <= 16 ^ 32 ->
  exists st' l, appendFrom sep k ion vals st = Ok st' /\ W2 st' /\ view sep k st' = view sep k st ++ l /\
    map snd l = vals /\ tnext (view sep k st') <= ion + len vals /\ (forall k', k' <> k -> view sep k' st' = view sep k' st).
Proof.
  intros k. induction vals as [|v vals IH]; intros ion st W KK T B; cbn [appendFrom].
  - exists st, []. rewrite app_nil_r. split; [reflexivity|]. split; [exact W|]. split; [reflexivity|]. split; [reflexivity|]. split; [|auto]. unfold len. cbn. lia.
  - assert (LV : len (v :: vals) = len vals + 1) by (unfold len; cbn [List.length]; lia). rewrite LV in *.
    destruct (put false (suffix sep k ion) v st) as [st1 b] eqn:P. unfold suffix in P.
    assert (SM : small ion) by (unfold small; lia).
    destruct (put_view sep K2 GS false k ion v st st1 b W KK SM P) as (V1 & V2 & V3).
    pose proof (put_wf sep K2 false k ion v st st1 b W KK SM P) as W1.
    assert (T' : Forall (fun e => fst e < ion) (view sep k st)) by (apply tnext_le; exact T).
    rewrite tput_end in V1 by exact T'.
    assert (BT : b = true).
    { rewrite V3. apply orb_true_iff. right. apply negb_true_iff. clear - T'. induction (view sep k st) as [|[m w] l IH]; [reflexivity|]. inversion T'; subst. cbn in *.
      rewrite IH by assumption. destruct (N.eqb_spec m ion); [lia|reflexivity]. }
    destruct (IH (ion + 1) st1 W1 KK) as (st' & l & I1 & I3 & I4 & I5 & I6 & I7).
    { rewrite V1, tnext_app. cbn. lia. }
    { lia. }
    exists st', ((ion, v) :: l). rewrite BT. cbn [negb]. split; [exact I1|]. split; [exact I3|]. split; [rewrite I4, V1, <- app_assoc; reflexivity|].
    split; [cbn; rewrite I5; reflexivity|]. split; [lia|]. intros k' NK. rewrite I7, V2 by assumption. reflexivity.
Qed.
(** where the next ordinal is read off *)
Lemma last2 : forall k mx st, W2 st -> K k -> (exists b j, mx = key2 k b j) -> Forall (fun e => bltb (fst e) mx = true) st ->
  match olast st with
  | None => view2 k st = []
  | Some (ck, v) => exists k' n i, ck = key2 k' n i /\ (if beq k' k then exists r, view2 k st = r ++ [(n, i, v)] else view2 k st = [])
  end.
Proof.
  intros k mx st W KK (b & j & ->) F. destruct (olast_cases _ st) as [(-> & ->)|(a & [ck v] & -> & ->)]; [reflexivity|].
  pose proof W as [WS WE]. apply Forall_app in WE. destruct WE as [WE0 WE]. inversion WE; subst. destruct H1 as (k2 & i & E & (k' & n & -> & A & B) & C). cbn in E. subst ck. change (onKey sep (onKey sep k' n) i) with (key2 k' n i) in *.
  exists k', n, i. split; [reflexivity|]. rewrite (view2_app sep), (view2_cons sep GS). destruct (beq_spec k' k) as [->|NE].
  - exists (view2 k a). reflexivity.
  - cbn [DbOn.view2]. rewrite app_nil_r. apply sorted_app in WS. destruct WS as (WS1 & _ & WS).
    destruct (view2 k a) as [|[[m l] w] r] eqn:V; [reflexivity|]. exfalso. apply NE.
    assert (WA : W2 a) by (split; assumption). destruct (view2_in sep K GS k m l w a WA) as (IN & _ & _); [rewrite V; left; reflexivity|].
    rewrite Forall_forall in WS. specialize (WS _ IN). inversion WS; subst. unfold below in H1. cbn [fst] in H1.
    apply Forall_app in F. destruct F as [_ F]. inversion F; subst. cbn [fst] in H4.
    exact (contiguous2 sep K FL k k' n i m l b j KK A (blt_asym _ _ H1) H4).
Qed.
Lemma next_of_last : forall st t B k n i v r, I2 st t B -> view2 k st = r ++ [(n, i, v)] -> next_of (tbl t) k (n + 1).
Proof.
  intros st t B k n i v r I E. pose proof I as (W & _). pose proof (view2_sorted sep K GS k st W) as SS. split.
  - intros m NE. destruct (tbl_small _ _ _ _ _ I NE) as (j & w & IN). rewrite E in SS, IN. apply in_app_or in IN. destruct IN as [IN|[X|[]]]; [|inversion X; lia].
    clear - SS IN. induction r as [|x r IH]; [destruct IN|]. cbn in SS. inversion SS; subst. destruct IN as [->|IN]; [|auto]. rewrite Forall_forall in H2.
    specialize (H2 (n, i, v) ltac:(apply in_or_app; right; left; reflexivity)). unfold le2 in H2. cbn in H2. lia.
  - right. replace (n + 1 - 1) with n by lia. rewrite <- (at_tbl sep K GS st t B k n I), E, at_app, at_cons, N.eqb_refl. intros X. apply (f_equal (@List.length _)) in X. rewrite map_length, app_length in X. cbn in X. lia.
Qed.
Lemma next_of_none : forall st t B k, I2 st t B -> view2 k st = [] -> next_of (tbl t) k 0.
Proof. intros st t B k I E. split; [|left; reflexivity]. intros m NE. destruct (tbl_small _ _ _ _ _ I NE) as (j & w & IN). rewrite E in IN. destruct IN. Qed.

Lemma append2_ok : forall k vals st t B L, I2 st t B -> K k -> vals <> [] -> NoDup vals -> used st L -> L <= MaxON -> B + len vals <= MaxON ->
  exists st' n t', appendOnIoSetVals sep k vals st = Ok (st', n) /\ n <= L /\ nstep (tbl t) (NApp k vals) (tbl t') (inr n) /\ I2 st' t' (B + len vals).
Proof.
  intros k vals st t B L I KK NV ND U LM SZ. pose proof I as (W & V & T & N0). assert (MX : MaxON + 1 = 16 ^ 32) by (vm_compute; reflexivity).
  assert (KN := K_ne sep K FL _ KK). unfold appendOnIoSetVals. rewrite KN. apply isnil_false in NV. rewrite NV. cbn [orb]. cbn iota.
  unfold suffix at 1 2. change (onKey sep (onKey sep k MaxON) MaxON) with (key2 k MaxON MaxON). set (mx := key2 k MaxON MaxON).
  pose proof (before_setRange mx st) as BS. pose proof (setRange_wf sep K2 mx st W) as WR.
  assert (WB : W2 (before mx st)). { destruct W as [W1 W3]. rewrite <- BS in W1, W3. apply sorted_app in W1. apply Forall_app in W3. split; tauto. }
  assert (VR : view2 k (setRange mx st) = []).
  { destruct (view2 k (setRange mx st)) as [|[[m j] w] l] eqn:E; [reflexivity|]. exfalso.
    pose proof (setRange_le2 sep K GS k MaxON st W KK small_max) as SL. fold mx in SL. rewrite E in SL. inversion SL; subst. cbn [fst snd] in H1.
    assert (IN : In (m, j, w) (view2 k st)). { rewrite <- BS, (view2_app sep), E. apply in_or_app. right. left. reflexivity. }
    specialize (U k). rewrite Forall_forall in U. specialize (U _ IN). cbn [fst] in U. destruct H1 as [H1|H1]; [|inversion H1; subst; clear - U LM; revert U LM; generalize MaxON; intros; lia]. clear - H1 U LM. revert H1 LM. generalize MaxON. intros; lia. }
  assert (VB : view2 k (before mx st) = view2 k st). { rewrite <- BS at 2. rewrite (view2_app sep), VR, app_nil_r. reflexivity. }
  assert (LB := last2 k mx (before mx st) WB KK (ex_intro _ MaxON (ex_intro _ MaxON eq_refl)) (takewhile_all _ _ _)).
  assert (CORE : exists n, (match olast (before mx st) with None => Ok 0 | Some (ck, _) => '(k0, con, _) <- split2 sep ck ;; Ok (if beq k0 k then con + 1 else 0) end) = Ok n /\ n <= L /\ next_of (tbl t) k n).
  { destruct (olast (before mx st)) as [[ck v]|].
    - destruct LB as (k' & n & i & -> & LB). rewrite (split2_key2 sep GS). cbn [bind]. rewrite VB in LB. destruct (beq k' k).
      + destruct LB as (r & LB). exists (n + 1). split; [reflexivity|]. split; [|eapply next_of_last; eauto]. specialize (U k). rewrite LB in U. apply Forall_app in U. destruct U as [_ U]. inversion U; subst. cbn in H1. lia.
      + exists 0. split; [reflexivity|]. split; [lia|]. eapply next_of_none; eauto.
    - rewrite VB in LB. exists 0. split; [reflexivity|]. split; [lia|]. eapply next_of_none; eauto. }
  destruct CORE as (n & C1 & C2 & C3).
  assert (SN : small n). { unfold small. clear - C2 LM MX. lia. }
  assert (KK2 : K2 (onKey sep k n)) by (exists k, n; auto).
  assert (VN : view sep (onKey sep k n) st = []).
  { specialize (V (onKey sep k n)). destruct (view sep (onKey sep k n) st) as [|[x y] l]; [reflexivity|]. exfalso. destruct C3 as [C3 _]. specialize (C3 n). unfold DbOn.tbl in C3. rewrite <- V in C3. cbn in C3. specialize (C3 ltac:(discriminate)). lia. }
  destruct (appendFrom_view (onKey sep k n) vals 0 st W KK2) as (st' & l & A1 & A2 & A3 & A4 & A5 & A6). { rewrite VN. cbn. lia. } { clear - SZ MX. lia. }
  assert (RES : (match setRange mx st with
         | [] => match olast st with None => Ok 0 | Some (ck, _) => '(k0, con, _) <- split2 sep ck ;; Ok (if beq k0 k then con + 1 else 0) end
         | (ck, _) :: _ => '(k0, _, _) <- split2 sep ck ;; raise_if (beq k0 k) ValueError (match olast (before mx st) with None => Ok 0 | Some (ck, _) => '(k0, con, _) <- split2 sep ck ;; Ok (if beq k0 k then con + 1 else 0) end)
         end) = Ok n).
  { destruct (setRange mx st) as [|[ck v] rest] eqn:SR; [rewrite app_nil_r in BS; rewrite BS in C1; exact C1|].
    apply (W2_cons sep K) in WR. destruct WR as (k0 & n0 & i0 & v0 & E & _). inversion E; subst ck v0. rewrite (split2_key2 sep GS). cbn [bind]. rewrite (view2_cons sep GS) in VR. destruct (beq k0 k); [discriminate|]. exact C1. }
  rewrite RES. cbn [bind]. rewrite A1. cbn [bind].
  set (t' := fun k' => if beq k' (onKey sep k n) then vals else t k').
  exists st', n, t'. split; [reflexivity|]. split; [exact C2|]. split.
  - constructor; [exact C3|]. intros k' m. unfold DbOn.tbl, t'. destruct (beq_spec (onKey sep k' m) (onKey sep k n)) as [E|NE].
    + apply onKey_inj in E; [|exact GS]. destruct E as [-> ->]. rewrite beq_refl, N.eqb_refl. reflexivity.
    + destruct (beq_spec k' k) as [->|]; [|reflexivity]. destruct (N.eqb_spec m n); [congruence|reflexivity].
  - split; [exact A2|]. unfold t'. split; [|split].
    + intros k'. destruct (beq_spec k' (onKey sep k n)) as [->|NE]; [rewrite A3, VN; exact A4|rewrite A6 by exact NE; apply V].
    + intros k'. destruct (beq_spec k' (onKey sep k n)) as [->|NE]; [lia|rewrite A6 by exact NE; specialize (T k'); lia].
    + intros k'. destruct (beq k' (onKey sep k n)); [exact ND|apply N0].
Qed.

(** ** Removing all ordinals from one on *)
Lemma on_key2 : forall k a i on, small a -> small on -> bltb (key2 k a i) (onKey sep k on) = (a <? on).
Proof.
  intros k a i on A O. rewrite <- (app_nil_r (onKey sep k on)). destruct (N.lt_trichotomy a on) as [L|[->|L]].
  - replace (a <? on) with true by (symmetry; apply N.ltb_lt; exact L). unfold DbOn.key2, onKey at 1. apply bltb_app_lt; [|rewrite onKey_lt by assumption; apply N.ltb_lt; exact L].
    unfold onKey. rewrite !app_length. cbn [List.length]. rewrite !hexpad_len by (assumption || lia). reflexivity.
  - rewrite N.ltb_irrefl. unfold DbOn.key2, onKey at 1. rewrite bltb_prefix. reflexivity.
  - replace (a <? on) with false by (symmetry; apply N.ltb_ge; lia). apply blt_asym. unfold blt, DbOn.key2, onKey at 2. apply bltb_app_lt; [|rewrite onKey_lt by assumption; apply N.ltb_lt; exact L].
    unfold onKey. rewrite !app_length. cbn [List.length]. rewrite !hexpad_len by (assumption || lia). reflexivity.
Qed.
Lemma scanDel2_all : forall k st x, W2 st -> K k -> Forall (fun e => bltb (fst e) ((k ++ [sep]) ++ x) = false) st ->
  exists l r, scanDel2 sep k st = Ok (r, negb (isnil (view2 k st))) /\ st = l ++ r /\ view2 k r = [] /\ Forall (fun e => exists a i, fst e = key2 k a i) l.
Proof.
  intros k st x. induction st as [|e st IH]; intros W KK F.
  - exists [], []. auto.
  - pose proof W as W0. apply (W2_cons sep K) in W. destruct W as (k0 & n0 & i0 & v0 & -> & A & B & C & W & BL). inversion F; subst.
    cbn [scanDel2]. rewrite (split2_key2 sep GS). cbn [bind]. rewrite (view2_cons sep GS).
    destruct (beq_spec k0 k) as [->|NE].
    + destruct (IH W KK H2) as (l & r & I1 & -> & I3 & I4). exists ((key2 k n0 i0, v0) :: l), r. rewrite I1. cbn [bind]. split; [reflexivity|]. split; [reflexivity|]. split; [exact I3|].
      constructor; [exists n0, i0; reflexivity|exact I4].
    + assert (VN : view2 k st = []).
      { destruct (view2 k st) as [|[[m j] w] l] eqn:V; [reflexivity|]. exfalso. apply NE.
        destruct (view2_in sep K GS k m j w st W) as (IN & _ & _); [rewrite V; left; reflexivity|].
        rewrite Forall_forall in BL. specialize (BL _ IN). unfold below in BL. cbn [fst] in *.
        assert (P : key2 k m j = (k ++ [sep]) ++ (hexpad 32 m ++ sep :: hexpad 32 j)). { unfold DbOn.key2, onKey. rewrite <- !app_assoc. reflexivity. }
        rewrite P in BL. destruct (between _ _ _ _ H1 BL) as (t & Z). unfold DbOn.key2, onKey in Z. rewrite <- app_assoc in Z. cbn in Z. exact (flat_app _ _ _ _ _ _ FL KK A Z). }
      exists [], ((key2 k0 n0 i0, v0) :: st). rewrite VN. split; [reflexivity|]. split; [reflexivity|]. split; [|constructor]. rewrite (view2_cons sep GS). destruct (beq_spec k0 k); [congruence|exact VN].
Qed.
Lemma remAll2_ok : forall k on st t B, I2 st t B -> K k -> small on ->
  exists st' b t', remOnAllIoSet sep k on st = Ok (st', b) /\ nstep (tbl t) (NRemAll k on) (tbl t') (inl b) /\ I2 st' t' B /\ (forall e, In e st' -> In e st) /\
    (b = true <-> exists m, on <= m /\ tbl t k m <> []).
Proof.
  intros k on st t B I KK S. pose proof I as (W & V & T & N0). assert (KN := K_ne sep K FL _ KK). unfold remOnAllIoSet. rewrite KN. set (lo := onKey sep k on).
  pose proof (setRange_wf sep K2 lo st W) as WR. pose proof (setRange_ge sep K2 lo st W) as GE.
  assert (LO : lo = (k ++ [sep]) ++ hexpad 32 on) by (unfold lo, onKey; rewrite <- app_assoc; reflexivity).
  destruct (scanDel2_all k (setRange lo st) (hexpad 32 on) WR KK) as (l & r & D1 & D2 & D3 & D4). { rewrite <- LO. exact GE. }
  rewrite D1. cbn [bind]. pose proof (before_setRange lo st) as BS.
  assert (WB : W2 (before lo st)). { destruct W as [W1 W3]. rewrite <- BS in W1, W3. apply sorted_app in W1. apply Forall_app in W3. split; tauto. }
  assert (W' : W2 (before lo st ++ r)).
  { pose proof W as [W1 W3]. rewrite <- BS, D2 in W1, W3. split.
    - apply sorted_app in W1. destruct W1 as (B1 & B2 & B3). apply sorted_app in B2. destruct B2 as (C1 & C2 & C3). apply sorted_join; [assumption|assumption|].
      eapply Forall_impl; [|exact B3]. intros e Q. apply Forall_app in Q. apply Q.
    - apply Forall_app in W3. destruct W3 as [C1 C2]. apply Forall_app in C2. apply Forall_app. tauto. }
  assert (ENT : forall k' m st0 (e : N * bytes), wf sep K2 st0 -> In e (view sep (onKey sep k' m) st0) -> In (key2 k' m (fst e), snd e) st0 /\ small m).
  { intros k' m st0 [i v] W0 IN. apply (view_in sep K2 GS) in IN; [|exact W0]. split; [exact IN|]. destruct W0 as [_ W0]. rewrite Forall_forall in W0. destruct (W0 _ IN) as (k2 & i' & E & (k0 & n0 & -> & _ & Q) & _).
    cbn in E. apply (key2_inj sep GS) in E. destruct E as (-> & -> & ->). exact Q. }
  set (t' := fun k2 => map snd (view sep k2 (before lo st ++ r))).
  assert (WL : W2 l). { rewrite D2 in WR. destruct WR as [R1 R2]. apply sorted_app in R1. apply Forall_app in R2. split; tauto. }
  assert (VST : forall x, view sep x st = view sep x (before lo st) ++ view sep x l ++ view sep x r).
  { intros x. rewrite <- !(view_app sep), <- D2, BS. reflexivity. }
  assert (V2ST : forall x, view2 x st = view2 x (before lo st) ++ view2 x (setRange lo st)).
  { intros x. rewrite <- (view2_app sep), BS. reflexivity. }
  assert (LT : forall k' m, tbl t' k' m = if beq k' k && (on <=? m) then [] else tbl t k' m).
  { intros k' m. unfold DbOn.tbl, t'. rewrite <- (V (onKey sep k' m)). destruct (beq_spec k' k) as [->|NK]; cbn [andb].
    - destruct (N.leb_spec on m) as [LE|GT].
      + destruct (view sep (onKey sep k m) (before lo st ++ r)) as [|e q] eqn:E; [reflexivity|]. exfalso.
        destruct (ENT k m _ e W') as [IN SM]; [rewrite E; left; reflexivity|]. apply in_app_or in IN. destruct IN as [IN|IN].
        * pose proof (takewhile_all _ (fun e => bltb (fst e) lo) st) as TB. rewrite Forall_forall in TB. specialize (TB _ IN). cbn [fst] in TB. unfold lo in TB. rewrite on_key2 in TB by assumption. apply N.ltb_lt in TB. lia.
        * assert (Wr : W2 r). { rewrite D2 in WR. destruct WR as [R1 R2]. apply sorted_app in R1. apply Forall_app in R2. split; tauto. }
          assert (SI : small (fst e)). { destruct Wr as [_ Wr]. rewrite Forall_forall in Wr. destruct (Wr _ IN) as (k2 & i' & Q & _ & Q2). cbn in Q. unfold DbOn.key2 in Q. apply onKey_inj in Q; [|exact GS]. destruct Q as [_ ->]. exact Q2. }
          pose proof (view2_has k m (fst e) (snd e) r Wr SM SI IN) as X. rewrite D3 in X. destruct X.
      + rewrite VST, !(view_app sep). replace (view sep (onKey sep k m) l) with (@nil (N * bytes)); [reflexivity|].
        destruct (view sep (onKey sep k m) l) as [|e q] eqn:E; [reflexivity|]. exfalso. destruct (ENT k m l e WL) as [IN SM]; [rewrite E; left; reflexivity|].
        assert (IN' : In (key2 k m (fst e), snd e) (setRange lo st)) by (rewrite D2; apply in_or_app; left; exact IN). rewrite Forall_forall in GE. specialize (GE _ IN'). cbn [fst] in GE. unfold lo in GE. rewrite on_key2 in GE by assumption. apply N.ltb_ge in GE. lia.
    - rewrite VST, !(view_app sep). replace (view sep (onKey sep k' m) l) with (@nil (N * bytes)); [reflexivity|].
      destruct (view sep (onKey sep k' m) l) as [|e q] eqn:E; [reflexivity|]. exfalso. destruct (ENT k' m l e WL) as [IN SM]; [rewrite E; left; reflexivity|].
      rewrite Forall_forall in D4. destruct (D4 _ IN) as (a & i & Q). cbn [fst] in Q. apply (key2_inj sep GS) in Q. destruct Q as (Q & _). congruence. }
  assert (SUB : forall e, In e (before lo st ++ r) -> In e st).
  { intros e IN. rewrite <- BS, D2. apply in_app_or in IN. apply in_or_app. destruct IN; [left; assumption|right; apply in_or_app; right; assumption]. }
  assert (BV : view2 k (setRange lo st) <> [] <-> exists m, on <= m /\ tbl t k m <> []).
  { split.
    - intros NE. destruct (view2 k (setRange lo st)) as [|[[m i] v] q] eqn:E; [congruence|]. destruct (view2_in sep K GS k m i v _ WR) as (IN & SM & SI); [rewrite E; left; reflexivity|].
      exists m. split.
      + rewrite Forall_forall in GE. specialize (GE _ IN). cbn [fst] in GE. unfold lo in GE. rewrite on_key2 in GE by assumption. apply N.ltb_ge. exact GE.
      + rewrite <- (at_tbl sep K GS st t B k m I). assert (X : In (m, i, v) (view2 k st)). { rewrite V2ST, E. apply in_or_app. right. left. reflexivity. }
        intros Q. assert (Y : In v (map snd (at_ m (view2 k st)))). { apply in_map_iff. exists (i, v). split; [reflexivity|]. unfold at_. apply in_map_iff. exists (m, i, v). split; [reflexivity|]. apply filter_In. split; [exact X|apply N.eqb_refl]. }
        rewrite Q in Y. destruct Y.
    - intros (m & LE & NE) Q. destruct (tbl_small _ _ _ _ _ I NE) as (i & v & IN). destruct (view2_in sep K GS k m i v st W IN) as (IN' & SM & SI).
      assert (X : In (key2 k m i, v) (setRange lo st)).
      { rewrite <- BS in IN'. apply in_app_or in IN'. destruct IN' as [X|X]; [|exact X]. exfalso. pose proof (takewhile_all _ (fun e => bltb (fst e) lo) st) as TB. rewrite Forall_forall in TB. specialize (TB _ X). cbn [fst] in TB. unfold lo in TB. rewrite on_key2 in TB by assumption. apply N.ltb_lt in TB. lia. }
      pose proof (view2_has k m i v _ WR SM SI X) as Y. rewrite Q in Y. destruct Y. }
  exists (before lo st ++ r), (negb (isnil (view2 k (setRange lo st)))), t'. split; [reflexivity|]. split; [constructor; exact LT|]. split; [|split; [exact SUB|]].
  - split; [exact W'|]. split; [reflexivity|].
    assert (VW : forall k2, view sep k2 (before lo st ++ r) = [] \/ view sep k2 (before lo st ++ r) = view sep k2 st \/ True) by auto. clear VW. split.
    + intros k2. apply tnext_le. rewrite Forall_forall. intros [i v] IN. apply (view_in sep K2 GS) in IN; [|exact W']. apply SUB in IN. apply (view_in sep K2 GS) in IN; [|exact W]. specialize (T k2). apply tnext_le in T. rewrite Forall_forall in T. apply (T _ IN).
    + intros k2. unfold t'. specialize (N0 k2). rewrite <- (V k2) in N0. rewrite VST, !map_app in N0. rewrite (view_app sep), map_app.
      clear - N0. revert N0. generalize (map snd (view sep k2 (before lo st))) (map snd (view sep k2 l)) (map snd (view sep k2 r)). clear. intros a b c. revert b. induction a as [|x a IH]; intros b H; cbn in *.
      * induction b as [|y b IHb]; cbn in *; [exact H|]. inversion H; subst. auto.
      * inversion H; subst. constructor; [|eapply IH; eauto]. intros X. apply H2. apply in_app_or in X. apply in_or_app. destruct X; [left; assumption|right; apply in_or_app; right; assumption].
  - rewrite negb_true_iff, isnil_false. exact BV.
Qed.

(** ** Histories *)
Definition rekey (k2 : bytes) (o : sop) : sop :=
  match o with SPut _ l => SPut k2 l | SPin _ l => SPin k2 l | SAdd _ v => SAdd k2 v | SRem _ => SRem k2 | SRemVal _ v => SRemVal k2 v end.
Lemma used_iff : forall st t B L, I2 st t B -> (used st L <-> forall k m, tbl t k m <> [] -> m < L).
Proof.
  intros st t B L I. pose proof I as (W & _). split.
  - intros U k m NE. destruct (tbl_small _ _ _ _ _ I NE) as (i & v & IN). specialize (U k). rewrite Forall_forall in U. apply (U _ IN).
  - intros H k. rewrite Forall_forall. intros [[m i] v] IN. cbn. apply (H k). rewrite <- (at_tbl sep K GS st t B k m I). intros Q.
    assert (Y : In v (map snd (at_ m (view2 k st)))). { apply in_map_iff. exists (i, v). split; [reflexivity|]. unfold at_. apply in_map_iff. exists (m, i, v). split; [reflexivity|]. apply filter_In. split; [exact IN|apply N.eqb_refl]. }
    rewrite Q in Y. destruct Y.
Qed.
Lemma rekey_key : forall k o, sop_key (rekey k o) = k. Proof. intros k []; reflexivity. Qed.
Lemma do_nop_ok : forall o st t B L, I2 st t B -> used st L -> nop_ok L o -> L <= MaxON -> B + nop_size o <= MaxON ->
  exists st' t' r, do_nop o st = Ok (st', r) /\ nstep (tbl t) o (tbl t') r /\ nop_res o (tbl t) r /\ I2 st' t' (B + nop_size o) /\ used st' (L + 1).
Proof.
  intros o st t B L I U (KK & OK) LM SZ. destruct o as [k on o|k vals|k on]; cbn [nop_key nop_size nop_res] in *.
  - assert (SO : small on). { unfold small. assert (MX : MaxON + 1 = 16 ^ 32) by (vm_compute; reflexivity). clear - OK LM MX. lia. }
    assert (KK2 : K2 (onKey sep k on)) by (exists k, on; auto). pose proof (K_ne sep K FL _ KK) as KN.
    assert (SS : sop_size (rekey (onKey sep k on) o) = sop_size o) by (destruct o; reflexivity).
    destruct (do_sop_ok sep K2 GS FL2 (rekey (onKey sep k on) o) st t B I) as (st' & D1 & D2). { rewrite rekey_key. exact KK2. } { rewrite SS. exact SZ. }
    rewrite rekey_key, SS in *. exists st', (sop_spec t (rekey (onKey sep k on) o)), (inl (sop_out o (tbl t k on))).
    assert (SOUT : forall s, sop_out (rekey (onKey sep k on) o) s = sop_out o s) by (intros; destruct o; reflexivity). rewrite SOUT in D1.
    assert (TT : forall k' m, tbl (sop_spec t (rekey (onKey sep k on) o)) k' m = if beq k' k && (m =? on) then sop_eff o (tbl t k on) else tbl t k' m).
    { intros k' m. unfold DbOn.tbl, sop_spec. rewrite rekey_key. assert (SE : forall s, sop_eff (rekey (onKey sep k on) o) s = sop_eff o s) by (intros; destruct o; reflexivity). rewrite SE.
      destruct (beq_spec (onKey sep k' m) (onKey sep k on)) as [E|NE].
      - apply onKey_inj in E; [|exact GS]. destruct E as [-> ->]. rewrite beq_refl, N.eqb_refl. reflexivity.
      - destruct (beq_spec k' k) as [->|]; [|reflexivity]. destruct (N.eqb_spec m on); [congruence|reflexivity]. }
    split; [|split; [|split; [reflexivity|split; [exact D2|]]]].
    + destruct o; cbn [do_nop rekey do_sop] in *; unfold putOnIoSetVals, pinOnIoSetVals, addOnIoSetVal, remOnIoSet, remOnIoSetVal; rewrite ?KN, D1; reflexivity.
    + constructor. exact TT.
    + apply (used_iff _ _ _ _ D2). intros k' m NE. rewrite TT in NE. destruct (beq k' k && (m =? on)) eqn:Q.
      * apply andb_true_iff in Q. destruct Q as [_ Q]. apply N.eqb_eq in Q. lia.
      * pose proof (proj1 (used_iff _ _ _ L I) U k' m NE). lia.
  - destruct OK as [OK1 OK2]. destruct (append2_ok k vals st t B L I KK OK1 OK2 U LM SZ) as (st' & n & t' & A1 & A2 & A3 & A4).
    exists st', t', (inr n). cbn [do_nop]. rewrite A1. cbn [bind]. split; [reflexivity|]. split; [exact A3|]. split; [exact Logic.I|]. split; [exact A4|].
    apply (used_iff _ _ _ _ A4). intros k' m NE. inversion A3; subst. rewrite H4 in NE. destruct (beq k' k && (m =? n)) eqn:Q.
    + apply andb_true_iff in Q. destruct Q as [_ Q]. apply N.eqb_eq in Q. lia.
    + pose proof (proj1 (used_iff _ _ _ L I) U k' m NE). lia.
  - assert (SO : small on). { unfold small. assert (MX : MaxON + 1 = 16 ^ 32) by (vm_compute; reflexivity). clear - OK MX. lia. }
    destruct (remAll2_ok k on st t B I KK SO) as (st' & b & t' & A1 & A2 & A3 & A4 & A5). exists st', t', (inl b). cbn [do_nop]. rewrite A1. cbn [bind]. split; [reflexivity|]. split; [exact A2|].
    split; [exists b; auto|]. rewrite N.add_0_r. split; [exact A3|]. apply (used_iff _ _ _ _ A3). intros k' m NE. inversion A2; subst. rewrite H2 in NE. destruct (beq k' k && (on <=? m)); [congruence|].
    pose proof (proj1 (used_iff _ _ _ L I) U k' m NE). lia.
Qed.

Lemma nhist_ok : forall ops st t B L0 L, I2 st t B -> used st L -> Forall (nop_ok L0) ops -> L0 <= L -> L + len ops <= MaxON -> B + ntotal ops <= MaxON ->
  exists st' t' B', nhist st (tbl t) ops st' (tbl t') /\ I2 st' t' B'.
Proof.
  induction ops as [|o ops IH]; intros st t B L0 L I U F LL LM SZ; [exists st, t, B; split; [constructor|exact I]|].
  inversion F; subst. assert (LC : len (o :: ops) = len ops + 1) by (unfold len; cbn [List.length]; lia). rewrite LC in LM. cbn [ntotal fold_right] in SZ. fold (ntotal ops) in SZ.
  assert (OK : nop_ok L o). { destruct H1 as [A1 A2]. split; [exact A1|]. destruct o; [lia|exact A2|exact A2]. }
  destruct (do_nop_ok o st t B L I U OK ltac:(lia) ltac:(lia)) as (st1 & t1 & r & D1 & D2 & D3 & D4 & D5).
  destruct (IH st1 t1 _ L0 (L + 1) D4 D5 H2 ltac:(lia) ltac:(lia) ltac:(lia)) as (st' & t' & B' & E1 & E2). exists st', t', B'. split; [|exact E2]. econstructor; eauto.
Qed.
Lemma used0 : used [] 0. Proof. intros k. constructor. Qed.
End On2.
