(** Ordinal numbered ordered sets. *)
From Verif Require Import Prelude Lex SubsModel SubsProofs DbModel DbSpec DbProofs DbRef.
From Coq Require Import Sorting.Sorted.
Ltac Zify.zify_post_hook ::= Z.div_mod_to_equations.
Open Scope N_scope.

Lemma in_split_last : forall (x : N) l, In x l -> exists a b, l = a ++ x :: b /\ ~ In x b.
Proof.
  induction l as [|y l IH]; intros IN; [destruct IN|]. destruct (in_dec N.eq_dec x l) as [I|NI].
  - destruct (IH I) as (a & b & -> & NB). exists (y :: a), b. auto.
  - destruct IN as [->|]; [|contradiction]. exists [], l. auto.
Qed.
Lemma bltb_app_lt : forall a b x y, List.length a = List.length b -> bltb a b = true -> bltb (a ++ x) (b ++ y) = true.
Proof.
  induction a as [|c a IH]; intros [|d b] x y L X; cbn in *; try discriminate. apply orb_true_iff in X. apply orb_true_iff. destruct X as [X|X]; [left; exact X|right].
  apply andb_true_iff in X. apply andb_true_iff. destruct X. split; [assumption|]. apply IH; [lia|assumption].
Qed.

Lemma small_max : small MaxON.
Proof. unfold small. vm_compute. reflexivity. Qed.
Lemma max_small : forall j, small j -> j <= MaxON.
Proof. intros j S. unfold small in S. assert (X : MaxON + 1 = 16 ^ 32) by (vm_compute; reflexivity). lia. Qed.

Section On.
Variable sep : N.
Variable K : bytes -> Prop.
Hypothesis GS : goodsep sep.
Hypothesis FL : flat sep K.
Definition K2 (k2 : bytes) : Prop := exists k on, k2 = onKey sep k on /\ K k /\ small on.

Lemma flat2 : flat sep K2.
Proof.
  split.
  - intros (k & on & E & _). unfold onKey in E. destruct k; discriminate.
  - intros k2 k2' t (k & n & -> & A & _) (k' & n' & -> & B & _) E. unfold onKey in E.
    destruct (in_dec N.eq_dec sep t) as [I|NI].
    + destruct (in_split_last _ _ I) as (t1 & t2 & -> & N2).
      replace ((k ++ sep :: hexpad 32 n) ++ sep :: t1 ++ sep :: t2) with ((k ++ sep :: hexpad 32 n ++ sep :: t1) ++ sep :: t2) in E.
      2: { repeat rewrite <- app_assoc. cbn. repeat rewrite <- app_assoc. reflexivity. }
      pose proof (rsplit1_app sep k' (hexpad 32 n') (hexpad_nosep sep 32 n' GS)) as X. rewrite E, rsplit1_app in X by exact N2. inversion X.
      destruct FL as [_ F]. exact (F _ _ _ A B (eq_sym H0)).
    + pose proof (rsplit1_app sep k' (hexpad 32 n') (hexpad_nosep sep 32 n' GS)) as X. rewrite E, rsplit1_app in X by exact NI. inversion X.
      destruct FL as [_ F]. exact (F _ _ _ A B (eq_sym H0)).
Qed.

Definition key2 (k : bytes) (a i : N) : bytes := onKey sep (onKey sep k a) i.
Lemma key2_lt : forall k a i b j, small a -> small b -> small i -> small j ->
  bltb (key2 k a i) (key2 k b j) = (a <? b) || ((a =? b) && (i <? j)).
Proof.
  intros k a i b j A B I J. destruct (N.lt_trichotomy a b) as [L|[->|L]].
  - replace (a <? b) with true by (symmetry; apply N.ltb_lt; exact L). cbn [orb]. unfold key2, onKey at 1 3. apply bltb_app_lt; [|rewrite onKey_lt by assumption; apply N.ltb_lt; exact L].
    unfold onKey. rewrite !app_length. cbn [List.length]. rewrite !hexpad_len by (assumption || lia). reflexivity.
  - rewrite N.ltb_irrefl, N.eqb_refl. cbn [orb andb]. apply onKey_lt; assumption.
  - replace (a <? b) with false by (symmetry; apply N.ltb_ge; lia). replace (a =? b) with false by (symmetry; apply N.eqb_neq; lia). cbn [orb andb].
    apply blt_asym. unfold blt, key2, onKey at 1 3. apply bltb_app_lt; [|rewrite onKey_lt by assumption; apply N.ltb_lt; exact L].
    unfold onKey. rewrite !app_length. cbn [List.length]. rewrite !hexpad_len by (assumption || lia). reflexivity.
Qed.
Lemma split2_key2 : forall k a i, split2 sep (key2 k a i) = Ok (k, a, i).
Proof. intros. unfold split2, unsuffix, key2. rewrite split_onKey by exact GS. cbn [bind]. rewrite split_onKey by exact GS. reflexivity. Qed.
Lemma key2_inj : forall k a i k' a' i', key2 k a i = key2 k' a' i' -> k = k' /\ a = a' /\ i = i'.
Proof. intros k a i k' a' i' E. pose proof (split2_key2 k a i) as X. rewrite E, split2_key2 in X. inversion X. auto. Qed.

Notation W2 := (wf sep K2).
Lemma W2_cons : forall e st, W2 (e :: st) -> exists k a i v, e = (key2 k a i, v) /\ K k /\ small a /\ small i /\ W2 st /\ Forall (below (key2 k a i)) st.
Proof.
  intros e st W. apply (wf_cons sep K2) in W. destruct W as (k2 & i & v & -> & (k & a & -> & A & B) & C & D & E). exists k, a, i, v. auto 10.
Qed.
Fixpoint view2 (k : bytes) (st : store) : list (N * N * bytes) :=
  match st with
  | [] => []
  | (ck, v) :: st' => match split2 sep ck with Ok (k', a, i) => if beq k' k then (a, i, v) :: view2 k st' else view2 k st' | Err _ => view2 k st' end
  end.
Lemma view2_cons : forall k k' a i v st, view2 k ((key2 k' a i, v) :: st) = if beq k' k then (a, i, v) :: view2 k st else view2 k st.
Proof. intros. cbn. rewrite split2_key2. reflexivity. Qed.
Lemma view2_app : forall k a b, view2 k (a ++ b) = view2 k a ++ view2 k b.
Proof.
  induction a as [|[ck v] a IH]; intros b; cbn; [reflexivity|]. destruct (split2 sep ck) as [[[k' n] i]|]; [|apply IH].
  destruct (beq k' k); cbn; [rewrite IH|apply IH]; reflexivity.
Qed.
Lemma view2_in : forall k a i v st, W2 st -> In (a, i, v) (view2 k st) -> In (key2 k a i, v) st /\ small a /\ small i.
Proof.
  intros k a i v st. induction st as [|e st IH]; intros W IN; [destruct IN|].
  apply W2_cons in W. destruct W as (k0 & a0 & i0 & v0 & -> & A & B & C & W & _). rewrite view2_cons in IN.
  destruct (beq_spec k0 k) as [->|NE]; [|destruct (IH W IN); split; [right; assumption|assumption]].
  destruct IN as [X|IN]; [inversion X; subst; split; [left; reflexivity|auto]|]. destruct (IH W IN); split; [right; assumption|assumption].
Qed.
(** the entries at one ordinal *)
Definition at_ (o : N) (l : list (N * N * bytes)) : list (N * bytes) := map (fun '(a, i, v) => (i, v)) (filter (fun '(a, _, _) => a =? o) l).
Lemma view_at : forall k o st, W2 st -> at_ o (view2 k st) = view sep (onKey sep k o) st.
Proof.
  intros k o st. induction st as [|e st IH]; intros W; [reflexivity|].
  apply W2_cons in W. destruct W as (k0 & a0 & i0 & v0 & -> & A & B & C & W & _). rewrite view2_cons. unfold key2. rewrite (view_cons sep GS). specialize (IH W).
  destruct (beq_spec (onKey sep k0 a0) (onKey sep k o)) as [E|NE].
  - apply onKey_inj in E; [|exact GS]. destruct E as [-> ->]. rewrite beq_refl. unfold at_. cbn. rewrite N.eqb_refl. cbn. f_equal. exact IH.
  - destruct (beq_spec k0 k) as [->|NK]; [|exact IH]. unfold at_. cbn. destruct (N.eqb_spec a0 o); [congruence|exact IH].
Qed.
(** entries ascend *)
Definition le2 (x y : N * N * bytes) : Prop := fst (fst x) <= fst (fst y).
Lemma view2_above : forall k a i st, W2 st -> small a -> small i -> Forall (below (key2 k a i)) st -> Forall (fun e => a <= fst (fst e)) (view2 k st).
Proof.
  intros k a i st W A I F. rewrite Forall_forall. intros [[b j] v] IN. destruct (view2_in _ _ _ _ _ W IN) as (IN' & B & J).
  rewrite Forall_forall in F. specialize (F _ IN'). unfold below, blt in F. cbn [fst] in *. rewrite key2_lt in F by assumption.
  apply orb_true_iff in F. destruct F as [F|F]; [apply N.ltb_lt in F; lia|]. apply andb_true_iff in F. destruct F as [F _]. apply N.eqb_eq in F. lia.
Qed.
Lemma view2_sorted : forall k st, W2 st -> StronglySorted le2 (view2 k st).
Proof.
  intros k st. induction st as [|e st IH]; intros W; [constructor|].
  apply W2_cons in W. destruct W as (k0 & a0 & i0 & v0 & -> & A & B & C & W & BL). rewrite view2_cons. destruct (beq_spec k0 k) as [->|NK]; [|auto].
  constructor; [auto|]. apply (view2_above k a0 i0); assumption.
Qed.
Lemma contiguous2 : forall k k' n' i' a i b j, K k -> K k' -> bltb (key2 k' n' i') (key2 k a i) = false -> bltb (key2 k' n' i') (key2 k b j) = true -> k' = k.
Proof.
  intros k k' n' i' a i b j A B X Y.
  assert (P : forall x y, key2 k x y = (k ++ [sep]) ++ (hexpad 32 x ++ sep :: hexpad 32 y)). { intros. unfold key2, onKey. rewrite <- !app_assoc. reflexivity. }
  rewrite (P a i) in X. rewrite (P b j) in Y. destruct (between _ _ _ _ X Y) as (t & Z). unfold key2, onKey in Z. rewrite <- app_assoc in Z. cbn in Z. exact (flat_app _ _ _ _ _ _ FL A B Z).
Qed.
Lemma scan2_all : forall k st a i, W2 st -> K k -> Forall (fun e => bltb (fst e) (key2 k a i) = false) st -> scan2 sep k st = Ok (view2 k st).
Proof.
  intros k st a i. induction st as [|e st IH]; intros W KK F; [reflexivity|].
  apply W2_cons in W. destruct W as (k0 & n0 & i0 & v0 & -> & A & B & C & W & BL). inversion F; subst.
  rewrite view2_cons. cbn [scan2]. rewrite split2_key2. cbn [bind].
  destruct (beq_spec k0 k) as [->|NE].
  - rewrite IH by assumption. reflexivity.
  - f_equal. symmetry. destruct (view2 k st) as [|[[m j] w] l] eqn:V; [reflexivity|]. exfalso. apply NE.
    destruct (view2_in k m j w st W) as (IN & _ & _); [rewrite V; left; reflexivity|].
    rewrite Forall_forall in BL. exact (contiguous2 k k0 n0 i0 a i m j KK A H1 (BL _ IN)).
Qed.
Lemma filter2_all : forall on l, Forall (fun e : N * N * bytes => on <= fst (fst e)) l -> filter (fun e => on <=? fst (fst e)) l = l.
Proof. intros on l F. apply filter_all. intros x IN. rewrite Forall_forall in F. apply N.leb_le. auto. Qed.
Lemma setRange_view2 : forall k on st, W2 st -> small on -> view2 k (setRange (key2 k on 0) st) = filter (fun e => on <=? fst (fst e)) (view2 k st).
Proof.
  intros k on st. induction st as [|e st IH]; intros W S; [reflexivity|].
  apply W2_cons in W. destruct W as (k0 & a0 & i0 & v0 & -> & A & B & C & W & BL). unfold setRange. cbn [dropwhile fst].
  destruct (bltb (key2 k0 a0 i0) (key2 k on 0)) eqn:L.
  - fold (setRange (key2 k on 0) st). rewrite IH by assumption. rewrite view2_cons. destruct (beq_spec k0 k) as [->|NE]; [|reflexivity].
    cbn. rewrite key2_lt in L by (assumption || apply small0). apply orb_true_iff in L. destruct L as [L|L].
    + apply N.ltb_lt in L. replace (on <=? a0) with false by (symmetry; apply N.leb_gt; exact L). reflexivity.
    + apply andb_true_iff in L. destruct L as [_ L]. apply N.ltb_lt in L. lia.
  - symmetry. rewrite view2_cons. destruct (beq_spec k0 k) as [->|NE].
    + rewrite key2_lt in L by (assumption || apply small0). apply orb_false_iff in L. destruct L as [L _]. apply N.ltb_ge in L. apply filter2_all. constructor; [exact L|].
      eapply Forall_impl; [|apply (view2_above k a0 i0); assumption]. cbn. intros; lia.
    + apply filter2_all. rewrite Forall_forall. intros [[m j] w] IN. cbn. destruct (view2_in _ _ _ _ _ W IN) as (IN' & SM & SJ). rewrite Forall_forall in BL. specialize (BL _ IN'). unfold below, blt in BL. cbn in BL.
      destruct (N.leb_spec on m); [assumption|]. exfalso.
      assert (Q : bltb (key2 k m j) (key2 k on 0) = true). { rewrite key2_lt by (assumption || apply small0). replace (m <? on) with true by (symmetry; apply N.ltb_lt; assumption). reflexivity. }
      pose proof (blt_trans _ _ _ BL Q) as Z. unfold blt in Z. congruence.
Qed.
Lemma scan2_from : forall k on st, W2 st -> K k -> small on -> scan2 sep k (setRange (key2 k on 0) st) = Ok (filter (fun e => on <=? fst (fst e)) (view2 k st)).
Proof.
  intros k on st W KK S. rewrite (scan2_all k _ on 0 (setRange_wf sep K2 _ _ W) KK (setRange_ge sep K2 _ _ W)). rewrite setRange_view2 by assumption. reflexivity.
Qed.

(** ** Reading all ordinals *)
Lemma sorted_filter : forall A (R : A -> A -> Prop) f l, StronglySorted R l -> StronglySorted R (filter f l).
Proof.
  induction l as [|x l IH]; intros S; cbn; [constructor|]. inversion S; subst. destruct (f x); [|auto]. constructor; [auto|].
  rewrite Forall_forall in *. intros y IN. apply filter_In in IN. apply H2. apply IN.
Qed.
Lemma sorted_map : forall A B (R : A -> A -> Prop) (Q : B -> B -> Prop) f l, (forall x y, R x y -> Q (f x) (f y)) -> StronglySorted R l -> StronglySorted Q (map f l).
Proof.
  induction l as [|x l IH]; intros H S; cbn; [constructor|]. inversion S; subst. constructor; [auto|]. rewrite Forall_forall in *. intros y IN. apply in_map_iff in IN. destruct IN as (z & <- & IN). auto.
Qed.
Definition pr (e : N * N * bytes) : N * bytes := let '(o, _, v) := e in (o, v).
Lemma pr_at : forall o l, map snd (filter (fun e => fst e =? o) (map pr l)) = map snd (at_ o l).
Proof.
  induction l as [|[[a i] v] l IH]; [reflexivity|]. unfold at_ in *. cbn. destruct (a =? o); cbn; [rewrite IH|exact IH]; reflexivity.
Qed.
Lemma at_filter : forall o on l, at_ o (filter (fun e => on <=? fst (fst e)) l) = if on <=? o then at_ o l else [].
Proof.
  induction l as [|[[a i] v] l IH]; [cbn; destruct (on <=? o); reflexivity|]. unfold at_ in *. cbn. destruct (N.leb_spec on a) as [L|L]; cbn.
  - destruct (N.eqb_spec a o) as [->|NE]; cbn; [|exact IH]. rewrite IH. replace (on <=? o) with true by (symmetry; apply N.leb_le; exact L). reflexivity.
  - rewrite IH. destruct (N.eqb_spec a o) as [->|NE]; [|reflexivity]. replace (on <=? o) with false by (symmetry; apply N.leb_gt; exact L). reflexivity.
Qed.
Notation I2 := (Inv sep K2).
Definition tbl (t : sets) : nsets := fun k o => t (onKey sep k o).
Lemma at_tbl : forall st t B k o, I2 st t B -> map snd (at_ o (view2 k st)) = tbl t k o.
Proof. intros st t B k o (W & V & _). rewrite view_at by exact W. apply V. Qed.
Lemma allIoSet_ok : forall st t B k on, I2 st t B -> K k -> small on -> exists r, getOnAllIoSet sep k on st = Ok r /\ flat_of on (tbl t k) r.
Proof.
  intros st t B k on I KK S. pose proof I as (W & _). eexists. unfold getOnAllIoSet. unfold suffix. change (onKey sep (onKey sep k on) 0) with (key2 k on 0).
  rewrite (scan2_from k on st W KK S). cbn [bind]. split; [reflexivity|].
  change (fun '(o, _, v) => (o, v)) with pr. split.
  - eapply sorted_map; [|apply sorted_filter, view2_sorted; exact W]. intros [[a i] v] [[b j] w] L. exact L.
  - intros o. rewrite pr_at, at_filter. destruct (on <=? o); [|reflexivity]. eapply at_tbl; eauto.
Qed.
(** ** The last value at each ordinal *)
Lemma at_cons : forall o a i v l, at_ o ((a, i, v) :: l) = if a =? o then (i, v) :: at_ o l else at_ o l.
Proof. intros. unfold at_. cbn. destruct (a =? o); reflexivity. Qed.
Lemma at_nil_above : forall o l, Forall (fun e : N * N * bytes => o < fst (fst e)) l -> at_ o l = [].
Proof. induction l as [|[[a i] v] l IH]; intros F; [reflexivity|]. inversion F; subst. rewrite at_cons. cbn in *. destruct (N.eqb_spec a o); [lia|auto]. Qed.
Lemma olast_cons : forall A (x : A) l, olast (x :: l) = Some (match olast l with Some y => y | None => x end).
Proof. intros A x l. destruct (olast_cases _ l) as [(-> & ->)|(a & y & -> & ->)]; [reflexivity|]. rewrite app_comm_cons. apply olast_app. Qed.
Lemma lastPer_ok : forall l on pend, StronglySorted le2 l -> Forall (fun e => on <= fst (fst e)) l -> (forall p, pend = Some p -> fst p = on) ->
  StronglySorted (fun x y : N * bytes => fst x < fst y) (lastPer on pend l) /\
  Forall (fun e => on <= fst e) (lastPer on pend l) /\
  (forall o v, In (o, v) (lastPer on pend l) <-> (match olast (map snd (at_ o l)) with Some w => v = w | None => pend = Some (o, v) end)).
Proof.
  induction l as [|[[a i] w] l IH]; intros on pend S F P.
  - cbn. destruct pend as [[p q]|]; cbn.
    + specialize (P _ eq_refl). cbn in P. subst p. split; [repeat constructor|]. split; [repeat constructor; cbn; lia|].
      intros o v. split; [intros [X|[]]; congruence|intros X; left; congruence].
    + split; [constructor|]. split; [constructor|]. intros o v. split; [intros []|discriminate].
  - inversion S; subst. inversion F; subst. cbn [fst] in *. cbn [lastPer]. destruct (N.eqb_spec a on) as [->|NE].
    + assert (F' : Forall (fun e => on <= fst (fst e)) l) by exact H4.
      destruct (IH on (Some (on, w)) H1 F') as (I1 & I2 & I3). { intros p X. inversion X. reflexivity. }
      split; [exact I1|]. split; [exact I2|]. intros o v. rewrite I3, at_cons. destruct (N.eqb_spec on o) as [->|NO].
      * cbn [map snd]. rewrite olast_cons. destruct (olast (map snd (at_ o l))); [reflexivity|]. split; intros X; congruence.
      * destruct (olast (map snd (at_ o l))) eqn:Q; [reflexivity|]. split; [congruence|]. intros X. apply P in X. cbn in X. congruence.
    + assert (LT : on < a) by lia.
      assert (F' : Forall (fun e => a <= fst (fst e)) l). { eapply Forall_impl; [|exact H2]. unfold le2. cbn. auto. }
      destruct (IH a (Some (a, w)) H1 F') as (I1 & I2 & I3). { intros p X. inversion X. reflexivity. }
      assert (CH : forall o v, In (o, v) (lastPer a (Some (a, w)) l) <-> match olast (map snd (at_ o ((a, i, w) :: l))) with Some x => v = x | None => False end).
      { intros o v. rewrite I3, at_cons. destruct (N.eqb_spec a o) as [->|NO].
        - cbn [map snd]. rewrite olast_cons. destruct (olast (map snd (at_ o l))); [reflexivity|]. split; intros X; congruence.
        - destruct (olast (map snd (at_ o l))); [reflexivity|]. split; [congruence|intros []]. }
      destruct pend as [[p q]|].
      * specialize (P _ eq_refl). cbn in P. subst p. split; [|split].
        -- constructor; [exact I1|]. eapply Forall_impl; [|exact I2]. cbn. intros; lia.
        -- constructor; [cbn; lia|]. eapply Forall_impl; [|exact I2]. cbn. intros; lia.
        -- intros o v. cbn [In]. rewrite CH. assert (NA : at_ on ((a, i, w) :: l) = []).
           { apply at_nil_above. constructor; [exact LT|]. eapply Forall_impl; [|exact F']. cbn. intros; lia. }
           destruct (N.eq_dec o on) as [->|NO].
           ++ rewrite NA. cbn. split; [intros [X|[]]; congruence|intros X; left; congruence].
           ++ destruct (olast (map snd (at_ o ((a, i, w) :: l)))) as [x|].
              ** split; [intros [X|X]; [congruence|exact X]|intros X; right; exact X].
              ** split; [intros [X|[]]; congruence|intros X; exfalso; congruence].
      * split; [exact I1|]. split; [eapply Forall_impl; [|exact I2]; cbn; intros; lia|]. intros o v. rewrite CH.
        destruct (olast (map snd (at_ o ((a, i, w) :: l)))); [reflexivity|]. split; [intros []|congruence].
Qed.
Lemma lastIoSet_ok : forall st t B k on, I2 st t B -> K k -> small on ->
  exists r, getOnAllIoSetLast sep k on st = Ok r /\ StronglySorted (fun x y => fst x < fst y) r /\ last_of (fun o => on <=? o) (tbl t k) r.
Proof.
  intros st t B k on I KK S. pose proof I as (W & _). eexists. unfold getOnAllIoSetLast. unfold suffix. change (onKey sep (onKey sep k on) 0) with (key2 k on 0).
  rewrite (scan2_from k on st W KK S). cbn [bind]. split; [reflexivity|].
  destruct (lastPer_ok (filter (fun e => on <=? fst (fst e)) (view2 k st)) on None) as (A1 & _ & A3).
  - apply sorted_filter, view2_sorted. exact W.
  - rewrite Forall_forall. intros e IN. apply filter_In in IN. apply N.leb_le. apply IN.
  - discriminate.
  - split; [exact A1|]. intros o v. rewrite A3, at_filter. destruct (on <=? o) eqn:L.
    + rewrite (at_tbl st t B k o I). destruct (olast (tbl t k o)) as [x|]; (split; [intros X; split; congruence|intros [_ X]; congruence]).
    + cbn. split; [discriminate|intros [X _]; discriminate].
Qed.

(** ** Backwards *)
Lemma setRange_le2 : forall k on st, W2 st -> K k -> small on ->
  Forall (fun e => on < fst (fst e) \/ e = (on, MaxON, snd e)) (view2 k (setRange (key2 k on MaxON) st)).
Proof.
  intros k on st W KK S. rewrite Forall_forall. intros [[m j] w] IN. cbn [fst snd].
  pose proof small_max as SM. pose proof max_small as MX.
  pose proof (setRange_wf sep K2 (key2 k on MaxON) st W) as WR. destruct (view2_in _ _ _ _ _ WR IN) as (IN' & A & B).
  pose proof (setRange_ge sep K2 (key2 k on MaxON) st W) as GE. rewrite Forall_forall in GE. specialize (GE _ IN'). cbn [fst] in GE. rewrite key2_lt in GE by assumption.
  apply orb_false_iff in GE. destruct GE as [G1 G2]. apply N.ltb_ge in G1. apply MX in B. clear MX SM S. destruct (N.eqb_spec m on) as [->|NE]; [|left; lia].
  cbn [andb] in G2. apply N.ltb_ge in G2. right. f_equal. f_equal. revert G2 B. generalize MaxON. intros; lia.
Qed.
Lemma before_le2 : forall k on st, W2 st -> small on -> Forall (fun e => fst (fst e) <= on) (view2 k (before (key2 k on MaxON) st)).
Proof.
  intros k on st W S. pose proof small_max as SM. pose proof max_small as MX.
  rewrite Forall_forall. intros [[m j] w] IN. cbn [fst snd].
  assert (WB : W2 (before (key2 k on MaxON) st)). { pose proof (before_setRange (key2 k on MaxON) st) as BS. destruct W as [W1 W3]. rewrite <- BS in W1, W3. apply sorted_app in W1. apply Forall_app in W3. split; tauto. }
  destruct (view2_in _ _ _ _ _ WB IN) as (IN' & A & B). pose proof (takewhile_all _ (fun e => bltb (fst e) (key2 k on MaxON)) st) as T. rewrite Forall_forall in T. specialize (T _ IN'). cbn [fst] in T.
  rewrite key2_lt in T by assumption. apply orb_true_iff in T. destruct T as [T|T]; [apply N.ltb_lt in T; lia|]. apply andb_true_iff in T. destruct T as [T _]. apply N.eqb_eq in T. lia.
Qed.
(** reversed walk of entries below a bound *)
Lemma scan2_rev : forall k a b j, W2 a -> K k -> Forall (fun e => bltb (fst e) (key2 k b j) = true) a -> scan2 sep k (rev a) = Ok (rev (view2 k a)).
Proof.
  intros k a b j W KK F. induction a as [|e a IH] using rev_ind; [reflexivity|].
  rewrite rev_app_distr. cbn [rev app]. pose proof W as [WS WE]. apply Forall_app in WE. destruct WE as [WE1 WE2]. apply sorted_app in WS. destruct WS as (WS1 & WS2 & WS3).
  assert (WA : W2 a) by (split; assumption). assert (WX : W2 [e]) by (split; assumption). apply W2_cons in WX. destruct WX as (k0 & n0 & i0 & v0 & -> & A & B & C & _ & _).
  apply Forall_app in F. destruct F as [F1 F2]. inversion F2; subst. cbn [scan2]. rewrite split2_key2. cbn [bind]. rewrite view2_app, view2_cons.
  destruct (beq_spec k0 k) as [->|NE].
  - rewrite (IH WA F1). cbn [bind]. rewrite rev_app_distr. reflexivity.
  - cbn [view2]. rewrite app_nil_r. f_equal. destruct (view2 k a) as [|[[m l] w] r] eqn:V; [reflexivity|]. exfalso. apply NE.
    destruct (view2_in k m l w a WA) as (IN & _ & _); [rewrite V; left; reflexivity|].
    rewrite Forall_forall in WS3. specialize (WS3 _ IN). inversion WS3; subst. cbn [fst] in *. unfold below in H3. cbn [fst] in H3.
    exact (contiguous2 k k0 n0 i0 m l b j KK A (blt_asym _ _ H3) H1).
Qed.
Definition back (on : N) (l : list (N * N * bytes)) := rev (filter (fun e => fst (fst e) <=? on) l).
Lemma back_spec : forall k on st, W2 st -> K k -> small on ->
  exists l, (backStart sep k on st = Ok l /\ scan2 sep k l = Ok (back on (view2 k st))) \/ (backStart sep k on st = Err ValueError /\ back on (view2 k st) = []).
Proof.
  intros k on st W KK S. pose proof small_max as SM. pose proof max_small as MX.
  unfold backStart, suffix. change (onKey sep (onKey sep k on) MaxON) with (key2 k on MaxON). set (mx := key2 k on MaxON).
  pose proof (before_setRange mx st) as BS. pose proof (setRange_wf sep K2 mx st W) as WR.
  assert (WB : W2 (before mx st)). { destruct W as [W1 W3]. rewrite <- BS in W1, W3. apply sorted_app in W1. apply Forall_app in W3. split; tauto. }
  pose proof (takewhile_all _ (fun e => bltb (fst e) mx) st) as TB. fold (before mx st) in TB.
  pose proof (before_le2 k on st W S) as BL. fold mx in BL. pose proof (setRange_le2 k on st W KK S) as SL. fold mx in SL.
  pose proof (scan2_rev k (before mx st) on MaxON WB KK TB) as SC.
  assert (F1 : forall l, Forall (fun e : N * N * bytes => fst (fst e) <= on) l -> filter (fun e => fst (fst e) <=? on) l = l).
  { intros l F. apply filter_all. intros x IN. rewrite Forall_forall in F. apply N.leb_le. auto. }
  assert (F2 : forall l, Forall (fun e : N * N * bytes => on < fst (fst e)) l -> filter (fun e => fst (fst e) <=? on) l = []).
  { induction l as [|x l IH]; intros F; [reflexivity|]. inversion F; subst. cbn. destruct (N.leb_spec (fst (fst x)) on); [lia|auto]. }
  destruct (setRange mx st) as [|[ck v] rest] eqn:SR.
  - (* every entry is below *)
    rewrite app_nil_r in BS. rewrite BS in *. destruct (rev st) as [|[ck v] l] eqn:RV.
    + apply (f_equal (@rev _)) in RV. rewrite rev_involutive in RV. cbn in RV. rewrite RV. exists []. left. auto.
    + assert (ST : st = rev l ++ [(ck, v)]). { apply (f_equal (@rev _)) in RV. rewrite rev_involutive in RV. exact RV. }
      assert (WE : entry sep K2 (ck, v)). { destruct W as [_ WE]. rewrite Forall_forall in WE. apply WE. rewrite ST. apply in_or_app. right. left. reflexivity. }
      destruct WE as (k2 & i0 & E & (k0 & n0 & -> & A & B) & C). cbn in E. subst ck. change (onKey sep (onKey sep k0 n0) i0) with (key2 k0 n0 i0) in *. rewrite split2_key2. cbn [bind].
      unfold back. rewrite (F1 _ BL). destruct (beq_spec k0 k) as [->|NE].
      * assert (LE : n0 <= on). { rewrite Forall_forall in BL. specialize (BL (n0, i0, v)). apply BL. rewrite ST, view2_app, view2_cons, beq_refl. apply in_or_app. right. left. reflexivity. }
        replace (n0 <=? on) with true by (symmetry; apply N.leb_le; exact LE). cbn [negb orb]. exists ((key2 k n0 i0, v) :: l). left. split; [reflexivity|exact SC].
      * cbn [negb orb]. cbn [scan2] in SC. rewrite split2_key2 in SC. cbn [bind] in SC. destruct (beq_spec k0 k); [congruence|]. inversion SC as [RN]. 
        destruct l as [|[ck' v'] l']; [exists []; right; auto|]. exists []. left. split; [|reflexivity].
        assert (WE : entry sep K2 (ck', v')). { destruct W as [_ WE]. rewrite Forall_forall in WE. apply WE. rewrite ST. apply in_or_app. left. apply -> in_rev. left. reflexivity. }
        destruct WE as (k2 & i1 & E & (k1 & n1 & -> & A1 & B1) & C1). cbn in E. subst ck'. change (onKey sep (onKey sep k1 n1) i1) with (key2 k1 n1 i1) in *. rewrite split2_key2. cbn [bind].
        destruct (beq_spec k1 k) as [->|]; [|reflexivity]. exfalso.
        assert (V : In (n1, i1, v') (view2 k st)). { rewrite ST. cbn [rev]. rewrite !view2_app. cbn. rewrite split2_key2, beq_refl. apply in_or_app. left. apply in_or_app. right. left. reflexivity. }
        apply (f_equal (@rev _)) in RN. rewrite rev_involutive in RN. cbn in RN. rewrite <- RN in V. destruct V.
  - assert (VS : view2 k st = view2 k (before mx st) ++ view2 k ((ck, v) :: rest)) by (rewrite <- view2_app, BS; reflexivity).
    apply W2_cons in WR. destruct WR as (k0 & n0 & i0 & v0 & E & A & B & C & WR & BR). inversion E; subst ck v0. clear E. rewrite split2_key2. cbn [bind].
    assert (HB : forall l, (match rev (before mx st) with [] => Err ValueError | (ck', _) :: _ => '(k', _, _) <- split2 sep ck' ;; Ok (if beq k' k then rev (before mx st) else []) end) = l ->
       (exists l', (l = Ok l' /\ scan2 sep k l' = Ok (rev (view2 k (before mx st)))) \/ (l = Err ValueError /\ rev (view2 k (before mx st)) = []))).
    { intros l <-. destruct (rev (before mx st)) as [|[ck' v'] l'] eqn:RV.
      - exists []. right. split; [reflexivity|]. cbn in SC. inversion SC. reflexivity.
      - assert (WE : entry sep K2 (ck', v')). { destruct WB as [_ WE]. rewrite Forall_forall in WE. apply WE. apply in_rev. rewrite RV. left. reflexivity. }
        destruct WE as (k2 & i1 & E & (k1 & n1 & -> & A1 & B1) & C1). cbn in E. subst ck'. change (onKey sep (onKey sep k1 n1) i1) with (key2 k1 n1 i1) in *. rewrite split2_key2. cbn [bind].
        destruct (beq_spec k1 k) as [->|NE]; [eexists; left; split; [reflexivity|exact SC]|]. exists []. left. split; [reflexivity|]. cbn [scan2] in *. rewrite split2_key2 in SC. cbn [bind] in SC.
        destruct (beq_spec k1 k); [congruence|]. symmetry. symmetry. exact SC. }
    unfold back. rewrite VS, filter_app, (F1 _ BL). rewrite view2_cons in *.
    destruct (beq_spec k0 k) as [->|NE].
    + inversion SL as [|? ? S1 S2]; subst. cbn [fst snd] in S1. assert (F3 : filter (fun e => fst (fst e) <=? on) (view2 k rest) = []).
      { apply F2. rewrite Forall_forall in *. intros [[m j] w] IN. destruct (S2 _ IN) as [Q|Q]; [exact Q|]. exfalso. cbn [snd] in Q. inversion Q; subst. destruct (view2_in _ _ _ _ _ WR IN) as (IN' & _ & _).
        specialize (BR _ IN'). unfold below, blt in BR. cbn [fst] in BR. rewrite key2_lt in BR by assumption.
        destruct S1 as [S1|S1]; [|inversion S1; subst; rewrite N.ltb_irrefl, N.eqb_refl, N.ltb_irrefl in BR; discriminate]. apply orb_true_iff in BR. destruct BR as [BR|BR]; [apply N.ltb_lt in BR; lia|].
        apply andb_true_iff in BR. destruct BR as [BR _]. apply N.eqb_eq in BR. lia. }
      destruct (N.leb_spec n0 on) as [LE|GT]; cbn [negb orb].
      * cbn [filter fst]. replace (n0 <=? on) with true by (symmetry; apply N.leb_le; exact LE). rewrite F3. eexists. left. split; [reflexivity|]. cbn [scan2]. rewrite split2_key2. cbn [bind]. rewrite beq_refl, SC. cbn [bind].
        rewrite rev_app_distr. reflexivity.
      * cbn [filter fst]. replace (n0 <=? on) with false by (symmetry; apply N.leb_gt; exact GT). rewrite F3, app_nil_r. apply HB. reflexivity.
    + cbn [negb orb]. assert (VN : view2 k rest = []).
      { destruct (view2 k rest) as [|[[m j] w] l] eqn:V; [reflexivity|]. exfalso. apply NE. destruct (view2_in k m j w rest WR) as (IN & _ & _); [rewrite V; left; reflexivity|].
        pose proof (setRange_ge sep K2 mx st W) as GE. rewrite SR in GE. inversion GE; subst. rewrite Forall_forall in BR. exact (contiguous2 k k0 n0 i0 on MaxON m j KK A H1 (BR _ IN)). }
      rewrite VN, app_nil_r. apply HB. reflexivity.
Qed.
End On.
