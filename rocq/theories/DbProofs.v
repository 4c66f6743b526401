(** Lemmas about the database model. *)
From Verif Require Import Prelude Lex SubsModel SubsProofs DbModel DbSpec.
Ltac Zify.zify_post_hook ::= Z.div_mod_to_equations.
Open Scope N_scope.

(** ** Keys *)
Lemma rsplit1_app : forall sep a b, ~ In sep b -> rsplit1 sep (a ++ sep :: b) = Some (a, b).
Proof.
  intros sep a b NI. assert (B : rsplit1 sep b = None).
  { clear a. induction b as [|x b IH]; [reflexivity|]. cbn in *. rewrite IH by tauto. destruct (N.eqb_spec x sep); [exfalso; auto|reflexivity]. }
  induction a as [|x a IH]; cbn.
  - rewrite B, N.eqb_refl. reflexivity.
  - rewrite IH. reflexivity.
Qed.
Lemma hexval_hexchr : forall d, d < 16 -> hexval (hexchr d) = Some d.
Proof.
  intros d L. unfold hexval, hexchr. destruct (N.ltb_spec d 10).
  - replace ((48 <=? 48 + d) && (48 + d <=? 57)) with true by (symmetry; apply andb_true_iff; split; apply N.leb_le; lia). f_equal. lia.
  - replace ((48 <=? 87 + d) && (87 + d <=? 57)) with false by (symmetry; apply andb_false_iff; right; apply N.leb_gt; lia).
    replace ((97 <=? 87 + d) && (87 + d <=? 102)) with true by (symmetry; apply andb_true_iff; split; apply N.leb_le; lia). f_equal. lia.
Qed.
Lemma hexpad_nosep : forall sep w n, goodsep sep -> ~ In sep (hexpad w n).
Proof.
  intros sep w n G IN. unfold hexpad in IN. apply in_map_iff in IN. destruct IN as (d & D1 & D2).
  assert (d < 16). { pose proof (to_digits_bound 16 (Nat.max w (ndigits (N.size_nat n) 16 n)) n ltac:(lia)) as F. rewrite Forall_forall in F. apply F. exact D2. }
  unfold goodsep in G. rewrite <- D1, hexval_hexchr in G by assumption. discriminate.
Qed.
Lemma split_onKey : forall sep k n, goodsep sep -> splitOnKey sep (onKey sep k n) = Ok (k, n).
Proof.
  intros sep k n G. unfold splitOnKey, onKey. rewrite rsplit1_app by (apply hexpad_nosep; exact G).
  rewrite hexint_hexpad. reflexivity.
Qed.
Definition small (n : N) : Prop := n < 16 ^ 32.
Lemma onKey_lt : forall sep k n m, small n -> small m -> bltb (onKey sep k n) (onKey sep k m) = (n <? m).
Proof.
  intros sep k n m A B. unfold onKey. rewrite bltb_prefix. cbn [bltb]. rewrite N.ltb_irrefl, N.eqb_refl. cbn [orb andb].
  apply hexpad_order; [lia|exact A|exact B].
Qed.
Lemma onKey_inj : forall sep k n k' n', goodsep sep -> onKey sep k n = onKey sep k' n' -> k = k' /\ n = n'.
Proof.
  intros sep k n k' n' G X. pose proof (split_onKey sep k n G) as A. rewrite X, split_onKey in A by exact G. inversion A. auto.
Qed.

(** a string between two strings with a common beginning has that beginning *)
Lemma between : forall p a b s, bltb s (p ++ a) = false -> bltb s (p ++ b) = true -> exists t, s = p ++ t.
Proof.
  induction p as [|x p IH]; intros a b s A B; [exists s; reflexivity|].
  destruct s as [|y s]; [discriminate|]. cbn [app bltb] in *. apply orb_false_iff in A. destruct A as [A1 A2].
  apply orb_true_iff in B. apply N.ltb_ge in A1. destruct B as [B|B]; [apply N.ltb_lt in B; lia|].
  apply andb_true_iff in B. destruct B as [B1 B2]. apply N.eqb_eq in B1. subst y. rewrite N.eqb_refl in A2. cbn [andb] in A2.
  destruct (IH _ _ _ A2 B2) as (t & ->). exists t. reflexivity.
Qed.
(** two keys of a flat set followed by a separator do not begin one another *)
Lemma flat_app : forall sep K k k' t r, flat sep K -> K k -> K k' -> k' ++ sep :: r = (k ++ [sep]) ++ t -> k' = k.
Proof.
  intros sep K k k' t r (_ & F) A B X. rewrite <- app_assoc in X. cbn in X.
  assert (Y : (List.length k < List.length k')%nat \/ List.length k = List.length k' \/ (List.length k' < List.length k)%nat) by lia.
  destruct Y as [Y|[Y|Y]].
  - exfalso. assert (Z : exists u, k' = k ++ sep :: u).
    { clear - X Y. revert k' X Y. induction k as [|x k IH]; intros [|y k'] X Y; cbn in *; try lia.
      - inversion X; subst. exists k'. reflexivity.
      - inversion X; subst. destruct (IH k') as (u & ->); [assumption|lia|]. exists u. reflexivity. }
    destruct Z as (u & Z). exact (F _ _ _ A B Z).
  - clear F. symmetry. apply (f_equal (firstn (List.length k))) in X. rewrite firstn_app, Y, Nat.sub_diag, firstn_all, app_nil_r in X.
    rewrite <- Y, firstn_app, Nat.sub_diag, firstn_all, app_nil_r in X. congruence.
  - exfalso. assert (Z : exists u, k = k' ++ sep :: u).
    { clear - X Y. revert k X Y. induction k' as [|x k' IH]; intros [|y k] X Y; cbn in *; try lia.
      - inversion X; subst. exists k. reflexivity.
      - inversion X; subst. destruct (IH k) as (u & ->); [assumption|lia|]. exists u. reflexivity. }
    destruct Z as (u & Z). exact (F _ _ _ B A Z).
Qed.

(** ** Sorted stores *)
Definition below (key : bytes) (e : bytes * bytes) : Prop := blt key (fst e).
Fixpoint sorted (st : store) : Prop :=
  match st with [] => True | (k, _) :: st' => Forall (below k) st' /\ sorted st' end.

Lemma below_trans : forall k k' l, blt k k' -> Forall (below k') l -> Forall (below k) l.
Proof. intros k k' l L F. eapply Forall_impl; [|exact F]. intros e B. unfold below in *. eapply blt_trans; eauto. Qed.
Lemma put_in : forall ow key val st st' b e, put ow key val st = (st', b) -> In e st' -> e = (key, val) \/ In e st.
Proof.
  intros ow key val. induction st as [|[k v] st IH]; intros st' b e X IN; cbn in X.
  - inversion X; subst. destruct IN as [<-|[]]; auto.
  - destruct (beq_spec k key) as [->|NE].
    + destruct ow; inversion X; subst; [|auto]. destruct IN as [<-|IN]; [auto|right; right; exact IN].
    + destruct (bltb k key); [|inversion X; subst; destruct IN as [<-|IN]; auto].
      destruct (put ow key val st) as [r b0] eqn:P. inversion X; subst. destruct IN as [<-|IN]; [right; left; reflexivity|].
      destruct (IH _ _ _ eq_refl IN); [auto|right; right; assumption].
Qed.
Lemma put_sorted : forall ow key val st st' b, sorted st -> put ow key val st = (st', b) -> sorted st'.
Proof.
  intros ow key val. induction st as [|[k v] st IH]; intros st' b S X; cbn in X.
  - inversion X; subst. cbn. auto.
  - destruct S as [S1 S2]. destruct (beq_spec k key) as [->|NE].
    + destruct ow; inversion X; subst; cbn; auto.
    + destruct (bltb k key) eqn:L.
      * destruct (put ow key val st) as [r b0] eqn:P. inversion X; subst. cbn. split; [|eapply IH; eauto].
        rewrite Forall_forall in *. intros e IN. destruct (put_in _ _ _ _ _ _ _ P IN) as [->|IN']; [exact L|auto].
      * inversion X; subst. cbn. assert (LT : blt key k) by (destruct (blt_total k key) as [Q|[Q|Q]]; [congruence|congruence|exact Q]).
        split; [|split; assumption]. constructor; [exact LT|]. eapply below_trans; eauto.
Qed.
Lemma del_in : forall key st st' b e, del key st = (st', b) -> In e st' -> In e st.
Proof.
  induction st as [|[k v] st IH]; intros st' b e X IN; cbn in X; [inversion X; subst; destruct IN|].
  destruct (beq k key); [inversion X; subst; right; exact IN|]. destruct (del key st) as [r b0]. inversion X; subst.
  destruct IN as [<-|IN]; [left; reflexivity|right; eauto].
Qed.
Lemma del_sorted : forall key st st' b, sorted st -> del key st = (st', b) -> sorted st'.
Proof.
  induction st as [|[k v] st IH]; intros st' b S X; cbn in X; [inversion X; subst; exact Logic.I|].
  destruct S as [S1 S2]. destruct (beq k key); [inversion X; subst; exact S2|]. destruct (del key st) as [r b0] eqn:D. inversion X; subst.
  cbn. split; [|eauto]. rewrite Forall_forall in *. intros e IN. apply S1. eapply del_in; eauto.
Qed.
Lemma sorted_app : forall a b, sorted (a ++ b) -> sorted a /\ sorted b /\ Forall (fun e => Forall (below (fst e)) b) a.
Proof.
  induction a as [|[k v] a IH]; intros b S; cbn in *; [auto|]. destruct S as [S1 S2]. destruct (IH _ S2) as (A & B & C).
  apply Forall_app in S1. destruct S1 as [S1 S3]. split; [auto|]. split; [auto|]. constructor; assumption.
Qed.
Lemma sorted_join : forall a b, sorted a -> sorted b -> Forall (fun e => Forall (below (fst e)) b) a -> sorted (a ++ b).
Proof.
  induction a as [|[k v] a IH]; intros b A B C; cbn in *; [auto|]. destruct A as [A1 A2]. inversion C; subst. split; [|auto].
  apply Forall_app. split; assumption.
Qed.
Lemma before_setRange : forall key st, before key st ++ setRange key st = st.
Proof. intros key st. unfold before, setRange. induction st as [|e st IH]; cbn; [reflexivity|]. destruct (bltb (fst e) key); cbn; [rewrite IH|]; reflexivity. Qed.

(** ** The entries of one key *)
Section View.
Variable sep : N.
Variable K : bytes -> Prop.
Hypothesis GS : goodsep sep.
Hypothesis FL : flat sep K.

Definition entry (e : bytes * bytes) : Prop := exists k n, fst e = onKey sep k n /\ K k /\ small n.
Definition wf (st : store) : Prop := sorted st /\ Forall entry st.

Fixpoint view (k : bytes) (st : store) : list (N * bytes) :=
  match st with
  | [] => []
  | (ck, v) :: st' =>
      match splitOnKey sep ck with
      | Ok (k', n) => if beq k' k then (n, v) :: view k st' else view k st'
      | Err _ => view k st'
      end
  end.
Lemma view_app : forall k a b, view k (a ++ b) = view k a ++ view k b.
Proof.
  induction a as [|[ck v] a IH]; intros b; cbn; [reflexivity|]. destruct (splitOnKey sep ck) as [[k' n]|]; [|apply IH].
  destruct (beq k' k); cbn; [rewrite IH|apply IH]; reflexivity.
Qed.
Lemma view_cons : forall k k' n v st, view k ((onKey sep k' n, v) :: st) = if beq k' k then (n, v) :: view k st else view k st.
Proof. intros. cbn. rewrite split_onKey by exact GS. reflexivity. Qed.

Lemma wf_cons : forall e st, wf (e :: st) -> exists k n v, e = (onKey sep k n, v) /\ K k /\ small n /\ wf st /\ Forall (below (onKey sep k n)) st.
Proof.
  intros [ck v] st [S F]. inversion F; subst. destruct H1 as (k & n & E & A & B). cbn in E. subst ck. destruct S as [S1 S2].
  exists k, n, v. repeat (split; auto).
Qed.
Lemma view_in : forall k n v st, wf st -> In (n, v) (view k st) <-> In (onKey sep k n, v) st.
Proof.
  intros k n v st. induction st as [|e st IH]; intros W; [reflexivity|].
  apply wf_cons in W. destruct W as (k0 & n0 & v0 & -> & A & B & W & _). rewrite view_cons. specialize (IH W). cbn [In].
  destruct (beq_spec k0 k) as [->|NE]; cbn [In]; rewrite IH; split.
  - intros [X|X]; [left; congruence|right; exact X].
  - intros [X|X]; [left|right; exact X]. inversion X. apply onKey_inj in H0; [|exact GS]. destruct H0. subst. reflexivity.
  - intros X. right. exact X.
  - intros [X|X]; [|exact X]. inversion X. apply onKey_inj in H0; [|exact GS]. destruct H0. congruence.
Qed.
Lemma view_small : forall k st, wf st -> Forall (fun e => small (fst e)) (view k st).
Proof.
  intros k st W. rewrite Forall_forall. intros [n v] IN. apply view_in in IN; [|exact W]. destruct W as [_ W].
  rewrite Forall_forall in W. destruct (W _ IN) as (k' & n' & E & _ & S). cbn in E. apply onKey_inj in E; [|exact GS]. destruct E. subst. exact S.
Qed.

(** later entries of a key have higher numbers *)
Lemma view_above : forall k n st, wf st -> small n -> Forall (below (onKey sep k n)) st -> Forall (fun e => n < fst e) (view k st).
Proof.
  intros k n st W S F. rewrite Forall_forall. intros [m v] IN. pose proof (view_small k st W) as VS. rewrite Forall_forall in VS.
  pose proof (VS _ IN) as SM. apply view_in in IN; [|exact W].
  rewrite Forall_forall in F. specialize (F _ IN). unfold below, blt in F. cbn in F. rewrite onKey_lt in F by assumption. apply N.ltb_lt. exact F.
Qed.
Fixpoint asc (l : list (N * bytes)) : Prop :=
  match l with [] => True | (n, _) :: l' => Forall (fun e => n < fst e) l' /\ asc l' end.
Lemma view_asc : forall k st, wf st -> asc (view k st).
Proof.
  intros k st. induction st as [|e st IH]; intros W; [exact Logic.I|].
  apply wf_cons in W. destruct W as (k0 & n0 & v0 & -> & A & B & W & F). rewrite view_cons.
  destruct (beq_spec k0 k) as [->|NE]; [|auto]. cbn. split; [|auto]. apply view_above; assumption.
Qed.

(** between two entries of one key there are only entries of that key *)
Lemma contiguous : forall k k' n' a b, K k -> K k' -> bltb (onKey sep k' n') (onKey sep k a) = false ->
  bltb (onKey sep k' n') (onKey sep k b) = true -> k' = k.
Proof.
  intros k k' n' a b A B X Y. unfold onKey in X, Y at 2.
  change (k ++ sep :: hexpad 32 a) with (k ++ [sep] ++ hexpad 32 a) in X. change (k ++ sep :: hexpad 32 b) with (k ++ [sep] ++ hexpad 32 b) in Y.
  rewrite app_assoc in X, Y. destruct (between _ _ _ _ X Y) as (t & Z). exact (flat_app _ _ _ _ _ _ FL A B Z).
Qed.

Lemma scan_all : forall k st on, wf st -> K k -> small on -> Forall (fun e => bltb (fst e) (onKey sep k on) = false) st ->
  scan sep k st = Ok (view k st).
Proof.
  intros k st on. induction st as [|e st IH]; intros W KK S F; [reflexivity|].
  apply wf_cons in W. destruct W as (k0 & n0 & v0 & -> & A & B & W & BL). inversion F; subst.
  rewrite view_cons. cbn [scan]. rewrite split_onKey by exact GS. cbn [bind].
  destruct (beq_spec k0 k) as [->|NE].
  - rewrite IH by assumption. reflexivity.
  - f_equal. symmetry. destruct (view k st) as [|[m w] l] eqn:V; [reflexivity|]. exfalso. apply NE.
    assert (IN : In (m, w) (view k st)) by (rewrite V; left; reflexivity). apply view_in in IN; [|exact W].
    rewrite Forall_forall in BL. eapply (contiguous k k0 n0 on m); eauto. exact (BL _ IN).
Qed.

Lemma setRange_wf : forall key st, wf st -> wf (setRange key st).
Proof.
  intros key st [S F]. rewrite <- (before_setRange key st) in S, F. apply sorted_app in S. apply Forall_app in F. split; tauto.
Qed.
Lemma setRange_ge : forall key st, wf st -> Forall (fun e => bltb (fst e) key = false) (setRange key st).
Proof.
  intros key st. unfold setRange. induction st as [|e st IH]; intros W; [constructor|]. cbn.
  destruct (bltb (fst e) key) eqn:L.
  - apply IH. apply wf_cons in W. destruct W as (k & n & v & -> & _ & _ & W & _). exact W.
  - constructor; [exact L|]. apply wf_cons in W. destruct W as (k & n & v & -> & _ & _ & W & BL). cbn in L.
    eapply Forall_impl; [|exact BL]. intros e B. unfold below in B. destruct (bltb (fst e) key) eqn:Q; [|reflexivity].
    rewrite (blt_trans _ _ _ B Q) in L. discriminate.
Qed.
Lemma setRange_view : forall k on st, wf st -> small on -> view k (setRange (onKey sep k on) st) = filter (fun e => on <=? fst e) (view k st).
Proof.
  intros k on st. induction st as [|e st IH]; intros W S; [reflexivity|].
  pose proof W as W0. apply wf_cons in W. destruct W as (k0 & n0 & v0 & -> & A & B & W & BL). unfold setRange. cbn [dropwhile fst].
  destruct (bltb (onKey sep k0 n0) (onKey sep k on)) eqn:L.
  - fold (setRange (onKey sep k on) st). rewrite IH by assumption. rewrite view_cons. destruct (beq_spec k0 k) as [->|NE]; [|reflexivity].
    cbn. rewrite onKey_lt in L by assumption. apply N.ltb_lt in L. replace (on <=? n0) with false by (symmetry; apply N.leb_gt; exact L). reflexivity.
  - symmetry. rewrite view_cons. destruct (beq_spec k0 k) as [->|NE].
    + rewrite onKey_lt in L by assumption. apply N.ltb_ge in L. cbn [filter fst].
      replace (on <=? n0) with true by (symmetry; apply N.leb_le; exact L). f_equal.
      pose proof (view_above k n0 st W B BL) as VA. clear - VA L. induction (view k st) as [|[m w] l IH]; [reflexivity|]. inversion VA; subst. cbn in *.
      replace (on <=? m) with true by (symmetry; apply N.leb_le; lia). f_equal. auto.
    + assert (VA : Forall (fun e => on <= fst e) (view k st)).
      { rewrite Forall_forall. intros [m w] IN. cbn. pose proof (view_small k st W) as VS. rewrite Forall_forall in VS. specialize (VS _ IN). cbn in VS.
        apply view_in in IN; [|exact W]. rewrite Forall_forall in BL. specialize (BL _ IN). unfold below, blt in BL. cbn in BL.
        destruct (N.leb_spec on m); [assumption|]. exfalso.
        assert (Q : bltb (onKey sep k m) (onKey sep k on) = true) by (rewrite onKey_lt by assumption; apply N.ltb_lt; assumption).
        pose proof (blt_trans _ _ _ BL Q) as Z. unfold blt in Z. congruence. }
      clear - VA. induction (view k st) as [|[m w] l IH]; [reflexivity|]. inversion VA; subst. cbn in *.
      replace (on <=? m) with true by (symmetry; apply N.leb_le; assumption). f_equal. auto.
Qed.
Lemma scan_from : forall k on st, wf st -> K k -> small on -> scan sep k (setRange (onKey sep k on) st) = Ok (filter (fun e => on <=? fst e) (view k st)).
Proof.
  intros k on st W KK S. rewrite (scan_all k (setRange (onKey sep k on) st) on (setRange_wf _ _ W) KK S (setRange_ge _ _ W)).
  rewrite setRange_view by assumption. reflexivity.
Qed.
Lemma small0 : small 0. Proof. unfold small. vm_compute. reflexivity. Qed.
Lemma filter_all : forall A (f : A -> bool) l, (forall x, In x l -> f x = true) -> filter f l = l.
Proof. induction l as [|x l IH]; intros H; cbn; [reflexivity|]. rewrite (H x) by (left; reflexivity). f_equal. apply IH. intros; apply H; right; assumption. Qed.
Lemma scan0 : forall k st, wf st -> K k -> scan sep k (setRange (suffix sep k 0) st) = Ok (view k st).
Proof.
  intros k st W KK. unfold suffix. rewrite scan_from by (auto using small0). f_equal. apply filter_all. intros x _. apply N.leb_le. lia.
Qed.

(** ** Writing and deleting one entry *)
Lemma put_wf : forall ow k n v st st' b, wf st -> K k -> small n -> put ow (onKey sep k n) v st = (st', b) -> wf st'.
Proof.
  intros ow k n v st st' b [S F] KK SM P. split; [eapply put_sorted; eauto|]. rewrite Forall_forall in *. intros e IN.
  destruct (put_in _ _ _ _ _ _ _ P IN) as [->|IN']; [|auto]. exists k, n. auto.
Qed.
Lemma tput_first : forall ow n v l, Forall (fun e => n < fst e) l -> tput ow n v l = (n, v) :: l.
Proof.
  intros ow n v l F. destruct l as [|[m w] l]; [reflexivity|]. inversion F; subst. cbn in *.
  destruct (N.eqb_spec m n); [lia|]. destruct (N.ltb_spec m n); [lia|]. reflexivity.
Qed.
Lemma put_view : forall ow k n v st st' b, wf st -> K k -> small n -> put ow (onKey sep k n) v st = (st', b) ->
  view k st' = tput ow n v (view k st) /\ (forall k', k' <> k -> view k' st' = view k' st) /\
  b = (ow || negb (existsb (fun e => fst e =? n) (view k st))).
Proof.
  intros ow k n v st. induction st as [|e st IH]; intros st' b W KK SM P.
  - cbn in P. inversion P; subst. rewrite view_cons, beq_refl. split; [reflexivity|]. split; [|rewrite orb_true_r; reflexivity].
    intros k' NE. rewrite view_cons. destruct (beq_spec k k'); [congruence|reflexivity].
  - apply wf_cons in W. destruct W as (k0 & n0 & v0 & -> & A & B & W & BL). cbn [put] in P.
    destruct (beq_spec (onKey sep k0 n0) (onKey sep k n)) as [E|NE].
    + apply onKey_inj in E; [|exact GS]. destruct E as [-> ->]. rewrite view_cons, beq_refl. cbn [tput existsb fst]. rewrite N.eqb_refl.
      destruct ow; inversion P; subst; rewrite view_cons, beq_refl; (split; [reflexivity|split; [|reflexivity]]); intros k' NK; rewrite ?view_cons;
        (destruct (beq_spec k k'); [congruence|reflexivity]).
    + destruct (bltb (onKey sep k0 n0) (onKey sep k n)) eqn:L.
      * destruct (put ow (onKey sep k n) v st) as [r b0] eqn:P0. inversion P; subst. destruct (IH _ _ W KK SM eq_refl) as (I1 & I2 & I3).
        rewrite !view_cons. destruct (beq_spec k0 k) as [->|NK].
        { rewrite onKey_lt in L by assumption. apply N.ltb_lt in L. split; [|split].
          - cbn [tput]. destruct (N.eqb_spec n0 n); [lia|]. destruct (N.ltb_spec n0 n); [|lia]. rewrite I1. reflexivity.
          - intros k' NK. rewrite !view_cons. rewrite (I2 _ NK). reflexivity.
          - rewrite I3. cbn [existsb fst]. destruct (N.eqb_spec n0 n); [lia|reflexivity]. }
        { split; [exact I1|]. split; [|exact I3]. intros k' NK'. rewrite !view_cons. rewrite (I2 _ NK'). reflexivity. }
      * inversion P; subst. assert (LT : blt (onKey sep k n) (onKey sep k0 n0)) by (destruct (blt_total (onKey sep k0 n0) (onKey sep k n)) as [Q|[Q|Q]]; [congruence|congruence|exact Q]).
        assert (W2 : wf ((onKey sep k0 n0, v0) :: st)). { split; [split; [exact BL|apply W]|constructor; [exists k0, n0; auto|apply W]]. }
        assert (VA : Forall (fun e => n < fst e) (view k ((onKey sep k0 n0, v0) :: st))).
        { apply view_above; [exact W2|exact SM|]. constructor; [exact LT|]. eapply below_trans; eauto. }
        rewrite (view_cons k k n), beq_refl. split; [symmetry; apply tput_first; exact VA|]. split.
        -- intros k' NK'. rewrite (view_cons k' k n). destruct (beq_spec k k'); [congruence|reflexivity].
        -- symmetry. apply orb_true_iff. right. apply negb_true_iff. clear - VA. induction (view k ((onKey sep k0 n0, v0) :: st)) as [|[m w] l IH]; [reflexivity|].
           inversion VA; subst. cbn in *. rewrite IH by assumption. destruct (N.eqb_spec m n); [lia|reflexivity].
Qed.
Lemma del_wf : forall key st st' b, wf st -> del key st = (st', b) -> wf st'.
Proof.
  intros key st st' b [S F] D. split; [eapply del_sorted; eauto|]. rewrite Forall_forall in *. intros e IN. apply F. eapply del_in; eauto.
Qed.
Lemma del_view : forall k n st st' b, wf st -> small n -> del (onKey sep k n) st = (st', b) ->
  view k st' = filter (fun e => negb (fst e =? n)) (view k st) /\ (forall k', k' <> k -> view k' st' = view k' st) /\
  b = existsb (fun e => fst e =? n) (view k st).
Proof.
  intros k n st. induction st as [|e st IH]; intros st' b W SM P.
  - cbn in P. inversion P; subst. cbn. auto.
  - apply wf_cons in W. destruct W as (k0 & n0 & v0 & -> & A & B & W & BL). cbn [del] in P.
    destruct (beq_spec (onKey sep k0 n0) (onKey sep k n)) as [E|NE].
    + apply onKey_inj in E; [|exact GS]. destruct E as [-> ->]. inversion P; subst. rewrite view_cons, beq_refl. cbn [filter existsb fst]. rewrite N.eqb_refl. cbn [negb].
      split; [|split; [|reflexivity]].
      * symmetry. apply filter_all. intros [m w] IN. pose proof (view_above k n st' W SM BL) as VA. rewrite Forall_forall in VA. specialize (VA _ IN). cbn in *.
        apply negb_true_iff, N.eqb_neq. lia.
      * intros k' NK. rewrite view_cons. destruct (beq_spec k k'); [congruence|reflexivity].
    + destruct (del (onKey sep k n) st) as [r b0] eqn:D. inversion P; subst. destruct (IH _ _ W SM eq_refl) as (I1 & I2 & I3). rewrite !view_cons.
      destruct (beq_spec k0 k) as [->|NK].
      * cbn [filter existsb fst]. assert (n0 <> n) by congruence. destruct (N.eqb_spec n0 n); [congruence|]. cbn [negb orb]. rewrite I1. split; [reflexivity|].
        split; [|exact I3]. intros k' NK. rewrite !view_cons. rewrite (I2 _ NK). reflexivity.
      * split; [exact I1|]. split; [|exact I3]. intros k' NK'. rewrite !view_cons. rewrite (I2 _ NK'). reflexivity.
Qed.

(** ** Deleting a walk *)
Lemma scanDel_all : forall k st on, wf st -> K k -> small on -> Forall (fun e => bltb (fst e) (onKey sep k on) = false) st ->
  exists st', scanDel sep k st = Ok (st', negb (isnil (view k st))) /\ (exists l, st = l ++ st') /\ view k st' = [] /\ (forall k', k' <> k -> view k' st' = view k' st).
Proof.
  intros k st on. induction st as [|e st IH]; intros W KK S F.
  - exists []. cbn. split; [reflexivity|]. split; [exists []; reflexivity|]. auto.
  - pose proof W as W0. apply wf_cons in W. destruct W as (k0 & n0 & v0 & -> & A & B & W & BL). inversion F; subst.
    cbn [scanDel]. rewrite split_onKey by exact GS. cbn [bind].
    destruct (beq_spec k0 k) as [->|NE].
    + destruct (IH W KK S H2) as (st' & I1 & (l & I2) & I3 & I4). exists st'. rewrite I1. cbn [bind]. rewrite view_cons, beq_refl. split; [reflexivity|].
      split; [exists ((onKey sep k n0, v0) :: l); rewrite I2; reflexivity|]. split; [exact I3|]. intros k' NK. rewrite view_cons. destruct (beq_spec k k'); [congruence|]. apply I4. exact NK.
    + assert (VN : view k st = []).
      { destruct (view k st) as [|[m w] l] eqn:V; [reflexivity|]. exfalso. apply NE.
        assert (IN : In (m, w) (view k st)) by (rewrite V; left; reflexivity). apply view_in in IN; [|exact W].
        rewrite Forall_forall in BL. eapply (contiguous k k0 n0 on m); eauto. exact (BL _ IN). }
      exists ((onKey sep k0 n0, v0) :: st). rewrite !view_cons. destruct (beq_spec k0 k); [congruence|]. rewrite VN. split; [reflexivity|]. split; [exists []; reflexivity|].
      auto.
Qed.
Lemma before_view : forall k on st, wf st -> small on -> view k (before (onKey sep k on) st) = filter (fun e => fst e <? on) (view k st).
Proof.
  intros k on st W S. pose proof (before_setRange (onKey sep k on) st) as X. pose proof (f_equal (view k) X) as Y. rewrite view_app in Y.
  pose proof (view_asc k st W) as AS. rewrite setRange_view in Y by assumption. rewrite <- Y. rewrite filter_app.
  assert (Q : filter (fun e => fst e <? on) (filter (fun e : N * bytes => on <=? fst e) (view k st)) = []).
  { clear. induction (view k st) as [|[m w] l IH]; cbn; [reflexivity|]. destruct (N.leb_spec on m); cbn; [|exact IH]. destruct (N.ltb_spec m on); [lia|exact IH]. }
  rewrite Q, app_nil_r. symmetry. apply filter_all. intros [m w] IN. cbn. apply N.ltb_lt.
  assert (W1 : wf (before (onKey sep k on) st)).
  { destruct W as [W1 W2]. rewrite <- X in W1, W2. apply sorted_app in W1. apply Forall_app in W2. split; tauto. }
  pose proof (view_small k _ W1) as VS. rewrite Forall_forall in VS. specialize (VS _ IN). cbn in VS.
  apply view_in in IN; [|exact W1]. clear - IN VS S GS. unfold before in IN. induction st as [|e st IH]; [destruct IN|]. cbn in IN.
  destruct (bltb (fst e) (onKey sep k on)) eqn:L; [|destruct IN]. destruct IN as [->|IN]; [|auto]. cbn in L. rewrite onKey_lt in L by assumption. apply N.ltb_lt. exact L.
Qed.
Lemma remAll_spec : forall k on st, wf st -> K k -> small on ->
  exists r b, scanDel sep k (setRange (onKey sep k on) st) = Ok (r, b) /\
    b = negb (isnil (filter (fun e => on <=? fst e) (view k st))) /\
    wf (before (onKey sep k on) st ++ r) /\ view k (before (onKey sep k on) st ++ r) = filter (fun e => fst e <? on) (view k st) /\
    (forall k', k' <> k -> view k' (before (onKey sep k on) st ++ r) = view k' st).
Proof.
  intros k on st W KK S. destruct (scanDel_all k _ on (setRange_wf (onKey sep k on) st W) KK S (setRange_ge _ _ W)) as (r & A1 & (l & A2) & A3 & A4).
  exists r. eexists. split; [exact A1|]. split; [rewrite setRange_view by assumption; reflexivity|].
  assert (X : before (onKey sep k on) st ++ l ++ r = st) by (rewrite <- A2; apply before_setRange).
  split.
  - destruct W as [W1 W2]. rewrite <- X in W1, W2. split.
    + apply sorted_app in W1. destruct W1 as (B1 & B2 & B3). apply sorted_app in B2. destruct B2 as (C1 & C2 & C3). apply sorted_join; [assumption|assumption|].
      eapply Forall_impl; [|exact B3]. intros e Q. apply Forall_app in Q. apply Q.
    + apply Forall_app in W2. destruct W2 as [C1 C2]. apply Forall_app in C2. apply Forall_app. tauto.
  - split.
    + rewrite view_app, A3, app_nil_r. apply before_view; assumption.
    + intros k' NK. rewrite view_app, (A4 _ NK), <- view_app, before_setRange. reflexivity.
Qed.

(** ** Next ordinal *)
Lemma olast_app : forall A (a : list A) x, olast (a ++ [x]) = Some x.
Proof. intros. unfold olast. rewrite rev_app_distr. reflexivity. Qed.
Lemma olast_cases : forall A (l : list A), (l = [] /\ olast l = None) \/ exists a x, l = a ++ [x] /\ olast l = Some x.
Proof. intros A l. destruct l as [|x l] using rev_ind; [left; auto|right]. exists l, x. split; [reflexivity|apply olast_app]. Qed.
Lemma tnext_app : forall a x, tnext (a ++ [x]) = N.max (tnext a) (fst x + 1).
Proof. intros. unfold tnext. rewrite fold_left_app. reflexivity. Qed.
Lemma asc_app : forall a x, asc (a ++ [x]) -> Forall (fun e => fst e < fst x) a /\ asc a.
Proof.
  induction a as [|[n v] a IH]; intros x A; cbn in *; [auto|]. destruct A as [A1 A2]. destruct (IH _ A2) as [B1 B2].
  apply Forall_app in A1. destruct A1 as [A1 A3]. inversion A3; subst. split; [constructor; assumption|auto].
Qed.
Lemma tnext_asc : forall l, asc l -> tnext l = nextIon l.
Proof.
  intros l A. unfold nextIon. destruct (olast_cases _ l) as [(-> & ->)|(a & [n v] & -> & ->)]; [reflexivity|].
  rewrite tnext_app. apply asc_app in A. destruct A as [A _]. cbn in *.
  assert (B : tnext a <= n).
  { clear - A. induction a as [|e a IH] using rev_ind; [cbn; lia|]. apply Forall_app in A. destruct A as [A1 A2]. inversion A2; subst. rewrite tnext_app. specialize (IH A1). cbn in *. lia. }
  lia.
Qed.
Lemma view_last_lt : forall k n v l st, wf st -> st = l ++ [(onKey sep k n, v)] -> exists r, view k st = r ++ [(n, v)].
Proof. intros k n v l st W ->. rewrite view_app. exists (view k l). f_equal. rewrite view_cons, beq_refl. reflexivity. Qed.

(** the entry just before the largest possible one of [k] belongs to [k] if any does *)
Lemma last_before : forall k mx st, wf st -> K k -> small mx ->
  Forall (fun e => bltb (fst e) (onKey sep k mx) = true) st ->
  match olast st with
  | None => view k st = []
  | Some (ck, v) => exists k' n, ck = onKey sep k' n /\ (if beq k' k then exists r, view k st = r ++ [(n, v)] else view k st = [])
  end.
Proof.
  intros k mx st W KK S F. destruct (olast_cases _ st) as [(-> & ->)|(a & [ck v] & -> & ->)]; [reflexivity|].
  pose proof W as [WS WE]. apply Forall_app in WE. destruct WE as [_ WE]. inversion WE; subst. destruct H1 as (k' & n & E & A & B). cbn in E. subst ck.
  exists k', n. split; [reflexivity|]. destruct (beq_spec k' k) as [->|NE].
  - eapply view_last_lt; eauto.
  - rewrite view_app, view_cons. destruct (beq_spec k' k); [congruence|]. cbn. rewrite app_nil_r.
    destruct (view k a) as [|[m w] l] eqn:V; [reflexivity|]. exfalso. apply NE.
    assert (WA : wf a). { split; [apply sorted_app in WS; tauto|]. destruct W as [_ W]. apply Forall_app in W. tauto. }
    assert (IN : In (m, w) (view k a)) by (rewrite V; left; reflexivity). apply view_in in IN; [|exact WA].
    apply sorted_app in WS. destruct WS as (_ & _ & WS). rewrite Forall_forall in WS. specialize (WS _ IN). inversion WS; subst. unfold below in H1. cbn in H1.
    apply Forall_app in F. destruct F as [_ F]. inversion F; subst. cbn in H3.
    eapply (contiguous k k' n m mx); eauto. apply blt_asym. exact H1.
Qed.
End View.
