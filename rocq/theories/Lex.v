(** Lexicographic order of byte strings (the order of LMDB keys, and of Python
    bytes and str comparison). *)
From Verif Require Import Prelude.
Ltac Zify.zify_post_hook ::= Z.div_mod_to_equations.

Fixpoint bltb (a b : bytes) : bool :=
  match a, b with
  | _, [] => false
  | [], _ :: _ => true
  | x :: a', y :: b' => (x <? y) || ((x =? y) && bltb a' b')
  end.
Definition blt (a b : bytes) : Prop := bltb a b = true.

Lemma bltb_irrefl : forall a, bltb a a = false.
Proof. induction a as [|x a IH]; cbn; [reflexivity|]. rewrite N.ltb_irrefl, N.eqb_refl, IH. reflexivity. Qed.

Lemma blt_trans : forall a b d, blt a b -> blt b d -> blt a d.
Proof.
  unfold blt. induction a as [|x a IH]; destruct b as [|y b]; destruct d as [|z d]; cbn; intros H1 H2; try discriminate; auto.
  apply orb_true_iff in H1, H2. apply orb_true_iff.
  destruct H1 as [H1|H1]; destruct H2 as [H2|H2].
  - left. lia.
  - left. apply andb_true_iff in H2. lia.
  - left. apply andb_true_iff in H1. lia.
  - apply andb_true_iff in H1, H2. destruct H1 as [E1 H1], H2 as [E2 H2]. right. apply andb_true_iff.
    split; [lia|eauto].
Qed.

Lemma blt_total : forall a b, bltb a b = true \/ a = b \/ bltb b a = true.
Proof.
  induction a as [|x a IH]; destruct b as [|y b]; cbn; auto.
  destruct (N.lt_trichotomy x y) as [H|[H|H]].
  - left. apply orb_true_iff. left. lia.
  - subst y. rewrite N.ltb_irrefl, N.eqb_refl. cbn. destruct (IH b) as [E|[E|E]]; auto. subst; auto.
  - right. right. apply orb_true_iff. left. lia.
Qed.

Lemma blt_neq : forall a b, blt a b -> a <> b.
Proof. intros a b H E. subst. unfold blt in H. rewrite bltb_irrefl in H. discriminate. Qed.

Lemma blt_asym : forall a b, bltb a b = true -> bltb b a = false.
Proof.
  intros a b H. destruct (bltb b a) eqn:E; [|reflexivity].
  pose proof (blt_trans a b a H E) as X. unfold blt in X. rewrite bltb_irrefl in X. discriminate.
Qed.

Lemma bltb_prefix : forall p a b, bltb (p ++ a) (p ++ b) = bltb a b.
Proof. induction p as [|x p IH]; intros; cbn; [reflexivity|]. rewrite N.ltb_irrefl, N.eqb_refl, IH. reflexivity. Qed.

Lemma bltb_map : forall f a b, (forall x y, In x a -> In y b -> (f x <? f y) = (x <? y) /\ (f x =? f y) = (x =? y)) ->
  bltb (map f a) (map f b) = bltb a b.
Proof.
  induction a as [|x a IH]; destruct b as [|y b]; intros H; cbn; auto.
  destruct (H x y) as [-> ->]; [cbn; auto|cbn; auto|]. rewrite IH; [reflexivity|].
  intros. apply H; cbn; auto.
Qed.

(** Comparison of equal length numerals is comparison of values. *)
Lemma bltb_digits : forall b l1 l2, 1 < b -> List.length l1 = List.length l2 ->
  Forall (fun d => d < b) l1 -> Forall (fun d => d < b) l2 ->
  bltb l1 l2 = (of_digits b l1 <? of_digits b l2).
Proof.
  intros b l1. induction l1 as [|x l1 IH]; destruct l2 as [|y l2]; intros Hb HL H1 H2; cbn in HL; try discriminate.
  - reflexivity.
  - apply Forall_cons_iff in H1, H2. destruct H1 as [Hx H1], H2 as [Hy H2]. cbn [bltb]. rewrite !of_digits_cons, (IH l2) by (auto; lia).
    pose proof (of_digits_bound b l1 ltac:(lia) H1) as B1. pose proof (of_digits_bound b l2 ltac:(lia) H2) as B2.
    assert (EL : len l1 = len l2) by (unfold len; lia). rewrite EL in *.
    set (P := b ^ len l2) in *. set (u := of_digits b l1) in *. set (v := of_digits b l2) in *.
    destruct (N.ltb_spec x y); cbn [orb].
    + symmetry. apply N.ltb_lt. nia.
    + destruct (N.eqb_spec x y); cbn [andb].
      * subst y. destruct (N.ltb_spec u v); symmetry; [apply N.ltb_lt|apply N.ltb_ge]; nia.
      * symmetry. apply N.ltb_ge. nia.
Qed.
