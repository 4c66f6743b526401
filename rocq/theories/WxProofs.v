(** Proofs about WitnessReceiptor. *)
From Coq Require Import Lia.
From Verif Require Import Prelude GrModel WxModel WxSpec.
Ltac Zify.zify_post_hook ::= Z.div_mod_to_equations.
Open Scope N_scope.

Lemma picked_In : forall w wits aw g, In g (picked w wits aw) <-> exists i v, nth_error wits i = Some v /\ v <> w /\ nth_error aw i = Some g.
Proof.
  intros w. induction wits as [|v wits IH]; intros aw g.
  - cbn. split; [intros []|]. intros (i & v & A & _). destruct i; discriminate A.
  - destruct aw as [|h aw]; cbn; [split; [intros []|intros (i & x & _ & _ & A); destruct i; discriminate A]|].
    destruct (v =? w) eqn:E.
    + apply N.eqb_eq in E. subst. rewrite IH. split.
      * intros (i & x & A). exists (S i), x. exact A.
      * intros (i & x & A & B & C). destruct i; cbn in *; [inversion A; subst; destruct (B eq_refl)|]. exists i, x. auto.
    + apply N.eqb_neq in E. cbn. rewrite IH. split.
      * intros [<-|(i & x & A)]; [exists O, v; auto|]. exists (S i), x. exact A.
      * intros (i & x & A & B & C). destruct i; cbn in *; [left; congruence|]. right. exists i, x. auto.
Qed.
Lemma spreadAll_In : forall J aw w l, In (Spread w l) (spreadAll J aw) <-> In w (j_wits J) /\ l = picked w (j_wits J) aw /\ l <> [].
Proof.
  intros J aw w l. unfold spreadAll. rewrite in_flat_map. split.
  - intros (v & V & S0). destruct (picked v (j_wits J) aw) as [|g p] eqn:P; [destruct S0|]. destruct S0 as [S0|[]]. inversion S0; subst. split; [exact V|]. split; [auto|discriminate].
  - intros (V & -> & N0). exists w. split; [exact V|]. destruct (picked w (j_wits J) aw); [destruct (N0 eq_refl)|left; reflexivity].
Qed.
Lemma submits_no : forall J w l, ~ In (Spread w l) (submits J).
Proof.
  intros J w l Z. apply in_flat_map in Z. destruct Z as (v & _ & Z). destruct (isNew J v); cbn in Z; destruct Z as [Z|Z]; try discriminate Z; try destruct Z as [Z|[]]; try discriminate Z; auto.
Qed.
Lemma full_len : forall J l, full J l = true <-> List.length l = List.length (j_wits J).
Proof. intros. unfold full. apply Nat.eqb_eq. Qed.

(** The run when the first complete list is [aw]. *)
Lemma receiptDo_found : forall J st o1 aw o2, j_wits J <> [] -> Forall (fun l => List.length l <> List.length (j_wits J)) (st :: o1) -> List.length aw = List.length (j_wits J) ->
  receiptDo J st (o1 ++ aw :: o2) = (submits J ++ spreadAll J aw, Cued).
Proof.
  intros J st o1 aw o2 NE F LE. unfold receiptDo. destruct (j_wits J) as [|w0 l0] eqn:W; [destruct (NE eq_refl)|]. rewrite <- W in *. inversion F as [|? ? F1 F2]; subst.
  assert (NF : forall l, List.length l <> List.length (j_wits J) -> full J l = false).
  { intros l L. destruct (full J l) eqn:E; [apply full_len in E; destruct (L E)|reflexivity]. }
  rewrite (NF _ F1). replace (find (full J) (o1 ++ aw :: o2)) with (Some aw); [reflexivity|].
  clear F F1. induction F2 as [|x o1 X F2 IH]; cbn; [rewrite (proj2 (full_len J aw) LE); reflexivity|]. rewrite (NF _ X). exact IH.
Qed.
Lemma receiptDo_never : forall J st obs, j_wits J <> [] -> Forall (fun l => List.length l <> List.length (j_wits J)) (st :: obs) ->
  receiptDo J st obs = (submits J, Never).
Proof.
  intros J st o1 NE F. unfold receiptDo. destruct (j_wits J) as [|w0 l0] eqn:W; [destruct (NE eq_refl)|]. rewrite <- W in *. inversion F as [|? ? F1 F2]; subst.
  assert (NF : forall l, List.length l <> List.length (j_wits J) -> full J l = false).
  { intros l L. destruct (full J l) eqn:E; [apply full_len in E; destruct (L E)|reflexivity]. }
  rewrite (NF _ F1). replace (find (full J) o1) with (@None (list wiger)); [reflexivity|].
  clear F F1. induction F2 as [|x o1 X F2 IH]; cbn; [reflexivity|]. rewrite (NF _ X). exact IH.
Qed.
