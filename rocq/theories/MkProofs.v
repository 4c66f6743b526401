(** Proofs about made credentials. *)
From Verif Require Import Prelude MkModel MkSpec.
Open Scope string_scope.

Lemma val_set : forall A k v k' (l : dict A), val (set k v l) k' = if String.eqb k' k then Some v else val l k'.
Proof.
  intros A k v k'. induction l as [|(k0, v0) l IH]; cbn; [destruct (String.eqb k' k); reflexivity|].
  destruct (String.eqb k k0) eqn:E; cbn.
  - apply String.eqb_eq in E. subst. destruct (String.eqb k' k0); reflexivity.
  - rewrite IH. destruct (String.eqb k' k0) eqn:E0; [|reflexivity]. apply String.eqb_eq in E0. subst. rewrite String.eqb_sym, E. reflexivity.
Qed.
Lemma val_none : forall A (l : dict A) k, lacks l k <-> val l k = None.
Proof.
  unfold lacks. intros A l k. induction l as [|(k0, v0) l IH]; cbn; [split; auto|]. destruct (String.eqb k k0) eqn:E.
  - apply String.eqb_eq in E. subst. split; [intros H; destruct H; left; reflexivity|discriminate].
  - apply String.eqb_neq in E. rewrite <- IH. split; [tauto|]. intros H [Z|Z]; [congruence|auto].
Qed.
Lemma val_has : forall A (l : dict A) k v, uniq l -> (has l k v <-> val l k = Some v).
Proof.
  unfold uniq, has. intros A l k v. induction l as [|(k0, v0) l IH]; cbn; intros U; [split; [intros []|discriminate]|]. inversion U; subst. destruct (String.eqb k k0) eqn:E.
  - apply String.eqb_eq in E. subst. split; [|intros Q; inversion Q; auto]. intros [Q|Q]; [congruence|]. destruct H1. apply in_map_iff. exists (k0, v). auto.
  - apply String.eqb_neq in E. rewrite <- IH by assumption. split; [intros [Q|Q]; [congruence|exact Q]|auto].
Qed.
Lemma val_merge : forall A (m l : dict A) k, uniq m -> val (merge l m) k = match val m k with Some v => Some v | None => val l k end.
Proof.
  unfold merge. intros A. induction m as [|(k0, v0) m IH]; intros l k U; [reflexivity|]. inversion U; subst. cbn [fold_left fst snd]. rewrite IH by assumption. cbn [val].
  rewrite val_set. destruct (String.eqb k k0) eqn:E; [|reflexivity]. apply String.eqb_eq in E. subst. apply val_none in H1. rewrite H1. reflexivity.
Qed.
Lemma set_uniq : forall A k v (l : dict A), uniq l -> uniq (set k v l).
Proof.
  unfold uniq. intros A k v l. induction l as [|(k0, v0) l IH]; cbn; intros U; [constructor; [intros []|constructor]|]. inversion U; subst. destruct (String.eqb k k0) eqn:E; cbn.
  - apply String.eqb_eq in E. subst. constructor; assumption.
  - constructor; [|apply IH; assumption]. intros Z. apply String.eqb_neq in E. assert (L : lacks l k0) by exact H1. apply val_none in L.
    assert (N0 : val (set k v l) k0 = None) by (rewrite val_set; destruct (String.eqb k0 k) eqn:E1; [apply String.eqb_eq in E1; congruence|exact L]).
    apply val_none in N0. destruct (N0 Z).
Qed.
Lemma merge_uniq : forall A (m l : dict A), uniq l -> uniq (merge l m).
Proof. unfold merge. intros A. induction m as [|kv m IH]; intros l U; [exact U|]. cbn. apply IH. apply set_uniq. exact U. Qed.
Lemma subject_uniq : forall V dig (X : @args V), uniq (subject dig X).
Proof.
  intros. unfold subject, subject0. cbn zeta. apply set_uniq. apply merge_uniq. apply set_uniq.
  assert (B : uniq [("d", a_blank X)]) by (constructor; [intros []|constructor]).
  destruct (a_private X); destruct (a_recp X); repeat apply set_uniq; exact B.
Qed.
Lemma credential_uniq : forall V dig (X : @args V), uniq (credential dig X).
Proof.
  intros. unfold credential. cbn zeta. apply set_uniq.
  assert (B : uniq [("v", Val (a_blank X)); ("d", Val (a_blank X))]) by (constructor; [intros [Z|[]]; discriminate Z|constructor; [intros []|constructor]]).
  unfold merge. cbn [fold_left fst snd].
  destruct (a_rules X); destruct (a_source X); destruct (a_status X); destruct (a_private X); repeat apply set_uniq; exact B.
Qed.
(** every name of the subject but "d" *)
Lemma val_subject : forall V dig (X : @args V) k, uniq (a_data X) -> val (subject dig X) k =
  if String.eqb k "d" then Some (dig (subject0 X)) else
  match val (a_data X) k with
  | Some v => Some v
  | None => if String.eqb k "dt" then Some (a_now X) else
            if String.eqb k "i" then a_recp X else
            if String.eqb k "u" then (if a_private X then Some (a_snonce X) else None) else None
  end.
Proof.
  intros V dig X k U. unfold subject. rewrite val_set. destruct (String.eqb k "d") eqn:D; [reflexivity|]. unfold subject0. cbn zeta. rewrite val_merge by exact U.
  destruct (val (a_data X) k) eqn:E; [reflexivity|]. rewrite val_set. destruct (String.eqb k "dt") eqn:T.
  - apply String.eqb_eq in T. subst. rewrite E. reflexivity.
  - destruct (a_recp X) as [r|]; [rewrite val_set; destruct (String.eqb k "i"); [reflexivity|]|].
    + destruct (a_private X); [rewrite val_set; destruct (String.eqb k "u"); [reflexivity|]|]; cbn; rewrite D; [reflexivity|destruct (String.eqb k "u"); reflexivity].
    + destruct (String.eqb k "i") eqn:I0.
      * apply String.eqb_eq in I0. subst. destruct (a_private X); [rewrite val_set|]; reflexivity.
      * destruct (a_private X); [rewrite val_set; destruct (String.eqb k "u"); [reflexivity|]|]; cbn; rewrite D; [reflexivity|destruct (String.eqb k "u"); reflexivity].
Qed.
