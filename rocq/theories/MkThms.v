(** Properties of made credentials. *)
From Verif Require Import Prelude MkModel MkSpec MkProofs.
Open Scope string_scope.

Definition X1 (data : list (string * N)) : @args N := mkArgs 1%N 2%N data (Some 3%N) true 4%N 5%N (Some 6%N) (Some 7%N) None 8%N 0%N.
Definition dg (s : list (string * N)) : N := (100 + N.of_nat (List.length s))%N.

Lemma c146_data : forall V dig (X : @args V) k v, uniq (a_data X) -> k <> "d" ->
  (has (a_data X) k v -> has (subject dig X) k v) /\
  (has (subject dig X) k v -> has (a_data X) k v \/ (lacks (a_data X) k /\ ((k = "dt" /\ v = a_now X) \/ (k = "i" /\ a_recp X = Some v) \/ (k = "u" /\ a_private X = true /\ v = a_snonce X)))).
Proof.
  intros V dig X k v U ND. rewrite (val_has V (subject dig X) k v (subject_uniq V dig X)), (val_has V (a_data X) k v U), (val_subject V dig X k U).
  rewrite (proj2 (String.eqb_neq k "d") ND). destruct (val (a_data X) k) as [w|] eqn:E.
  - split; [intros Q; exact Q|intros Q; left; exact Q].
  - split; [discriminate|]. intros Q. right. split; [apply val_none; exact E|].
    destruct (String.eqb k "dt") eqn:T; [apply String.eqb_eq in T; left; split; [exact T|congruence]|].
    destruct (String.eqb k "i") eqn:I0; [apply String.eqb_eq in I0; right; left; auto|].
    destruct (String.eqb k "u") eqn:U0; [|discriminate]. apply String.eqb_eq in U0. right. right. destruct (a_private X); [|discriminate]. split; [exact U0|]. split; [reflexivity|congruence].
Qed.


Lemma c146_fields : forall V dig (X : @args V), let c := credential dig X in
  has c "i" (Val (a_issuer X)) /\ has c "s" (Val (a_schema X)) /\ has c "a" (Sub (subject dig X)) /\ has (subject dig X) "d" (dig (subject0 X)) /\
  (forall v, has c "ri" v <-> exists r, a_status X = Some r /\ v = Val r) /\ (forall v, has c "e" v <-> exists r, a_source X = Some r /\ v = Val r) /\
  (forall v, has c "r" v <-> exists r, a_rules X = Some r /\ v = Val r) /\ (forall v, has c "u" v <-> a_private X = true /\ v = Val (a_unonce X)).
Proof.
  intros V dig X c. assert (U : uniq c) by apply credential_uniq.
  assert (H : forall k v, has c k v <-> val c k = Some v) by (intros; apply val_has; exact U).
  assert (O1 : forall (o : option V) (x : option cval), x = match o with Some r => Some (Val r) | None => None end -> forall v, x = Some v <-> exists r, o = Some r /\ v = Val r).
  { intros o x -> v. destruct o as [r|]; split; intros Q.
    - exists r. split; [reflexivity|congruence].
    - destruct Q as (r' & Q & ->). congruence.
    - discriminate.
    - destruct Q as (r' & Q & _). discriminate. }
  split; [apply H; unfold c, credential; cbn zeta; destruct (a_rules X), (a_source X), (a_status X), (a_private X); reflexivity|].
  split; [apply H; unfold c, credential; cbn zeta; destruct (a_rules X), (a_source X), (a_status X), (a_private X); reflexivity|].
  split; [apply H; unfold c, credential; cbn zeta; rewrite val_set; reflexivity|].
  split; [apply val_has; [apply subject_uniq|unfold subject; rewrite val_set; reflexivity]|].
  split; [intros v; rewrite H; apply O1; unfold c, credential; cbn zeta; destruct (a_rules X), (a_source X), (a_status X), (a_private X); reflexivity|].
  split; [intros v; rewrite H; apply O1; unfold c, credential; cbn zeta; destruct (a_rules X), (a_source X), (a_status X), (a_private X); reflexivity|].
  split; [intros v; rewrite H; apply O1; unfold c, credential; cbn zeta; destruct (a_rules X), (a_source X), (a_status X), (a_private X); reflexivity|].
  intros v. rewrite H. replace (val c "u") with (if a_private X then Some (@Val V (a_unonce X)) else None) by (unfold c, credential; cbn zeta; destruct (a_rules X), (a_source X), (a_status X), (a_private X); reflexivity).
  destruct (a_private X); split; intros Q.
  - split; [reflexivity|congruence].
  - destruct Q as (_ & ->). reflexivity.
  - discriminate.
  - destruct Q as (Q & _). discriminate.
Qed.


Lemma c146_recipient_partial : forall V dig (X : @args V), uniq (a_data X) ->
  (lacks (a_data X) "i" -> forall r, has (subject dig X) "i" r <-> a_recp X = Some r) /\
  (lacks (a_data X) "u" -> forall n, has (subject dig X) "u" n <-> a_private X = true /\ n = a_snonce X).
Proof.
  intros V dig X U. split; intros L r; apply val_none in L; rewrite (val_has V (subject dig X) _ r (subject_uniq V dig X)), (val_subject V dig X _ U), L; cbn.
  - split; auto.
  - destruct (a_private X); split; intros Q.
    + split; [reflexivity|congruence].
    + destruct Q as (_ & ->). reflexivity.
    + discriminate.
    + destruct Q as (Q & _). discriminate.
Qed.


Lemma c146_recipient_refuted : (forall V dig (X : @args V) v, uniq (a_data X) ->
    (has (a_data X) "i" v -> forall r, has (subject dig X) "i" r <-> r = v) /\ (has (a_data X) "u" v -> forall n, has (subject dig X) "u" n <-> n = v)) /\
  a_recp (X1 [("i", 9%N); ("u", 0%N)]) = Some 3%N /\ a_private (X1 [("i", 9%N); ("u", 0%N)]) = true /\
  subject dg (X1 [("i", 9%N); ("u", 0%N)]) = [("d", 104%N); ("u", 0%N); ("i", 9%N); ("dt", 8%N)].
Proof.
  split; [|split; [reflexivity|split; reflexivity]].
  intros V dig X v U. split; intros H r; apply (val_has V _ _ _ U) in H; rewrite (val_has V (subject dig X) _ r (subject_uniq V dig X)), (val_subject V dig X _ U), H; cbn; split; congruence.
Qed.

Lemma c146_digest_refuted : (forall V dig (X : @args V) v, has (subject dig X) "d" v -> v = dig (subject0 X)) /\
  subject dg (X1 [("d", 9%N)]) = [("d", 104%N); ("u", 5%N); ("i", 3%N); ("dt", 8%N)].
Proof.
  split; [|reflexivity]. intros V dig X v H. apply (val_has V _ _ _ (subject_uniq V dig X)) in H. unfold subject in H. rewrite val_set in H. cbn in H. congruence.
Qed.
