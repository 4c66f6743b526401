(** Proofs of property C07: Base64 integers and code conversions. *)
From Verif Require Import Prelude B64Model B64Proofs MatterProofs.
Ltac Zify.zify_post_hook ::= Z.div_mod_to_equations.

Lemma c07_int_round_trip : forall i l, 0 < l -> b64ToInt (intToB64 i l) = Ok i.
Proof.
  intros i l H. rewrite b64ToInt_val.
  - rewrite intToB64_val by exact H. reflexivity.
  - apply intToB64_text.
  - destruct (intToB64_spec i l H) as (n & E & H1 & H2). rewrite E. intros E'.
    apply (f_equal (@List.length _)) in E'. rewrite map_length, to_digits_length in E'. cbn in E'. lia.
Qed.

Lemma c07_int_text_length : forall i l, 0 < l ->
  i < 64 ^ len (intToB64 i l) /\
  (len (intToB64 i l) = l \/ l < len (intToB64 i l) /\ 64 ^ (len (intToB64 i l) - 1) <= i).
Proof.
  intros i l H. destruct (intToB64_spec i l H) as (n & E & H1 & H2).
  assert (HL : len (intToB64 i l) = N.of_nat n) by (rewrite E; unfold len; rewrite map_length, to_digits_length; reflexivity).
  rewrite HL. split; [exact H1|]. destruct H2 as [H2|[H2 H3]]; [auto|right; split; [exact H2|]].
  replace (N.of_nat n - 1) with (N.of_nat (n - 1)) by lia. exact H3.
Qed.

Lemma c07_text_round_trip : forall s, Reb64 s = true -> s <> [] ->
  exists i, b64ToInt s = Ok i /\ intToB64 i (len s) = s /\ i < 64 ^ len s.
Proof.
  intros s H Hn. apply Reb64_b64text in H. exists (val s). rewrite b64ToInt_val by assumption.
  split; [reflexivity|]. split; [apply intToB64_val_self; exact H|apply val_bound; exact H].
Qed.

Lemma c07_rejects_other_text : forall s, Reb64 s = false \/ s = [] -> exists e, b64ToInt s = Err e.
Proof.
  intros s H. destruct (b64ToInt s) as [v|e] eqn:E; [|eauto]. apply b64ToInt_ok in E.
  destruct E as (E1 & E2 & _). apply Reb64_b64text in E1. destruct H; congruence.
Qed.

Lemma sceil_mono : forall a b, a <= b -> sceil34 a <= sceil34 b.
Proof. intros. unfold sceil34. lia. Qed.

Lemma code_prefix_val : forall s b t l, b64text s -> s <> [] -> codeB64ToB2 s = Ok b -> l <= len s -> 
  N.shiftr (int_from_bytes (ntake (sceil34 l) (b ++ t))) (2 * (l mod 4)) = val (ntake l s)
  /\ sceil34 l <= len b /\ len b = sceil34 (len s).
Proof.
  intros s b t l Hs Hne Hb Hl. rewrite codeB64ToB2_ok in Hb by assumption. apply ok_inj in Hb.
  pose proof (sceil_mono _ _ Hl) as Hm. set (n := sceil34 (len s)) in *. set (k := sceil34 l) in *.
  assert (Hbl : len b = n) by (subst b; unfold len; rewrite to_digits_length; lia).
  split; [|split; [lia|exact Hbl]].
  assert (Ho : octets b) by (subst b; apply to_digits_bound; lia).
  rewrite ntake_app_le by lia. rewrite shiftr_div4.
  pose proof (int_firstn (N.to_nat k) b) as HI. unfold ntake. rewrite HI; [|unfold len in Hbl; lia|exact Ho].
  pose proof (val_firstn (N.to_nat l) s) as HV. rewrite HV; [|unfold len in Hl; lia|exact Hs].
  assert (HB : int_from_bytes b = val s * 4 ^ (len s mod 4)).
  { subst b. unfold int_from_bytes. apply of_to_digits; [lia|]. rewrite N2Nat.id. unfold n. rewrite <- pow_code3.
    apply N.mul_lt_mono_pos_r; [apply N.neq_0_lt_0, N.pow_nonzero; lia|apply val_bound; exact Hs]. }
  rewrite HB.
  replace (N.of_nat (List.length b - N.to_nat k)) with (n - k) by (clear - Hbl Hm; unfold len in Hbl; lia).
  replace (N.of_nat (List.length s - N.to_nat l)) with (len s - l) by (clear; unfold len; lia).
  pose proof (pow_code3 l) as P1. pose proof (pow_code3 (len s)) as P2. fold n in P2. fold k in P1.
  rewrite N.div_div by (apply N.pow_nonzero; lia).
  assert (E : 256 ^ (n - k) * 4 ^ (l mod 4) = 64 ^ (len s - l) * 4 ^ (len s mod 4)).
  { apply (N.mul_cancel_l _ _ (64 ^ l)); [apply N.pow_nonzero; lia|].
    transitivity (256 ^ n).
    - rewrite (N.mul_comm (256 ^ _)), N.mul_assoc, P1, <- N.pow_add_r. f_equal. clear - Hm. lia.
    - rewrite <- P2, N.mul_assoc, <- N.pow_add_r. do 2 f_equal. clear - Hl. lia. }
  rewrite E. apply N.div_mul_cancel_r; apply N.pow_nonzero; lia.
Qed.

Lemma c07_code_prefix_round_trip : forall s b t l, Reb64 s = true -> s <> [] -> codeB64ToB2 s = Ok b -> l <= len s ->
  codeB2ToB64 (b ++ t) l = Ok (ntake l s).
Proof.
  intros s b t l Hs Hne Hb Hl. apply Reb64_b64text in Hs.
  destruct (code_prefix_val s b t l Hs Hne Hb Hl) as (E & H1 & H2).
  unfold codeB2ToB64. replace (len (b ++ t) <? sceil34 l) with false by (rewrite len_app; lia).
  rewrite E. f_equal. rewrite <- (intToB64_val_self (ntake l s)) at 2 by (apply b64text_ntake; exact Hs).
  f_equal. rewrite len_ntake. lia.
Qed.

Lemma c07_code_binary_value : forall s, Reb64 s = true -> s <> [] -> exists b, codeB64ToB2 s = Ok b /\ octets b
  /\ len b = (len s * 3 + 3) / 4
  /\ int_from_bytes b = val s * 4 ^ (len s mod 4).
Proof.
  intros s Hs Hne. apply Reb64_b64text in Hs. eexists. split; [apply codeB64ToB2_ok; assumption|].
  split; [apply to_digits_bound; lia|]. split.
  - unfold len. rewrite to_digits_length. unfold sceil34, len. lia.
  - unfold int_from_bytes. apply of_to_digits; [lia|]. rewrite N2Nat.id, <- pow_code3.
    apply N.mul_lt_mono_pos_r; [apply N.neq_0_lt_0, N.pow_nonzero; lia|apply val_bound; exact Hs].
Qed.

Lemma c07_nab_agrees : forall s b t l, Reb64 s = true -> s <> [] -> codeB64ToB2 s = Ok b -> 0 < l <= len s ->
  nabSextets (b ++ t) l = codeB64ToB2 (ntake l s).
Proof.
  intros s b t l Hs Hne Hb [Hl0 Hl]. apply Reb64_b64text in Hs.
  destruct (code_prefix_val s b t l Hs Hne Hb Hl) as (E & H1 & H2).
  unfold nabSextets. replace (len (b ++ t) <? sceil34 l) with false by (rewrite len_app; lia).
  cbv zeta. rewrite E. unfold codeB64ToB2.
  assert (Hll : len (ntake l s) = l) by (rewrite len_ntake; lia).
  rewrite b64ToInt_val; [|apply b64text_ntake; exact Hs|intros E0; rewrite E0 in Hll; cbn in Hll; lia].
  cbn [bind]. rewrite Hll. reflexivity.
Qed.

Lemma c07_zero_length_refuted : exists i, b64ToInt (intToB64 i 0) <> Ok i.
Proof. exists 0. vm_compute. discriminate. Qed.



