(** Layout shared by all qualified primitives: a Base64 code [bt] followed by raw
    material whose pre-padding bits are the low bits of the code's last octet. *)
From Verif Require Import Prelude B64Model B64Proofs MatterModel MatterProofs.
Ltac Zify.zify_post_hook ::= Z.div_mod_to_equations.

Definition qtext (bt raw : bytes) : bytes :=
  let ps := len bt mod 4 in bt ++ ndrop ps (encodeB64 (zeros (N.to_nat ps) ++ raw)).
Definition qbin (bt raw : bytes) : bytes :=
  to_digits 256 (N.to_nat (sceil34 (len bt))) (val bt * 4 ^ (len bt mod 4)) ++ raw.

(** [qok bt raw n]: text of total size [n] characters. *)
Record qok (bt raw : bytes) (n : N) : Prop := {
  q_txt : b64text bt;
  q_ne : bt <> [];
  q_ps : len bt mod 4 < 3;
  q_oct : octets raw;
  q_k : exists k, len bt mod 4 + len raw = 3 * N.of_nat k /\ len bt mod 4 + (n - len bt) = 4 * N.of_nat k;
  q_le : len bt <= n
}.

Lemma qmod4 : forall bt raw n, qok bt raw n -> n mod 4 = 0.
Proof. intros bt raw n [H1 H2 H3 H4 (k & A & B) H6]. lia. Qed.

Lemma qtext_len : forall bt raw n, qok bt raw n -> len (qtext bt raw) = n.
Proof.
  intros bt raw n [H1 H2 H3 H4 (k & A & B) H6]. unfold qtext. cbv zeta.
  rewrite len_app, len_ndrop. unfold len at 2. rewrite (encodeB64_length k); [lia|].
  rewrite app_length. unfold zeros. rewrite repeat_length. unfold len in *. lia.
Qed.

Lemma qtext_mat : forall bt raw n, qok bt raw n ->
  repeat 65 (N.to_nat (len bt mod 4)) ++ ndrop (len bt) (qtext bt raw)
  = encodeB64 (zeros (N.to_nat (len bt mod 4)) ++ raw).
Proof.
  intros bt raw n [H1 H2 H3 H4 (k & A & B) H6]. unfold qtext. cbv zeta. rewrite ndrop_len_app.
  symmetry. apply encode_lead with (k := k); auto. unfold len in *. lia.
Qed.

Lemma qtext_dec : forall bt raw n, qok bt raw n ->
  decodeB64 (repeat 65 (N.to_nat (len bt mod 4)) ++ ndrop (len bt) (qtext bt raw))
  = Ok (zeros (N.to_nat (len bt mod 4)) ++ raw).
Proof.
  intros bt raw n Q. rewrite (qtext_mat _ _ _ Q). destruct Q as [H1 H2 H3 H4 (k & A & B) H6].
  apply (decode_encode k).
  - apply octets_app; split; [apply octets_repeat0|exact H4].
  - rewrite app_length. unfold zeros. rewrite repeat_length. unfold len in *. lia.
Qed.

Lemma qtext_b64 : forall bt raw n, qok bt raw n -> b64text (qtext bt raw).
Proof.
  intros bt raw n [H1 H2 H3 H4 (k & A & B) H6]. unfold qtext. cbv zeta.
  apply b64text_app; split; [exact H1|]. apply b64text_ndrop. apply (encodeB64_text k).
  - apply octets_app; split; [apply octets_repeat0|exact H4].
  - rewrite app_length. unfold zeros. rewrite repeat_length. unfold len in *. lia.
Qed.

Lemma qbin_len : forall bt raw n, qok bt raw n -> len (qbin bt raw) = n * 3 / 4.
Proof.
  intros bt raw n [H1 H2 H3 H4 (k & A & B) H6]. unfold qbin. rewrite len_app. unfold len at 1.
  rewrite to_digits_length. unfold sceil34. lia.
Qed.

Lemma qcode_fits : forall bt raw n, qok bt raw n ->
  val bt * 4 ^ (len bt mod 4) < 256 ^ sceil34 (len bt).
Proof.
  intros bt raw n Q. rewrite <- pow_code3. apply N.mul_lt_mono_pos_r.
  - apply N.neq_0_lt_0, N.pow_nonzero; lia.
  - apply val_bound. apply (q_txt _ _ _ Q).
Qed.

Lemma qbin_code : forall bt raw n, qok bt raw n ->
  (i <- b64ToInt bt ;; int_to_bytes (sceil34 (len bt)) (N.shiftl i (2 * (len bt mod 4))))
  = Ok (to_digits 256 (N.to_nat (sceil34 (len bt))) (val bt * 4 ^ (len bt mod 4))).
Proof.
  intros bt raw n Q. rewrite b64ToInt_val by (try apply (q_txt _ _ _ Q); apply (q_ne _ _ _ Q)). cbn [bind].
  rewrite shiftl_mul4. unfold int_to_bytes.
  replace (_ <? 256 ^ _) with true by (symmetry; apply N.ltb_lt; apply (qcode_fits _ _ _ Q)).
  reflexivity.
Qed.

Lemma qbin_octets : forall bt raw n, qok bt raw n -> octets (qbin bt raw).
Proof.
  intros bt raw n Q. unfold qbin. apply octets_app; split; [apply to_digits_bound; lia|]. apply (q_oct _ _ _ Q).
Qed.

Lemma qval_text : forall bt raw n, qok bt raw n -> val (qtext bt raw) = int_from_bytes (qbin bt raw).
Proof.
  intros bt raw n Q. pose proof (qtext_mat _ _ _ Q) as HM. pose proof (qtext_len _ _ _ Q) as HL.
  pose proof (qcode_fits _ _ _ Q) as HB.
  destruct Q as [H1 H2 H3 H4 (k & A & B) H6].
  assert (E : qtext bt raw = bt ++ ndrop (len bt) (qtext bt raw)).
  { unfold qtext. cbv zeta. rewrite ndrop_len_app. reflexivity. }
  set (X := ndrop (len bt) (qtext bt raw)) in *.
  assert (HX : len X = n - len bt) by (unfold X; rewrite len_ndrop; lia).
  assert (HV : val X = int_from_bytes raw).
  { assert (val (repeat 65 (N.to_nat (len bt mod 4)) ++ X) = val X) as <-.
    { rewrite val_app. unfold val at 1. rewrite dig_repeat_A, of_digits_repeat0. lia. }
    rewrite HM. rewrite (val_encodeB64 k).
    - unfold int_from_bytes at 1. rewrite of_digits_app.
      unfold zeros at 1. rewrite of_digits_repeat0. reflexivity.
    - apply octets_app; split; [apply octets_repeat0|exact H4].
    - rewrite app_length. unfold zeros. rewrite repeat_length. unfold len in *. lia. }
  rewrite E, val_app, HV, HX. unfold qbin. unfold int_from_bytes.
  rewrite (of_digits_app 256 (to_digits _ _ _)).
  f_equal. rewrite of_to_digits; [|lia|rewrite N2Nat.id; exact HB].
  rewrite <- N.mul_assoc. f_equal. apply pow64_split with (k := N.of_nat k); lia.
Qed.

Theorem qdecode : forall bt raw n, qok bt raw n -> decodeB64 (qtext bt raw) = Ok (qbin bt raw).
Proof.
  intros bt raw n Q. pose proof (qtext_len _ _ _ Q) as HL. pose proof (qmod4 _ _ _ Q) as H4.
  pose proof (qbin_len _ _ _ Q) as HB.
  destruct (decode_text (N.to_nat (n / 4)) (qtext bt raw) (qtext_b64 _ _ _ Q)) as (a & D1 & D2 & D3 & D4 & D5).
  { unfold len in HL. lia. }
  rewrite D1. f_equal. apply of_digits_inj with (b := 256); try lia; try assumption.
  - apply (qbin_octets _ _ _ Q).
  - unfold len in HB. lia.
  - fold (int_from_bytes a). fold (int_from_bytes (qbin bt raw)). rewrite D5. apply (qval_text _ _ _ Q).
Qed.

Theorem qencode : forall bt raw n, qok bt raw n -> encodeB64 (qbin bt raw) = qtext bt raw.
Proof.
  intros bt raw n Q. pose proof (qtext_len _ _ _ Q) as HL. pose proof (qmod4 _ _ _ Q) as H4.
  destruct (decode_text (N.to_nat (n / 4)) (qtext bt raw) (qtext_b64 _ _ _ Q)) as (a & D1 & D2 & D3 & D4 & D5).
  { unfold len in HL. lia. }
  rewrite (qdecode _ _ _ Q) in D1. apply ok_inj in D1. subst a. exact D4.
Qed.

(** Reading [l] sextets off the binary form reads [l] characters of the text. *)
Lemma qread : forall bt raw n t l, qok bt raw n -> l <= n ->
  codeB2ToB64 (qbin bt raw ++ t) l = Ok (ntake l (qtext bt raw)).
Proof.
  intros bt raw n t l Q Hl. pose proof (qbin_len _ _ _ Q) as HB. pose proof (qmod4 _ _ _ Q) as H4.
  rewrite (codeB2ToB64_text (N.to_nat (n / 4))).
  - rewrite (qencode _ _ _ Q). reflexivity.
  - apply (qbin_octets _ _ _ Q).
  - unfold len in HB. lia.
  - lia.
Qed.

Lemma qread_le : forall bt raw n t l, qok bt raw n -> l <= len bt ->
  codeB2ToB64 (qbin bt raw ++ t) l = Ok (ntake l bt).
Proof.
  intros bt raw n t l Q Hl. rewrite (qread _ _ _ _ _ Q) by (pose proof (q_le _ _ _ Q); lia).
  unfold qtext. cbv zeta. rewrite ntake_app_le by exact Hl. reflexivity.
Qed.

Lemma qbin_cons : forall bt raw n, qok bt raw n ->
  exists x y z r, qbin bt raw = x :: y :: z :: r /\ x < 256 /\ ntake 1 bt = [B64ChrByIdx (x / 4)].
Proof.
  intros bt raw n Q. pose proof (qbin_len _ _ _ Q) as HL. pose proof (qmod4 _ _ _ Q) as H4.
  pose proof (qbin_octets _ _ _ Q) as Ho. pose proof (q_le _ _ _ Q) as Hle. pose proof (q_ne _ _ _ Q) as Hne.
  assert (Hp : 0 < len bt) by (destruct bt; [congruence|]; unfold len; cbn [List.length]; lia).
  pose proof (qencode _ _ _ Q) as HE.
  destruct (qbin bt raw) as [|x [|y [|z r]]]; unfold len in HL; cbn [List.length] in HL; try lia.
  exists x, y, z, r. split; [reflexivity|]. split; [inv Ho; assumption|].
  rewrite <- (encode_hd x y z r Ho), HE. unfold qtext. cbv zeta. rewrite ntake_app_le by lia. reflexivity.
Qed.

Lemma qbin_nab1 : forall bt raw n t, qok bt raw n -> exists x, ntake 1 bt = [x] /\ B64IdxByChr x <> None /\
  nabSextets (qbin bt raw ++ t) 1 = Ok [idx x * 4].
Proof.
  intros bt raw n t Q. destruct (qbin_cons _ _ _ Q) as (x & y & z & r & E & Hx & H1).
  exists (B64ChrByIdx (x / 4)). split; [exact H1|]. split; [rewrite idx_chr by lia; discriminate|].
  rewrite E. cbn [app]. rewrite nab1 by exact Hx. rewrite idx_fun_chr by lia. reflexivity.
Qed.

Lemma qbin_raw : forall bt raw, ndrop (sceil34 (len bt)) (qbin bt raw) = raw.
Proof.
  intros. unfold qbin. set (dd := to_digits _ _ _). assert (sceil34 (len bt) = len dd) as ->.
  { unfold dd, len. rewrite to_digits_length. lia. }
  apply ndrop_len_app.
Qed.

Lemma qbin_pad : forall bt raw n, qok bt raw n ->
  N.land (int_from_bytes (ntake 1 (ndrop (sceil34 (len bt) - 1) (qbin bt raw)))) (2 ^ (2 * (len bt mod 4)) - 1) = 0.
Proof.
  intros bt raw n Q. unfold qbin. apply pad_bits; [apply (q_ps _ _ _ Q)|].
  pose proof (q_ne _ _ _ Q) as Hne. destruct bt; [congruence|]. unfold sceil34, len. cbn [List.length]. lia.
Qed.
