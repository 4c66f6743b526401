From Verif Require Import Prelude B64Model.
Ltac Zify.zify_post_hook ::= Z.div_mod_to_equations.

Definition sextet (d : N) : Prop := d < 64.
(** Text over the Base64 URL safe alphabet. *)
Definition b64text (s : bytes) : Prop := Forall (fun ch => B64IdxByChr ch <> None) s.
Definition idx (ch : N) : N := match B64IdxByChr ch with Some d => d | None => 0 end.
Definition dig (s : bytes) : list N := map idx s.

Lemma forall_lt_N : forall (P : N -> bool) (n : nat),
  forallb P (map N.of_nat (seq 0 n)) = true -> forall d, d < N.of_nat n -> P d = true.
Proof.
  intros P n H d Hd. rewrite forallb_forall in H. apply H. apply in_map_iff.
  exists (N.to_nat d). split; [apply N2Nat.id|]. apply in_seq. lia.
Qed.

Lemma idx_chr : forall d, d < 64 -> B64IdxByChr (B64ChrByIdx d) = Some d.
Proof.
  intros d H.
  pose proof (forall_lt_N (fun d => match B64IdxByChr (B64ChrByIdx d) with Some x => x =? d | None => false end)
    64 eq_refl d H) as E. cbn beta in E.
  destruct (B64IdxByChr (B64ChrByIdx d)); [|discriminate]. apply N.eqb_eq in E. congruence.
Qed.

Lemma idx_lt : forall ch d, B64IdxByChr ch = Some d -> d < 64.
Proof.
  intros ch d. unfold B64IdxByChr.
  repeat match goal with |- context [if ?b then _ else _] => destruct b eqn:? end;
  intros H; inv H; lia.
Qed.

Lemma chr_idx : forall ch d, B64IdxByChr ch = Some d -> B64ChrByIdx d = ch.
Proof.
  intros ch d. unfold B64IdxByChr, B64ChrByIdx.
  repeat match goal with |- context [if ?b then _ else _] => destruct b eqn:? end;
  intros H; inv H; lia.
Qed.

Lemma chr_inj : forall a b, a < 64 -> b < 64 -> B64ChrByIdx a = B64ChrByIdx b -> a = b.
Proof.
  intros a b Ha Hb H. apply idx_chr in Ha, Hb. rewrite H in Ha. congruence.
Qed.

Lemma idx_fun_chr : forall d, d < 64 -> idx (B64ChrByIdx d) = d.
Proof. intros. unfold idx. rewrite idx_chr by assumption. reflexivity. Qed.

Lemma Reb64_b64text : forall s, Reb64 s = true <-> b64text s.
Proof.
  intros s. unfold Reb64, b64text. rewrite forallb_forall, Forall_forall. unfold isB64.
  split; intros H x Hx; specialize (H x Hx); destruct (B64IdxByChr x); congruence.
Qed.

Lemma b64text_app : forall a b, b64text (a ++ b) <-> b64text a /\ b64text b.
Proof. intros; apply Forall_app. Qed.

Lemma dig_sextets : forall s, b64text s -> Forall (fun d => d < 64) (dig s).
Proof.
  induction 1; cbn; constructor; auto. unfold idx. destruct (B64IdxByChr x) eqn:E; [|congruence].
  eapply idx_lt; eauto.
Qed.

Lemma chr_dig : forall s, b64text s -> map B64ChrByIdx (dig s) = s.
Proof.
  induction 1; cbn; [reflexivity|]. f_equal; auto. unfold idx.
  destruct (B64IdxByChr x) eqn:E; [|congruence]. eapply chr_idx; eauto.
Qed.

Lemma dig_chr : forall l, Forall (fun d => d < 64) l -> dig (map B64ChrByIdx l) = l.
Proof. induction 1; cbn; [reflexivity|]. f_equal; auto. apply idx_fun_chr; assumption. Qed.

Lemma b64text_chr : forall l, Forall (fun d => d < 64) l -> b64text (map B64ChrByIdx l).
Proof. induction 1; cbn; constructor; auto. rewrite idx_chr by assumption. discriminate. Qed.

Lemma b64text_repeat_A : forall n, b64text (repeat 65 n).
Proof. induction n; cbn; constructor; auto. discriminate. Qed.

Lemma dig_app : forall a b, dig (a ++ b) = dig a ++ dig b.
Proof. intros; apply map_app. Qed.

Lemma dig_length : forall a, List.length (dig a) = List.length a.
Proof. intros; apply map_length. Qed.

Lemma len_dig : forall a, len (dig a) = len a.
Proof. intros; unfold len; rewrite dig_length; reflexivity. Qed.

Lemma dig_repeat_A : forall n, dig (repeat 65 n) = repeat 0 n.
Proof. induction n; cbn; [reflexivity|]. rewrite <- IHn. reflexivity. Qed.

(** Numeric value of a Base64 text. *)
Definition val (s : bytes) : N := of_digits 64 (dig s).

Lemma val_app : forall a b, val (a ++ b) = val a * 64 ^ len b + val b.
Proof. intros. unfold val. rewrite dig_app, of_digits_app, len_dig. reflexivity. Qed.

Lemma val_bound : forall s, b64text s -> val s < 64 ^ len s.
Proof.
  intros. unfold val. rewrite <- (len_dig s). apply of_digits_bound; [lia|]. apply dig_sextets; auto.
Qed.

Lemma val_inj : forall a b, b64text a -> b64text b -> List.length a = List.length b -> val a = val b -> a = b.
Proof.
  intros a b Ha Hb HL HV. rewrite <- (chr_dig a Ha), <- (chr_dig b Hb). f_equal.
  eapply of_digits_inj with (b := 64); try lia; try (apply dig_sextets; assumption).
  - rewrite !dig_length; exact HL.
  - exact HV.
Qed.

(* ---------------------------------------------------------------- *)
(** b64ToInt *)



Lemma land_shiftl_0 : forall i d k, i < 2 ^ k -> N.land i (N.shiftl d k) = 0.
Proof.
  intros i d k H. apply N.bits_inj_iff. intros n. rewrite N.land_spec, N.bits_0.
  destruct (N.ltb_spec n k).
  - rewrite N.shiftl_spec_low by assumption. apply andb_false_r.
  - destruct (N.eq_dec i 0) as [->|Hi]; [rewrite N.bits_0; reflexivity|].
    rewrite (N.bits_above_log2 i n); [reflexivity|].
    apply N.log2_lt_pow2; [lia|]. eapply N.lt_le_trans; [exact H|].
    apply N.pow_le_mono_r; lia.
Qed.

Lemma lor_shiftl_add : forall i d k, i < 2 ^ k -> N.lor i (N.shiftl d k) = i + d * 2 ^ k.
Proof.
  intros i d k H. pose proof (land_shiftl_0 i d k H) as HL.
  rewrite <- N.shiftl_mul_pow2.
  rewrite <- N.lxor_lor by exact HL. symmetry. apply N.add_nocarry_lxor. exact HL.
Qed.

Lemma pow64_2 : forall e, 64 ^ e = 2 ^ (e * 6).
Proof. intros. rewrite N.mul_comm, N.pow_mul_r. reflexivity. Qed.

Lemma b64ToInt_loop_val : forall rs e i, b64text rs -> i < 64 ^ e ->
  b64ToInt_loop rs e i = Ok (val (rev rs) * 64 ^ e + i).
Proof.
  induction rs as [|ch rs IH]; intros e i Hs Hi.
  - reflexivity.
  - inv Hs. cbn [b64ToInt_loop]. destruct (B64IdxByChr ch) as [d|] eqn:E; [|congruence].
    pose proof (idx_lt _ _ E) as Hd.
    rewrite lor_shiftl_add by (rewrite <- pow64_2; exact Hi).
    rewrite <- pow64_2. rewrite IH; [|assumption|].
    + f_equal. cbn [rev]. rewrite val_app. unfold val at 3. unfold dig, of_digits, idx. cbn [map fold_left].
      rewrite E. change (len [ch]) with 1. rewrite N.pow_1_r.
      rewrite N.add_1_r, N.pow_succ_r'. lia.
    + rewrite N.add_1_r, N.pow_succ_r'. nia.
Qed.

Lemma b64text_rev : forall s, b64text s -> b64text (rev s).
Proof. intros s H. apply Forall_rev. exact H. Qed.

Lemma b64ToInt_val : forall s, b64text s -> s <> [] -> b64ToInt s = Ok (val s).
Proof.
  intros s H Hne. destruct s as [|a s]; [congruence|]. unfold b64ToInt.
  rewrite b64ToInt_loop_val.
  - rewrite rev_involutive. f_equal. cbn [N.pow]. lia.
  - apply b64text_rev; exact H.
  - cbn. lia.
Qed.

Lemma b64ToInt_loop_ok : forall rs e i v, b64ToInt_loop rs e i = Ok v -> b64text rs.
Proof.
  induction rs; intros e i v H; [constructor|]. cbn in H.
  destruct (B64IdxByChr a) eqn:E; [|discriminate]. constructor; [congruence|]. eapply IHrs; exact H.
Qed.

Lemma b64ToInt_ok : forall s v, b64ToInt s = Ok v -> b64text s /\ s <> [] /\ v = val s.
Proof.
  intros s v H. assert (Hs : s <> []) by (intros ->; discriminate).
  assert (Ht : b64text s).
  { destruct s; [congruence|]. unfold b64ToInt in H. apply b64ToInt_loop_ok in H.
    rewrite <- (rev_involutive (n :: s)). apply b64text_rev. exact H. }
  rewrite (b64ToInt_val s Ht Hs) in H. inv H. auto.
Qed.

(* ---------------------------------------------------------------- *)
(** intToB64 *)

(** number of base 64 digits, at least one *)
Fixpoint ndig (fuel : nat) (i : N) : nat :=
  match fuel with O => O | S f => if i / 64 =? 0 then 1%nat else S (ndig f (i / 64)) end.

Lemma intToB64_loop_spec : forall fuel i d, i < 2 ^ N.of_nat fuel -> (0 < fuel)%nat ->
  exists n, (0 < n)%nat /\ intToB64_loop fuel i d = map B64ChrByIdx (to_digits 64 n i) ++ d
    /\ i < 64 ^ N.of_nat n /\ (n = 1%nat \/ 64 ^ N.of_nat (n - 1) <= i).
Proof.
  induction fuel; intros i d Hi Hf; [lia|].
  cbn [intToB64_loop]. destruct (N.eqb_spec (i / 64) 0) as [E|E].
  - exists 1%nat. split; [lia|]. split; [cbn; reflexivity|]. split; [|auto].
    change (N.of_nat 1) with 1. rewrite N.pow_1_r. lia.
  - destruct fuel as [|fuel'].
    { exfalso. change (N.of_nat 1) with 1 in Hi. rewrite N.pow_1_r in Hi. lia. }
    destruct (IHfuel (i / 64) (B64ChrByIdx (i mod 64) :: d)) as (n & Hn & H1 & H2 & H3).
    { replace (N.of_nat (S (S fuel'))) with (N.succ (N.of_nat (S fuel'))) in Hi by lia.
      rewrite N.pow_succ_r' in Hi. lia. }
    { lia. }
    exists (S n). split; [lia|]. split; [|split].
    + rewrite H1. cbn [to_digits]. rewrite map_app, <- app_assoc. reflexivity.
    + replace (N.of_nat (S n)) with (N.succ (N.of_nat n)) by lia. rewrite N.pow_succ_r'. lia.
    + right. replace (S n - 1)%nat with n by lia. destruct H3 as [->|H3].
      * change (N.of_nat 1) with 1. rewrite N.pow_1_r. lia.
      * destruct n as [|n']; [lia|]. replace (S n' - 1)%nat with n' in H3 by lia.
        replace (N.of_nat (S n')) with (N.succ (N.of_nat n')) by lia. rewrite N.pow_succ_r'. lia.
Qed.

Lemma size_nat_bound : forall i, i < 2 ^ N.of_nat (S (N.size_nat i)).
Proof.
  intros i. assert (H : N.of_nat (N.size_nat i) = N.size i).
  { destruct i; cbn; [reflexivity|]. induction p; cbn; lia. }
  replace (N.of_nat (S (N.size_nat i))) with (N.succ (N.size i)) by lia.
  rewrite N.pow_succ_r'. pose proof (N.size_gt i). lia.
Qed.

Lemma to_digits_leading : forall b n k v, 1 < b -> v < b ^ N.of_nat n ->
  to_digits b (k + n) v = repeat 0 k ++ to_digits b n v.
Proof.
  intros b n k v Hb Hv. rewrite to_digits_app by lia. f_equal.
  rewrite N.div_small by exact Hv. clear. induction k; [reflexivity|].
  cbn [to_digits]. replace (0 / b) with 0 by (symmetry; destruct b; reflexivity).
  rewrite IHk. replace (0 mod b) with 0 by (symmetry; destruct b; reflexivity).
  clear. induction k; cbn; [reflexivity|]. f_equal. exact IHk.
Qed.

Lemma map_chr_zeros : forall k, map B64ChrByIdx (repeat 0 k) = repeat 65 k.
Proof. induction k; cbn; [reflexivity|]. rewrite IHk. reflexivity. Qed.

(** Full characterisation: [intToB64 i l] is the l-digit numeral, or the shortest
    numeral when l digits are not enough. *)
Lemma intToB64_spec : forall i l, 0 < l ->
  exists n, intToB64 i l = map B64ChrByIdx (to_digits 64 n i) /\ i < 64 ^ N.of_nat n
    /\ (N.of_nat n = l \/ (l < N.of_nat n /\ 64 ^ N.of_nat (n - 1) <= i)).
Proof.
  intros i l Hl. unfold intToB64. destruct (N.eqb_spec l 0) as [->|_]; [lia|].
  destruct (intToB64_loop_spec (S (N.size_nat i)) i [] (size_nat_bound i) ltac:(lia))
    as (n & Hn & H1 & H2 & H3).
  rewrite H1, app_nil_r. unfold len. rewrite map_length, to_digits_length.
  set (k := N.to_nat (l - N.of_nat n)).
  exists (k + n)%nat. rewrite to_digits_leading by (try lia; exact H2).
  rewrite map_app, map_chr_zeros. split; [reflexivity|].
  assert (Hmono : 64 ^ N.of_nat n <= 64 ^ N.of_nat (k + n)) by (apply N.pow_le_mono_r; lia).
  split; [lia|].
  destruct (N.leb_spec (N.of_nat n) l).
  - left. subst k. lia.
  - right. assert (k = 0%nat) by (subst k; lia). rewrite H0. cbn [Nat.add].
    split; [lia|]. destruct H3 as [->|H3]; [lia|exact H3].
Qed.

Lemma intToB64_fits : forall i l, 0 < l -> i < 64 ^ l ->
  intToB64 i l = map B64ChrByIdx (to_digits 64 (N.to_nat l) i).
Proof.
  intros i l Hl Hi. destruct (intToB64_spec i l Hl) as (n & H1 & H2 & H3).
  destruct H3 as [<-|[H3 H4]].
  - rewrite Nat2N.id. exact H1.
  - exfalso. assert (64 ^ l <= 64 ^ N.of_nat (n - 1)) by (apply N.pow_le_mono_r; lia). lia.
Qed.

Lemma val_map_chr : forall n i, i < 64 ^ N.of_nat n -> val (map B64ChrByIdx (to_digits 64 n i)) = i.
Proof.
  intros. unfold val. rewrite dig_chr by (apply to_digits_bound; lia). apply of_to_digits; [lia|assumption].
Qed.

Lemma intToB64_val : forall i l, 0 < l -> val (intToB64 i l) = i.
Proof.
  intros i l Hl. destruct (intToB64_spec i l Hl) as (n & H1 & H2 & _). rewrite H1.
  apply val_map_chr; exact H2.
Qed.

Lemma intToB64_text : forall i l, b64text (intToB64 i l).
Proof.
  intros i l. destruct (N.eq_dec l 0) as [->|Hl].
  - unfold intToB64. cbn. constructor.
  - destruct (intToB64_spec i l ltac:(lia)) as (n & H1 & _ & _). rewrite H1.
    apply b64text_chr. apply to_digits_bound; lia.
Qed.

Lemma intToB64_len_fits : forall i l, i < 64 ^ l -> len (intToB64 i l) = l.
Proof.
  intros i l H. destruct (N.eq_dec l 0) as [->|Hl]; [reflexivity|].
  rewrite intToB64_fits by (try lia; assumption). unfold len.
  rewrite map_length, to_digits_length. lia.
Qed.

Lemma intToB64_val_self : forall s, b64text s -> intToB64 (val s) (len s) = s.
Proof.
  intros s H. destruct s as [|a s].
  - reflexivity.
  - set (t := a :: s) in *. rewrite intToB64_fits.
    + rewrite <- (chr_dig t H) at 3. f_equal. unfold val, len. rewrite Nat2N.id.
      rewrite <- (dig_length t). apply to_of_digits; [lia|]. apply dig_sextets; exact H.
    + unfold len, t. cbn [List.length]. lia.
    + apply val_bound; exact H.
Qed.

(* ---------------------------------------------------------------- *)
(** encodeB64 / decodeB64 *)

Lemma encodeB64_app3 : forall k a b, List.length a = (3 * k)%nat -> encodeB64 (a ++ b) = encodeB64 a ++ encodeB64 b.
Proof.
  induction k; intros a b H.
  - destruct a; [reflexivity|discriminate].
  - destruct a as [|x [|y [|z a]]]; cbn in H; try lia.
    cbn [app]. cbn [encodeB64]. rewrite (IHk a b) by lia. reflexivity.
Qed.

Lemma encodeB64_length : forall k a, List.length a = (3 * k)%nat -> List.length (encodeB64 a) = (4 * k)%nat.
Proof.
  induction k; intros a H.
  - destruct a; [reflexivity|discriminate].
  - destruct a as [|x [|y [|z a]]]; cbn in H; try lia.
    cbn [encodeB64 List.length]. rewrite (IHk a) by lia. lia.
Qed.

Lemma encodeB64_text : forall k a, octets a -> List.length a = (3 * k)%nat -> b64text (encodeB64 a).
Proof.
  induction k; intros a Ho H.
  - destruct a; [constructor|discriminate].
  - destruct a as [|x [|y [|z a]]]; cbn in H; try lia.
    inv Ho. inv H3. inv H5. unfold is_byte in *.
    cbn [encodeB64]. repeat constructor; try (rewrite idx_chr by lia; discriminate).
    apply IHk; [assumption|lia].
Qed.

Lemma val_encodeB64 : forall k a, octets a -> List.length a = (3 * k)%nat ->
  val (encodeB64 a) = int_from_bytes a.
Proof.
  induction k; intros a Ho H.
  - destruct a; [reflexivity|discriminate].
  - destruct a as [|x [|y [|z a]]]; cbn in H; try lia.
    inv Ho. inv H3. inv H5. unfold is_byte in *.
    change (x :: y :: z :: a) with ([x; y; z] ++ a).
    rewrite (encodeB64_app3 1) by reflexivity.
    rewrite val_app. unfold int_from_bytes. rewrite of_digits_app.
    fold (int_from_bytes a). rewrite (IHk a) by (try assumption; lia).
    f_equal. unfold len. rewrite (encodeB64_length k) by lia.
    replace (List.length a) with (3 * k)%nat by lia.
    assert (E : 64 ^ N.of_nat (4 * k) = 256 ^ N.of_nat (3 * k)).
    { rewrite !Nat2N.inj_mul. rewrite !N.pow_mul_r. reflexivity. }
    rewrite E. f_equal. cbn [encodeB64]. unfold val, dig. cbn [map].
    rewrite !idx_fun_chr by lia. unfold of_digits. cbn [fold_left]. lia.
Qed.

(** one quad of good characters *)
Lemma decode_quad : forall d0 d1 d2 d3 s acc, d0 < 64 -> d1 < 64 -> d2 < 64 -> d3 < 64 ->
  decodeB64_loop (B64ChrByIdx d0 :: B64ChrByIdx d1 :: B64ChrByIdx d2 :: B64ChrByIdx d3 :: s) 0 0 0 acc
  = decodeB64_loop s 0 0 0 ((d2 mod 4) * 64 + d3 :: (d1 mod 16) * 16 + d2 / 4 :: d0 * 4 + d1 / 16 :: acc).
Proof.
  intros d0 d1 d2 d3 s acc H0 H1 H2 H3.
  assert (Hne : forall d, d < 64 -> B64ChrByIdx d =? 61 = false /\ a2bIdx (B64ChrByIdx d) = Some d).
  { intros d Hd. pose proof (idx_chr d Hd) as E. split.
    - apply N.eqb_neq. intros X. rewrite X in E. discriminate.
    - unfold a2bIdx. destruct (N.eqb_spec (B64ChrByIdx d) 43) as [X|_]; [rewrite X in E; discriminate|].
      destruct (N.eqb_spec (B64ChrByIdx d) 47) as [X|_]; [rewrite X in E; discriminate|]. exact E. }
  destruct (Hne d0 H0) as [A0 B0], (Hne d1 H1) as [A1 B1], (Hne d2 H2) as [A2 B2], (Hne d3 H3) as [A3 B3].
  cbn [decodeB64_loop]. rewrite A0, B0, A1, B1, A2, B2, A3, B3. reflexivity.
Qed.

Lemma decode_encode_loop : forall k a s acc, octets a -> List.length a = (3 * k)%nat ->
  decodeB64_loop (encodeB64 a ++ s) 0 0 0 acc = decodeB64_loop s 0 0 0 (rev a ++ acc).
Proof.
  induction k; intros a s acc Ho H.
  - destruct a; [reflexivity|discriminate].
  - destruct a as [|x [|y [|z a]]]; cbn in H; try lia.
    inv Ho. inv H3. inv H5. unfold is_byte in *.
    cbn [encodeB64 app]. rewrite decode_quad by lia. rewrite IHk by (try assumption; lia).
    f_equal. cbn [rev]. rewrite <- !app_assoc. cbn [app]. f_equal.
    f_equal; [lia|]. f_equal; [lia|]. f_equal. lia.
Qed.

Lemma decode_encode : forall k a, octets a -> List.length a = (3 * k)%nat -> decodeB64 (encodeB64 a) = Ok a.
Proof.
  intros k a Ho H. unfold decodeB64. rewrite <- (app_nil_r (encodeB64 a)).
  rewrite (decode_encode_loop k) by assumption. cbn. rewrite app_nil_r, rev_involutive. reflexivity.
Qed.

(** Every Base64 text of length 4k is the encoding of 3k octets. *)
Lemma b64_surj : forall k s, b64text s -> List.length s = (4 * k)%nat ->
  exists a, octets a /\ List.length a = (3 * k)%nat /\ encodeB64 a = s.
Proof.
  induction k; intros s Hs HL.
  - destruct s; [|discriminate]. exists []. repeat split; constructor.
  - destruct s as [|c0 [|c1 [|c2 [|c3 s]]]]; cbn in HL; try lia.
    inv Hs. inv H2. inv H4. inv H5.
    destruct (IHk s H6 ltac:(lia)) as (a & Ha & HaL & HaE).
    destruct (B64IdxByChr c0) as [d0|] eqn:E0; [|congruence].
    destruct (B64IdxByChr c1) as [d1|] eqn:E1; [|congruence].
    destruct (B64IdxByChr c2) as [d2|] eqn:E2; [|congruence].
    destruct (B64IdxByChr c3) as [d3|] eqn:E3; [|congruence].
    pose proof (idx_lt _ _ E0). pose proof (idx_lt _ _ E1). pose proof (idx_lt _ _ E2). pose proof (idx_lt _ _ E3).
    exists (d0 * 4 + d1 / 16 :: (d1 mod 16) * 16 + d2 / 4 :: (d2 mod 4) * 64 + d3 :: a).
    split; [|split].
    + repeat constructor; unfold is_byte; try lia. exact Ha.
    + cbn. lia.
    + cbn [encodeB64]. rewrite HaE.
      apply chr_idx in E0, E1, E2, E3. subst c0 c1 c2 c3.
      repeat f_equal; lia.
Qed.

Lemma encode_inj : forall k a b, octets a -> octets b -> List.length a = (3 * k)%nat -> List.length b = (3 * k)%nat ->
  encodeB64 a = encodeB64 b -> a = b.
Proof.
  intros k a b Ha Hb La Lb E. pose proof (decode_encode k a Ha La) as D1.
  pose proof (decode_encode k b Hb Lb) as D2. rewrite E in D1. congruence.
Qed.

(** decode of a clean text is its positional value *)
Lemma decode_text : forall k s, b64text s -> List.length s = (4 * k)%nat ->
  exists a, decodeB64 s = Ok a /\ octets a /\ List.length a = (3 * k)%nat /\ encodeB64 a = s
            /\ int_from_bytes a = val s.
Proof.
  intros k s Hs HL. destruct (b64_surj k s Hs HL) as (a & Ha & HaL & HaE).
  exists a. subst s. rewrite (decode_encode k) by assumption.
  rewrite (val_encodeB64 k) by assumption. auto.
Qed.

(** translation of the standard alphabet aliases *)
Definition urlize (ch : N) : N := if ch =? 43 then 45 else if ch =? 47 then 95 else ch.
Definition a2btext (s : bytes) : Prop := Forall (fun ch => a2bIdx ch <> None) s.

Lemma a2b_urlize : forall ch, ch <> 61 -> a2bIdx ch = a2bIdx (urlize ch).
Proof.
  intros ch H. unfold a2bIdx, urlize.
  destruct (N.eqb_spec ch 43) as [->|]; [reflexivity|].
  destruct (N.eqb_spec ch 47) as [->|]; [reflexivity|].
  destruct (N.eqb_spec ch 43); [congruence|]. destruct (N.eqb_spec ch 47); [congruence|]. reflexivity.
Qed.

Lemma decode_loop_urlize : forall s q p l acc,
  decodeB64_loop s q p l acc = decodeB64_loop (map urlize s) q p l acc.
Proof.
  induction s as [|ch s IH]; intros q p l acc; [reflexivity|].
  cbn [map decodeB64_loop].
  replace (urlize ch =? 61) with (ch =? 61)
    by (unfold urlize; destruct (N.eqb_spec ch 43) as [->|]; [reflexivity|]; destruct (N.eqb_spec ch 47) as [->|]; reflexivity).
  destruct (N.eqb_spec ch 61).
  - destruct ((2 <=? q) && (4 <=? q + (p + 1))); [reflexivity|]. apply IH.
  - rewrite <- a2b_urlize by assumption. destruct (a2bIdx ch); [|apply IH].
    rewrite !(fun a b c d => IH a b c d). reflexivity.
Qed.

Lemma decode_urlize : forall s, decodeB64 s = decodeB64 (map urlize s).
Proof. intros; apply decode_loop_urlize. Qed.

(** Length bound: a decode that returns the full 3/4 length used only alphabet
    characters (and their aliases), no padding and nothing skipped. *)
Lemma decode_loop_len : forall s q p l acc r, q < 4 -> p < 3 ->
  decodeB64_loop s q p l acc = Ok r ->
  (4 * List.length r <= 4 * List.length acc + 3 * List.length s + N.to_nat ((4 - q) mod 4)%N)%nat.
Proof.
  induction s as [|ch s IH]; intros q p l acc r Hq Hp H.
  - cbn [decodeB64_loop] in H. destruct (N.eqb_spec q 0) as [->|]; [|discriminate].
    apply ok_inj in H; subst r. rewrite rev_length. lia.
  - cbn [decodeB64_loop] in H. cbn [List.length].
    destruct (N.eqb_spec ch 61).
    + destruct ((2 <=? q) && (4 <=? q + (p + 1))) eqn:E.
      * apply ok_inj in H; subst r. rewrite rev_length. lia.
      * destruct (N.leb_spec 2 q); apply IH in H; lia.
    + destruct (a2bIdx ch) as [d|].
      * destruct (N.eqb_spec q 0); [apply IH in H; lia|].
        destruct (N.eqb_spec q 1); [apply IH in H; cbn [List.length] in *; lia|].
        destruct (N.eqb_spec q 2); [apply IH in H; cbn [List.length] in *; lia|].
        apply IH in H; cbn [List.length] in *; lia.
      * apply IH in H; lia.
Qed.

Lemma decode_loop_clean : forall s q p l acc r, q < 4 -> p < 3 ->
  decodeB64_loop s q p l acc = Ok r ->
  (4 * List.length r = 4 * List.length acc + 3 * List.length s + N.to_nat ((4 - q) mod 4)%N)%nat ->
  a2btext s.
Proof.
  induction s as [|ch s IH]; intros q p l acc r Hq Hp H HL; [constructor|].
  cbn [decodeB64_loop] in H. cbn [List.length] in HL.
  destruct (N.eqb_spec ch 61).
  - exfalso. destruct ((2 <=? q) && (4 <=? q + (p + 1))) eqn:E.
    + apply ok_inj in H; subst r. rewrite rev_length in HL. lia.
    + destruct (N.leb_spec 2 q); apply decode_loop_len in H; lia.
  - destruct (a2bIdx ch) as [d|] eqn:Ed.
    + constructor; [congruence|].
      destruct (N.eqb_spec q 0); [eapply IH; [| |exact H|]; lia|].
      destruct (N.eqb_spec q 1); [eapply IH; [| |exact H|]; cbn [List.length] in *; lia|].
      destruct (N.eqb_spec q 2); [eapply IH; [| |exact H|]; cbn [List.length] in *; lia|].
      eapply IH; [| |exact H|]; cbn [List.length] in *; lia.
    + exfalso. apply decode_loop_len in H; lia.
Qed.

Lemma decode_clean : forall s r, decodeB64 s = Ok r -> (4 * List.length r = 3 * List.length s)%nat -> a2btext s.
Proof.
  intros s r H HL. eapply decode_loop_clean; [| |exact H|]; try lia. cbn. lia.
Qed.

Lemma urlize_text : forall s, a2btext s -> b64text (map urlize s).
Proof.
  induction 1; cbn; constructor; auto. unfold a2bIdx in H. unfold urlize.
  destruct (x =? 43); [discriminate|]. destruct (x =? 47); [discriminate|]. exact H.
Qed.

Lemma urlize_id : forall s, b64text s -> map urlize s = s.
Proof.
  induction 1; cbn; [reflexivity|]. f_equal; auto. unfold urlize.
  destruct (N.eqb_spec x 43) as [->|]; [exfalso; apply H; reflexivity|].
  destruct (N.eqb_spec x 47) as [->|]; [exfalso; apply H; reflexivity|]. reflexivity.
Qed.

(* ---------------------------------------------------------------- *)
(** code conversions *)

Lemma shiftl_mul4 : forall i r, N.shiftl i (2 * r) = i * 4 ^ r.
Proof. intros. rewrite N.shiftl_mul_pow2, N.pow_mul_r. reflexivity. Qed.
Lemma shiftr_div4 : forall i r, N.shiftr i (2 * r) = i / 4 ^ r.
Proof. intros. rewrite N.shiftr_div_pow2, N.pow_mul_r. reflexivity. Qed.

(** size identity: 64^l * 4^(l mod 4) = 256^(ceil(3l/4)) unless l mod 4 = 3. *)
Lemma pow_code : forall l, l mod 4 <> 3 -> 64 ^ l * 4 ^ (l mod 4) = 256 ^ (sceil34 l).
Proof.
  intros l H. unfold sceil34.
  replace 64 with (2 ^ 6) by reflexivity. replace 4 with (2 ^ 2) at 1 by reflexivity.
  replace 256 with (2 ^ 8) by reflexivity.
  rewrite <- !N.pow_mul_r, <- N.pow_add_r. f_equal. lia.
Qed.

(** In general (l mod 4 = 3 included) the shifted value fits: 3 mod 4 sextets need
    18 bits in 3 octets with 6 trailing bits. *)
Lemma pow_code3 : forall l, 64 ^ l * 4 ^ (l mod 4) = 256 ^ (sceil34 l).
Proof.
  intros l. unfold sceil34.
  replace 64 with (2 ^ 6) by reflexivity. replace 4 with (2 ^ 2) at 1 by reflexivity.
  replace 256 with (2 ^ 8) by reflexivity.
  rewrite <- !N.pow_mul_r, <- N.pow_add_r. f_equal. lia.
Qed.

Lemma codeB64ToB2_ok : forall s, b64text s -> s <> [] ->
  codeB64ToB2 s = Ok (to_digits 256 (N.to_nat (sceil34 (len s))) (val s * 4 ^ (len s mod 4))).
Proof.
  intros s H Hne. unfold codeB64ToB2. rewrite b64ToInt_val by assumption. cbn [bind].
  rewrite shiftl_mul4. unfold int_to_bytes.
  replace (val s * 4 ^ (len s mod 4) <? 256 ^ sceil34 (len s)) with true; [reflexivity|].
  symmetry. apply N.ltb_lt. rewrite <- pow_code3. apply N.mul_lt_mono_pos_r.
  - apply N.neq_0_lt_0, N.pow_nonzero; lia.
  - apply val_bound; exact H.
Qed.

Lemma ntake_all : forall A n (l : list A), len l <= n -> ntake n l = l.
Proof. intros A n l H. unfold ntake. apply firstn_all2. unfold len in H. lia. Qed.
