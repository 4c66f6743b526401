From Verif Require Import Prelude B64Model B64Proofs MatterModel.
Ltac Zify.zify_post_hook ::= Z.div_mod_to_equations.

(** Well formed table entry. *)
Definition wf_entry (code : bytes) (sz : sizage) : Prop :=
  len code = hs sz /\ 0 < hs sz /\ b64text code /\ dget Hards (ntake 1 code) = Some (hs sz)
  /\ (hs sz + ss sz) mod 4 <> 3 /\ xs sz <= ss sz /\ ls sz < 3
  /\ match fs sz with
     | Some f => f mod 4 = 0 /\ hs sz + ss sz <= f /\ ls sz <= (f - (hs sz + ss sz)) * 3 / 4
                 /\ (ls sz = (f - (hs sz + ss sz)) * 3 / 4 -> f = hs sz + ss sz)
     | None => (hs sz + ss sz) mod 4 = 0 /\ xs sz = 0 /\ 0 < ss sz
     end.

Definition wf_entryb (code : bytes) (sz : sizage) : bool :=
  (len code =? hs sz) && (0 <? hs sz) && Reb64 code
  && match dget Hards (ntake 1 code) with Some h => h =? hs sz | None => false end
  && negb ((hs sz + ss sz) mod 4 =? 3) && (xs sz <=? ss sz) && (ls sz <? 3)
  && match fs sz with
     | Some f => (f mod 4 =? 0) && (hs sz + ss sz <=? f) && (ls sz <=? (f - (hs sz + ss sz)) * 3 / 4)
                 && (negb (ls sz =? (f - (hs sz + ss sz)) * 3 / 4) || (f =? hs sz + ss sz))
     | None => ((hs sz + ss sz) mod 4 =? 0) && (xs sz =? 0) && (0 <? ss sz)
     end.

Lemma wf_entryb_ok : forall code sz, wf_entryb code sz = true -> wf_entry code sz.
Proof.
  intros code sz H. unfold wf_entryb in H. unfold wf_entry.
  repeat (apply andb_true_iff in H; destruct H as [H ?]).
  apply Reb64_b64text in H5.
  destruct (dget Hards (ntake 1 code)); [|discriminate].
  repeat split; try lia; try assumption.
  - f_equal. lia.
  - destruct (fs sz).
    + repeat (apply andb_true_iff in H0; destruct H0 as [H0 ?]). lia.
    + repeat (apply andb_true_iff in H0; destruct H0 as [H0 ?]). lia.
Qed.

Lemma dget_In : forall V (d : list (bytes * V)) k v, dget d k = Some v -> In (k, v) d.
Proof.
  induction d as [|[k' v'] d IH]; intros k v H; cbn in H; [discriminate|].
  destruct (beq_spec k k') as [->|]; [inv H; left; reflexivity|right; auto].
Qed.

Lemma sizes_wf : forall code sz, dget Sizes code = Some sz -> wf_entry code sz.
Proof.
  intros code sz H. apply dget_In in H. apply wf_entryb_ok.
  assert (A : forallb (fun p => wf_entryb (fst p) (snd p)) Sizes = true) by (vm_compute; reflexivity).
  rewrite forallb_forall in A. apply (A _ H).
Qed.

(** What a well formed primitive is, independent of how it was made. *)
Definition wf_matter (m : matter) : Prop :=
  exists sz, dget Sizes (m_code m) = Some sz /\ octets (m_raw m) /\ b64text (m_soft m)
    /\ len (m_soft m) + xs sz = ss sz
    /\ match fs sz with
       | Some f => len (m_raw m) + ls sz = (f - (hs sz + ss sz)) * 3 / 4
       | None => len (m_raw m) + ls sz = 3 * val (m_soft m)
       end.

(** Full size in characters of a well formed primitive. *)
Definition fsize (m : matter) (sz : sizage) : N :=
  match fs sz with Some f => f | None => hs sz + ss sz + 4 * val (m_soft m) end.

Lemma b64text_repeat95 : forall n, b64text (repeat 95 n).
Proof. induction n; cbn; constructor; auto. discriminate. Qed.

Lemma both_text : forall m sz, wf_entry (m_code m) sz -> b64text (m_soft m) -> b64text (both m sz).
Proof.
  intros m sz W H. unfold both. destruct W as (_ & _ & Hc & _).
  apply b64text_app; split; [exact Hc|]. apply b64text_app; split; [apply b64text_repeat95|exact H].
Qed.

Lemma both_len : forall m sz, wf_entry (m_code m) sz -> len (m_soft m) + xs sz = ss sz ->
  len (both m sz) = hs sz + ss sz.
Proof.
  intros m sz W H. unfold both. destruct W as (Hl & _).
  rewrite !len_app, Hl. unfold len at 1. rewrite repeat_length. lia.
Qed.

Lemma len_zeros : forall n, len (zeros (N.to_nat n)) = n.
Proof. intros. unfold len, zeros. rewrite repeat_length. lia. Qed.

Lemma octets_app : forall a b, octets (a ++ b) <-> octets a /\ octets b.
Proof. intros; apply Forall_app. Qed.

Lemma length_len : forall A (l : list A) n, len l = N.of_nat n <-> List.length l = n.
Proof. intros; unfold len; lia. Qed.

(** leading zero octets encode to leading 'A's *)
Lemma encode_lead : forall p r k, p < 3 -> octets r -> (N.to_nat p + List.length r = 3 * k)%nat ->
  encodeB64 (zeros (N.to_nat p) ++ r) = repeat 65 (N.to_nat p) ++ ndrop p (encodeB64 (zeros (N.to_nat p) ++ r)).
Proof.
  intros p r k Hp Ho HL. assert (Hc : p = 0 \/ p = 1 \/ p = 2) by lia.
  destruct Hc as [->|[->| ->]].
  - reflexivity.
  - change (N.to_nat 1) with 1%nat in *. destruct r as [|y [|z r]]; cbn in HL; try lia. cbn. reflexivity.
  - change (N.to_nat 2) with 2%nat in *. destruct r as [|z r]; cbn in HL; try lia.
    inv Ho. unfold is_byte in *. cbn [zeros repeat app encodeB64]. unfold ndrop.
    change (N.to_nat 2) with 2%nat. cbn [skipn]. reflexivity.
Qed.

(** Text form of a well formed primitive, in closed form. *)
Definition text (m : matter) (sz : sizage) : bytes :=
  let ps := (hs sz + ss sz) mod 4 in
  both m sz ++ ndrop ps (encodeB64 (zeros (N.to_nat (ps + ls sz)) ++ m_raw m)).

Lemma zeros_add : forall a b, zeros (N.to_nat (a + b)) = zeros (N.to_nat a) ++ zeros (N.to_nat b).
Proof. intros. unfold zeros. rewrite N2Nat.inj_add. apply repeat_app. Qed.

Record mfacts (m : matter) (sz : sizage) : Prop := {
  mf_sz : dget Sizes (m_code m) = Some sz;
  mf_wf : wf_entry (m_code m) sz;
  mf_oct : octets (m_raw m);
  mf_txt : b64text (m_soft m);
  mf_soft : len (m_soft m) + xs sz = ss sz;
  mf_both : b64text (both m sz);
  mf_cs : len (both m sz) = hs sz + ss sz;
  mf_ps : (hs sz + ss sz) mod 4 < 3;
  mf_k : exists k, (hs sz + ss sz) mod 4 + (ls sz + len (m_raw m)) = 3 * N.of_nat k
              /\ (hs sz + ss sz) mod 4 + (fsize m sz - (hs sz + ss sz)) = 4 * N.of_nat k
              /\ hs sz + ss sz <= fsize m sz
}.

Lemma wf_facts : forall m, wf_matter m -> exists sz, mfacts m sz /\
  match fs sz with Some f => len (m_raw m) + ls sz = (f - (hs sz + ss sz)) * 3 / 4
                | None => len (m_raw m) + ls sz = 3 * val (m_soft m) end.
Proof.
  intros m (sz & H1 & H2 & H3 & H4 & H5). exists sz. split; [|exact H5].
  pose proof (sizes_wf _ _ H1) as W.
  constructor; auto.
  - apply both_text; assumption.
  - apply both_len; assumption.
  - destruct W as (_ & _ & _ & _ & W & _). lia.
  - destruct W as (W1 & W2 & W3 & W4 & W5 & W6 & W7 & W8). unfold fsize.
    destruct (fs sz) as [f|].
    + exists (N.to_nat (((hs sz + ss sz) mod 4 + (f - (hs sz + ss sz))) / 4)). lia.
    + exists (N.to_nat (val (m_soft m))). lia.
Qed.

Lemma text_len : forall m sz, mfacts m sz -> len (text m sz) = fsize m sz.
Proof.
  intros m sz F. destruct F as [_ W Ho _ _ _ Hcs Hps (k & Hk1 & Hk2 & Hk3)].
  unfold text. cbv zeta. rewrite len_app, Hcs, len_ndrop. unfold len at 1.
  rewrite (encodeB64_length k); [lia|].
  rewrite app_length. unfold zeros. rewrite repeat_length. unfold len in *. lia.
Qed.

Lemma infil_text : forall m sz, mfacts m sz -> infil m = Ok (text m sz).
Proof.
  intros m sz F. pose proof (text_len m sz F) as HL.
  destruct F as [Hsz W Ho _ _ _ Hcs Hps (k & Hk1 & Hk2 & Hk3)].
  unfold infil. rewrite Hsz. destruct W as (W1 & W2 & W3 & W4 & W5 & W6 & W7 & W8).
  unfold fsize in *. destruct (fs sz) as [f|] eqn:Ef.
  - replace ((3 - (len (m_raw m) + ls sz) mod 3) mod 3) with ((hs sz + ss sz) mod 4) by lia.
    rewrite N.eqb_refl. cbn [negb bind]. fold (text m sz).
    change (both m sz ++ ndrop ((hs sz + ss sz) mod 4)
        (encodeB64 (zeros (N.to_nat ((hs sz + ss sz) mod 4 + ls sz)) ++ m_raw m))) with (text m sz).
    rewrite HL. destruct W8 as (W8 & _). rewrite W8, !N.eqb_refl. reflexivity.
  - destruct W8 as (W8 & _). rewrite W8 in *. cbn [N.eqb negb orb].
    replace ((ls sz + len (m_raw m)) mod 3 =? 0) with true by lia. cbn [negb orb bind].
    assert (E : text m sz = both m sz ++ encodeB64 (zeros (N.to_nat (ls sz)) ++ m_raw m)).
    { unfold text. rewrite W8. reflexivity. }
    rewrite <- E, HL. replace ((hs sz + ss sz + 4 * val (m_soft m)) mod 4 =? 0) with true by lia.
    reflexivity.
Qed.

(** the padded material part of the text is the encoding of ps + ls zeros and raw *)
Lemma text_mat : forall m sz, mfacts m sz ->
  repeat 65 (N.to_nat ((hs sz + ss sz) mod 4)) ++ ndrop (hs sz + ss sz) (text m sz)
  = encodeB64 (zeros (N.to_nat ((hs sz + ss sz) mod 4 + ls sz)) ++ m_raw m).
Proof.
  intros m sz F. destruct F as [Hsz W Ho _ _ _ Hcs Hps (k & Hk1 & Hk2 & Hk3)].
  unfold text. cbv zeta. rewrite <- Hcs at 2. rewrite ndrop_len_app.
  rewrite zeros_add, <- app_assoc. symmetry. apply encode_lead with (k := k).
  - exact Hps.
  - apply octets_app; split; [apply octets_repeat0|exact Ho].
  - rewrite app_length. unfold zeros. rewrite repeat_length. unfold len in *. lia.
Qed.

Lemma b64_ascii : forall ch, B64IdxByChr ch <> None -> ch <? 128 = true.
Proof.
  intros ch H. destruct (B64IdxByChr ch) eqn:E; [|congruence]. clear H. revert E. unfold B64IdxByChr.
  repeat match goal with |- context [if ?b then _ else _] => destruct b eqn:? end; intros; try discriminate; lia.
Qed.

Lemma decode_ascii_text : forall s, b64text s -> decode_ascii s = Ok s.
Proof.
  intros s H. unfold decode_ascii. replace (forallb (fun x => x <? 128) s) with true; [reflexivity|].
  symmetry. apply forallb_forall. intros x Hx. apply b64_ascii. eapply Forall_forall in H; eauto.
Qed.

Lemma ntake_app_le : forall A n (a b : list A), n <= len a -> ntake n (a ++ b) = ntake n a.
Proof.
  intros A n a b H. unfold ntake, len in *. rewrite firstn_app.
  replace (N.to_nat n - List.length a)%nat with 0%nat by lia. cbn. apply app_nil_r.
Qed.

Lemma ndrop_app_le : forall A n (a b : list A), n <= len a -> ndrop n (a ++ b) = ndrop n a ++ b.
Proof.
  intros A n a b H. unfold ndrop, len in *. rewrite skipn_app.
  replace (N.to_nat n - List.length a)%nat with 0%nat by lia. reflexivity.
Qed.

Lemma both_hard : forall m sz, wf_entry (m_code m) sz -> ntake (hs sz) (both m sz) = m_code m.
Proof. intros m sz (H & _). rewrite <- H. apply ntake_len_app. Qed.

Lemma both_soft0 : forall m sz, mfacts m sz ->
  ntake (ss sz) (ndrop (hs sz) (both m sz)) = repeat 95 (N.to_nat (xs sz)) ++ m_soft m.
Proof.
  intros m sz F. destruct F as [_ (H & _) _ _ Hs _ _ _ _]. unfold both. rewrite <- H, ndrop_len_app.
  apply ntake_all. rewrite len_app. unfold len at 1. rewrite repeat_length. lia.
Qed.

Lemma len_repeat : forall A (a : A) n, len (repeat a (N.to_nat n)) = n.
Proof. intros. unfold len. rewrite repeat_length. lia. Qed.

Lemma ntake_repeat_app : forall A (a : A) n l, ntake n (repeat a (N.to_nat n) ++ l) = repeat a (N.to_nat n).
Proof. intros. pose proof (ntake_len_app _ (repeat a (N.to_nat n)) l) as E. rewrite len_repeat in E. exact E. Qed.
Lemma ndrop_repeat_app : forall A (a : A) n l, ndrop n (repeat a (N.to_nat n) ++ l) = l.
Proof. intros. pose proof (ndrop_len_app _ (repeat a (N.to_nat n)) l) as E. rewrite len_repeat in E. exact E. Qed.

Lemma dget_first : forall m sz t, wf_entry (m_code m) sz ->
  exists x r, text m sz ++ t = x :: r /\ [x] = ntake 1 (m_code m) /\ b64text [x].
Proof.
  intros m sz t (H & H0 & Hc & _). unfold text, both.
  destruct (m_code m) as [|x r]; [cbn in H; lia|].
  exists x. eexists. split; [cbn [app]; reflexivity|]. split; [reflexivity|].
  inv Hc. constructor; [assumption|constructor].
Qed.

Theorem exfil_text : forall m sz t, mfacts m sz -> exfil (text m sz ++ t) = Ok m.
Proof.
  intros m sz t F. pose proof (text_len m sz F) as HL. pose proof (text_mat m sz F) as HM.
  pose proof (both_soft0 m sz F) as HS.
  destruct (dget_first m sz t (mf_wf _ _ F)) as (x & r & Ex & Ex1 & Ex2).
  pose proof (infil_text m sz F) as HI.
  destruct F as [Hsz W Ho Ht Hs Hb Hcs Hps (k & Hk1 & Hk2 & Hk3)].
  pose proof W as (W1 & W2 & W3 & W4 & W5 & W6 & W7 & W8).
  set (q := text m sz ++ t) in *.
  assert (HB : forall n, n <= hs sz + ss sz -> ntake n q = ntake n (both m sz)).
  { intros n Hn. unfold q, text. rewrite <- app_assoc. apply ntake_app_le. lia. }
  unfold exfil. rewrite Ex. cbv beta iota. rewrite <- Ex.
  rewrite decode_ascii_text by exact Ex2. cbn [bind]. rewrite Ex1, W4.
  replace (len q <? hs sz) with false by (unfold q; rewrite len_app; lia).
  rewrite HB by lia. rewrite both_hard by assumption. rewrite decode_ascii_text by assumption. cbn [bind].
  rewrite Hsz. cbv zeta.
  assert (HD : ntake (ss sz) (ndrop (hs sz) q) = repeat 95 (N.to_nat (xs sz)) ++ m_soft m).
  { rewrite <- HS. unfold q, text. rewrite <- app_assoc. rewrite ndrop_app_le by lia.
    apply ntake_app_le. rewrite len_ndrop. lia. }
  rewrite HD. rewrite decode_ascii_text by (apply b64text_app; split; [apply b64text_repeat95|exact Ht]).
  cbn [bind].
  rewrite ntake_repeat_app, beq_refl. cbn [negb]. rewrite ndrop_repeat_app.
  assert (HF : (match fs sz with
     | Some f => Ok f
     | None => s <- b64ToInt (m_soft m);; Ok (s * 4 + (hs sz + ss sz)) end) = Ok (fsize m sz)).
  { unfold fsize. destruct (fs sz); [reflexivity|]. rewrite b64ToInt_val; [|assumption|].
    - cbn [bind]. f_equal. lia.
    - intros E. rewrite E in Hs. cbn in Hs. lia. }
  rewrite HF. cbn [bind].
  replace (len q <? fsize m sz) with false by (unfold q; rewrite len_app; lia).
  assert (HT : ntake (fsize m sz) q = text m sz) by (rewrite <- HL; apply ntake_len_app).
  rewrite HT, HM.
  rewrite (decode_encode k).
  - cbn [bind]. unfold zeros. rewrite ntake_repeat_app, ndrop_repeat_app. unfold int_from_bytes.
    rewrite of_digits_repeat0. cbn [N.eqb negb].
    rewrite HL. replace (len (m_raw m) + ls sz =? (fsize m sz - (hs sz + ss sz)) * 3 / 4) with true by lia.
    cbn [negb]. destruct m; reflexivity.
  - apply octets_app; split; [apply octets_repeat0|exact Ho].
  - rewrite app_length. unfold zeros. rewrite repeat_length. unfold len in *. lia.
Qed.

(* ------------------------------------------------------------------ *)
(** Binary domain *)

Lemma b64text_ndrop : forall n s, b64text s -> b64text (ndrop n s).
Proof. intros; apply Forall_skipn; assumption. Qed.
Lemma b64text_ntake : forall n s, b64text s -> b64text (ntake n s).
Proof. intros; apply Forall_firstn; assumption. Qed.

Lemma text_b64 : forall m sz, mfacts m sz -> b64text (text m sz).
Proof.
  intros m sz F. destruct F as [Hsz W Ho Ht Hs Hb Hcs Hps (k & Hk1 & Hk2 & Hk3)].
  unfold text. apply b64text_app; split; [exact Hb|]. apply b64text_ndrop.
  apply (encodeB64_text k).
  - apply octets_app; split; [apply octets_repeat0|exact Ho].
  - rewrite app_length. unfold zeros. rewrite repeat_length. unfold len in *. lia.
Qed.

(** Binary form in closed form. *)
Definition bin (m : matter) (sz : sizage) : bytes :=
  to_digits 256 (N.to_nat (sceil34 (hs sz + ss sz))) (val (both m sz) * 4 ^ ((hs sz + ss sz) mod 4))
  ++ zeros (N.to_nat (ls sz)) ++ m_raw m.

Lemma fsize_mod4 : forall m sz, mfacts m sz -> fsize m sz mod 4 = 0.
Proof. intros m sz F. destruct (mf_k _ _ F) as (k & H1 & H2 & H3). pose proof (mf_ps _ _ F). lia. Qed.

Lemma bin_len : forall m sz, mfacts m sz -> len (bin m sz) = fsize m sz * 3 / 4.
Proof.
  intros m sz F. destruct F as [Hsz W Ho Ht Hs Hb Hcs Hps (k & Hk1 & Hk2 & Hk3)].
  unfold bin. rewrite !len_app, len_zeros. unfold len at 1. rewrite to_digits_length.
  unfold sceil34. lia.
Qed.

Lemma both_ne : forall m sz, mfacts m sz -> both m sz <> [].
Proof.
  intros m sz F E. pose proof (mf_cs _ _ F) as H. rewrite E in H. pose proof (mf_wf _ _ F) as (_ & W & _).
  cbn in H. lia.
Qed.

Lemma bcode_fits : forall m sz, mfacts m sz ->
  val (both m sz) * 4 ^ ((hs sz + ss sz) mod 4) < 256 ^ sceil34 (hs sz + ss sz).
Proof.
  intros m sz F. rewrite <- pow_code3. apply N.mul_lt_mono_pos_r.
  - apply N.neq_0_lt_0, N.pow_nonzero; lia.
  - rewrite <- (mf_cs _ _ F). apply val_bound. apply (mf_both _ _ F).
Qed.

Lemma binfil_bin : forall m sz, mfacts m sz -> binfil m = Ok (bin m sz).
Proof.
  intros m sz F. pose proof (bin_len m sz F) as HL. pose proof (fsize_mod4 m sz F) as H4.
  unfold binfil. rewrite (mf_sz _ _ F).
  rewrite b64ToInt_val by (try apply (mf_both _ _ F); apply both_ne; assumption). cbn [bind].
  rewrite shiftl_mul4. unfold int_to_bytes.
  replace (_ <? 256 ^ _) with true by (symmetry; apply N.ltb_lt; apply bcode_fits; exact F).
  cbn [bind]. fold (bin m sz). rewrite HL.
  replace (fsize m sz * 3 / 4 * 4 / 3) with (fsize m sz) by lia.
  replace (fsize m sz * 3 / 4 mod 3 =? 0) with true by lia. cbn [negb orb].
  replace (fsize m sz =? _) with true; [reflexivity|].
  symmetry. apply N.eqb_eq. unfold fsize in *. destruct (fs sz) eqn:E; [reflexivity|].
  destruct (mf_k _ _ F) as (k & H1 & H2 & H3). pose proof (mf_ps _ _ F).
  pose proof (mf_wf _ _ F) as (_&_&_&_&_&_&_& W). rewrite E in W. unfold fsize in *. rewrite E in *. lia.
Qed.

Lemma bin_octets : forall m sz, mfacts m sz -> octets (bin m sz).
Proof.
  intros m sz F. unfold bin. apply octets_app; split; [apply to_digits_bound; lia|].
  apply octets_app; split; [apply octets_repeat0|apply (mf_oct _ _ F)].
Qed.

Lemma pow64_split : forall p x r, p < 3 -> forall k, p + r = 3 * k -> p + x = 4 * k ->
  64 ^ x = 4 ^ p * 256 ^ r.
Proof.
  intros p x r Hp k H1 H2.
  replace 64 with (2 ^ 6) by reflexivity. replace 4 with (2 ^ 2) by reflexivity.
  replace 256 with (2 ^ 8) by reflexivity. rewrite <- !N.pow_mul_r, <- N.pow_add_r. f_equal. lia.
Qed.

Lemma val_text : forall m sz, mfacts m sz -> val (text m sz) = int_from_bytes (bin m sz).
Proof.
  intros m sz F. pose proof (text_mat m sz F) as HM. pose proof (text_len m sz F) as HL.
  pose proof (bcode_fits m sz F) as HB.
  destruct F as [Hsz W Ho Ht Hs Hb Hcs Hps (k & Hk1 & Hk2 & Hk3)].
  assert (E : text m sz = both m sz ++ ndrop (hs sz + ss sz) (text m sz)).
  { assert (ndrop (hs sz + ss sz) (text m sz) = ndrop (len (both m sz)) (text m sz)) as -> by (rewrite Hcs; reflexivity).
    unfold text. cbv zeta. rewrite ndrop_len_app. reflexivity. }
  set (X := ndrop (hs sz + ss sz) (text m sz)) in *.
  assert (HX : len X = fsize m sz - (hs sz + ss sz)) by (unfold X; rewrite len_ndrop; lia).
  assert (HV : val X = int_from_bytes (zeros (N.to_nat (ls sz)) ++ m_raw m)).
  { assert (val (repeat 65 (N.to_nat ((hs sz + ss sz) mod 4)) ++ X) = val X) as <-.
    { rewrite val_app. unfold val at 1. rewrite dig_repeat_A, of_digits_repeat0. lia. }
    rewrite HM. rewrite (val_encodeB64 k).
    - rewrite zeros_add, <- app_assoc. unfold int_from_bytes at 1. rewrite of_digits_app.
      unfold zeros at 1. rewrite of_digits_repeat0. reflexivity.
    - apply octets_app; split; [apply octets_repeat0|exact Ho].
    - rewrite app_length. unfold zeros. rewrite repeat_length. unfold len in *. lia. }
  rewrite E, val_app, HV, HX. unfold bin. unfold int_from_bytes.
  rewrite (of_digits_app 256 (to_digits _ _ _)).
  f_equal. rewrite of_to_digits; [|lia|rewrite N2Nat.id; exact HB].
  rewrite <- N.mul_assoc. f_equal. rewrite len_app, len_zeros.
  apply pow64_split with (k := N.of_nat k); lia.
Qed.

Theorem decode_text_bin : forall m sz, mfacts m sz -> decodeB64 (text m sz) = Ok (bin m sz).
Proof.
  intros m sz F. pose proof (text_len m sz F) as HL. pose proof (fsize_mod4 m sz F) as H4.
  pose proof (bin_len m sz F) as HB.
  destruct (decode_text (N.to_nat (fsize m sz / 4)) (text m sz) (text_b64 m sz F)) as (a & D1 & D2 & D3 & D4 & D5).
  { unfold len in HL. lia. }
  rewrite D1. f_equal. apply of_digits_inj with (b := 256); try lia; try assumption.
  - apply bin_octets; exact F.
  - unfold len in HB. lia.
  - fold (int_from_bytes a). fold (int_from_bytes (bin m sz)). rewrite D5. apply val_text. exact F.
Qed.

Theorem encode_bin_text : forall m sz, mfacts m sz -> encodeB64 (bin m sz) = text m sz.
Proof.
  intros m sz F. pose proof (text_len m sz F) as HL. pose proof (fsize_mod4 m sz F) as H4.
  destruct (decode_text (N.to_nat (fsize m sz / 4)) (text m sz) (text_b64 m sz F)) as (a & D1 & D2 & D3 & D4 & D5).
  { unfold len in HL. lia. }
  rewrite (decode_text_bin m sz F) in D1. inv D1. exact D4.
Qed.

(** Reading sextets off a binary string reads the characters of its text. *)
Lemma int_firstn : forall n a, (n <= List.length a)%nat -> octets a ->
  int_from_bytes (firstn n a) = int_from_bytes a / 256 ^ N.of_nat (List.length a - n).
Proof.
  intros n a Hn Ho. rewrite <- (firstn_skipn n a) at 2. unfold int_from_bytes. rewrite of_digits_app.
  assert (len (skipn n a) = N.of_nat (List.length a - n)) as -> by (unfold len; rewrite skipn_length; reflexivity).
  rewrite N.div_add_l by (apply N.pow_nonzero; lia).
  rewrite N.div_small; [lia|].
  pose proof (of_digits_bound 256 (skipn n a) ltac:(lia)) as B. unfold len in B. rewrite skipn_length in B.
  apply B. apply Forall_skipn. exact Ho.
Qed.

Lemma val_firstn : forall n s, (n <= List.length s)%nat -> b64text s ->
  val (firstn n s) = val s / 64 ^ N.of_nat (List.length s - n).
Proof.
  intros n s Hn Ho. rewrite <- (firstn_skipn n s) at 2. rewrite val_app.
  assert (len (skipn n s) = N.of_nat (List.length s - n)) as -> by (unfold len; rewrite skipn_length; reflexivity).
  rewrite N.div_add_l by (apply N.pow_nonzero; lia).
  rewrite N.div_small; [lia|].
  pose proof (val_bound (skipn n s)) as B. unfold len in B. rewrite skipn_length in B.
  apply B. apply Forall_skipn. exact Ho.
Qed.

Lemma codeB2ToB64_text : forall k a l t, octets a -> List.length a = (3 * k)%nat -> l <= 4 * N.of_nat k ->
  codeB2ToB64 (a ++ t) l = Ok (ntake l (encodeB64 a)).
Proof.
  intros k a l t Ho HL Hl. unfold codeB2ToB64.
  assert (Hn : sceil34 l <= 3 * N.of_nat k) by (unfold sceil34; lia).
  replace (len (a ++ t) <? sceil34 l) with false by (rewrite len_app; unfold len; lia).
  f_equal. rewrite ntake_app_le by (unfold len; lia).
  pose proof (encodeB64_text k a Ho HL) as HT. pose proof (encodeB64_length k a HL) as HEL.
  assert (E : N.shiftr (int_from_bytes (ntake (sceil34 l) a)) (2 * (l mod 4)) = val (ntake l (encodeB64 a))).
  { rewrite shiftr_div4. unfold ntake. rewrite int_firstn by (try assumption; lia).
    rewrite val_firstn by (try assumption; lia). rewrite (val_encodeB64 k) by assumption.
    rewrite N.div_div by (apply N.pow_nonzero; lia). f_equal. rewrite HL, HEL.
    replace 64 with (2 ^ 6) by reflexivity. replace 4 with (2 ^ 2) at 1 by reflexivity.
    replace 256 with (2 ^ 8) by reflexivity. rewrite <- !N.pow_mul_r, <- N.pow_add_r. f_equal.
    unfold sceil34 in *. lia. }
  rewrite E.
  rewrite <- (intToB64_val_self (ntake l (encodeB64 a))) at 2 by (apply b64text_ntake; exact HT).
  f_equal. rewrite len_ntake. unfold len. lia.
Qed.

Lemma bards_hards : forall x h, B64IdxByChr x <> None -> dget Hards [x] = Some h ->
  dget Bards [idx x * 4] = Some h.
Proof.
  intros x h Hx H. destruct (B64IdxByChr x) as [d|] eqn:E; [|congruence].
  pose proof (idx_lt _ _ E) as Hd. unfold idx. rewrite E. apply chr_idx in E. subst x. clear Hx.
  pose proof (forall_lt_N (fun d => match dget Hards [B64ChrByIdx d], dget Bards [d * 4] with
     | Some h, Some h' => h =? h' | None, None => true | _, _ => false end) 64 eq_refl d Hd) as A.
  cbn beta in A. rewrite H in A. destruct (dget Bards [d * 4]); [|discriminate].
  apply N.eqb_eq in A. congruence.
Qed.

Lemma nab1 : forall x r, x < 256 -> nabSextets (x :: r) 1 = Ok [x / 4 * 4].
Proof.
  intros x r Hx. unfold nabSextets. change (sceil34 1) with 1.
  replace (len (x :: r) <? 1) with false by (unfold len; cbn [List.length]; lia).
  change (1 mod 4) with 1. rewrite shiftl_mul4, shiftr_div4, N.pow_1_r.
  unfold ntake. change (N.to_nat 1) with 1%nat. cbn [firstn]. unfold int_from_bytes, of_digits. cbn [fold_left].
  unfold int_to_bytes. change (256 ^ 1) with 256.
  replace ((0 * 256 + x) / 4 * 4) with (x / 4 * 4) by (f_equal; f_equal; lia).
  replace (x / 4 * 4 <? 256) with true by lia. change (N.to_nat 1) with 1%nat. cbn [to_digits app].
  f_equal. f_equal. lia.
Qed.

Lemma encode_hd : forall x y z r, octets (x :: y :: z :: r) ->
  ntake 1 (encodeB64 (x :: y :: z :: r)) = [B64ChrByIdx (x / 4)].
Proof. intros. cbn [encodeB64]. reflexivity. Qed.

Lemma land_ones_mod : forall a n, N.land a (2 ^ n - 1) = a mod 2 ^ n.
Proof. intros. rewrite N.sub_1_r, <- N.ones_equiv. apply N.land_ones. Qed.

Lemma bin_cons : forall m sz, mfacts m sz -> exists x y z r, bin m sz = x :: y :: z :: r /\ x < 256.
Proof.
  intros m sz F. pose proof (bin_len m sz F) as HL. pose proof (fsize_mod4 m sz F) as H4.
  pose proof (bin_octets m sz F) as Ho. destruct (mf_k _ _ F) as (k & H1 & H2 & H3).
  pose proof (mf_wf _ _ F) as (_ & W & _).
  destruct (bin m sz) as [|x [|y [|z r]]]; unfold len in HL; cbn [List.length] in HL; try lia.
  inv Ho. eauto 10.
Qed.

Lemma ntake_text_code : forall m sz, mfacts m sz -> ntake (hs sz) (text m sz) = m_code m.
Proof.
  intros m sz F. unfold text. cbv zeta.
  rewrite ntake_app_le by (rewrite (mf_cs _ _ F); lia). apply both_hard. apply (mf_wf _ _ F).
Qed.

Lemma ntake_text_both : forall m sz, mfacts m sz -> ntake (hs sz + ss sz) (text m sz) = both m sz.
Proof. intros m sz F. rewrite <- (mf_cs _ _ F). unfold text. apply ntake_len_app. Qed.

Lemma ntake_ntake : forall A n k (l : list A), n <= k -> ntake n (ntake k l) = ntake n l.
Proof. intros. unfold ntake. rewrite firstn_firstn. f_equal. lia. Qed.

Lemma pad_bits : forall V p t, p < 3 -> forall n, 0 < n ->
  N.land (int_from_bytes (ntake 1 (ndrop (n - 1) (to_digits 256 (N.to_nat n) (V * 4 ^ p) ++ t)))) (2 ^ (2 * p) - 1) = 0.
Proof.
  intros V p t Hp n Hn.
  replace (N.to_nat n) with (S (N.to_nat (n - 1))) by lia. cbn [to_digits]. rewrite <- app_assoc.
  assert (E : n - 1 = len (to_digits 256 (N.to_nat (n - 1)) (V * 4 ^ p / 256))).
  { unfold len. rewrite to_digits_length. lia. }
  rewrite E at 1. rewrite ndrop_len_app. unfold ntake. change (N.to_nat 1) with 1%nat.
  cbn [app firstn]. unfold int_from_bytes, of_digits. cbn [fold_left]. rewrite land_ones_mod.
  assert (Hc : p = 0 \/ p = 1 \/ p = 2) by lia.
  destruct Hc as [->|[->| ->]]; cbn [N.mul]; change (2 ^ 0) with 1; change (2 ^ 2) with 4; change (2 ^ 4) with 16.
  - change (2 ^ (2 * 0)) with 1. lia.
  - change (2 ^ (2 * 1)) with 4. change (4 ^ 1) with 4. lia.
  - change (2 ^ (2 * 2)) with 16. change (4 ^ 2) with 16. lia.
Qed.

Theorem bexfil_bin : forall m sz t, mfacts m sz -> bexfil (bin m sz ++ t) = Ok m.
Proof.
  intros m sz t F. pose proof (encode_bin_text m sz F) as HE.
  pose proof (bin_len m sz F) as HL. pose proof (fsize_mod4 m sz F) as H4. pose proof (bin_octets m sz F) as Hoct.
  pose proof (both_soft0 m sz F) as HS. pose proof (ntake_text_code m sz F) as HC.
  pose proof (ntake_text_both m sz F) as HBo.
  destruct (bin_cons m sz F) as (x & y & z & r & Ex & Hx).
  pose proof F as [Hsz W Ho Ht Hs Hb Hcs Hps (k & Hk1 & Hk2 & Hk3)].
  pose proof W as (W1 & W2 & W3 & W4 & W5 & W6 & W7 & W8).
  set (kk := N.to_nat (fsize m sz / 4)).
  assert (Hkk : List.length (bin m sz) = (3 * kk)%nat) by (unfold len in HL; subst kk; lia).
  assert (HCB : forall l, l <= fsize m sz -> codeB2ToB64 (bin m sz ++ t) l = Ok (ntake l (text m sz))).
  { intros l Hl. rewrite (codeB2ToB64_text kk) by (try assumption; subst kk; lia). rewrite HE. reflexivity. }
  assert (HF1 : ntake 1 (m_code m) = [B64ChrByIdx (x / 4)]).
  { rewrite <- HC. rewrite ntake_ntake by lia. rewrite <- HE, Ex. apply encode_hd. rewrite <- Ex. exact Hoct. }
  assert (HBards : dget Bards [x / 4 * 4] = Some (hs sz)).
  { rewrite HF1 in W4. apply bards_hards in W4.
    - rewrite idx_fun_chr in W4 by lia. exact W4.
    - rewrite idx_chr by lia. discriminate. }
  unfold bexfil. set (q := bin m sz ++ t) in *.
  assert (Eq : q = x :: (y :: z :: r ++ t)) by (unfold q; rewrite Ex; reflexivity).
  rewrite Eq. cbv beta iota. rewrite nab1 by exact Hx. rewrite <- Eq. cbn [bind]. rewrite HBards.
  assert (Hql : len q = fsize m sz * 3 / 4 + len t) by (unfold q; rewrite len_app; lia).
  replace (len q <? sceil34 (hs sz)) with false by (unfold sceil34; lia).
  rewrite HCB by lia. cbn [bind]. rewrite HC, Hsz. cbv zeta.
  replace (len q <? sceil34 (hs sz + ss sz)) with false by (unfold sceil34; lia).
  rewrite HCB by lia. cbn [bind]. rewrite HBo, HS.
  rewrite ntake_repeat_app, beq_refl. cbn [negb]. rewrite ndrop_repeat_app.
  assert (HF : (match fs sz with
     | Some f => Ok f
     | None => s <- b64ToInt (m_soft m);; Ok (s * 4 + (hs sz + ss sz)) end) = Ok (fsize m sz)).
  { unfold fsize. destruct (fs sz); [reflexivity|]. rewrite b64ToInt_val; [|assumption|].
    - cbn [bind]. f_equal. lia.
    - intros E. rewrite E in Hs. cbn in Hs. lia. }
  rewrite HF. cbn [bind].
  assert (Hsc : sceil34 (fsize m sz) = len (bin m sz)) by (rewrite HL; unfold sceil34; lia).
  rewrite Hsc. replace (len q <? len (bin m sz)) with false by lia.
  unfold q. rewrite ntake_len_app.
  unfold bin at 1. rewrite pad_bits by (try exact Hps; unfold sceil34; lia).
  cbn [N.eqb negb].
  assert (HD : ndrop (sceil34 (hs sz + ss sz)) (bin m sz) = zeros (N.to_nat (ls sz)) ++ m_raw m).
  { unfold bin. set (dd := to_digits _ _ _). assert (sceil34 (hs sz + ss sz) = len dd) as ->.
    { unfold dd, len. rewrite to_digits_length. lia. }
    apply ndrop_len_app. }
  rewrite HD. unfold zeros. rewrite ntake_repeat_app. unfold int_from_bytes. rewrite of_digits_repeat0.
  cbn [N.eqb negb].
  assert (HR : ndrop (sceil34 (hs sz + ss sz) + ls sz) (bin m sz) = m_raw m).
  { rewrite <- ndrop_ndrop, HD. apply ndrop_repeat_app. }
  rewrite HR.
  replace (len (m_raw m) + sceil34 (hs sz + ss sz) + ls sz =? len (bin m sz)) with true.
  - cbn [negb]. destruct m; reflexivity.
  - symmetry. apply N.eqb_eq. unfold bin. rewrite !len_app, len_zeros. unfold len at 2. rewrite to_digits_length. lia.
Qed.

(* ------------------------------------------------------------------ *)
(** Constructors build well formed primitives *)

Definition var_okb (p : bytes * sizage) : bool :=
  match fs (snd p) with
  | Some _ => true
  | None =>
    forallb (fun l =>
      forallb (fun size =>
        match varCode (fst p) size l with
        | Ok (c', s') =>
            match dget Sizes c' with
            | Some sz => (match fs sz with None => true | _ => false end) && (ls sz =? l) && (xs sz =? 0)
                         && (ss sz =? len s')
            | None => false
            end
        | Err _ => false
        end) [0; 4095; 4096; 16777215]) [0;1;2]
  end.

Lemma varCode_ok : forall code sz size l c' s', dget Sizes code = Some sz -> fs sz = None -> l < 3 ->
  varCode code size l = Ok (c', s') ->
  exists sz', dget Sizes c' = Some sz' /\ fs sz' = None /\ ls sz' = l /\ xs sz' = 0
     /\ len s' = ss sz' /\ b64text s' /\ val s' = size.
Proof.
  intros code sz size l c' s' Hd Hf Hl H. apply dget_In in Hd.
  assert (A : forallb var_okb Sizes = true) by (vm_compute; reflexivity).
  rewrite forallb_forall in A. specialize (A _ Hd). unfold var_okb in A. cbn [fst snd] in A. rewrite Hf in A.
  rewrite forallb_forall in A.
  assert (Hin : In l [0;1;2]) by (assert (l = 0 \/ l = 1 \/ l = 2) as [->|[->| ->]] by lia; cbn; auto).
  specialize (A _ Hin). rewrite forallb_forall in A.
  assert (G : forall size0 n, In size0 [0; 4095; 4096; 16777215] ->
     varCode code size0 l = Ok (c', intToB64 size0 n) -> 0 < n -> size0 < 64 ^ n -> size < 64 ^ n ->
     s' = intToB64 size n ->
     exists sz', dget Sizes c' = Some sz' /\ fs sz' = None /\ ls sz' = l /\ xs sz' = 0
     /\ len s' = ss sz' /\ b64text s' /\ val s' = size).
  { intros size0 n Hi Hv Hn Hb0 Hb Hs'. specialize (A _ Hi). rewrite Hv in A.
    destruct (dget Sizes c') as [sz'|]; [|discriminate]. exists sz'.
    repeat (apply andb_true_iff in A; destruct A as [A ?]).
    destruct (fs sz') eqn:Ef'; [discriminate|].
    rewrite intToB64_len_fits in H0 by assumption.
    subst s'. repeat split; auto; try lia.
    - rewrite intToB64_len_fits by assumption. lia.
    - apply intToB64_text.
    - apply intToB64_val. exact Hn. }
  unfold varCode in H, G. cbv zeta in H, G.
  destruct (memN (nth 0 code 0) SmallVrzDex).
  - destruct (N.leb_spec size (64 ^ 2 - 1)).
    + inv H. apply (G 0 2); try reflexivity; cbn; auto; lia.
    + destruct (N.leb_spec size (64 ^ 4 - 1)); [|discriminate].
      inv H. apply (G 4096 4); try reflexivity; try (cbn; auto; lia); lia.
  - destruct (memN (nth 0 code 0) LargeVrzDex); [|discriminate].
    destruct (N.leb_spec size (64 ^ 4 - 1)); [|discriminate].
    inv H. apply (G 0 4); try reflexivity; cbn; auto; lia.
Qed.

Lemma octets_ntake : forall n l, octets l -> octets (ntake n l).
Proof. intros; apply Forall_firstn; assumption. Qed.

Theorem matter_of_raw_wf : forall raw code soft rize m, octets raw ->
  matter_of_raw raw code soft rize = Ok m -> wf_matter m.
Proof.
  intros raw code soft rize m Ho H. unfold matter_of_raw in H.
  destruct code as [|c0 cr]; [discriminate|]. set (code := c0 :: cr) in *.
  destruct (dget Sizes code) as [sz|] eqn:Hd; [|discriminate].
  pose proof (sizes_wf _ _ Hd) as (W1 & W2 & W3 & W4 & W5 & W6 & W7 & W8).
  destruct (fs sz) as [f|] eqn:Ef.
  - apply bind_ok in H. destruct H as (rz & Hrz & H). apply bind_ok in H. destruct H as (s' & Hs' & H).
    apply raise_if_ok in H. destruct H as [Hl H]. apply ok_inj in H. subst m.
    exists sz. cbn [m_code m_soft m_raw]. unfold rawSize in Hrz. rewrite Ef in *. apply ok_inj in Hrz.
    assert (Hs2 : b64text s' /\ len s' + xs sz = ss sz).
    { destruct (0 <? ss sz) eqn:Es.
      - apply raise_if_ok in Hs'. destruct Hs' as [A1 A2]. apply raise_if_ok in A2. destruct A2 as [A2 A3].
        apply ok_inj in A3. subst s'. split; [apply Reb64_b64text; destruct (Reb64 _); [reflexivity|discriminate]|].
        lia.
      - apply ok_inj in Hs'. subst s'. split; [constructor|]. cbn. lia. }
    repeat split; try tauto.
    + apply octets_ntake; exact Ho.
    + subst rz. lia.
  - cbv zeta in H. set (rz := match rize with Some r => if r =? 0 then len raw else r | None => len raw end) in *.
    apply bind_ok in H. destruct H as ([c' s'] & Hv & H).
    apply raise_if_ok in H. destruct H as [Hl H]. apply ok_inj in H. subst m.
    assert (Hl3 : (3 - rz mod 3) mod 3 < 3) by lia.
    destruct (varCode_ok _ _ _ _ _ _ Hd Ef Hl3 Hv) as (sz' & D1 & D2 & D3 & D4 & D5 & D6 & D7).
    exists sz'. cbn [m_code m_soft m_raw]. rewrite D2. repeat split; auto.
    + apply octets_ntake; exact Ho.
    + lia.
    + lia.
Qed.

Lemma var_size_nil : forall m sz, wf_entry (m_code m) sz -> len (m_soft m) + xs sz = ss sz -> fs sz = None -> m_soft m <> [].
Proof. intros m sz (_&_&_&_&_&_&_&W) H E N. rewrite E in W. rewrite N in H. cbn in H. lia. Qed.

Lemma fullSize_fsize : forall m sz, mfacts m sz -> fullSize m = Ok (fsize m sz).
Proof.
  intros m sz F. unfold fullSize, fsize. rewrite (mf_sz _ _ F). destruct (fs sz) eqn:E; [reflexivity|].
  pose proof (var_size_nil m sz (mf_wf _ _ F) (mf_soft _ _ F) E) as Hn.
  destruct (m_soft m) eqn:Es; [congruence|]. rewrite <- Es in *.
  rewrite b64ToInt_val by (try apply (mf_txt _ _ F); congruence). cbn [bind]. f_equal. lia.
Qed.

