(** Proofs about structures: primitives that were read are read again from what they write. *)
From Verif Require Import Prelude B64Model B64Proofs MatterModel MatterProofs MatterInv MatterBinInv MatterSpec MatterThms SubsModel.
Open Scope N_scope.
Ltac Zify.zify_post_hook ::= Z.div_mod_to_equations.

Definition ascii (s : bytes) : Prop := Forall (fun x => x < 128) s.
Lemma decode_ascii_ok : forall s, ascii s -> decode_ascii s = Ok s.
Proof.
  intros s H. unfold decode_ascii. replace (forallb (fun x => x <? 128) s) with true; [reflexivity|].
  symmetry. apply forallb_forall. intros x X. apply N.ltb_lt. unfold ascii in H. rewrite Forall_forall in H. auto.
Qed.
Lemma decode_ascii_inv : forall s r, decode_ascii s = Ok r -> r = s /\ ascii s.
Proof.
  intros s r H. unfold decode_ascii in H. destruct (forallb (fun x => x <? 128) s) eqn:E; [|discriminate]. apply ok_inj in H. subst r.
  split; [reflexivity|]. apply Forall_forall. intros x X. rewrite forallb_forall in E. apply N.ltb_lt. auto.
Qed.
Lemma b64_asc : forall s, b64text s -> ascii s.
Proof. intros s H. eapply Forall_impl; [|exact H]. intros x X. apply N.ltb_lt, b64_ascii. exact X. Qed.
Lemma asc_app : forall a b, ascii a -> ascii b -> ascii (a ++ b).
Proof. intros a b A B. apply Forall_app. auto. Qed.

Lemma exfil_soft_ascii : forall q m, exfil q = Ok m -> ascii (m_soft m).
Proof.
  intros q m H. unfold exfil in H. destruct q as [|x q]; [discriminate|]. apply bind_ok in H. destruct H as (first & _ & H).
  destruct (dget Hards first) as [h|]; [|destruct (x =? 45); [discriminate|]; destruct (x =? 95); discriminate].
  apply raise_if_ok in H. destruct H as [_ H]. apply bind_ok in H. destruct H as (hard & _ & H).
  destruct (dget Sizes hard) as [sz|]; [|discriminate]. cbv zeta in H. apply bind_ok in H. destruct H as (soft0 & D & H).
  apply decode_ascii_inv in D. destruct D as [-> A]. apply raise_if_ok in H. destruct H as [_ H].
  apply bind_ok in H. destruct H as (f & _ & H). apply raise_if_ok in H. destruct H as [_ H].
  apply bind_ok in H. destruct H as (paw & _ & H). apply raise_if_ok in H. destruct H as [_ H]. apply raise_if_ok in H. destruct H as [_ H].
  apply ok_inj in H. subst m. cbn [m_soft]. apply Forall_skipn. exact A.
Qed.

(** what a primitive read from text satisfies: as well formed, but its soft part may be any ASCII text *)
Record afacts (m : matter) (sz : sizage) : Prop := {
  af_sz : dget Sizes (m_code m) = Some sz;
  af_wf : wf_entry (m_code m) sz;
  af_oct : octets (m_raw m);
  af_asc : ascii (m_soft m);
  af_var : fs sz = None -> b64text (m_soft m);
  af_soft : len (m_soft m) + xs sz = ss sz;
  af_raw : match fs sz with
       | Some f => len (m_raw m) + ls sz = (f - (hs sz + ss sz)) * 3 / 4
       | None => len (m_raw m) + ls sz = 3 * val (m_soft m) end }.
Lemma exfil_afacts : forall q m, exfil q = Ok m -> exists sz, afacts m sz.
Proof.
  intros q m H. pose proof (exfil_soft_ascii _ _ H) as A. destruct (exfil_inv _ _ H) as (sz & [XS _ _ XF XV XO _ _ XR]). exists sz.
  constructor; auto. apply sizes_wf. exact XS.
Qed.
Lemma wf_afacts : forall m, wf_matter m -> exists sz, afacts m sz.
Proof.
  intros m (sz & H1 & H2 & H3 & H4 & H5). exists sz. constructor; auto; [apply sizes_wf; exact H1|apply b64_asc; exact H3].
Qed.
Lemma afacts_k : forall m sz, afacts m sz -> exists k, (hs sz + ss sz) mod 4 + (ls sz + len (m_raw m)) = 3 * N.of_nat k
              /\ (hs sz + ss sz) mod 4 + (fsize m sz - (hs sz + ss sz)) = 4 * N.of_nat k
              /\ hs sz + ss sz <= fsize m sz.
Proof.
  intros m sz [_ W _ _ _ Hs Hr]. destruct W as (W1 & W2 & W3 & W4 & W5 & W6 & W7 & W8). unfold fsize.
  destruct (fs sz) as [f|].
  - exists (N.to_nat (((hs sz + ss sz) mod 4 + (f - (hs sz + ss sz))) / 4)). lia.
  - exists (N.to_nat (val (m_soft m))). lia.
Qed.
Lemma afacts_text_len : forall m sz, afacts m sz -> len (text m sz) = fsize m sz.
Proof.
  intros m sz F. destruct (afacts_k _ _ F) as (k & K1 & K2 & K3). destruct F as [Hsz W Ho _ _ Hs _].
  pose proof (both_len m sz W Hs) as Hb. unfold text. cbv zeta. rewrite len_app, Hb, len_ndrop.
  assert (EL : len (encodeB64 (zeros (N.to_nat ((hs sz + ss sz) mod 4 + ls sz)) ++ m_raw m)) = 4 * N.of_nat k).
  { unfold len. rewrite (encodeB64_length k); [lia|].
    rewrite app_length. unfold zeros. rewrite repeat_length. unfold len in *. lia. }
  rewrite EL. lia.
Qed.
Lemma afacts_infil : forall m sz, afacts m sz -> infil m = Ok (text m sz).
Proof.
  intros m sz F. pose proof (afacts_text_len m sz F) as HL. destruct (afacts_k _ _ F) as (k & Hk1 & Hk2 & Hk3).
  destruct F as [Hsz W Ho _ _ _ _].
  unfold infil. rewrite Hsz. destruct W as (W1 & W2 & W3 & W4 & W5 & W6 & W7 & W8).
  unfold fsize in *. destruct (fs sz) as [f|] eqn:Ef.
  - replace ((3 - (len (m_raw m) + ls sz) mod 3) mod 3) with ((hs sz + ss sz) mod 4) by lia.
    rewrite N.eqb_refl. cbn [negb bind].
    change (both m sz ++ ndrop ((hs sz + ss sz) mod 4)
        (encodeB64 (zeros (N.to_nat ((hs sz + ss sz) mod 4 + ls sz)) ++ m_raw m))) with (text m sz).
    rewrite HL. destruct W8 as (W8 & _). rewrite W8, !N.eqb_refl. reflexivity.
  - destruct W8 as (W8 & _). rewrite W8 in *. cbn [N.eqb negb orb].
    replace ((ls sz + len (m_raw m)) mod 3 =? 0) with true by lia. cbn [negb orb bind].
    assert (E : text m sz = both m sz ++ encodeB64 (zeros (N.to_nat (ls sz)) ++ m_raw m)).
    { unfold text. rewrite W8. reflexivity. }
    rewrite <- E, HL. replace ((hs sz + ss sz + 4 * val (m_soft m)) mod 4 =? 0) with true by lia.
    reflexivity.
Qed.
Lemma afacts_mat : forall m sz, afacts m sz ->
  repeat 65 (N.to_nat ((hs sz + ss sz) mod 4)) ++ ndrop (hs sz + ss sz) (text m sz)
  = encodeB64 (zeros (N.to_nat ((hs sz + ss sz) mod 4 + ls sz)) ++ m_raw m).
Proof.
  intros m sz F. destruct (afacts_k _ _ F) as (k & Hk1 & Hk2 & Hk3). destruct F as [Hsz W Ho _ _ Hs _].
  pose proof (both_len m sz W Hs) as Hcs. pose proof W as (_ & _ & _ & _ & W5 & _).
  unfold text. cbv zeta. rewrite <- Hcs at 2. rewrite ndrop_len_app.
  rewrite zeros_add, <- app_assoc. symmetry. apply encode_lead with (k := k).
  - lia.
  - apply octets_app; split; [apply octets_repeat0|exact Ho].
  - rewrite app_length. unfold zeros. rewrite repeat_length. unfold len in *. lia.
Qed.
Theorem afacts_exfil : forall m sz t, afacts m sz -> exfil (text m sz ++ t) = Ok m.
Proof.
  intros m sz t F. pose proof (afacts_text_len m sz F) as HL. pose proof (afacts_mat m sz F) as HM.
  destruct (afacts_k _ _ F) as (k & Hk1 & Hk2 & Hk3).
  destruct (dget_first m sz t (af_wf _ _ F)) as (x & r & Ex & Ex1 & Ex2).
  destruct F as [Hsz W Ho Ha Hv Hs _].
  pose proof (both_len m sz W Hs) as Hcs.
  assert (HS : ntake (ss sz) (ndrop (hs sz) (both m sz)) = repeat 95 (N.to_nat (xs sz)) ++ m_soft m).
  { destruct W as (H & _). unfold both. rewrite <- H, ndrop_len_app. apply ntake_all. rewrite len_app. unfold len at 1. rewrite repeat_length. lia. }
  pose proof W as (W1 & W2 & W3 & W4 & W5 & W6 & W7 & W8).
  set (q := text m sz ++ t) in *.
  assert (HB : forall n, n <= hs sz + ss sz -> ntake n q = ntake n (both m sz)).
  { intros n Hn. unfold q, text. rewrite <- app_assoc. apply ntake_app_le. lia. }
  unfold exfil. rewrite Ex. cbv beta iota. rewrite <- Ex.
  rewrite decode_ascii_text by exact Ex2. cbn [bind]. rewrite Ex1, W4.
  replace (len q <? hs sz) with false by (unfold q; rewrite len_app; lia).
  rewrite HB by lia. rewrite both_hard by assumption. rewrite decode_ascii_text by assumption. cbn [bind].
  rewrite Hsz. cbv zeta.
  assert (HD : ntake (ss sz) (ndrop (hs sz) q) = repeat 95 (N.to_nat (xs sz)) ++ m_soft m).
  { rewrite <- HS. unfold q, text. rewrite <- app_assoc. rewrite ndrop_app_le by lia.
    apply ntake_app_le. rewrite len_ndrop. lia. }
  rewrite HD. rewrite decode_ascii_ok by (apply asc_app; [apply b64_asc, b64text_repeat95|exact Ha]).
  cbn [bind].
  rewrite ntake_repeat_app, beq_refl. cbn [negb]. rewrite ndrop_repeat_app.
  assert (HF : (match fs sz with
     | Some f => Ok f
     | None => s <- b64ToInt (m_soft m);; Ok (s * 4 + (hs sz + ss sz)) end) = Ok (fsize m sz)).
  { unfold fsize. destruct (fs sz); [reflexivity|]. rewrite b64ToInt_val; [|apply Hv; reflexivity|].
    - cbn [bind]. f_equal. lia.
    - intros E. rewrite E in Hs. cbn in Hs. lia. }
  rewrite HF. cbn [bind].
  replace (len q <? fsize m sz) with false by (unfold q; rewrite len_app; lia).
  assert (HT : ntake (fsize m sz) q = text m sz) by (rewrite <- HL; apply ntake_len_app).
  rewrite HT, HM.
  rewrite (decode_encode k).
  - cbn [bind]. unfold zeros. rewrite ntake_repeat_app, ndrop_repeat_app. unfold int_from_bytes.
    rewrite of_digits_repeat0. cbn [N.eqb negb].
    rewrite HL. replace (len (m_raw m) + ls sz =? (fsize m sz - (hs sz + ss sz)) * 3 / 4) with true by lia.
    cbn [negb]. destruct m; reflexivity.
  - apply octets_app; split; [apply octets_repeat0|exact Ho].
  - rewrite app_length. unfold zeros. rewrite repeat_length. unfold len in *. lia.
Qed.
(** a primitive that can be written as text and read again from it *)
Record rw (m : matter) (q : bytes) : Prop := {
  rw_infil : infil m = Ok q;
  rw_four : len q mod 4 = 0;
  rw_ne : q <> [];
  rw_exfil : forall t, exfil (q ++ t) = Ok m }.
Lemma afacts_rw : forall m sz, afacts m sz -> rw m (text m sz).
Proof.
  intros m sz F. pose proof (afacts_text_len _ _ F) as L. destruct (afacts_k _ _ F) as (k & K1 & K2 & K3).
  assert (H0 : 0 < hs sz) by (destruct F as [_ (_ & H & _) _ _ _ _ _]; exact H). constructor.
  - apply afacts_infil. exact F.
  - rewrite L. pose proof (af_wf _ _ F) as (_ & _ & _ & _ & W5 & _). lia.
  - intros E. rewrite E in L. cbn in L. lia.
  - intros t. apply afacts_exfil. exact F.
Qed.
Lemma exfil_rw : forall s m, exfil s = Ok m -> exists q, rw m q.
Proof. intros s m H. destruct (exfil_afacts _ _ H) as (sz & F). eexists. exact (afacts_rw _ _ F). Qed.
Lemma built_rw : forall m, built m -> exists q, rw m q.
Proof. intros m H. destruct (wf_afacts _ (built_wf _ H)) as (sz & F). eexists. exact (afacts_rw _ _ F). Qed.
Lemma rw_inj : forall m q q', rw m q -> rw m q' -> q = q'.
Proof. intros m q q' [A _ _ _] [B _ _ _]. rewrite A in B. apply ok_inj in B. exact B. Qed.
(** two texts that begin with the text of a primitive *)
Lemma rw_prefix : forall m q t m' q' t', rw m q -> rw m' q' -> q ++ t = q' ++ t' -> m = m' /\ q = q' /\ t = t'.
Proof.
  intros m q t m' q' t' A B E. assert (M : m = m').
  { pose proof (rw_exfil _ _ A t) as X. rewrite E, (rw_exfil _ _ B) in X. apply ok_inj in X. congruence. }
  subst m'. pose proof (rw_inj _ _ _ A B). subst q'. apply app_inv_head in E. auto.
Qed.
