From Verif Require Import Prelude B64Model B64Proofs MatterModel MatterProofs MatterInv MatterBinInv QualProofs IdxModel.
Ltac Zify.zify_post_hook ::= Z.div_mod_to_equations.

Definition xwf (code : bytes) (sz : xizage) : Prop :=
  len code = xhs sz /\ 0 < xhs sz /\ b64text code /\ dget IHards (ntake 1 code) = Some (xhs sz)
  /\ (xhs sz + xss sz) mod 4 <> 3 /\ xos sz < xss sz
  /\ match xfs sz with
     | Some f => f mod 4 = 0 /\ xhs sz + xss sz <= f
     | None => (xhs sz + xss sz) mod 4 = 0 /\ xos sz = 0
     end.
Definition xwfb (code : bytes) (sz : xizage) : bool :=
  (len code =? xhs sz) && (0 <? xhs sz) && Reb64 code
  && match dget IHards (ntake 1 code) with Some h => h =? xhs sz | None => false end
  && negb ((xhs sz + xss sz) mod 4 =? 3) && (xos sz <? xss sz)
  && match xfs sz with
     | Some f => (f mod 4 =? 0) && (xhs sz + xss sz <=? f)
     | None => ((xhs sz + xss sz) mod 4 =? 0) && (xos sz =? 0)
     end.
Lemma xwfb_ok : forall code sz, xwfb code sz = true -> xwf code sz.
Proof.
  intros code sz H. unfold xwfb in H. unfold xwf.
  repeat (apply andb_true_iff in H; destruct H as [H ?]).
  apply Reb64_b64text in H4. destruct (dget IHards (ntake 1 code)); [|discriminate].
  repeat split; try lia; try assumption.
  - f_equal. lia.
  - destruct (xfs sz); lia.
Qed.
Lemma isizes_wf : forall code sz, dget ISizes code = Some sz -> xwf code sz.
Proof.
  intros code sz H. apply dget_In in H. apply xwfb_ok.
  assert (A : forallb (fun p => xwfb (fst p) (snd p)) ISizes = true) by (vm_compute; reflexivity).
  rewrite forallb_forall in A. apply (A _ H).
Qed.

Definition ifsize (x : indexer) (sz : xizage) : N :=
  match xfs sz with Some f => f | None => i_index x * 4 + (xhs sz + xss sz) end.

(** A well formed indexed signature. *)
Record iok (x : indexer) (sz : xizage) : Prop := {
  io_sz : dget ISizes (i_code x) = Some sz;
  io_ls : xls sz = 0;
  io_oct : octets (i_raw x);
  io_idx : i_index x < 64 ^ (xss sz - xos sz);
  io_ond : if memB (i_code x) IdxCrtSigDex then i_ondex x = None
           else exists o, i_ondex x = Some o /\ o < 64 ^ (if xos sz =? 0 then xss sz else xos sz)
                  /\ (xos sz = 0 -> o = i_index x);
  io_raw : len (i_raw x) = (ifsize x sz - (xhs sz + xss sz)) * 3 / 4
}.

Lemma pow64_pos : forall n, 0 < 64 ^ n.
Proof. intros. apply N.neq_0_lt_0, N.pow_nonzero. lia. Qed.

Definition ood (x : indexer) : N := match i_ondex x with Some o => o | None => 0 end.

Lemma ood_lt : forall x sz, iok x sz -> xos sz <> 0 -> ood x < 64 ^ xos sz.
Proof.
  intros x sz [H1 H2 H3 H4 H5 H6] Hn. unfold ood. destruct (memB _ _).
  - rewrite H5. apply pow64_pos.
  - destruct H5 as (o & -> & Ho & _). destruct (xos sz =? 0) eqn:E; [lia|exact Ho].
Qed.

Lemma ond_chars_len : forall x sz, iok x sz -> len (intToB64 (ood x) (xos sz)) = xos sz.
Proof.
  intros x sz K. destruct (N.eq_dec (xos sz) 0) as [E|E].
  - rewrite E. reflexivity.
  - apply intToB64_len_fits. apply ood_lt; assumption.
Qed.

Lemma iboth_len : forall x sz, iok x sz -> len (iboth x sz) = xhs sz + xss sz.
Proof.
  intros x sz K. pose proof (isizes_wf _ _ (io_sz _ _ K)) as (W1 & _ & _ & _ & _ & W6 & _).
  unfold iboth. fold (ood x). rewrite !len_app, W1, (ond_chars_len _ _ K), intToB64_len_fits by apply (io_idx _ _ K). lia.
Qed.

Lemma iboth_text : forall x sz, iok x sz -> b64text (iboth x sz).
Proof.
  intros x sz K. pose proof (isizes_wf _ _ (io_sz _ _ K)) as (W1 & _ & W3 & _).
  unfold iboth. apply b64text_app; split; [exact W3|]. apply b64text_app; split; apply intToB64_text.
Qed.

Lemma iq : forall x sz, iok x sz -> qok (iboth x sz) (i_raw x) (ifsize x sz).
Proof.
  intros x sz K. pose proof (isizes_wf _ _ (io_sz _ _ K)) as (W1 & W2 & W3 & W4 & W5 & W6 & W7).
  pose proof (iboth_len _ _ K) as HL. pose proof (io_raw _ _ K) as HR.
  constructor.
  - apply iboth_text; exact K.
  - intros E. rewrite E in HL. cbn in HL. lia.
  - rewrite HL. lia.
  - apply (io_oct _ _ K).
  - rewrite HL. exists (N.to_nat (((xhs sz + xss sz) mod 4 + (ifsize x sz - (xhs sz + xss sz))) / 4)).
    unfold ifsize in *. destruct (xfs sz); lia.
  - rewrite HL. unfold ifsize. destruct (xfs sz); lia.
Qed.

Definition itext x sz := qtext (iboth x sz) (i_raw x).
Definition ibin x sz := qbin (iboth x sz) (i_raw x).

Lemma xfull_ok : forall e x sz, xwf (i_code x) sz -> xfull e sz (i_index x) = Ok (ifsize x sz).
Proof.
  intros e x sz (_ & _ & _ & _ & _ & _ & W). unfold xfull, ifsize. destruct (xfs sz); [reflexivity|].
  destruct W as [-> ->]. reflexivity.
Qed.

Lemma ondexFits_ok : forall x sz, iok x sz -> ondexFits sz (i_ondex x) = true.
Proof.
  intros x sz K. pose proof (ood_lt _ _ K) as H. unfold ondexFits, ood in *. destruct (i_ondex x); [|reflexivity].
  destruct (xos sz =? 0) eqn:E; [reflexivity|]. cbn [orb]. specialize (H ltac:(lia)). lia.
Qed.

Lemma iinfil_ok : forall x sz, iok x sz -> iinfil x = Ok (itext x sz).
Proof.
  intros x sz K. pose proof (isizes_wf _ _ (io_sz _ _ K)) as W. pose proof (iq _ _ K) as Q.
  pose proof (iboth_len _ _ K) as HL. unfold iinfil. rewrite (io_sz _ _ K), (xfull_ok _ _ _ W). cbn [bind].
  replace (i_index x <=? _) with true by (pose proof (io_idx _ _ K); lia). cbn [negb].
  rewrite (ondexFits_ok _ _ K). cbn [negb]. rewrite HL, N.eqb_refl. cbn [negb]. rewrite (io_ls _ _ K), N.add_0_r.
  assert (E : (3 - len (i_raw x) mod 3) mod 3 = (xhs sz + xss sz) mod 4).
  { destruct (q_k _ _ _ Q) as (k & A & B). pose proof (q_ps _ _ _ Q). rewrite HL in *. lia. }
  rewrite E, N.eqb_refl. cbn [negb]. rewrite N.sub_0_r.
  assert (ET : iboth x sz ++ ndrop ((xhs sz + xss sz) mod 4) (encodeB64 (zeros (N.to_nat ((xhs sz + xss sz) mod 4)) ++ i_raw x)) = itext x sz).
  { unfold itext, qtext. cbv zeta. rewrite HL. reflexivity. }
  rewrite ET. unfold itext at 1. rewrite (qtext_len _ _ _ Q), N.eqb_refl. reflexivity.
Qed.

Lemma pow64_le : forall a b, a <= b -> 64 ^ a <= 64 ^ b.
Proof. intros. apply N.pow_le_mono_r; lia. Qed.

Lemma ibinfil_ok : forall x sz, iok x sz -> ibinfil x = Ok (ibin x sz).
Proof.
  intros x sz K. pose proof (isizes_wf _ _ (io_sz _ _ K)) as W. pose proof (iq _ _ K) as Q.
  pose proof (iboth_len _ _ K) as HL. unfold ibinfil. rewrite (io_sz _ _ K).
  replace (i_index x <=? _) with true.
  2:{ pose proof (io_idx _ _ K). pose proof (pow64_le (xss sz - xos sz) (xss sz) ltac:(lia)). lia. }
  cbn [negb]. rewrite (ondexFits_ok _ _ K). cbn [negb].  rewrite (xfull_ok _ _ _ W). cbn [bind].
  rewrite HL, N.eqb_refl. cbn [negb]. rewrite (io_ls _ _ K), N.add_0_r.
  assert (E : (3 - len (i_raw x) mod 3) mod 3 = (xhs sz + xss sz) mod 4).
  { destruct (q_k _ _ _ Q) as (k & A & B). pose proof (q_ps _ _ _ Q). rewrite HL in *. lia. }
  rewrite E, N.eqb_refl. cbn [negb]. rewrite N.sub_0_r. pose proof (qbin_code _ _ _ Q) as C.
  rewrite HL in C. rewrite C. cbn [bind].
  assert (ET : to_digits 256 (N.to_nat (sceil34 (xhs sz + xss sz))) (val (iboth x sz) * 4 ^ ((xhs sz + xss sz) mod 4))
     ++ zeros (N.to_nat 0) ++ i_raw x = ibin x sz).
  { unfold ibin, qbin. rewrite HL. reflexivity. }
  rewrite ET. unfold ibin at 1 2. rewrite (qbin_len _ _ _ Q). pose proof (qmod4 _ _ _ Q) as H4.
  replace (ifsize x sz * 3 / 4 * 4 / 3) with (ifsize x sz) by lia. rewrite N.eqb_refl.
  replace (ifsize x sz * 3 / 4 mod 3 =? 0) with true by lia. reflexivity.
Qed.

Lemma ibth_hard : forall x sz, iok x sz -> ntake (xhs sz) (iboth x sz) = i_code x.
Proof.
  intros x sz K. pose proof (isizes_wf _ _ (io_sz _ _ K)) as (W1 & _). rewrite <- W1. apply ntake_len_app.
Qed.
Lemma ibth_index : forall x sz, iok x sz ->
  ntake (xss sz - xos sz) (ndrop (xhs sz) (iboth x sz)) = intToB64 (i_index x) (xss sz - xos sz).
Proof.
  intros x sz K. pose proof (isizes_wf _ _ (io_sz _ _ K)) as (W1 & _). unfold iboth. rewrite <- W1, ndrop_len_app.
  pose proof (intToB64_len_fits _ _ (io_idx _ _ K)) as E. rewrite <- E at 1. apply ntake_len_app.
Qed.
Lemma ibth_ondex : forall x sz, iok x sz ->
  ntake (xos sz) (ndrop (xhs sz + (xss sz - xos sz)) (iboth x sz)) = intToB64 (ood x) (xos sz).
Proof.
  intros x sz K. pose proof (isizes_wf _ _ (io_sz _ _ K)) as (W1 & _). unfold iboth. fold (ood x).
  rewrite <- ndrop_ndrop, <- W1, ndrop_len_app.
  pose proof (intToB64_len_fits _ _ (io_idx _ _ K)) as E. rewrite <- E at 1. rewrite ndrop_len_app.
  apply ntake_all. rewrite (ond_chars_len _ _ K). lia.
Qed.

Lemma index_read : forall x sz, iok x sz -> b64ToInt (intToB64 (i_index x) (xss sz - xos sz)) = Ok (i_index x).
Proof.
  intros x sz K. pose proof (isizes_wf _ _ (io_sz _ _ K)) as (_ & _ & _ & _ & _ & W6 & _).
  rewrite b64ToInt_val; [f_equal; apply intToB64_val; lia|apply intToB64_text|].
  intros E. pose proof (intToB64_len_fits _ _ (io_idx _ _ K)) as L. rewrite E in L. cbn in L. lia.
Qed.

Lemma ondex_read : forall x sz, iok x sz ->
  ondexOf (i_code x) sz (i_index x) (intToB64 (ood x) (xos sz)) = Ok (i_ondex x).
Proof.
  intros x sz K. unfold ondexOf. pose proof (io_ond _ _ K) as HO. destruct (xos sz =? 0) eqn:E.
  - cbn [bind]. destruct (memB _ _); [rewrite HO; reflexivity|].
    destruct HO as (o & -> & _ & Ho). rewrite Ho by lia. reflexivity.
  - rewrite b64ToInt_val; [|apply intToB64_text|].
    2:{ intros E2. pose proof (ond_chars_len _ _ K) as L. rewrite E2 in L. cbn in L. lia. }
    cbn [bind]. rewrite intToB64_val by lia. unfold ood. destruct (memB _ _).
    + rewrite HO. reflexivity.
    + destruct HO as (o & -> & _). reflexivity.
Qed.

Theorem iexfil_ok : forall x sz t, iok x sz -> iexfil (itext x sz ++ t) = Ok x.
Proof.
  intros x sz t K. pose proof (isizes_wf _ _ (io_sz _ _ K)) as W. pose proof (iq _ _ K) as Q.
  pose proof (iboth_len _ _ K) as HL. pose proof W as (W1 & W2 & W3 & W4 & W5 & W6 & W7).
  pose proof (qtext_len _ _ _ Q) as HT. fold (itext x sz) in HT. pose proof (q_le _ _ _ Q) as Hle. rewrite HL in Hle.
  set (q := itext x sz ++ t).
  assert (Hq : len q = ifsize x sz + len t) by (unfold q; rewrite len_app; lia).
  assert (HB : forall a b, a + b <= xhs sz + xss sz -> ntake b (ndrop a q) = ntake b (ndrop a (iboth x sz))).
  { intros a b Hab. unfold q, itext, qtext. cbv zeta. rewrite <- app_assoc, ndrop_app_le by lia.
    apply ntake_app_le. rewrite len_ndrop. lia. }
  assert (Hhd : ntake (xhs sz) q = i_code x).
  { pose proof (HB 0 (xhs sz) ltac:(lia)) as A. unfold ndrop in A. cbn in A. rewrite A. apply (ibth_hard _ _ K). }
  destruct (i_code x) as [|x0 cr] eqn:Ec; [cbn in W1; lia|]. rewrite <- Ec in *.
  assert (Ex : exists r, q = x0 :: r).
  { unfold q, itext, qtext, iboth. rewrite Ec. eexists. cbn [app]. reflexivity. }
  destruct Ex as (r & Ex). unfold iexfil. rewrite Ex. cbv beta iota. rewrite <- Ex.
  assert (Hf : [x0] = ntake 1 (i_code x)) by (rewrite Ec; reflexivity).
  rewrite decode_ascii_text; [|rewrite Hf; apply b64text_ntake; exact W3]. cbn [bind]. rewrite Hf, W4.
  replace (len q <? xhs sz) with false by lia. rewrite Hhd, decode_ascii_text by exact W3. cbn [bind].
  rewrite (io_sz _ _ K). cbv zeta. replace (len q <? xhs sz + xss sz) with false by lia.
  rewrite HB by lia. rewrite (ibth_index _ _ K), decode_ascii_text by apply intToB64_text. cbn [bind].
  rewrite (index_read _ _ K). cbn [bind].
  rewrite HB by lia. rewrite (ibth_ondex _ _ K), decode_ascii_text by apply intToB64_text. cbn [bind].
  rewrite (ondex_read _ _ K). cbn [bind]. rewrite (xfull_ok _ _ _ W). cbn [bind].
  replace (len q <? ifsize x sz) with false by lia.
  assert (HTk : ntake (ifsize x sz) q = itext x sz) by (rewrite <- HT; apply ntake_len_app).
  rewrite HTk, HT. pose proof (qtext_dec _ _ _ Q) as D. fold (itext x sz) in D. rewrite HL in D.
  match goal with |- bind ?e _ = _ => assert (HR : e = Ok (i_raw x)) end.
  { destruct ((xhs sz + xss sz) mod 4 =? 0) eqn:E0; cbn [negb].
    - apply N.eqb_eq in E0. rewrite E0 in D. cbn [N.to_nat repeat app zeros] in D. rewrite D. cbn [bind].
      rewrite (io_ls _ _ K). reflexivity.
    - rewrite D. cbn [bind]. unfold zeros. rewrite ntake_repeat_app, ndrop_repeat_app. unfold int_from_bytes.
      rewrite of_digits_repeat0. reflexivity. }
  rewrite HR. cbn [bind]. rewrite (io_raw _ _ K), N.eqb_refl. cbn [negb]. destruct x; reflexivity.
Qed.

Lemma ibards_hards : forall x h, B64IdxByChr x <> None -> dget IHards [x] = Some h ->
  dget IBards [idx x * 4] = Some h.
Proof.
  intros x h Hx H. destruct (B64IdxByChr x) as [d|] eqn:E; [|congruence].
  pose proof (idx_lt _ _ E) as Hd. unfold idx. rewrite E. apply chr_idx in E. subst x. clear Hx.
  pose proof (forall_lt_N (fun d => match dget IHards [B64ChrByIdx d], dget IBards [d * 4] with
     | Some h, Some h' => h =? h' | None, None => true | _, _ => false end) 64 eq_refl d Hd) as A.
  cbn beta in A. rewrite H in A. destruct (dget IBards [d * 4]); [|discriminate].
  apply N.eqb_eq in A. congruence.
Qed.

Theorem ibexfil_ok : forall x sz t, iok x sz -> ibexfil (ibin x sz ++ t) = Ok x.
Proof.
  intros x sz t K. pose proof (isizes_wf _ _ (io_sz _ _ K)) as W. pose proof (iq _ _ K) as Q.
  pose proof (iboth_len _ _ K) as HL. pose proof W as (W1 & W2 & W3 & W4 & W5 & W6 & W7).
  pose proof (qbin_len _ _ _ Q) as HT. fold (ibin x sz) in HT. pose proof (q_le _ _ _ Q) as Hle. rewrite HL in Hle.
  pose proof (qmod4 _ _ _ Q) as H4.
  destruct (qbin_nab1 _ _ _ t Q) as (x0 & Hx1 & Hx2 & Hx3). fold (ibin x sz) in Hx3.
  set (q := ibin x sz ++ t) in *.
  assert (Hq : len q = ifsize x sz * 3 / 4 + len t) by (unfold q; rewrite len_app; lia).
  assert (HR : forall l, l <= xhs sz + xss sz -> codeB2ToB64 q l = Ok (ntake l (iboth x sz))).
  { intros l Hl. apply (qread_le _ _ _ _ _ Q). lia. }
  assert (HB : dget IBards [idx x0 * 4] = Some (xhs sz)).
  { apply ibards_hards; [exact Hx2|]. rewrite <- W4. f_equal. rewrite <- (ibth_hard _ _ K), ntake_ntake by lia. symmetry. exact Hx1. }
  unfold ibexfil. destruct q as [|q0 qr] eqn:Eq; [unfold len in Hq; cbn in Hq; lia|]. rewrite <- Eq in *.
  rewrite Hx3. cbn [bind]. rewrite HB.
  replace (len q <? sceil34 (xhs sz)) with false by (unfold sceil34; lia).
  rewrite HR by lia. cbn [bind]. rewrite (ibth_hard _ _ K), (io_sz _ _ K). cbv zeta.
  replace (len q <? sceil34 (xhs sz + xss sz)) with false by (unfold sceil34; lia).
  rewrite HR by lia. cbn [bind]. replace (ntake (xhs sz + xss sz) (iboth x sz)) with (iboth x sz) by (symmetry; apply ntake_all; rewrite HL; lia). rewrite (ibth_index _ _ K), (index_read _ _ K). cbn [bind].
  rewrite (ibth_ondex _ _ K), (ondex_read _ _ K). cbn [bind]. rewrite (xfull_ok _ _ _ W). cbn [bind].
  assert (Hsc : sceil34 (ifsize x sz) = len (ibin x sz)) by (rewrite HT; unfold sceil34; lia).
  rewrite Hsc. replace (len q <? len (ibin x sz)) with false by lia.
  assert (Htk : ntake (len (ibin x sz)) q = ibin x sz) by (rewrite Eq; apply ntake_len_app || (rewrite <- Eq; unfold q; apply ntake_len_app)).
  rewrite Htk, (io_ls _ _ K). pose proof (qbin_pad _ _ _ Q) as HP. fold (ibin x sz) in HP. rewrite HL in HP.
  assert (HC : (if negb ((xhs sz + xss sz) mod 4 =? 0)
     then negb (N.land (int_from_bytes (ntake 1 (ndrop (sceil34 (xhs sz + xss sz) - 1) (ibin x sz)))) (2 ^ (2 * ((xhs sz + xss sz) mod 4)) - 1) =? 0)
     else negb (int_from_bytes (ntake 0 (ndrop (sceil34 (xhs sz + xss sz)) (ibin x sz))) =? 0)) = false).
  { destruct (negb _); [rewrite HP; reflexivity|reflexivity]. }
  rewrite HC. rewrite !N.add_0_r. pose proof (qbin_raw (iboth x sz) (i_raw x)) as HRw. fold (ibin x sz) in HRw. rewrite HL in HRw.
  rewrite HRw. replace (len (i_raw x) + sceil34 (xhs sz + xss sz) =? len (ibin x sz)) with true.
  - cbn [negb]. destruct x; reflexivity.
  - symmetry. apply N.eqb_eq. unfold ibin, qbin. rewrite len_app, HL. unfold len at 2. rewrite to_digits_length. lia.
Qed.

Lemma memB_In : forall x l, memB x l = true <-> In x l.
Proof.
  intros x l. unfold memB. rewrite existsb_exists. split.
  - intros (y & Hy & E). apply beq_eq in E. subst. exact Hy.
  - intros H. exists x. split; [exact H|apply beq_refl].
Qed.

Lemma sigdex_ok : forall code sz, memB code IdxSigDex = true -> dget ISizes code = Some sz ->
  xls sz = 0 /\ memB code IdxBthSigDex = negb (memB code IdxCrtSigDex) /\ exists f, xfs sz = Some f.
Proof.
  intros code sz H D. apply memB_In in H.
  assert (A : forallb (fun c => match dget ISizes c with
     | Some s => (xls s =? 0) && Bool.eqb (memB c IdxBthSigDex) (negb (memB c IdxCrtSigDex))
                 && match xfs s with Some _ => true | None => false end | None => false end) IdxSigDex = true)
    by (vm_compute; reflexivity).
  rewrite forallb_forall in A. specialize (A _ H). rewrite D in A.
  apply andb_true_iff in A. destruct A as [A A3]. apply andb_true_iff in A. destruct A as [A1 A2].
  apply eqb_prop in A2. destruct (xfs sz); [|discriminate]. split; [lia|]. split; [exact A2|]. eauto.
Qed.

Theorem siger_of_raw_ok : forall raw code index ondex x, octets raw ->
  siger_of_raw raw code index ondex = Ok x -> exists sz, iok x sz.
Proof.
  intros raw code index ondex x Ho H. unfold siger_of_raw in H. apply bind_ok in H. destruct H as (y & H & S).
  unfold siger_check in S. destruct (memB (i_code y) IdxSigDex) eqn:Em; [|discriminate]. apply ok_inj in S. subst y.
  unfold indexer_of_raw in H. destruct code as [|c0 cr]; [discriminate|]. set (code := c0 :: cr) in *.
  destruct (dget ISizes code) as [sz|] eqn:Ed; [|discriminate]. cbv zeta in H.
  apply raise_if_ok in H. destruct H as [H1 H]. apply raise_if_ok in H. destruct H as [H2 H].
  apply raise_if_ok in H. destruct H as [H3 H]. apply bind_ok in H. destruct H as (o' & H4 & H).
  apply bind_ok in H. destruct H as (f & H5 & H). apply raise_if_ok in H. destruct H as [H6 H].
  apply ok_inj in H. subst x. cbn [i_code] in Em.
  destruct (sigdex_ok _ _ Em Ed) as (L1 & L2 & f0 & L3). exists sz.
  unfold xfull in H5. rewrite L3 in H5. apply ok_inj in H5. subst f0.
  constructor; cbn [i_code i_index i_ondex i_raw]; auto.
  - apply octets_ntake; exact Ho.
  - pose proof (pow64_pos (xss sz - xos sz)). lia.
  - rewrite L2 in H4. destruct (memB code IdxCrtSigDex).
    + cbn [negb] in H4. apply ok_inj in H4. subst o'. destruct ondex; [discriminate|reflexivity].
    + cbn [negb] in H4. destruct ondex as [o|].
      * apply raise_if_ok in H4. destruct H4 as [H7 H4]. apply ok_inj in H4. subst o'. exists o. split; [reflexivity|].
        cbn [ondexFits] in H2. pose proof (pow64_pos (xos sz)). destruct (xos sz =? 0) eqn:E0.
        -- assert (o = index) by lia. subst o. split; [|auto]. pose proof (pow64_pos (xss sz - xos sz)).
           pose proof (pow64_le (xss sz - xos sz) (xss sz) ltac:(lia)). lia.
        -- split; [lia|]. lia.
      * apply ok_inj in H4. subst o'. exists index. split; [reflexivity|].
        pose proof (pow64_pos (xss sz - xos sz)). 
        assert (A : forallb (fun p => (xos (snd p) =? 0) || (xss (snd p) - xos (snd p) =? xos (snd p))) ISizes = true) by (vm_compute; reflexivity).
        rewrite forallb_forall in A. specialize (A _ (dget_In _ _ _ _ Ed)). cbn [snd] in A.
        destruct (xos sz =? 0) eqn:E0.
        -- split; [|reflexivity]. pose proof (pow64_le (xss sz - xos sz) (xss sz) ltac:(lia)). lia.
        -- cbn [orb] in A. apply N.eqb_eq in A. split; [|reflexivity]. rewrite <- A. lia.
  - unfold ifsize. cbn [i_index]. rewrite L3. lia.
Qed.
