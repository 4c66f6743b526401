(** Proofs of properties C01-C04, C41 (class Matter). *)
From Verif Require Import Prelude B64Model B64Proofs MatterModel MatterProofs MatterInv MatterBinInv MatterSpec.
Ltac Zify.zify_post_hook ::= Z.div_mod_to_equations.

(* ------------------------------------------------------------------ *)

Lemma matter_of_soft_wf : forall code soft m sz, dget Sizes code = Some sz -> fs sz = Some (hs sz + ss sz) ->
  matter_of_soft code soft = Ok m -> wf_matter m.
Proof.
  intros code soft m sz Hd Hf H. unfold matter_of_soft in H. rewrite Hd, Hf in H.
  apply raise_if_ok in H. destruct H as [H1 H]. cbv zeta in H.
  apply raise_if_ok in H. destruct H as [H2 H]. apply raise_if_ok in H. destruct H as [H3 H].
  apply ok_inj in H. subst m. exists sz. cbn [m_code m_soft m_raw]. rewrite Hf.
  pose proof (sizes_wf _ _ Hd) as (W1 & W2 & W3 & W4 & W5 & W6 & W7 & W8).
  repeat split; auto.
  - constructor.
  - apply Reb64_b64text. destruct (Reb64 _); [reflexivity|discriminate].
  - lia.
  - cbn. rewrite N.eqb_refl in H1. destruct (ls sz =? 0) eqn:E; [|rewrite orb_true_r in H1; discriminate].
    apply N.eqb_eq in E. rewrite E. rewrite N.sub_diag. reflexivity.
Qed.

Lemma exfil_fullSize : forall q m sz f, exfil_facts q m sz -> fullSize m = Ok f -> f = fsize m sz.
Proof.
  intros q m sz f F H. unfold fullSize in H. rewrite (xf_sz _ _ _ F) in H. unfold fsize.
  destruct (fs sz) eqn:E; [apply ok_inj in H; auto|]. destruct (m_soft m) eqn:Es; [discriminate|].
  rewrite <- Es in *. apply bind_ok in H. destruct H as (s & Hs & H). apply b64ToInt_ok in Hs.
  destruct Hs as (_ & _ & ->). apply ok_inj in H. lia.
Qed.

Lemma built_wf : forall m, built m -> wf_matter m.
Proof.
  intros m H. destruct H.
  - eapply matter_of_raw_wf; eauto.
  - eapply matter_of_soft_wf; eauto.
  - eapply bexfil_inv; eauto.
  - destruct (exfil_inv _ _ H) as (sz & F). apply (exfil_text_wf q m sz F).
    apply Reb64_b64text. rewrite <- (exfil_fullSize q m sz f F H0). exact H1.
Qed.

Lemma built_facts : forall m, built m -> exists sz, mfacts m sz.
Proof. intros m H. destruct (wf_facts m (built_wf m H)) as (sz & F & _). eauto. Qed.

(* ------------------------------------------------------------------ *)
(** ** C01 *)

Lemma c01_text_round_trip : forall m tail, built m ->
  exists q, infil m = Ok q /\ fullSize m = Ok (len q) /\
            exfil (q ++ tail) = Ok m /\ matter_strip (q ++ tail) = Ok (m, tail).
Proof.
  intros m tail H. destruct (built_facts m H) as (sz & F). exists (text m sz).
  pose proof (exfil_text m sz tail F) as HE. pose proof (fullSize_fsize m sz F) as HF.
  rewrite <- (text_len m sz F) in HF.
  split; [apply infil_text; exact F|]. split; [exact HF|]. split; [exact HE|].
  unfold matter_strip. rewrite HE. cbn [bind]. rewrite HF. cbn [bind]. rewrite ndrop_len_app. reflexivity.
Qed.

Lemma c01_constructor_content : forall raw code soft rize m, octets raw ->
  matter_of_raw raw code soft rize = Ok m ->
  exists sz, dget Sizes code = Some sz /\
  match fs sz with
  | Some f => m_code m = code /\ m_soft m = ntake (ss sz - xs sz) soft
              /\ m_raw m = ntake ((f - (hs sz + ss sz)) * 3 / 4 - ls sz) raw
              /\ len (m_raw m) = (f - (hs sz + ss sz)) * 3 / 4 - ls sz
  | None =>
      let n := match rize with Some r => if r =? 0 then len raw else r | None => len raw end in
      m_raw m = ntake n raw /\ len (m_raw m) = n
      /\ last (m_code m) 0 = last code 0
      /\ exists sz', dget Sizes (m_code m) = Some sz' /\ fs sz' = None
           /\ val (m_soft m) * 3 = n + ls sz'
  end.
Proof.
  intros raw code soft rize m Ho H. pose proof (matter_of_raw_wf _ _ _ _ _ Ho H) as (szm & Hszm & _ & _ & _ & Hlen).
  unfold matter_of_raw in H.
  destruct code as [|c0 cr]; [discriminate|]. set (code := c0 :: cr) in *.
  destruct (dget Sizes code) as [sz|] eqn:Hd; [|discriminate]. exists sz. split; [reflexivity|].
  pose proof (sizes_wf _ _ Hd) as (W1 & W2 & W3 & W4 & W5 & W6 & W7 & W8).
  destruct (fs sz) as [f|] eqn:Ef.
  - apply bind_ok in H. destruct H as (rz & Hrz & H). apply bind_ok in H. destruct H as (s' & Hs' & H).
    apply raise_if_ok in H. destruct H as [Hl H]. apply ok_inj in H. subst m. cbn [m_code m_soft m_raw] in *.
    unfold rawSize in Hrz. rewrite Ef in *. apply ok_inj in Hrz. subst rz.
    split; [reflexivity|]. split; [|split; [reflexivity|lia]].
    destruct (0 <? ss sz) eqn:Es.
    + apply raise_if_ok in Hs'. destruct Hs' as [A1 A2]. apply raise_if_ok in A2. destruct A2 as [A2 A3].
      apply ok_inj in A3. auto.
    + apply ok_inj in Hs'. replace (ss sz - xs sz) with 0 by lia. auto.
  - cbv zeta in H. set (n := match rize with Some r => if r =? 0 then len raw else r | None => len raw end) in *.
    apply bind_ok in H. destruct H as ([c' s'] & Hv & H).
    apply raise_if_ok in H. destruct H as [Hl H]. apply ok_inj in H. subst m. cbn [m_code m_soft m_raw] in *.
    cbv zeta. split; [reflexivity|]. split; [lia|].
    assert (Hl3 : (3 - n mod 3) mod 3 < 3) by lia.
    destruct (varCode_ok _ _ _ _ _ _ Hd Ef Hl3 Hv) as (sz' & D1 & D2 & D3 & D4 & D5 & D6 & D7).
    split.
    + clear - Hd Ef Hv Hl3.
      assert (A : forallb (fun p => match fs (snd p) with Some _ => true | None =>
          forallb (fun l => forallb (fun size => match varCode (fst p) size l with
             Ok (c', _) => last c' 0 =? last (fst p) 0 | Err _ => false end) [0; 4095; 4096; 16777215]) [0;1;2] end) Sizes = true)
        by (vm_compute; reflexivity).
      apply dget_In in Hd. rewrite forallb_forall in A. specialize (A _ Hd). cbn [fst snd] in A. rewrite Ef in A.
      rewrite forallb_forall in A. set (l := (3 - n mod 3) mod 3) in *.
      assert (Hin : In l [0;1;2]) by (assert (l = 0 \/ l = 1 \/ l = 2) as [->|[->| ->]] by lia; cbn; auto).
      specialize (A _ Hin). rewrite forallb_forall in A.
      set (size := (n + l) / 3) in *. clearbody l size. unfold varCode in A, Hv. cbv zeta in A, Hv.
      destruct (memN (nth 0 code 0) SmallVrzDex).
      * destruct (N.leb_spec size (64 ^ 2 - 1)).
        -- specialize (A 0 ltac:(cbn; auto)). change (0 <=? 64 ^ 2 - 1) with true in A. cbv iota in A.
           inv Hv. apply N.eqb_eq in A. exact A.
        -- destruct (N.leb_spec size (64 ^ 4 - 1)); [|discriminate].
           specialize (A 4096 ltac:(cbn; auto)). change (4096 <=? 64 ^ 2 - 1) with false in A.
           change (4096 <=? 64 ^ 4 - 1) with true in A. cbv iota in A. inv Hv. apply N.eqb_eq in A. exact A.
      * destruct (memN (nth 0 code 0) LargeVrzDex); [|discriminate].
        destruct (N.leb_spec size (64 ^ 4 - 1)); [|discriminate].
        specialize (A 0 ltac:(cbn; auto)). change (0 <=? 64 ^ 4 - 1) with true in A. cbv iota in A.
        inv Hv. apply N.eqb_eq in A. exact A.
    + exists sz'. split; [exact D1|]. split; [exact D2|]. rewrite D7, D3. lia.
Qed.

Lemma c01_text_layout : forall m, built m ->
  exists sz q, dget Sizes (m_code m) = Some sz /\ infil m = Ok q /\
    layout (m_code m ++ repeat 95 (N.to_nat (xs sz)) ++ m_soft m) (m_raw m) q.
Proof.
  intros m H. destruct (built_facts m H) as (sz & F). exists sz, (text m sz).
  split; [apply (mf_sz _ _ F)|]. split; [apply infil_text; exact F|].
  pose proof (text_len m sz F) as HL. pose proof (fsize_mod4 m sz F) as H4.
  unfold layout. split; [rewrite HL; exact H4|]. split; [apply text_b64; exact F|].
  exists (ndrop (hs sz + ss sz) (text m sz)).
  pose proof (ntake_text_both m sz F) as HB. unfold both in HB. rewrite <- HB.
  split; [symmetry; apply ntake_ndrop|].
  pose proof (text_mat m sz F) as HM. pose proof F as [Hsz W Ho Ht Hs Hb Hcs Hps (k & Hk1 & Hk2 & Hk3)].
  set (X := ndrop (hs sz + ss sz) (text m sz)) in *.
  assert (HX : len X = fsize m sz - (hs sz + ss sz)) by (unfold X; rewrite len_ndrop; lia).
  split; [|lia].
  assert (val (repeat 65 (N.to_nat ((hs sz + ss sz) mod 4)) ++ X) = val X) as <-.
  { rewrite val_app. unfold val at 1. rewrite dig_repeat_A, of_digits_repeat0. lia. }
  rewrite HM. rewrite (val_encodeB64 k).
  - unfold int_from_bytes. rewrite of_digits_app. unfold zeros. rewrite of_digits_repeat0. reflexivity.
  - apply octets_app; split; [apply octets_repeat0|exact Ho].
  - rewrite app_length. unfold zeros. rewrite repeat_length. unfold len in *. lia.
Qed.

(* ------------------------------------------------------------------ *)
Lemma c02_binary_round_trip : forall m tail, built m ->
  exists q b, infil m = Ok q /\ binfil m = Ok b /\ decodeB64 q = Ok b /\ encodeB64 b = q
    /\ len q * 3 = len b * 4
    /\ bexfil (b ++ tail) = Ok m /\ matter_bstrip (b ++ tail) = Ok (m, tail).
Proof.
  intros m tail H. destruct (built_facts m H) as (sz & F). exists (text m sz), (bin m sz).
  pose proof (bin_len m sz F) as HL. pose proof (fsize_mod4 m sz F) as H4.
  pose proof (bexfil_bin m sz tail F) as HE. pose proof (fullSize_fsize m sz F) as HF.
  repeat split.
  - apply infil_text; exact F.
  - apply binfil_bin; exact F.
  - apply decode_text_bin; exact F.
  - apply encode_bin_text; exact F.
  - rewrite (text_len m sz F), HL. lia.
  - exact HE.
  - unfold matter_bstrip. rewrite HE. cbn [bind]. rewrite HF. cbn [bind]. rewrite <- HL, ndrop_len_app. reflexivity.
Qed.

(* ------------------------------------------------------------------ *)
(** ** C03 *)

Lemma c03_binary_canonical : forall q m, octets q -> bexfil q = Ok m ->
  exists f, fullSize m = Ok f /\ f * 3 / 4 <= len q /\ binfil m = Ok (ntake (f * 3 / 4) q).
Proof.
  intros q m Ho H. destruct (bexfil_inv q m Ho H) as (_ & sz & F & HB & HL).
  exists (fsize m sz). split; [apply fullSize_fsize; exact F|]. split; [exact HL|].
  rewrite (binfil_bin m sz F), HB. reflexivity.
Qed.

Lemma c03_text_canonical_partial : forall q m f, exfil q = Ok m -> fullSize m = Ok f ->
  b64text (ntake f q) -> f <= len q /\ infil m = Ok (ntake f q).
Proof.
  intros q m f H Hf Ht. destruct (exfil_inv q m H) as (sz & F).
  pose proof (exfil_fullSize q m sz f F Hf) as ->.
  split; [apply (xf_len _ _ _ F)|].
  destruct (exfil_text_wf q m sz F Ht) as (Hwf & E). rewrite E.
  destruct (wf_facts m Hwf) as (sz' & F' & _). pose proof (mf_sz _ _ F') as E'.
  rewrite (xf_sz _ _ _ F) in E'. inv E'. apply infil_text; exact F'.
Qed.

Lemma c03_text_accepted_shape : forall q m, exfil q = Ok m ->
  exists sz, dget Sizes (m_code m) = Some sz /\
    ntake (hs sz + ss sz) q = m_code m ++ repeat 95 (N.to_nat (xs sz)) ++ m_soft m /\
    len (m_soft m) + xs sz = ss sz /\
    exists rest canon, ntake (fsize m sz) q = ntake (hs sz + ss sz) q ++ rest /\
      map urlize rest = canon /\ b64text canon /\ val canon = int_from_bytes (m_raw m).
Proof.
  intros q m H. destruct (exfil_inv q m H) as (sz & F). exists sz.
  pose proof (sizes_wf _ _ (xf_sz _ _ _ F)) as W. pose proof W as (W1 & W2 & W3 & W4 & W5 & W6 & W7 & W8).
  assert (Hcs : hs sz + ss sz <= fsize m sz) by (unfold fsize; destruct (fs sz); lia).
  split; [apply (xf_sz _ _ _ F)|]. split; [apply (xf_both _ _ _ F)|]. split; [apply (xf_soft _ _ _ F)|].
  exists (ndrop (hs sz + ss sz) (ntake (fsize m sz) q)). eexists. split; [|split; [reflexivity|]].
  { rewrite <- (ntake_ntake _ (hs sz + ss sz) (fsize m sz) q) by exact Hcs. symmetry. apply ntake_ndrop. }
  split; [apply urlize_text; apply (xf_a2b _ _ _ F)|].
  rewrite (xf_mat _ _ _ F). set (ps := (hs sz + ss sz) mod 4).
  set (k := N.to_nat ((ps + (fsize m sz - (hs sz + ss sz))) / 4)).
  pose proof (xf_oct _ _ _ F) as Ho.
  assert (Hl : (N.to_nat ps + (N.to_nat (ls sz) + List.length (m_raw m)) = 3 * k)%nat).
  { pose proof (xf_raw _ _ _ F) as R. unfold k, ps. unfold fsize. unfold len in R. destruct (fs sz) as [f|]; lia. }
  pose proof (encode_lead ps (zeros (N.to_nat (ls sz)) ++ m_raw m) k ltac:(unfold ps; lia)) as EL.
  rewrite zeros_add, <- app_assoc.
  assert (Ho2 : octets (zeros (N.to_nat (ls sz)) ++ m_raw m)) by (apply octets_app; split; [apply octets_repeat0|exact Ho]).
  assert (Hl2 : (N.to_nat ps + List.length (zeros (N.to_nat (ls sz)) ++ m_raw m) = 3 * k)%nat).
  { rewrite app_length. unfold zeros. rewrite repeat_length. exact Hl. }
  specialize (EL Ho2 Hl2).
  set (X := ndrop ps (encodeB64 (zeros (N.to_nat ps) ++ zeros (N.to_nat (ls sz)) ++ m_raw m))) in *.
  assert (val (repeat 65 (N.to_nat ps) ++ X) = val X) as <-.
  { rewrite val_app. unfold val at 1. rewrite dig_repeat_A, of_digits_repeat0. lia. }
  rewrite <- EL. rewrite (val_encodeB64 k).
  - unfold int_from_bytes. rewrite !of_digits_app. unfold zeros. rewrite !of_digits_repeat0. reflexivity.
  - apply octets_app; split; [apply octets_repeat0|exact Ho2].
  - rewrite app_length. unfold zeros at 1. rewrite repeat_length. exact Hl2.
Qed.

Lemma c03_text_injective_partial : forall q1 q2 m, exfil q1 = Ok m -> exfil q2 = Ok m ->
  b64text q1 -> b64text q2 -> forall f, fullSize m = Ok f -> ntake f q1 = ntake f q2.
Proof.
  intros q1 q2 m H1 H2 T1 T2 f Hf.
  destruct (c03_text_canonical_partial q1 m f H1 Hf (b64text_ntake _ _ T1)) as [_ E1].
  destruct (c03_text_canonical_partial q2 m f H2 Hf (b64text_ntake _ _ T2)) as [_ E2].
  rewrite E1 in E2. inv E2. reflexivity.
Qed.

Lemma c03_text_canonical_refuted :
  exists q1 q2 m, q1 <> q2 /\ len q1 = len q2 /\ exfil q1 = Ok m /\ exfil q2 = Ok m.
Proof.
  exists (s2b "MP-_"), (s2b "MP+/"), (mkMatter (s2b "M") [] [255; 191]).
  split; [discriminate|]. split; [reflexivity|]. split; vm_compute; reflexivity.
Qed.

Lemma c03_soft_unchecked_refuted :
  exists m, exfil (s2b "0K!!") = Ok m /\ infil m = Ok (s2b "0K!!") /\ binfil m = Err KeyError.
Proof. exists (mkMatter (s2b "0K") (s2b "!!") []). repeat split; vm_compute; reflexivity. Qed.

(* ------------------------------------------------------------------ *)
(** ** C04 *)

Lemma built_text : forall m, built m -> exists sz, mfacts m sz /\ infil m = Ok (text m sz) /\ binfil m = Ok (bin m sz).
Proof. intros m H. destruct (built_facts m H) as (sz & F). exists sz. split; [exact F|].
  split; [apply infil_text; exact F|apply binfil_bin; exact F]. Qed.

Lemma encode_app : forall k a b, List.length a = (3 * k)%nat -> encodeB64 (a ++ b) = encodeB64 a ++ encodeB64 b.
Proof. exact encodeB64_app3. Qed.

Lemma c04_composability : forall ms, Forall built ms ->
  exists qs bs, Forall2 (fun m q => infil m = Ok q) ms qs /\ Forall2 (fun m b => binfil m = Ok b) ms bs
    /\ decodeB64 (List.concat qs) = Ok (List.concat bs) /\ encodeB64 (List.concat bs) = List.concat qs
    /\ parse_stream (List.length ms) (List.concat qs) = Ok ms
    /\ bparse_stream (List.length ms) (List.concat bs) = Ok ms.
Proof.
  induction ms as [|m ms IH]; intros H.
  - exists [], []. repeat split; try constructor; reflexivity.
  - inv H. destruct (IH H3) as (qs & bs & Q1 & Q2 & Q3 & Q4 & Q5 & Q6).
    destruct (built_text m H2) as (sz & F & T1 & T2).
    exists (text m sz :: qs), (bin m sz :: bs).
    pose proof (bin_octets m sz F) as Ho. pose proof (bin_len m sz F) as HL. pose proof (fsize_mod4 m sz F) as H4.
    assert (Hk : List.length (bin m sz) = (3 * N.to_nat (fsize m sz / 4))%nat) by (unfold len in HL; lia).
    pose proof (encode_bin_text m sz F) as HE.
    split; [constructor; assumption|]. split; [constructor; assumption|]. cbn [List.concat].
    split; [|split; [|split]].
    + rewrite <- HE. unfold decodeB64 in *. rewrite (decode_encode_loop _ _ _ _ Ho Hk).
      rewrite app_nil_r. clear - Q3. revert Q3. generalize (List.concat qs) as s, (List.concat bs) as b. intros s b Q3.
      assert (G : forall s q p l acc acc0 r, decodeB64_loop s q p l acc = Ok r ->
                 decodeB64_loop s q p l (acc ++ acc0) = Ok (rev acc0 ++ r)).
      { clear. induction s as [|ch s IH]; intros q p l acc acc0 r H; cbn [decodeB64_loop] in *.
        - destruct (q =? 0); [|discriminate]. inv H. rewrite rev_app_distr. reflexivity.
        - destruct (ch =? 61).
          + destruct ((2 <=? q) && (4 <=? q + (p + 1))); [inv H; rewrite rev_app_distr; reflexivity|]. auto.
          + destruct (a2bIdx ch); [|auto]. destruct (q =? 0); [auto|].
            destruct (q =? 1); [rewrite app_comm_cons; auto|].
            destruct (q =? 2); rewrite app_comm_cons; auto. }
      specialize (G s 0 0 0 [] (rev (bin m sz)) b Q3). rewrite rev_involutive in G. exact G.
    + rewrite (encodeB64_app3 _ _ _ Hk), HE, Q4. reflexivity.
    + cbn [List.length parse_stream]. destruct (text m sz ++ List.concat qs) eqn:Et.
      * exfalso. pose proof (text_len m sz F) as TL. apply app_eq_nil in Et. destruct Et as [Et _]. rewrite Et in TL.
        destruct (mf_k _ _ F) as (k & K1 & K2 & K3). pose proof (mf_wf _ _ F) as (_ & W & _). cbn in TL. lia.
      * rewrite <- Et. destruct (c01_text_round_trip m (List.concat qs) H2) as (q & I1 & I2 & I3 & I4).
        rewrite T1 in I1. inv I1. rewrite I4. cbn [bind]. rewrite Q5. reflexivity.
    + cbn [List.length bparse_stream]. destruct (bin m sz ++ List.concat bs) eqn:Et.
      * exfalso. apply app_eq_nil in Et. destruct Et as [Et _]. rewrite Et in HL.
        destruct (mf_k _ _ F) as (k & K1 & K2 & K3). pose proof (mf_wf _ _ F) as (_ & W & _). cbn in HL. lia.
      * rewrite <- Et. destruct (c02_binary_round_trip m (List.concat bs) H2) as (q & b & I1 & I2 & _ & _ & _ & I3 & I4).
        rewrite T2 in I2. inv I2. rewrite I4. cbn [bind]. rewrite Q6. reflexivity.
Qed.

(* ------------------------------------------------------------------ *)
(** ** C41 truncation *)

Lemma len_ntake_le : forall A n (l : list A), n <= len l -> len (ntake n l) = n.
Proof. intros. rewrite len_ntake. lia. Qed.

Lemma trunc_text : forall m sz n, mfacts m sz -> n < fsize m sz ->
  exfil (ntake n (text m sz)) =
   Err (if (hs sz <=? n) && (n <? hs sz + xs sz) then UnexpectedCodeError
        else if (n =? hs sz) && (match fs sz with None => true | _ => false end) then ValueError
        else ShortageError).
Proof.
  intros m sz n F Hn. pose proof (text_len m sz F) as HL. pose proof (text_b64 m sz F) as HT.
  pose proof (both_soft0 m sz F) as HS. pose proof (ntake_text_code m sz F) as HC.
  destruct (dget_first m sz [] (mf_wf _ _ F)) as (x & r & Ex & Ex1 & Ex2). rewrite app_nil_r in Ex.
  destruct F as [Hsz W Ho Ht Hs Hb Hcs Hps (k & Hk1 & Hk2 & Hk3)].
  pose proof W as (W1 & W2 & W3 & W4 & W5 & W6 & W7 & W8).
  destruct (N.eq_dec n 0) as [->|Hn0].
  { replace ((hs sz <=? 0) && (0 <? hs sz + xs sz)) with false by lia.
    replace (0 =? hs sz) with false by lia. reflexivity. }
  set (p := ntake n (text m sz)).
  assert (Ep : exists r', p = x :: r').
  { unfold p. rewrite Ex. unfold ntake. destruct (N.to_nat n) as [|n'] eqn:En; [lia|]. cbn [firstn]. eauto. }
  destruct Ep as (r' & Ep). assert (Hpl : len p = n) by (unfold p; apply len_ntake_le; lia).
  assert (HTp : b64text p) by (apply b64text_ntake; exact HT).
  unfold exfil. rewrite Ep. cbv beta iota. rewrite <- Ep.
  rewrite decode_ascii_text by exact Ex2. cbn [bind]. rewrite Ex1, W4. rewrite Hpl.
  destruct (N.ltb_spec n (hs sz)) as [Hlt|Hge].
  { replace (hs sz <=? n) with false by lia. replace (n =? hs sz) with false by lia. reflexivity. }
  replace (hs sz <=? n) with true by lia. cbn [andb].
  assert (EH : ntake (hs sz) p = m_code m) by (unfold p; rewrite ntake_ntake by lia; exact HC).
  rewrite EH, decode_ascii_text by exact W3. cbn [bind]. rewrite Hsz. cbv zeta.
  rewrite decode_ascii_text by (apply b64text_ntake, b64text_ndrop; exact HTp). cbn [bind].
  set (s0 := ntake (ss sz) (ndrop (hs sz) p)).
  assert (Hs0 : s0 = ntake (N.min (ss sz) (n - hs sz)) (repeat 95 (N.to_nat (xs sz)) ++ m_soft m)).
  { rewrite <- HS. unfold s0, p, ntake, ndrop. rewrite skipn_firstn_comm, !firstn_firstn.
    assert (Eb : text m sz = both m sz ++ skipn (N.to_nat (hs sz + ss sz)) (text m sz)).
    { pose proof (text_len m sz) as _. unfold text.
      rewrite skipn_app. unfold len in Hcs. rewrite skipn_all2 by lia. cbn [app].
      replace (N.to_nat (hs sz + ss sz) - List.length (both m sz))%nat with 0%nat by lia. reflexivity. }
    rewrite Eb at 1. rewrite skipn_app. unfold len in Hcs. rewrite firstn_app, skipn_length.
    match goal with |- ?a ++ firstn ?j _ = _ => replace j with 0%nat by lia end.
    rewrite firstn_O, app_nil_r. f_equal. lia. }
  assert (Hs0l : len s0 = N.min (ss sz) (n - hs sz)).
  { unfold s0. rewrite len_ntake, len_ndrop, Hpl. lia. }
  destruct (N.ltb_spec n (hs sz + xs sz)) as [Hx|Hx].
  { assert (beq (ntake (xs sz) s0) (repeat 95 (N.to_nat (xs sz))) = false) as ->; [|reflexivity].
    destruct (beq _ _) eqn:E; [|reflexivity]. apply beq_eq in E. apply (f_equal len) in E.
    rewrite len_repeat, len_ntake in E. lia. }
  assert (E1 : ntake (xs sz) s0 = repeat 95 (N.to_nat (xs sz))).
  { rewrite Hs0, ntake_ntake by lia. apply ntake_repeat_app. }
  rewrite E1, beq_refl. cbn [negb].
  assert (E2 : ndrop (xs sz) s0 = ntake (len s0 - xs sz) (m_soft m)).
  { rewrite Hs0. rewrite Hs0 in Hs0l. rewrite Hs0l. unfold ntake, ndrop.
    rewrite skipn_firstn_comm. rewrite skipn_app, repeat_length.
    rewrite skipn_all2 by (rewrite repeat_length; lia).
    rewrite Nat.sub_diag. cbn [app skipn]. f_equal. lia. }
  rewrite E2. destruct (fs sz) as [f|] eqn:Ef.
  - cbn [bind]. replace (n <? f) with true by (unfold fsize in Hn; rewrite Ef in Hn; lia).
    rewrite andb_false_r. reflexivity.
  - assert (xs sz = 0) by lia. rewrite andb_true_r.
    destruct (N.eqb_spec n (hs sz)) as [En|En].
    + replace (len s0 - xs sz) with 0 by lia. reflexivity.
    + rewrite b64ToInt_val.
      * cbn [bind]. destruct (N.leb_spec (hs sz + ss sz) n) as [Hc|Hc].
        -- rewrite ntake_all by lia. unfold fsize in Hn. rewrite Ef in Hn.
           replace (n <? val (m_soft m) * 4 + (hs sz + ss sz)) with true by lia. reflexivity.
        -- match goal with |- context [n <? ?b] => replace (n <? b) with true by (symmetry; apply N.ltb_lt; lia) end. reflexivity.
      * apply b64text_ntake; exact Ht.
      * intros E. apply (f_equal len) in E. rewrite len_ntake in E. cbn in E. lia.
Qed.

Lemma c41_truncation_partial : forall m q n, built m -> infil m = Ok q -> n < len q ->
  exists sz, dget Sizes (m_code m) = Some sz /\
  (exists e, exfil (ntake n q) = Err e) /\
  (n < hs sz \/ hs sz + ss sz <= n /\ 0 < ss sz \/ xs sz = 0 /\ fs sz <> None ->
     exfil (ntake n q) = Err ShortageError).
Proof.
  intros m q n H Hi Hn. destruct (built_text m H) as (sz & F & T1 & _). rewrite T1 in Hi. inv Hi.
  exists sz. split; [apply (mf_sz _ _ F)|].
  rewrite (text_len m sz F) in Hn. rewrite (trunc_text m sz n F Hn). split; [eauto|].
  pose proof (mf_wf _ _ F) as (W1 & W2 & W3 & W4 & W5 & W6 & W7 & W8).
  intros [A|[[A B]|[A B]]].
  - replace (hs sz <=? n) with false by lia. replace (n =? hs sz) with false by lia. reflexivity.
  - replace (n <? hs sz + xs sz) with false by lia. rewrite andb_false_r.
    replace (n =? hs sz) with false by lia. reflexivity.
  - replace (n <? hs sz + xs sz) with (n <? hs sz) by (f_equal; lia).
    replace ((hs sz <=? n) && (n <? hs sz)) with false by lia.
    destruct (fs sz); [|congruence]. rewrite andb_false_r. reflexivity.
Qed.

Lemma c41_truncation_refuted :
  (exists m q, built m /\ infil m = Ok q /\ exfil (ntake 2 q) = Err ValueError) /\
  (exists m q, built m /\ infil m = Ok q /\ exfil (ntake 2 q) = Err UnexpectedCodeError).
Proof.
  split.
  - exists (mkMatter (s2b "4B") (s2b "AB") [1;2;3]). eexists. split; [|split; vm_compute; reflexivity].
    apply (built_raw [1;2;3] (s2b "4B") [] None); [|vm_compute; reflexivity]. repeat constructor.
  - exists (mkMatter (s2b "0J") (s2b "X") []). eexists. split; [|split; vm_compute; reflexivity].
    eapply (built_soft (s2b "0J") (s2b "X")); vm_compute; reflexivity.
Qed.

Definition ex_digest : bytes := map N.of_nat (seq 100 32).
Definition ex_matter : matter := mkMatter (s2b "E") [] ex_digest.
Definition ex_var : matter := mkMatter (s2b "6B") (s2b "AC") [1;2;3;4;5].



