From Verif Require Import Prelude B64Model B64Proofs MatterModel MatterProofs MatterInv MatterBinInv QualProofs IdxModel IdxProofs CtrModel.
Ltac Zify.zify_post_hook ::= Z.div_mod_to_equations.

Definition cwfb (codes : list (bytes * bytes)) (p : bytes * cizage) : bool :=
  let '(code, sz) := p in
  (len code =? chs sz) && (2 <=? chs sz) && Reb64 code && (0 <? css sz)
  && (cfs sz =? chs sz + css sz) && (cfs sz mod 4 =? 0)
  && match dget CHards (ntake 2 code) with Some h => h =? chs sz | None => false end
  && match nameOf codes code with Ok n => match dget codes n with Some c => beq c code | None => false end | Err _ => false end.

Record cwf (codes : list (bytes * bytes)) (code : bytes) (sz : cizage) : Prop := {
  cw_len : len code = chs sz; cw_hs : 2 <= chs sz; cw_txt : b64text code; cw_ss : 0 < css sz;
  cw_fs : cfs sz = chs sz + css sz; cw_4 : cfs sz mod 4 = 0;
  cw_hard : dget CHards (ntake 2 code) = Some (chs sz);
  cw_name : exists n, nameOf codes code = Ok n /\ dget codes n = Some code }.

Lemma csizes_wf : forall v codes sizes code sz, ctables v = Ok (codes, sizes) -> dget sizes code = Some sz ->
  cwf codes code sz.
Proof.
  intros v codes sizes code sz Ht Hd. apply dget_In in Hd.
  assert (A : cwfb codes (code, sz) = true).
  { unfold ctables in Ht.
    destruct (vmajor v =? 1).
    - apply raise_if_ok in Ht. destruct Ht as [_ Ht]. apply ok_inj in Ht. injection Ht as <- <-.
      assert (A : forallb (cwfb CtrDex_1_0) CSizes_1_0 = true) by (vm_compute; reflexivity).
      rewrite forallb_forall in A. apply A. exact Hd.
    - destruct (vmajor v =? 2); [|discriminate].
      apply raise_if_ok in Ht. destruct Ht as [_ Ht]. apply ok_inj in Ht. injection Ht as <- <-.
      assert (A : forallb (cwfb CtrDex_2_0) CSizes_2_0 = true) by (vm_compute; reflexivity).
      rewrite forallb_forall in A. apply A. exact Hd. }
  unfold cwfb in A. repeat (apply andb_true_iff in A; destruct A as [A ?]).
  destruct (dget CHards (ntake 2 code)) eqn:E; [|discriminate].
  constructor; try lia.
  - apply Reb64_b64text; assumption.
  - rewrite E. f_equal. lia.
  - destruct (nameOf codes code) as [n0|]; [|discriminate]. exists n0. split; [reflexivity|].
    destruct (dget codes n0); [|discriminate]. apply beq_eq in H. congruence.
Qed.

(** A well formed counter. *)
Record cok (c : counter) (codes : list (bytes * bytes)) (sizes : list (bytes * cizage)) (sz : cizage) : Prop := {
  co_tab : ctables (c_vrsn c) = Ok (codes, sizes);
  co_sz : dget sizes (c_code c) = Some sz;
  co_cnt : c_count c < 64 ^ css sz;
  co_name : nameOf codes (c_code c) = Ok (c_name c) }.

Definition cboth (c : counter) (sz : cizage) := c_code c ++ intToB64 (c_count c) (css sz).

Lemma cboth_len : forall c codes sizes sz, cok c codes sizes sz -> len (cboth c sz) = cfs sz.
Proof.
  intros c codes sizes sz K. pose proof (csizes_wf _ _ _ _ _ (co_tab _ _ _ _ K) (co_sz _ _ _ _ K)) as W.
  unfold cboth. rewrite len_app, (cw_len _ _ _ W), intToB64_len_fits by apply (co_cnt _ _ _ _ K).
  rewrite (cw_fs _ _ _ W). reflexivity.
Qed.

Lemma cq : forall c codes sizes sz, cok c codes sizes sz -> qok (cboth c sz) [] (cfs sz).
Proof.
  intros c codes sizes sz K. pose proof (csizes_wf _ _ _ _ _ (co_tab _ _ _ _ K) (co_sz _ _ _ _ K)) as W.
  pose proof (cboth_len _ _ _ _ K) as HL. pose proof (cw_4 _ _ _ W). pose proof (cw_hs _ _ _ W). pose proof (cw_fs _ _ _ W).
  constructor.
  - unfold cboth. apply b64text_app; split; [apply (cw_txt _ _ _ W)|apply intToB64_text].
  - intros E. rewrite E in HL. cbn in HL. lia.
  - rewrite HL. lia.
  - constructor.
  - rewrite HL. exists 0%nat. cbn. lia.
  - lia.
Qed.

Lemma csize_ok : forall c codes sizes sz, cok c codes sizes sz -> csize c = Ok sz.
Proof.
  intros c codes sizes sz K. unfold csize. rewrite (co_tab _ _ _ _ K). cbn [bind]. rewrite (co_sz _ _ _ _ K). reflexivity.
Qed.

Lemma cinfil_ok : forall c codes sizes sz, cok c codes sizes sz -> cinfil c = Ok (cboth c sz).
Proof.
  intros c codes sizes sz K. pose proof (csizes_wf _ _ _ _ _ (co_tab _ _ _ _ K) (co_sz _ _ _ _ K)) as W.
  unfold cinfil. rewrite (csize_ok _ _ _ _ K). cbn [bind]. pose proof (co_cnt _ _ _ _ K).
  replace (64 ^ css sz - 1 <? c_count c) with false by lia. fold (cboth c sz). rewrite (cboth_len _ _ _ _ K), (cw_4 _ _ _ W).
  reflexivity.
Qed.

Lemma qtext_nil : forall bt, len bt mod 4 = 0 -> qtext bt [] = bt.
Proof. intros bt H. unfold qtext. rewrite H. cbn. apply app_nil_r. Qed.

Lemma codeB64ToB2_ok : forall bt n, qok bt [] n -> codeB64ToB2 bt = Ok (qbin bt []).
Proof.
  intros bt n Q. unfold codeB64ToB2. rewrite (qbin_code _ _ _ Q). unfold qbin. rewrite app_nil_r. reflexivity.
Qed.

Lemma cbinfil_ok : forall c codes sizes sz, cok c codes sizes sz -> cbinfil c = Ok (qbin (cboth c sz) []).
Proof.
  intros c codes sizes sz K. unfold cbinfil. rewrite (csize_ok _ _ _ _ K). cbn [bind]. pose proof (co_cnt _ _ _ _ K).
  replace (64 ^ css sz - 1 <? c_count c) with false by lia. fold (cboth c sz).
  rewrite (cboth_len _ _ _ _ K), N.eqb_refl. cbn [negb]. apply (codeB64ToB2_ok _ (cfs sz)). apply (cq _ _ _ _ K).
Qed.

Lemma ntake_cboth : forall c sz l t, l <= len (c_code c) -> ntake l (cboth c sz ++ t) = ntake l (c_code c).
Proof. intros. unfold cboth. rewrite <- app_assoc. apply ntake_app_le. assumption. Qed.

Lemma count_read : forall c codes sizes sz, cok c codes sizes sz -> b64ToInt (intToB64 (c_count c) (css sz)) = Ok (c_count c).
Proof.
  intros c codes sizes sz K. pose proof (csizes_wf _ _ _ _ _ (co_tab _ _ _ _ K) (co_sz _ _ _ _ K)) as W. pose proof (cw_ss _ _ _ W).
  rewrite b64ToInt_val; [f_equal; apply intToB64_val; lia|apply intToB64_text|].
  intros E. pose proof (intToB64_len_fits _ _ (co_cnt _ _ _ _ K)) as L. rewrite E in L. cbn in L. lia.
Qed.

Theorem cexfil_ok : forall c codes sizes sz t, cok c codes sizes sz -> cexfil (c_vrsn c) (cboth c sz ++ t) = Ok c.
Proof.
  intros c codes sizes sz t K. pose proof (csizes_wf _ _ _ _ _ (co_tab _ _ _ _ K) (co_sz _ _ _ _ K)) as [W1 W2 W3 W4 W5 W6 W7 W8].
  pose proof (cboth_len _ _ _ _ K) as HL.
  unfold cexfil. rewrite (co_tab _ _ _ _ K). cbn [bind].
  assert (Hq : len (cboth c sz ++ t) = cfs sz + len t) by (rewrite len_app; lia).
  replace (len (cboth c sz ++ t) <? 2) with false by lia.
  rewrite ntake_cboth by lia. rewrite decode_ascii_text by (apply b64text_ntake; exact W3). cbn [bind]. rewrite W7.
  replace (len (cboth c sz ++ t) <? chs sz) with false by lia.
  rewrite ntake_cboth by lia. rewrite ntake_all by lia. rewrite decode_ascii_text by exact W3. cbn [bind]. rewrite (co_sz _ _ _ _ K).
  replace (len (cboth c sz ++ t) <? cfs sz) with false by lia.
  assert (E : ntake (cfs sz - chs sz) (ndrop (chs sz) (cboth c sz ++ t)) = intToB64 (c_count c) (css sz)).
  { unfold cboth. rewrite <- app_assoc, <- W1, ndrop_len_app.
    pose proof (intToB64_len_fits _ _ (co_cnt _ _ _ _ K)) as L.
    replace (cfs sz - len (c_code c)) with (len (intToB64 (c_count c) (css sz))) by lia. apply ntake_len_app. }
  rewrite E, decode_ascii_text by apply intToB64_text. cbn [bind]. rewrite (count_read _ _ _ _ K). cbn [bind].
  rewrite (co_name _ _ _ _ K). cbn [bind]. destruct c; reflexivity.
Qed.

(** nabSextets is the binary form of the sextets read as characters *)
Lemma nab_code : forall q l s, 0 < l -> codeB2ToB64 q l = Ok s -> len s = l -> nabSextets q l = codeB64ToB2 s.
Proof.
  intros q l s Hl H Hs. unfold codeB2ToB64 in H. unfold nabSextets, codeB64ToB2. cbv zeta in H |- *. destruct (len q <? sceil34 l); [discriminate|].
  apply ok_inj in H. rewrite b64ToInt_val.
  - cbn [bind]. rewrite Hs. f_equal. f_equal. rewrite <- H. symmetry. apply intToB64_val. exact Hl.
  - rewrite <- H. apply intToB64_text.
  - intros E. rewrite E in Hs. cbn in Hs. lia.
Qed.

Lemma cbards_hards : forall k h, dget CHards k = Some h -> exists b, codeB64ToB2 k = Ok b /\ dget CBards b = Some h.
Proof.
  intros k h H. apply dget_In in H.
  assert (A : forallb (fun p => match codeB64ToB2 (fst p) with
     | Ok b => match dget CBards b with Some h => h =? snd p | None => false end | Err _ => false end) CHards = true) by (vm_compute; reflexivity).
  rewrite forallb_forall in A. specialize (A _ H). cbn [fst snd] in A. destruct (codeB64ToB2 k) as [b|]; [|discriminate].
  exists b. split; [reflexivity|]. destruct (dget CBards b); [|discriminate]. apply N.eqb_eq in A. congruence.
Qed.

Theorem cbexfil_ok : forall c codes sizes sz t, cok c codes sizes sz ->
  cbexfil (c_vrsn c) (qbin (cboth c sz) [] ++ t) = Ok c.
Proof.
  intros c codes sizes sz t K. pose proof (csizes_wf _ _ _ _ _ (co_tab _ _ _ _ K) (co_sz _ _ _ _ K)) as [W1 W2 W3 W4 W5 W6 W7 W8].
  pose proof (cboth_len _ _ _ _ K) as HL. pose proof (cq _ _ _ _ K) as Q. pose proof (qbin_len _ _ _ Q) as HB.
  set (q := qbin (cboth c sz) [] ++ t).
  assert (Hq : len q = cfs sz * 3 / 4 + len t) by (unfold q; rewrite len_app; lia).
  assert (HR : forall l, l <= cfs sz -> codeB2ToB64 q l = Ok (ntake l (cboth c sz))).
  { intros l Hl. apply (qread_le _ _ _ _ _ Q). rewrite HL. exact Hl. }
  assert (HC : forall l, l <= chs sz -> ntake l (cboth c sz) = ntake l (c_code c)).
  { intros l Hl. unfold cboth. apply ntake_app_le. rewrite W1. exact Hl. }
  unfold cbexfil. rewrite (co_tab _ _ _ _ K). cbn [bind].
  replace (len q <? 2) with false by lia.
  rewrite (nab_code q 2 (ntake 2 (c_code c))).
  2:{ lia. }
  2:{ rewrite HR by lia. f_equal. apply HC. lia. }
  2:{ rewrite len_ntake. lia. }
  destruct (cbards_hards _ _ W7) as (b & B1 & B2). rewrite B1. cbn [bind]. rewrite B2.
  replace (len q <? sceil34 (chs sz)) with false by (unfold sceil34; lia).
  rewrite HR by lia. cbn [bind]. rewrite HC by lia. rewrite (ntake_all _ (chs sz) (c_code c)) by lia. rewrite (co_sz _ _ _ _ K).
  replace (len q <? sceil34 (cfs sz)) with false by (unfold sceil34; lia).
  rewrite HR by lia. cbn [bind]. rewrite (ntake_all _ (cfs sz) (cboth c sz)) by lia.
  assert (E : ntake (cfs sz - chs sz) (ndrop (chs sz) (cboth c sz)) = intToB64 (c_count c) (css sz)).
  { unfold cboth. rewrite <- W1, ndrop_len_app. apply ntake_all.
    rewrite (intToB64_len_fits _ _ (co_cnt _ _ _ _ K)). lia. }
  rewrite E, (count_read _ _ _ _ K). cbn [bind].
  rewrite (co_name _ _ _ _ K). cbn [bind]. destruct c; reflexivity.
Qed.

(** What the constructor builds. *)
Theorem counter_of_ok : forall v code count c, counter_of v code count = Ok c ->
  c_vrsn c = v /\ c_count c = count /\ exists codes sizes sz, cok c codes sizes sz /\
  exists hard hsz, lookCode codes sizes code = Ok (hard, hsz) /\ dget sizes hard = Some hsz /\
   (c_code c = hard \/ (css hsz = 2 /\ 4096 <= count /\ c_code c = [45; 45; nth 1 hard 0] /\ nth 1 hard 0 <> 45)).
Proof.
  intros v code count c H. unfold counter_of in H. apply bind_ok in H. destruct H as ([codes sizes] & Ht & H).
  apply bind_ok in H. destruct H as ([hard sz] & Hl & H). apply raise_if_ok in H. destruct H as [H1 H].
  apply bind_ok in H. destruct H as ([code' ss] & Hp & H). apply raise_if_ok in H. destruct H as [H2 H].
  apply bind_ok in H. destruct H as (name & Hn & H). apply ok_inj in H. subst c. cbn [c_vrsn c_count c_code].
  split; [reflexivity|]. split; [reflexivity|]. exists codes, sizes.
  assert (Hd : dget sizes hard = Some sz).
  { unfold lookCode in Hl. destruct (dget sizes code) as [s0|] eqn:E0.
    - destruct (len code <? 2).
      + destruct (dget codes code) as [c1|]; [|discriminate]. destruct (dget sizes c1) eqn:E1; [|discriminate].
        destruct (len c1 <? 2); [discriminate|]. inv Hl. exact E1.
      + inv Hl. exact E0.
    - destruct (dget codes code) as [c1|]; [|discriminate]. destruct (dget sizes c1) eqn:E1; [|discriminate].
      destruct (len c1 <? 2); [discriminate|]. inv Hl. exact E1. }
  pose proof (pow64_pos ss) as Hpos.
  assert (Hcase : (code' = hard /\ ss = css sz) \/
     (css sz = 2 /\ 4096 <= count /\ code' = [45; 45; nth 1 hard 0] /\ nth 1 hard 0 <> 45 /\ ss = 5)).
  { destruct (negb (digits_ (nth 1 hard 0))).
    - apply raise_if_ok in Hp. destruct Hp as [Hs Hp].
      destruct (negb (nth 1 hard 0 =? 45) && (64 ^ 2 - 1 <? count)) eqn:Eb.
      + apply ok_inj in Hp. injection Hp as <- <-. apply andb_true_iff in Eb. destruct Eb as [Eb1 Eb2].
        right. change (64 ^ 2) with 4096 in Eb2.
        assert (css sz = 2).
        { pose proof (csizes_wf _ _ _ _ _ Ht Hd) as W.
          assert (A : forall cs ss0, ctables v = Ok (cs, ss0) -> forallb (fun p => negb (css (snd p) =? 5) || (nth 1 (fst p) 0 =? 45)) ss0 = true).
          { intros cs ss0 E. unfold ctables in E.
            repeat match type of E with (if ?b then _ else _) = _ => destruct b end; try discriminate;
            apply ok_inj in E; injection E as <- <-; vm_compute; reflexivity. }
          specialize (A _ _ Ht). rewrite forallb_forall in A. specialize (A _ (dget_In _ _ _ _ Hd)). cbn [fst snd] in A. lia. }
        repeat split; auto; lia.
      + apply ok_inj in Hp. injection Hp as <- <-. left. auto.
    - apply ok_inj in Hp. injection Hp as <- <-. left. auto. }
  assert (Hss : forall sz', dget sizes code' = Some sz' -> css sz' = ss).
  { intros sz' E'. destruct Hcase as [(-> & ->)|(A1 & A2 & -> & A4 & ->)].
    - congruence.
    - assert (A : forall cs ss0, ctables v = Ok (cs, ss0) -> forallb (fun p => negb (nth 1 (fst p) 0 =? 45) || (css (snd p) =? 5)) ss0 = true).
      { intros cs ss0 E. unfold ctables in E.
        repeat match type of E with (if ?b then _ else _) = _ => destruct b end; try discriminate;
        apply ok_inj in E; injection E as <- <-; vm_compute; reflexivity. }
      specialize (A _ _ Ht). rewrite forallb_forall in A. specialize (A _ (dget_In _ _ _ _ E')). cbn [fst snd nth] in A. lia. }
  assert (Hin : exists sz', dget sizes code' = Some sz').
  { pose proof Hn as Hn2. unfold nameOf in Hn2. destruct (find (fun p => beq (snd p) code') codes) as [[n0 c0]|] eqn:Ef; [|discriminate]. apply find_some in Ef. destruct Ef as [Ef1 Ef2].
    cbn [snd] in Ef2. apply beq_eq in Ef2. subst c0.
    assert (A : forall cs ss0, ctables v = Ok (cs, ss0) -> forallb (fun p => match dget ss0 (snd p) with Some _ => true | None => false end) cs = true).
    { intros cs ss0 E. unfold ctables in E.
      repeat match type of E with (if ?b then _ else _) = _ => destruct b end; try discriminate;
      apply ok_inj in E; injection E as <- <-; vm_compute; reflexivity. }
    specialize (A _ _ Ht). rewrite forallb_forall in A. specialize (A _ Ef1). cbn [snd] in A.
    destruct (dget sizes code') as [s|]; [|discriminate]. eauto. }
  destruct Hin as (sz' & Hin). exists sz'. split.
  - constructor; cbn [c_vrsn c_code c_count c_name]; auto. rewrite (Hss _ Hin). lia.
  - exists hard, sz. split; [exact Hl|]. split; [exact Hd|]. destruct Hcase as [(-> & _)|(A1 & A2 & A3 & A4 & _)]; auto 6.
Qed.

(** Inversion of the text reader. *)
Theorem cexfil_inv : forall v q c, cexfil v q = Ok c ->
  exists codes sizes sz, cok c codes sizes sz /\ c_vrsn c = v /\ cboth c sz = ntake (cfs sz) q /\ cfs sz <= len q.
Proof.
  intros v q c H. unfold cexfil in H. apply bind_ok in H. destruct H as ([codes sizes] & Ht & H).
  apply raise_if_ok in H. destruct H as [H1 H]. apply bind_ok in H. destruct H as (first & Hf & H). apply decode_ascii_ok in Hf. subst first.
  destruct (dget CHards (ntake 2 q)) as [h|] eqn:Eh; [|destruct (nth 0 (ntake 2 q) 0 =? 95); discriminate].
  apply raise_if_ok in H. destruct H as [H2 H]. apply bind_ok in H. destruct H as (hard & Hh & H). apply decode_ascii_ok in Hh.
  destruct (dget sizes hard) as [sz|] eqn:Esz; [|discriminate]. apply raise_if_ok in H. destruct H as [H3 H].
  apply bind_ok in H. destruct H as (cnt & Hc & H). apply decode_ascii_ok in Hc.
  apply bind_ok in H. destruct H as (count & Hi & H). apply bind_ok in H. destruct H as (name & Hn & H).
  apply ok_inj in H. subst c. apply b64ToInt_ok in Hi. destruct Hi as (I1 & I2 & ->).
  pose proof (csizes_wf _ _ _ _ _ Ht Esz) as [W1 W2 W3 W4 W5 W6 W7 W8].
  assert (Lc : len cnt = css sz) by (rewrite Hc, len_ntake, len_ndrop; lia).
  exists codes, sizes, sz. split; [|split; [reflexivity|split]].
  - constructor; cbn [c_vrsn c_code c_count c_name]; auto. rewrite <- Lc. apply val_bound. exact I1.
  - unfold cboth. cbn [c_code c_count]. rewrite <- Lc, intToB64_val_self by exact I1.
    assert (Ehs : h = chs sz) by (rewrite Hh, len_ntake in W1; lia). subst h.
    rewrite Hh, Hc. rewrite <- ntake_add. f_equal. lia.
  - lia.
Qed.
