From Verif Require Import Prelude B64Model B64Proofs MatterModel MatterProofs MatterInv MatterBinInv QualProofs IdxModel IdxProofs.
Ltac Zify.zify_post_hook ::= Z.div_mod_to_equations.

(** Inversion of the text parse of an indexed signature: a Base64 text that reads as a signature is that signature's own text. *)

Lemma chr0 : forall d, d < 64 -> B64ChrByIdx d = 65 -> d = 0.
Proof. intros d H E. apply chr_inj; [exact H|lia|]. rewrite E. reflexivity. Qed.

Lemma lead_zero : forall (ps : nat) X a k, (ps < 3)%nat -> octets a -> List.length a = (3 * k)%nat -> (ps = 0 \/ 0 < k)%nat ->
  encodeB64 a = repeat 65 ps ++ X ->
  N.land (int_from_bytes (firstn ps a)) (2 ^ (2 * N.of_nat ps) - 1) = 0 -> firstn ps a = repeat 0 ps.
Proof.
  intros ps X a k Hp Ho HL Hk E Hz. destruct ps as [|ps]; [reflexivity|].
  destruct k as [|k]; [lia|]. destruct a as [|a0 [|a1 [|a2 a]]]; cbn [List.length] in HL; try lia.
  inversion Ho as [|? ? O0 Ho1]; subst. inversion Ho1 as [|? ? O1 Ho2]; subst. inversion Ho2 as [|? ? O2 Ho3]; subst.
  unfold is_byte in *. cbn [encodeB64 repeat app] in E. injection E as E0 E1.
  apply chr0 in E0; [|lia]. destruct ps as [|ps].
  - cbn [firstn repeat] in *. unfold int_from_bytes in Hz. cbn in Hz.
    assert (Z : a0 mod 4 = 0). { change 4 with (2 ^ 2). rewrite <- N.land_ones. exact Hz. }
    f_equal. lia.
  - destruct ps; [|lia]. cbn [firstn repeat app] in *. injection E1 as E1 E2. apply chr0 in E1; [|lia].
    assert (a0 = 0) by lia. subst a0. unfold int_from_bytes in Hz. cbn in Hz.
    assert (Z : a1 mod 16 = 0). { change 16 with (2 ^ 4). rewrite <- N.land_ones. exact Hz. }
    f_equal. f_equal. lia.
Qed.

Lemma sigdex_fs : forall code sz f, memB code IdxSigDex = true -> dget ISizes code = Some sz -> xfs sz = Some f ->
  xhs sz + xss sz + 4 <= f.
Proof.
  intros code sz f H D F. apply memB_In in H.
  assert (A : forallb (fun c => match dget ISizes c with
     | Some s => match xfs s with Some f => xhs s + xss s + 4 <=? f | None => false end | None => false end) IdxSigDex = true)
    by (vm_compute; reflexivity).
  rewrite forallb_forall in A. specialize (A _ H). rewrite D, F in A. apply N.leb_le. exact A.
Qed.

Theorem iexfil_canonical : forall q x f sz, iexfil q = Ok x -> memB (i_code x) IdxSigDex = true ->
  dget ISizes (i_code x) = Some sz -> xfs sz = Some f -> b64text (ntake f q) ->
  iok x sz /\ itext x sz = ntake f q /\ f <= len q.
Proof.
  intros q x f sz H Em Esz Ef Ht. unfold iexfil in H. destruct q as [|x0 q0] eqn:Eq; [discriminate|]. rewrite <- Eq in *.
  apply bind_ok in H. destruct H as (first & Hf & H). apply decode_ascii_ok in Hf. subst first.
  destruct (dget IHards [x0]) as [h|] eqn:Eh; [|repeat match type of H with (if ?b then _ else _) = _ => destruct b end; discriminate].
  apply raise_if_ok in H. destruct H as [Hh H].
  apply bind_ok in H. destruct H as (hard & Hhd & H). apply decode_ascii_ok in Hhd.
  destruct (dget ISizes hard) as [sz'|] eqn:Esz'; [|discriminate]. cbv zeta in H.
  apply raise_if_ok in H. destruct H as [Hcs H].
  apply bind_ok in H. destruct H as (ich & Hich & H). apply decode_ascii_ok in Hich.
  apply bind_ok in H. destruct H as (index & Hidx & H).
  apply bind_ok in H. destruct H as (och & Hoch & H). apply decode_ascii_ok in Hoch.
  apply bind_ok in H. destruct H as (ondex & Hond & H).
  apply bind_ok in H. destruct H as (f' & Hfull & H).
  apply raise_if_ok in H. destruct H as [Hfl H].
  apply bind_ok in H. destruct H as (raw & Hraw & H).
  apply raise_if_ok in H. destruct H as [Hrl H]. apply negb_false_iff, N.eqb_eq in Hrl.
  apply ok_inj in H. subst x. cbn [i_code] in *.
  rewrite Esz in Esz'. injection Esz' as <-.
  unfold xfull in Hfull. rewrite Ef in Hfull. apply ok_inj in Hfull. subst f'.
  pose proof (isizes_wf _ _ Esz) as W. pose proof W as (W1 & W2 & W3 & W4 & W5 & W6 & W7). rewrite Ef in W7.
  destruct (sigdex_ok _ _ Em Esz) as (L1 & L2 & _). pose proof (sigdex_fs _ _ _ Em Esz Ef) as L4.
  assert (Ehs : h = xhs sz). { rewrite Hhd, len_ntake in W1. lia. } subst h.
  set (ms := xss sz - xos sz) in *. set (cs := xhs sz + xss sz) in *. set (ps := cs mod 4) in *.
  set (qq := ntake f q) in *.
  assert (Hql : len qq = f) by (unfold qq; rewrite len_ntake; lia).
  assert (Hfq : f <= len q) by lia.
  apply b64ToInt_ok in Hidx. destruct Hidx as (I1 & I2 & I3).
  assert (Lich : len ich = ms) by (rewrite Hich, len_ntake, len_ndrop; subst ms cs; lia).
  assert (Loch : len och = xos sz) by (rewrite Hoch, len_ntake, len_ndrop; subst ms cs; lia).
  assert (Eich : intToB64 index ms = ich) by (rewrite I3, <- Lich; apply intToB64_val_self; exact I1).
  assert (Hil : index < 64 ^ ms) by (rewrite I3, <- Lich; apply val_bound; exact I1).
  (* ondex *)
  assert (HO : (if memB hard IdxCrtSigDex then ondex = None
           else exists o, ondex = Some o /\ o < 64 ^ (if xos sz =? 0 then xss sz else xos sz)
                  /\ (xos sz = 0 -> o = index))
      /\ intToB64 (match ondex with Some o => o | None => 0 end) (xos sz) = och).
  { unfold ondexOf in Hond. apply bind_ok in Hond. destruct Hond as (o & Ho & Hond).
    destruct (xos sz =? 0) eqn:E0.
    - apply ok_inj in Ho. subst o. apply N.eqb_eq in E0. rewrite E0 in Loch |- *.
      assert (och = []) by (destruct och; [reflexivity|cbn in Loch; lia]). clear Hoch. subst och.
      destruct (memB hard IdxCrtSigDex); apply ok_inj in Hond; subst ondex; (split; [|reflexivity]); [reflexivity|].
      exists index. split; [reflexivity|]. split; [|auto]. replace (xss sz) with ms by (subst ms; lia). exact Hil.
    - apply bind_ok in Ho. destruct Ho as (v & Hv & Ho). apply ok_inj in Ho. subst o.
      apply b64ToInt_ok in Hv. destruct Hv as (V1 & V2 & V3).
      assert (Ev : intToB64 v (xos sz) = och) by (rewrite V3, <- Loch; apply intToB64_val_self; exact V1).
      assert (Hvl : v < 64 ^ xos sz) by (rewrite V3, <- Loch; apply val_bound; exact V1).
      destruct (memB hard IdxCrtSigDex).
      + apply raise_if_ok in Hond. destruct Hond as [Hz Hond]. apply ok_inj in Hond. subst ondex.
        apply negb_false_iff, N.eqb_eq in Hz. rewrite Hz in Ev. auto.
      + apply ok_inj in Hond. subst ondex. split; [|exact Ev]. exists v. split; [reflexivity|]. split; [exact Hvl|]. lia. }
  destruct HO as [HO1 HO2].
  (* head *)
  assert (Hboth : ntake cs qq = iboth (mkIdx hard index ondex raw) sz).
  { unfold qq, iboth. cbn [i_code i_index i_ondex]. fold ms. rewrite Eich, HO2, Hich, Hoch, Hhd.
    unfold ntake, ndrop. rewrite firstn_firstn.
    replace (Init.Nat.min (N.to_nat cs) (N.to_nat f)) with (N.to_nat (xhs sz) + (N.to_nat ms + N.to_nat (xos sz)))%nat by (subst cs ms; lia).
    rewrite N2Nat.inj_add. clear. generalize (N.to_nat (xhs sz)) as a, (N.to_nat ms) as b, (N.to_nat (xos sz)) as c. intros.
    assert (FA : forall (l : list N) a b, firstn (a + b) l = firstn a l ++ firstn b (skipn a l)).
    { clear. induction l; intros [|a0] b; cbn; try rewrite firstn_nil; try reflexivity. rewrite IHl. reflexivity. }
    rewrite FA, FA. f_equal. f_equal. f_equal. rewrite skipn_skipn. f_equal; lia. }
  (* material *)
  set (X := ndrop cs qq) in *.
  assert (HX : len X = f - cs) by (unfold X; rewrite len_ndrop, Hql; reflexivity).
  set (base := repeat 65 (N.to_nat ps) ++ X).
  set (k := N.to_nat ((ps + (f - cs)) / 4)).
  assert (Hbl : List.length base = (4 * k)%nat).
  { unfold base. rewrite app_length, repeat_length. unfold len in HX. clear - HX L4 W5 W7. subst k ps cs. lia. }
  assert (HXt : b64text X) by (apply b64text_ndrop; exact Ht).
  destruct (decode_text k base) as (paw & D1 & D2 & D3 & D4 & D5).
  { apply b64text_app; split; [apply b64text_repeat_A|exact HXt]. }
  { exact Hbl. }
  assert (Hz : paw = zeros (N.to_nat ps) ++ raw /\ raw = ndrop ps paw).
  { destruct (ps =? 0) eqn:Ep; cbn [negb] in Hraw.
    - apply N.eqb_eq in Ep. unfold base in D1. rewrite Ep in *. cbn [N.to_nat repeat app] in D1. rewrite D1 in Hraw. cbn [bind] in Hraw. rewrite L1 in Hraw.
      cbn in Hraw. apply ok_inj in Hraw. subst raw. split; reflexivity.
    - fold base in Hraw. rewrite D1 in Hraw. cbn [bind] in Hraw. apply raise_if_ok in Hraw. destruct Hraw as [Hpi Hraw].
      apply ok_inj in Hraw. split; [|auto]. rewrite <- (ntake_ndrop _ ps paw) at 1. rewrite Hraw. f_equal.
      apply negb_false_iff, N.eqb_eq in Hpi. unfold ntake, zeros in *.
      apply (lead_zero _ X paw k); auto.
      + clear - W5. subst ps cs. lia.
      + right. clear - L4. subst k ps cs. lia.
      + rewrite N2Nat.id. exact Hpi. }
  destruct Hz as [Hz1 Hz2].
  assert (K : iok (mkIdx hard index ondex raw) sz).
  { constructor; cbn [i_code i_index i_ondex i_raw]; auto.
    - rewrite Hz2. apply Forall_skipn. exact D2.
    - rewrite Hrl, Hql. unfold ifsize. rewrite Ef. reflexivity. }
  split; [exact K|]. split; [|exact Hfq].
  unfold itext, qtext. cbv zeta. rewrite (iboth_len _ _ K). fold cs. fold ps.
  rewrite <- (ntake_ndrop _ cs qq). rewrite Hboth. f_equal. fold X. cbn [i_raw]. rewrite <- Hz1, D4.
  unfold base, ndrop. rewrite skipn_app, repeat_length, Nat.sub_diag, skipn_all2 by (rewrite repeat_length; lia). reflexivity.
Qed.
