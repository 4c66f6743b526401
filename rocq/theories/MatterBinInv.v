From Verif Require Import Prelude B64Model B64Proofs MatterModel MatterProofs MatterInv.
Ltac Zify.zify_post_hook ::= Z.div_mod_to_equations.

(* ------------------------------------------------------------------ *)
Lemma codeB2ToB64_prefix : forall q l t, sceil34 l <= len q -> codeB2ToB64 (q ++ t) l = codeB2ToB64 q l.
Proof.
  intros q l t H. unfold codeB2ToB64. cbv zeta.
  replace (len (q ++ t) <? sceil34 l) with false by (rewrite len_app; lia).
  replace (len q <? sceil34 l) with false by lia.
  rewrite ntake_app_le by exact H. reflexivity.
Qed.

Definition pad3 (q : bytes) : bytes := q ++ repeat 0 (N.to_nat ((3 - len q mod 3) mod 3)).

Lemma pad3_len : forall q, exists k, List.length (pad3 q) = (3 * k)%nat.
Proof.
  intros q. exists (N.to_nat (len (pad3 q) / 3)). unfold pad3.
  rewrite app_length, repeat_length. rewrite len_app, len_repeat. unfold len. lia.
Qed.

Lemma codeB2_pad : forall q l, octets q -> sceil34 l <= len q ->
  codeB2ToB64 q l = Ok (ntake l (encodeB64 (pad3 q))) /\ l <= len (encodeB64 (pad3 q)).
Proof.
  intros q l Ho H. destruct (pad3_len q) as (k & Hk). unfold pad3 in *.
  set (z := repeat 0 (N.to_nat ((3 - len q mod 3) mod 3))) in *.
  assert (Hoz : octets (q ++ z)) by (apply octets_app; split; [exact Ho|apply octets_repeat0]).
  assert (Hl : l <= 4 * N.of_nat k).
  { rewrite app_length in Hk. unfold len in H. unfold sceil34 in H. lia. }
  split.
  - rewrite <- (codeB2ToB64_prefix q l z) by exact H.
    pose proof (codeB2ToB64_text k (q ++ z) l [] Hoz Hk Hl) as C. rewrite app_nil_r in C. exact C.
  - unfold len. rewrite (encodeB64_length k) by assumption. lia.
Qed.

Lemma pad_mod : forall ps u v, ps = 0 \/ ps = 1 \/ ps = 2 -> v mod 2 ^ (2 * ps) = 0 ->
  (u * 256 + v) mod 4 ^ ps = 0.
Proof.
  intros ps u v [->|[->| ->]].
  - change (2 ^ (2 * 0)) with 1. change (4 ^ 0) with 1. lia.
  - change (2 ^ (2 * 1)) with 4. change (4 ^ 1) with 4. lia.
  - change (2 ^ (2 * 2)) with 16. change (4 ^ 2) with 16. lia.
Qed.

Theorem bexfil_inv : forall q m, octets q -> bexfil q = Ok m ->
  wf_matter m /\ exists sz, mfacts m sz /\ bin m sz = ntake (fsize m sz * 3 / 4) q /\ fsize m sz * 3 / 4 <= len q.
Proof.
  intros q m Ho H. unfold bexfil in H. destruct q as [|x q0] eqn:Eq; [discriminate|]. rewrite <- Eq in *.
  apply bind_ok in H. destruct H as (first & Hf & H).
  destruct (dget Bards first) as [h|] eqn:Eh; [|discriminate].
  apply raise_if_ok in H. destruct H as [Hh H]. apply N.ltb_ge in Hh.
  destruct (codeB2_pad q h Ho Hh) as [Chd Chl]. rewrite Chd in H. cbn [bind] in H.
  set (E := encodeB64 (pad3 q)) in *.
  destruct (dget Sizes (ntake h E)) as [sz|] eqn:Esz; [|discriminate]. cbv zeta in H.
  apply raise_if_ok in H. destruct H as [Hcl H]. apply N.ltb_ge in Hcl.
  destruct (codeB2_pad q (hs sz + ss sz) Ho Hcl) as [Ccs Ccl]. fold E in Ccs, Ccl.
  pose proof Ccs as Ccs'. rewrite Ccs in H. cbn [bind] in H.
  pose proof (sizes_wf _ _ Esz) as W. pose proof W as (W1 & W2 & W3 & W4 & W5 & W6 & W7 & W8).
  assert (Ehs : h = hs sz). { rewrite len_ntake in W1. lia. } subst h.
  set (cs := hs sz + ss sz) in *. set (ps := cs mod 4) in *.
  set (bt := ntake cs E) in *.
  assert (HEt : b64text E).
  { destruct (pad3_len q) as (k & Hk). apply (encodeB64_text k); [|exact Hk]. unfold pad3. apply octets_app.
    split; [exact Ho|apply octets_repeat0]. }
  assert (Hbtt : b64text bt) by (apply b64text_ntake; exact HEt).
  assert (Hbtl : len bt = cs) by (unfold bt; rewrite len_ntake; lia).
  set (soft0 := ntake (ss sz) (ndrop (hs sz) bt)) in *.
  apply raise_if_ok in H. destruct H as [Hx H]. apply negb_false_iff, beq_eq in Hx.
  apply bind_ok in H. destruct H as (f & Hfs & H).
  apply raise_if_ok in H. destruct H as [Hfl H]. apply N.ltb_ge in Hfl.
  apply raise_if_ok in H. destruct H as [Hpi H]. apply negb_false_iff, N.eqb_eq in Hpi.
  apply raise_if_ok in H. destruct H as [Hli H]. apply negb_false_iff, N.eqb_eq in Hli.
  apply raise_if_ok in H. destruct H as [Hrl H]. apply negb_false_iff, N.eqb_eq in Hrl.
  apply ok_inj in H. subst m.
  set (qq := ntake (sceil34 f) q) in *. set (bcs := sceil34 cs) in *.
  set (soft := ndrop (xs sz) soft0) in *. set (raw := ndrop (bcs + ls sz) qq) in *.
  assert (Hsoftt : b64text soft).
  { unfold soft, soft0. apply b64text_ndrop, b64text_ntake, b64text_ndrop. exact Hbtt. }
  assert (Hs0l : len soft0 = ss sz). { unfold soft0. rewrite len_ntake, len_ndrop. unfold cs in *. lia. }
  assert (Hsoftl : len soft + xs sz = ss sz). { unfold soft. rewrite len_ndrop. lia. }
  assert (Hqql : len qq = sceil34 f) by (unfold qq; rewrite len_ntake; lia).
  assert (Hcsf : cs <= f /\ f mod 4 = 0 /\
     match fs sz with Some f0 => f0 = f | None => f = cs + 4 * val soft end).
  { destruct (fs sz) as [f0|].
    - apply ok_inj in Hfs. subst. unfold cs. split; [|split]; try reflexivity; lia.
    - apply bind_ok in Hfs. destruct Hfs as (s & Hs & Hfs). apply ok_inj in Hfs.
      apply b64ToInt_ok in Hs. destruct Hs as (_ & _ & Hs). subst s. fold cs in W8. repeat split; lia. }
  destruct Hcsf as (Hcf & Hf4 & Hff).
  assert (Hrawl : len raw + ls sz = (f - cs) * 3 / 4).
  { rewrite Hqql in Hrl. unfold bcs, sceil34 in *. lia. }
  set (m := mkMatter (ntake (hs sz) E) soft raw).
  assert (Hwf : wf_matter m).
  { exists sz. unfold m; cbn [m_code m_soft m_raw]. split; [exact Esz|]. split.
    { unfold raw, qq. apply Forall_skipn, Forall_firstn. exact Ho. }
    split; [exact Hsoftt|]. split; [exact Hsoftl|]. destruct (fs sz).
    - subst n. exact Hrawl.
    - rewrite Hrawl. lia. }
  split; [exact Hwf|].
  destruct (wf_facts m Hwf) as (sz' & F & _). pose proof (mf_sz _ _ F) as Hsz'. unfold m in Hsz' at 1. cbn [m_code] in Hsz'.
  assert (sz' = sz) by congruence. subst sz'. clear Hsz'. exists sz. split; [exact F|].
  assert (Hfz : fsize m sz = f).
  { unfold fsize, m. cbn [m_soft]. destruct (fs sz); [auto|]. fold cs. lia. }
  rewrite Hfz. replace (f * 3 / 4) with (sceil34 f) by (unfold sceil34; lia). fold qq. split; [|exact Hfl].
  (* code part *)
  assert (Hboth : both m sz = bt).
  { unfold both, m. cbn [m_code m_soft]. rewrite <- Hx. unfold soft. rewrite ntake_ndrop.
    assert (Hsf : soft0 = ndrop (hs sz) bt). { unfold soft0. apply ntake_all. rewrite len_ndrop. unfold cs in *. lia. }
    rewrite Hsf. assert (ntake (hs sz) E = ntake (hs sz) bt) as ->.
    { unfold bt. rewrite ntake_ntake by (unfold cs; lia). reflexivity. }
    apply ntake_ndrop. }
  assert (Hbcs : bcs <= len qq) by (rewrite Hqql; unfold bcs, sceil34; lia).
  assert (Hbtv : val bt = int_from_bytes (ntake bcs qq) / 4 ^ ps).
  { unfold codeB2ToB64 in Ccs'. fold bcs in Ccs'. cbv zeta in Ccs'.
    destruct (len q <? bcs); [discriminate|]. apply ok_inj in Ccs'. fold ps in Ccs'. rewrite shiftr_div4 in Ccs'.
    rewrite <- Ccs'. rewrite intToB64_val by (unfold cs; lia). f_equal. f_equal. unfold qq.
    rewrite ntake_ntake by lia. reflexivity. }
  assert (Hqo : octets qq) by (apply Forall_firstn; exact Ho).
  assert (Hpad : int_from_bytes (ntake bcs qq) mod 4 ^ ps = 0).
  { rewrite land_ones_mod in Hpi.
    assert (Hb1 : 1 <= bcs) by (clear - W2; unfold bcs, sceil34, cs; lia).
    assert (Es : ntake bcs qq = ntake (bcs - 1) qq ++ ntake 1 (ndrop (bcs - 1) qq)).
    { rewrite <- ntake_add. f_equal. clear - Hb1. lia. }
    rewrite Es. unfold int_from_bytes. rewrite of_digits_app.
    assert (len (ntake 1 (ndrop (bcs - 1) qq)) = 1) as -> by (rewrite len_ntake, len_ndrop; clear - Hb1 Hbcs; lia).
    change (256 ^ 1) with 256. unfold int_from_bytes in Hpi.
    set (u := of_digits 256 (ntake (bcs - 1) qq)). set (v := of_digits 256 (ntake 1 (ndrop (bcs - 1) qq))) in *.
    assert (Hc : ps = 0 \/ ps = 1 \/ ps = 2) by (clear - W5; unfold ps; fold cs in W5; lia).
    apply pad_mod with (u := u) in Hpi; assumption. }
  unfold bin. fold cs ps. rewrite Hboth.
  rewrite <- (ntake_ndrop _ bcs qq) at 1. f_equal.
  - rewrite Hbtv. rewrite N.mul_comm.
    assert (4 ^ ps * (int_from_bytes (ntake bcs qq) / 4 ^ ps) = int_from_bytes (ntake bcs qq)) as ->.
    { rewrite (N.div_mod (int_from_bytes (ntake bcs qq)) (4 ^ ps)) at 2 by (apply N.pow_nonzero; lia). lia. }
    fold bcs. unfold int_from_bytes.
    assert (N.to_nat bcs = List.length (ntake bcs qq)) as El.
    { pose proof (len_ntake _ bcs qq) as El. clear - El Hbcs. unfold len in *. lia. }
    rewrite El at 1. apply to_of_digits; [lia|]. apply Forall_firstn. exact Hqo.
  - unfold m; cbn [m_raw]. rewrite <- (ntake_ndrop _ (ls sz) (ndrop bcs qq)). f_equal.
    + unfold int_from_bytes in Hli. apply of_digits_zero_inv in Hli; [|lia]. rewrite Hli. unfold zeros. f_equal.
      pose proof (len_ntake _ (ls sz) (ndrop bcs qq)) as El. rewrite len_ndrop in El.
      unfold raw in Hrl. rewrite len_ndrop in Hrl. clear - El Hrl Hbcs. unfold len in *. lia.
    + unfold raw. rewrite ndrop_ndrop. reflexivity.
Qed.
