From Verif Require Import Prelude B64Model B64Proofs MatterModel MatterProofs.
Ltac Zify.zify_post_hook ::= Z.div_mod_to_equations.

(* ------------------------------------------------------------------ *)
(** Inversion: what an accepted text looks like *)

Lemma decode_ascii_ok : forall s r, decode_ascii s = Ok r -> r = s.
Proof. intros s r H. unfold decode_ascii in H. destruct (forallb _ s); [|discriminate]. inv H; reflexivity. Qed.

Lemma decodeB64_len : forall s r, decodeB64 s = Ok r -> (4 * List.length r <= 3 * List.length s)%nat.
Proof. intros s r H. apply decode_loop_len in H; try lia. cbn in H. lia. Qed.

Record exfil_facts (q : bytes) (m : matter) (sz : sizage) : Prop := {
  xf_sz : dget Sizes (m_code m) = Some sz;
  xf_len : fsize m sz <= len q;
  xf_both : ntake (hs sz + ss sz) q = both m sz;
  xf_soft : len (m_soft m) + xs sz = ss sz;
  xf_var : fs sz = None -> b64text (m_soft m);
  xf_oct : octets (m_raw m);
  xf_a2b : a2btext (ndrop (hs sz + ss sz) (ntake (fsize m sz) q));
  xf_mat : map urlize (ndrop (hs sz + ss sz) (ntake (fsize m sz) q))
           = ndrop ((hs sz + ss sz) mod 4) (encodeB64 (zeros (N.to_nat ((hs sz + ss sz) mod 4 + ls sz)) ++ m_raw m));
  xf_raw : match fs sz with
       | Some f => len (m_raw m) + ls sz = (f - (hs sz + ss sz)) * 3 / 4
       | None => len (m_raw m) + ls sz = 3 * val (m_soft m) end
}.

Lemma a2btext_app : forall a b, a2btext (a ++ b) <-> a2btext a /\ a2btext b.
Proof. intros; apply Forall_app. Qed.

Theorem exfil_inv : forall q m, exfil q = Ok m -> exists sz, exfil_facts q m sz.
Proof.
  intros q m H. unfold exfil in H. destruct q as [|x q0] eqn:Eq; [discriminate|]. rewrite <- Eq in *.
  apply bind_ok in H. destruct H as (first & Hf & H). apply decode_ascii_ok in Hf. subst first.
  destruct (dget Hards [x]) as [h|] eqn:Eh; [|repeat match type of H with (if ?b then _ else _) = _ => destruct b end; discriminate].
  apply raise_if_ok in H. destruct H as [Hh H].
  apply bind_ok in H. destruct H as (hard & Hhd & H). apply decode_ascii_ok in Hhd.
  destruct (dget Sizes hard) as [sz|] eqn:Esz; [|discriminate]. cbv zeta in H.
  apply bind_ok in H. destruct H as (soft0 & Hs0 & H). apply decode_ascii_ok in Hs0.
  apply raise_if_ok in H. destruct H as [Hx H]. apply negb_false_iff, beq_eq in Hx.
  apply bind_ok in H. destruct H as (f & Hfs & H).
  apply raise_if_ok in H. destruct H as [Hfl H].
  apply bind_ok in H. destruct H as (paw & Hpaw & H).
  apply raise_if_ok in H. destruct H as [Hpi H]. apply negb_false_iff, N.eqb_eq in Hpi.
  apply raise_if_ok in H. destruct H as [Hrl H]. apply negb_false_iff, N.eqb_eq in Hrl.
  apply ok_inj in H. subst m.
  pose proof (sizes_wf _ _ Esz) as W. pose proof W as (W1 & W2 & W3 & W4 & W5 & W6 & W7 & W8).
  assert (Ehs : h = hs sz). { rewrite Hhd, len_ntake in W1. lia. }
  subst h. set (cs := hs sz + ss sz) in *. set (ps := cs mod 4) in *.
  exists sz.
  assert (Hsoft0 : soft0 = repeat 95 (N.to_nat (xs sz)) ++ ndrop (xs sz) soft0).
  { rewrite <- (ntake_ndrop _ (xs sz) soft0) at 1. rewrite Hx. reflexivity. }
  assert (Hcsf : cs <= f /\ f mod 4 = ps /\ (fs sz = None -> ps = 0 /\ b64text (ndrop (xs sz) soft0)
       /\ f = cs + 4 * val (ndrop (xs sz) soft0) ) \/ (cs <= f /\ f mod 4 = 0 /\ exists f0, fs sz = Some f0 /\ f0 = f)
       \/ (cs <= f /\ f mod 4 = 0 /\ ps = 0 /\ fs sz = None /\ b64text (ndrop (xs sz) soft0) /\ f = cs + 4 * val (ndrop (xs sz) soft0))).
  { destruct (fs sz) as [f0|].
    - apply ok_inj in Hfs. subst f0. right. left. split; [|split]; try lia. exists f. auto.
    - right. right. apply bind_ok in Hfs. destruct Hfs as (s & Hs & Hfs). apply ok_inj in Hfs.
      apply b64ToInt_ok in Hs. destruct Hs as (Hs1 & Hs2 & Hs3). subst s.
      unfold ps. repeat split; auto; lia. }
  assert (Hc2 : cs <= f /\ f mod 4 = 0).
  { destruct Hcsf as [(A & B & D)|[(A & B & D)|(A & B & D)]]; try tauto.
    destruct (fs sz) as [f0|]; [apply ok_inj in Hfs; subst; lia|]. destruct D as (D1 & _); auto. lia. }
  assert (Hfz : f = fsize (mkMatter hard (ndrop (xs sz) soft0) (ndrop (ps + ls sz) paw)) sz).
  { unfold fsize. cbn [m_soft]. destruct Hcsf as [(A & B & D)|[(A & B & f0 & D1 & D2)|(A & B & D1 & D2 & D3 & D4)]].
    - destruct (fs sz) as [f0|]; [apply ok_inj in Hfs; auto|]. destruct D as (_ & _ & D); auto.
    - rewrite D1. auto.
    - rewrite D2. fold cs. exact D4. }
  assert (Hvt : fs sz = None -> b64text (ndrop (xs sz) soft0)).
  { intros E. destruct Hcsf as [(A & B & D)|[(A & B & f0 & D1 & D2)|(A & B & D1 & D2 & D3 & D4)]]; auto.
    - apply D; auto. - congruence. }
  destruct Hc2 as [Hc2 Hf4].
  set (X := ndrop cs (ntake f q)) in *.
  assert (HX : len X = f - cs) by (unfold X; rewrite len_ndrop, len_ntake; lia).
  set (base := repeat 65 (N.to_nat ps) ++ X) in *.
  set (k := N.to_nat ((ps + (f - cs)) / 4)).
  assert (Hbl : List.length base = (4 * k)%nat).
  { unfold base. rewrite app_length, repeat_length. unfold len in HX. subst k ps. lia. }
  assert (Hql : len (ntake f q) = f) by (rewrite len_ntake; lia). rewrite Hql in Hrl.
  assert (Hrawlen : ps + ls sz + len (ndrop (ps + ls sz) paw) = 3 * N.of_nat k) by (subst k ps; lia).
  pose proof (decodeB64_len _ _ Hpaw) as Hdl. rewrite Hbl in Hdl.
  assert (Hpl : List.length paw = (3 * k)%nat).
  { rewrite len_ndrop in Hrawlen. unfold len in Hrawlen.
    destruct (N.leb_spec (ps + ls sz) (N.of_nat (List.length paw))); [lia|].
    exfalso. rewrite len_ndrop in Hrl. unfold len in Hrl.
    replace (N.of_nat (List.length paw) - (ps + ls sz)) with 0 in * by lia.
    destruct (fs sz) as [f0|] eqn:Ef.
    - apply ok_inj in Hfs. subst f0. destruct W8 as (V1 & V2 & V3 & V4).
      assert (f = hs sz + ss sz) by (apply V4; fold cs; lia). subst ps. fold cs in H0. lia.
    - destruct W8 as (V1 & _). fold cs in V1. subst ps. lia. }
  assert (Hcl : a2btext base) by (eapply decode_clean; [exact Hpaw|lia]).
  apply a2btext_app in Hcl. destruct Hcl as [_ HclX].
  rewrite decode_urlize in Hpaw.
  assert (Hub : map urlize base = repeat 65 (N.to_nat ps) ++ map urlize X).
  { unfold base. rewrite map_app, urlize_id by apply b64text_repeat_A. reflexivity. }
  destruct (decode_text k (map urlize base)) as (a & D1 & D2 & D3 & D4 & D5).
  { rewrite Hub. apply b64text_app; split; [apply b64text_repeat_A|]. apply urlize_text; exact HclX. }
  { rewrite map_length. exact Hbl. }
  rewrite Hpaw in D1. apply ok_inj in D1. subst a.
  assert (Hz : paw = zeros (N.to_nat (ps + ls sz)) ++ ndrop (ps + ls sz) paw).
  { rewrite <- (ntake_ndrop _ (ps + ls sz) paw) at 1. f_equal.
    unfold int_from_bytes in Hpi. apply of_digits_zero_inv in Hpi; [|lia]. rewrite Hpi. unfold zeros.
    f_equal. pose proof (len_ntake _ (ps + ls sz) paw) as E. unfold len in E. rewrite len_ndrop in Hrawlen.
    unfold len in Hrawlen. lia. }
  assert (Hoctr : octets (ndrop (ps + ls sz) paw)) by (apply Forall_skipn; exact D2).
  constructor; cbn [m_code m_soft m_raw]; auto.
  - rewrite <- Hfz. lia.
  - unfold both. cbn [m_code m_soft].
    replace (ntake (hs sz + ss sz) q) with (ntake (hs sz) q ++ ntake (ss sz) (ndrop (hs sz) q)).
    + rewrite <- Hhd, <- Hs0. f_equal. exact Hsoft0.
    + unfold ntake, ndrop. rewrite N2Nat.inj_add. rewrite <- (firstn_skipn (N.to_nat (hs sz)) q) at 3.
      rewrite firstn_app. rewrite firstn_firstn. rewrite firstn_length.
      f_equal; f_equal; unfold len in *; lia.
  - rewrite len_ndrop. assert (len soft0 = ss sz); [|lia]. rewrite Hs0, len_ntake, len_ndrop. unfold cs in *. lia.
  - rewrite <- Hfz. exact HclX.
  - rewrite <- Hfz. fold cs ps X. rewrite <- Hz, D4, Hub, ndrop_repeat_app. reflexivity.
  - unfold fsize in Hfz. cbn [m_soft] in Hfz. fold cs in Hfz. fold cs. destruct (fs sz) as [f0|]; [subst f0; exact Hrl|].
    rewrite Hrl. lia.
Qed.

Lemma exfil_text_wf : forall q m sz, exfil_facts q m sz -> b64text (ntake (fsize m sz) q) ->
  wf_matter m /\ ntake (fsize m sz) q = text m sz.
Proof.
  intros q m sz F Ht. pose proof (sizes_wf _ _ (xf_sz _ _ _ F)) as W. pose proof W as (W1 & W2 & W3 & W4 & W5 & W6 & W7 & W8).
  assert (Hcs : hs sz + ss sz <= fsize m sz).
  { unfold fsize. destruct (fs sz); lia. }
  assert (Hb : ntake (hs sz + ss sz) (ntake (fsize m sz) q) = both m sz).
  { rewrite ntake_ntake by exact Hcs. apply (xf_both _ _ _ F). }
  split.
  - exists sz. split; [apply (xf_sz _ _ _ F)|]. split; [apply (xf_oct _ _ _ F)|]. split.
    + assert (Hbt : b64text (both m sz)) by (rewrite <- Hb; apply b64text_ntake; exact Ht).
      unfold both in Hbt. apply b64text_app in Hbt. destruct Hbt as [_ Hbt]. apply b64text_app in Hbt. tauto.
    + split; [apply (xf_soft _ _ _ F)|]. apply (xf_raw _ _ _ F).
  - rewrite <- (ntake_ndrop _ (hs sz + ss sz) (ntake (fsize m sz) q)). rewrite Hb. unfold text. f_equal.
    rewrite <- (xf_mat _ _ _ F). symmetry. apply urlize_id. apply b64text_ndrop. exact Ht.
Qed.

