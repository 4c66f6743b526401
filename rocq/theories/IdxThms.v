From Verif Require Import Prelude B64Model B64Proofs MatterModel MatterProofs MatterInv MatterBinInv QualProofs IdxModel IdxProofs IdxInv ThModel.
Ltac Zify.zify_post_hook ::= Z.div_mod_to_equations.

Lemma siger_code : forall raw code index ondex x, siger_of_raw raw code index ondex = Ok x ->
  memB (i_code x) IdxSigDex = true /\ i_code x = code /\ i_index x = index /\ (forall o, ondex = Some o -> i_ondex x = Some o)
  /\ i_raw x = ntake (len (i_raw x)) raw.
Proof.
  intros raw code index ondex x H. unfold siger_of_raw in H. apply bind_ok in H. destruct H as (y & H & S).
  unfold siger_check in S. destruct (memB (i_code y) IdxSigDex) eqn:Em; [|discriminate]. apply ok_inj in S. subst y.
  split; [exact Em|].
  unfold indexer_of_raw in H. destruct code as [|c0 cr]; [discriminate|]. set (code := c0 :: cr) in *.
  destruct (dget ISizes code) as [sz|] eqn:Ed; [|discriminate]. cbv zeta in H.
  apply raise_if_ok in H. destruct H as [H1 H]. apply raise_if_ok in H. destruct H as [H2 H].
  apply raise_if_ok in H. destruct H as [H3 H]. apply bind_ok in H. destruct H as (o' & H4 & H).
  apply bind_ok in H. destruct H as (f & H5 & H). apply raise_if_ok in H. destruct H as [H6 H].
  apply ok_inj in H. subst x. cbn [i_code i_index i_ondex i_raw]. repeat split.
  - intros o ->. destruct (memB code IdxBthSigDex); [|apply ok_inj in H4; auto].
    apply raise_if_ok in H4. destruct H4 as [_ H4]. apply ok_inj in H4. auto.
  - apply negb_false_iff, N.eqb_eq in H6. rewrite H6. reflexivity.
Qed.

Lemma c05_text_round_trip : forall raw code index ondex x, octets raw ->
  siger_of_raw raw code index ondex = Ok x ->
  i_code x = code /\ i_index x = index /\ (forall o, ondex = Some o -> i_ondex x = Some o) /\ i_raw x = ntake (len (i_raw x)) raw
  /\ exists q, iinfil x = Ok q /\ b64text q /\ forall t, siger_strip (q ++ t) = Ok (x, t).
Proof.
  intros raw code index ondex x Ho H. destruct (siger_code _ _ _ _ _ H) as (S & A & B & D & E).
  repeat (split; [assumption|]). destruct (siger_of_raw_ok _ _ _ _ _ Ho H) as (sz & K).
  exists (itext x sz). split; [apply (iinfil_ok _ _ K)|]. split; [apply (qtext_b64 _ _ _ (iq _ _ K))|].
  intros t. unfold siger_strip, indexer_strip. rewrite (iexfil_ok _ _ _ K). cbn [bind]. rewrite (iinfil_ok _ _ K). cbn [bind].
  unfold siger_check. rewrite S. cbn [bind]. rewrite ndrop_len_app. reflexivity.
Qed.

Lemma c05_binary_round_trip : forall raw code index ondex x, octets raw ->
  siger_of_raw raw code index ondex = Ok x ->
  exists b, ibinfil x = Ok b /\ octets b /\ forall t, siger_bstrip (b ++ t) = Ok (x, t).
Proof.
  intros raw code index ondex x Ho H. destruct (siger_code _ _ _ _ _ H) as (S & _).
  destruct (siger_of_raw_ok _ _ _ _ _ Ho H) as (sz & K).
  exists (ibin x sz). split; [apply (ibinfil_ok _ _ K)|]. split; [apply (qbin_octets _ _ _ (iq _ _ K))|].
  intros t. unfold siger_bstrip, indexer_bstrip. rewrite (ibexfil_ok _ _ _ K). cbn [bind]. rewrite (ibinfil_ok _ _ K). cbn [bind].
  unfold siger_check. rewrite S. cbn [bind]. rewrite ndrop_len_app. reflexivity.
Qed.

Lemma c05_domains_agree : forall raw code index ondex x q b, octets raw ->
  siger_of_raw raw code index ondex = Ok x -> iinfil x = Ok q -> ibinfil x = Ok b ->
  decodeB64 q = Ok b /\ encodeB64 b = q /\ 4 * len b = 3 * len q.
Proof.
  intros raw code index ondex x q b Ho H Hq Hb. destruct (siger_of_raw_ok _ _ _ _ _ Ho H) as (sz & K).
  rewrite (iinfil_ok _ _ K) in Hq. rewrite (ibinfil_ok _ _ K) in Hb. apply ok_inj in Hq, Hb. subst.
  pose proof (iq _ _ K) as Q. split; [apply (qdecode _ _ _ Q)|]. split; [apply (qencode _ _ _ Q)|].
  unfold ibin, itext. rewrite (qtext_len _ _ _ Q), (qbin_len _ _ _ Q). pose proof (qmod4 _ _ _ Q). lia.
Qed.

Lemma c05_text_prefix_free : forall raw code index ondex x raw' code' index' ondex' x' q q' t,
  octets raw -> octets raw' ->
  siger_of_raw raw code index ondex = Ok x -> siger_of_raw raw' code' index' ondex' = Ok x' ->
  iinfil x = Ok q -> iinfil x' = Ok q' -> q' = q ++ t -> x' = x /\ t = [].
Proof.
  intros raw code index ondex x raw' code' index' ondex' x' q q' t Ho Ho' H H' Hq Hq' E.
  destruct (c05_text_round_trip _ _ _ _ _ Ho H) as (_ & _ & _ & _ & p & P1 & _ & P2).
  destruct (c05_text_round_trip _ _ _ _ _ Ho' H') as (_ & _ & _ & _ & p' & P1' & _ & P2').
  rewrite Hq in P1. rewrite Hq' in P1'. apply ok_inj in P1, P1'. subst p p' q'.
  specialize (P2 t). specialize (P2' []). rewrite app_nil_r in P2'. rewrite P2 in P2'. apply ok_inj in P2'.
  split; congruence.
Qed.

Lemma c05_text_canonical : forall s x t a, siger_strip s = Ok (x, t) -> s = a ++ t -> b64text a ->
  iinfil x = Ok a.
Proof.
  intros s x t a H E Ht. unfold siger_strip in H. apply bind_ok in H. destruct H as ([x' t'] & H & S1).
  apply bind_ok in S1. destruct S1 as (x1 & S1 & S2). apply ok_inj in S2. injection S2 as -> ->.
  unfold siger_check in S1. destruct (memB (i_code x') IdxSigDex) eqn:Em; [|discriminate]. apply ok_inj in S1. subst x'.
  unfold indexer_strip in H. apply bind_ok in H. destruct H as (y & Hx & H). apply bind_ok in H. destruct H as (q & Hq & H).
  apply ok_inj in H. injection H as -> H. pose proof Hq as Hq'. unfold iinfil in Hq'.
  destruct (dget ISizes (i_code x)) as [sz|] eqn:Esz; [|discriminate].
  destruct (sigdex_ok _ _ Em Esz) as (L1 & L2 & f & Ef).
  assert (Lq : len q = f).
  { cbv zeta in Hq'. unfold xfull in Hq'. rewrite Ef in Hq'. cbn [bind] in Hq'.
    apply raise_if_ok in Hq'. destruct Hq' as [_ Hq']. apply raise_if_ok in Hq'. destruct Hq' as [_ Hq'].
    apply raise_if_ok in Hq'. destruct Hq' as [_ Hq']. apply raise_if_ok in Hq'. destruct Hq' as [_ Hq'].
    apply raise_if_ok in Hq'. destruct Hq' as [Hl Hq']. apply ok_inj in Hq'. subst q.
    apply negb_false_iff, N.eqb_eq in Hl. exact Hl. }
  rewrite Lq in H.
  assert (Lt : len t = len s - f) by (rewrite <- H; apply len_ndrop).
  assert (Fs : f <= len s \/ len s < f) by lia. 
  assert (La : len s = len a + len t) by (rewrite E; apply len_app).
  destruct Fs as [Fs|Fs].
  - assert (A : ntake f s = a).
    { subst s. replace f with (len a) by lia. unfold ntake, len. rewrite Nat2N.id, firstn_app, Nat.sub_diag, firstn_all. apply app_nil_r. }
    destruct (iexfil_canonical _ _ f sz Hx Em Esz Ef) as (K & T & _); [rewrite A; exact Ht|].
    rewrite (iinfil_ok _ _ K), T, A. reflexivity.
  - assert (A : ntake f s = a).
    { assert (t = []) by (destruct t; [reflexivity|cbn in Lt; lia]). assert (E2 : s = a) by (rewrite E, H0; apply app_nil_r). rewrite E2 in *. apply ntake_all. lia. }
    destruct (iexfil_canonical _ _ f sz Hx Em Esz Ef) as (K & T & _); [rewrite A; exact Ht|].
    rewrite (iinfil_ok _ _ K), T, A. reflexivity.
Qed.

Lemma c05_accepts : forall code sz raw index, In code IdxSigDex -> dget ISizes code = Some sz ->
  index < 64 ^ (xss sz - xos sz) -> (exists f, xfs sz = Some f /\ 4 * len raw = 3 * (f - (xhs sz + xss sz))) ->
  exists x, siger_of_raw raw code index None = Ok x /\ i_raw x = raw.
Proof.
  intros code sz raw index Hc Hd Hi (f & Hf & Hl). apply memB_In in Hc.
  exists (mkIdx code index (if memB code IdxBthSigDex then Some index else None) raw). split; [|reflexivity].
  unfold siger_of_raw, indexer_of_raw. destruct code as [|c0 cr] eqn:Ec; [discriminate|]. rewrite <- Ec in *.
  rewrite Hd. cbv zeta. replace (index <=? _) with true by lia. cbn [negb ondexFits]. rewrite andb_false_r.
  assert (Hr : ntake ((f - (xhs sz + xss sz)) * 3 / 4) raw = raw) by (apply ntake_all; lia).
  assert (Hn : len raw =? (f - (xhs sz + xss sz)) * 3 / 4 = true) by lia.
  unfold xfull. rewrite Hf. destruct (memB code IdxBthSigDex); cbn [bind]; rewrite Hr, Hn; cbn [negb bind];
  unfold siger_check; cbn [i_code]; rewrite Hc; reflexivity.
Qed.

Lemma c05_no_truncation : forall code sz raw index ondex, dget ISizes code = Some sz ->
  (64 ^ (xss sz - xos sz) <= index \/ exists o, ondex = Some o /\ (xos sz <> 0 /\ 64 ^ xos sz <= o)) ->
  indexer_of_raw raw code index ondex = Err InvalidVarIndexError.
Proof.
  intros code sz raw index ondex Hd H. unfold indexer_of_raw. pose proof (isizes_wf _ _ Hd) as (W1 & W2 & _).
  destruct code as [|c0 cr] eqn:Ec; [cbn in W1; lia|]. rewrite <- Ec in *. rewrite Hd. cbv zeta.
  pose proof (pow64_pos (xss sz - xos sz)). pose proof (pow64_pos (xos sz)).
  destruct H as [H|(o & -> & Hz1 & Hz2)].
  - replace (index <=? _) with false by lia. reflexivity.
  - destruct (index <=? _); [|reflexivity]. cbn [negb ondexFits].
    replace ((xos sz =? 0) || (o <=? 64 ^ xos sz - 1)) with false by lia. reflexivity.
Qed.

Lemma c05_test_codes_refuted :
  (exists raw x, indexer_of_raw raw (s2b "1z") 0 None = Ok x /\ iinfil x = Err InvalidCodeSizeError)
  /\ (exists raw x q y, indexer_of_raw raw (s2b "0z") 1 None = Ok x /\ iinfil x = Ok q /\ iexfil q = Ok y
      /\ i_ondex x = None /\ i_ondex y = Some 1).
Proof.
  split.
  - exists (zeros 54). eexists. split; vm_compute; reflexivity.
  - exists [1;2;3]. eexists. eexists. eexists. repeat split; vm_compute; reflexivity.
Qed.



(** C10 refuted for numeric thresholds: a message with two keys and threshold 2 is accepted
    with valid signatures of only key 0, attached once under code A and once under code B.
    Both attachments parse as indexed signatures with index 0. *)
Definition dbl (code : string) : bytes :=
  match siger_of_raw (zeros 64) (s2b code) 0 None with
  | Ok x => match iinfil x with Ok q => q | Err _ => [] end
  | Err _ => [] end.
Lemma c10_double_count_refuted :
  exists a b x y, siger_strip a = Ok (x, []) /\ siger_strip b = Ok (y, []) /\
  exists (vrfy : N -> bytes -> bytes -> bool) vs,
    (forall s m, vrfy 11 s m = false) /\
    validateSigs N vrfy (s2b "msg") [mkSiger a (i_index x) (i_raw x); mkSiger b (i_index y) (i_raw y)] [10; 11] (TNum 2) = Ok (vs, true).
Proof.
  exists (dbl "A"), (dbl "B"). eexists. eexists. split; [vm_compute; reflexivity|]. split; [vm_compute; reflexivity|].
  exists (fun k s m => k =? 10). eexists. split; [reflexivity|vm_compute; reflexivity].
Qed.
