(** Lemmas on labels, texts and decimal numbers of native field maps. *)
From Verif Require Import Prelude B64Model B64Proofs MatterModel MatterProofs MatterSpec MatterThms SubsModel SubsProofs SubsThms CtrModel CtrProofs ThModel ThProofs JsonModel JsonProofs SerProofs NmModel.
Open Scope N_scope.
Notation val := JsonModel.val.
Ltac Zify.zify_post_hook ::= Z.div_mod_to_equations.

(** ** Primitives *)
(** [q] is the text of the primitive [m], and is read as it in front of anything *)
Record prim (m : matter) (q : bytes) : Prop := {
  pr_built : built m;
  pr_infil : infil m = Ok q;
  pr_text : b64text q;
  pr_four : len q mod 4 = 0;
  pr_first : exists x r, q = x :: r /\ x <> 45;
  pr_strip : forall t, matter_strip (q ++ t) = Ok (m, t);
  pr_exfil : exfil q = Ok m }.
Lemma exfil_first : forall q m, exfil q = Ok m -> exists x r, q = x :: r /\ x <> 45.
Proof.
  intros q m H. destruct q as [|x r]; [discriminate|]. exists x, r. split; [reflexivity|]. intros ->. cbn in H. discriminate.
Qed.
Lemma prim_of : forall m q, built m -> infil m = Ok q -> prim m q.
Proof.
  intros m q B I. destruct (c01_text_layout m B) as (sz & q' & _ & I' & (L4 & T & _)). rewrite I in I'. apply ok_inj in I'. subst q'.
  assert (R : forall t, exfil (q ++ t) = Ok m /\ matter_strip (q ++ t) = Ok (m, t)).
  { intros t. destruct (c01_text_round_trip m t B) as (q' & I' & _ & X & S). rewrite I in I'. apply ok_inj in I'. subst q'. auto. }
  pose proof (proj1 (R [])) as X. rewrite app_nil_r in X.
  constructor; auto; [exact (exfil_first _ _ X)|intros t; apply R].
Qed.
Lemma prim_inj : forall m q q', prim m q -> prim m q' -> q = q'.
Proof. intros m q q' A B. pose proof (pr_infil _ _ A) as X. rewrite (pr_infil _ _ B) in X. congruence. Qed.
Lemma infil_four : forall m q, infil m = Ok q -> len q mod 4 = 0.
Proof.
  intros m q H. unfold infil in H. destruct (dget Sizes (m_code m)) as [sz|]; [|discriminate]. cbv zeta in H.
  apply bind_ok in H. destruct H as (f & _ & H). apply raise_if_ok in H. destruct H as [E H]. apply ok_inj in H. subst. lia.
Qed.

(** ** UTF-8 *)
Lemma utf8_octets : forall s, utf8 s = true -> octets s.
Proof.
  intros s. remember (List.length s) as n eqn:En. revert s En. induction n as [n IH] using lt_wf_ind. intros s En H.
  destruct s as [|a r]; [constructor|]. cbn [utf8] in H. unfold cont in H.
  assert (G : forall t, (List.length t < n)%nat -> utf8 t = true -> octets t) by (intros t Lt U; exact (IH _ Lt t eq_refl U)).
  destruct (a <? 128) eqn:E1; [|destruct ((194 <=? a) && (a <=? 223)) eqn:E2; [|destruct ((224 <=? a) && (a <=? 239)) eqn:E3; [|destruct ((240 <=? a) && (a <=? 244)) eqn:E4; [|discriminate]]]].
  - constructor; [unfold is_byte; lia|]. apply G; [cbn in En; lia|exact H].
  - destruct r as [|b r]; [discriminate|]. apply andb_true_iff in H. destruct H as [H1 H]. cbn in En.
    repeat (constructor; [unfold is_byte; lia|]). apply G; [lia|exact H].
  - destruct r as [|b [|d r]]; try discriminate. apply andb_true_iff in H. destruct H as [H1 H]. cbn in En.
    repeat (constructor; [unfold is_byte; lia|]). apply G; [lia|exact H].
  - destruct r as [|b [|d [|e r]]]; try discriminate. apply andb_true_iff in H. destruct H as [H1 H]. cbn in En.
    repeat (constructor; [unfold is_byte; lia|]). apply G; [lia|exact H].
Qed.
Lemma b64_octets : forall s, Reb64 s = true -> octets s.
Proof.
  intros s H. apply Reb64_b64text in H. eapply Forall_impl; [|exact H]. intros x Hx. unfold is_byte. cbn in Hx.
  destruct (B64IdxByChr x) as [d|] eqn:E; [|congruence]. pose proof (idx_lt _ _ E) as Hd. apply chr_idx in E. subst x.
  assert (A : forallb (fun d => B64ChrByIdx d <? 256) (map N.of_nat (seq 0 64)) = true) by (vm_compute; reflexivity).
  rewrite forallb_forall in A. specialize (A d). apply N.ltb_lt, A. apply in_map_iff. exists (N.to_nat d). split; [lia|]. apply in_seq. lia.
Qed.

(** ** Base64 text in raw *)
Definition lead (raw : bytes) : N := (3 - len raw mod 3) mod 3.
Lemma b64raw : forall e, b64text e -> exists raw,
  (r <- decodeB64 (repeat 65 (N.to_nat (wadSize e)) ++ e) ;; Ok (ndrop ((3 - len e mod 4) mod 3) r)) = Ok raw
  /\ octets raw /\ forall c sz, dget Sizes c = Some sz -> ls sz = lead raw -> ~ ambiguous e -> derawify raw c false = Ok e.
Proof.
  intros e He. set (ws := wadSize e). set (l := (3 - len e mod 4) mod 3).
  set (base := repeat 65 (N.to_nat ws) ++ e). set (k := (len e + ws) / 4).
  assert (Hk : len e + ws = 4 * k) by (unfold k, ws, wadSize; lia).
  assert (HlC : (len e mod 4 = 0 /\ ws = 0 /\ l = 0) \/ (len e mod 4 = 3 /\ ws = 1 /\ l = 0)
     \/ (len e mod 4 = 2 /\ ws = 2 /\ l = 1) \/ (len e mod 4 = 1 /\ ws = 3 /\ l = 2)) by (clear; unfold l, ws, wadSize; lia).
  assert (Hbt : b64text base) by (apply b64text_app; split; [apply b64text_repeat_A|exact He]).
  assert (Hbl : List.length base = (4 * N.to_nat k)%nat).
  { unfold base. rewrite app_length, repeat_length. unfold len in Hk. clear - Hk. lia. }
  destruct (decode_text (N.to_nat k) base Hbt Hbl) as (a & D1 & D2 & D3 & D4 & D5).
  assert (Hval : int_from_bytes a = B64Proofs.val e).
  { rewrite D5. unfold base. rewrite val_app. unfold B64Proofs.val at 1. rewrite dig_repeat_A, of_digits_repeat0. lia. }
  assert (Hz : a = zeros (N.to_nat l) ++ ndrop l a).
  { rewrite <- (ntake_ndrop _ l a) at 1. f_equal.
    assert (Ll : (N.to_nat l <= List.length a)%nat) by (clear - D3 HlC Hk; lia).
    unfold ntake. rewrite (zeros_of_zero (firstn (N.to_nat l) a)).
    - rewrite firstn_length, Nat.min_l by exact Ll. reflexivity.
    - apply Forall_firstn. exact D2.
    - rewrite int_firstn by assumption. apply N.div_small. rewrite Hval.
      eapply N.lt_le_trans; [apply val_bound; exact He|].
      replace 64 with (2 ^ 6) by reflexivity. replace 256 with (2 ^ 8) by reflexivity. rewrite <- !N.pow_mul_r.
      apply N.pow_le_mono_r; [lia|]. clear - D3 HlC Hk. lia. }
  set (raw := ndrop l a) in *.
  assert (Hrl : len raw + l = 3 * k) by (unfold raw; rewrite len_ndrop; unfold len; clear - D3 HlC Hk; lia).
  assert (Hro : octets raw) by (apply Forall_skipn; exact D2).
  exists raw. rewrite D1. cbn [bind]. fold raw.
  assert (Hlead : lead raw = l) by (clear - Hrl HlC; unfold lead; lia).
  split; [reflexivity|]. split; [exact Hro|]. intros c sz V3 V4 Ha. rewrite Hlead in V4.
  unfold derawify. rewrite V3, V4. rewrite <- Hz, D4.
  assert (G : ndrop ws base = e) by (unfold base; apply ndrop_repeat_app).
  assert (Hcase : e = [] \/ e <> []) by (destruct e; [left; reflexivity|right; discriminate]).
  destruct Hcase as [Ee|Ee].
  { assert (base = []) as -> by (unfold base, ws; rewrite Ee; reflexivity). rewrite Ee.
    cbv zeta iota. f_equal. unfold ndrop. apply skipn_nil. }
  cbv zeta iota. f_equal. transitivity (ndrop ws base); [|exact G]. f_equal.
  destruct HlC as [(E1 & E2 & E3)|[(E1 & E2 & E3)|[(E1 & E2 & E3)|(E1 & E2 & E3)]]]; rewrite E2, E3.
  - destruct base as [|x r] eqn:Eb.
    + exfalso. unfold base in Eb. apply app_eq_nil in Eb. destruct Eb as [_ Eb]. congruence.
    + cbn [N.eqb]. destruct (N.eqb_spec x 65); [|reflexivity]. exfalso. apply Ha. unfold base in Eb. rewrite E2 in Eb. cbn in Eb.
      rewrite Eb. subst x. split; [reflexivity|]. rewrite <- Eb. exact E1.
  - destruct base as [|x r] eqn:Eb; [reflexivity|]. unfold base in Eb. rewrite E2 in Eb. cbn in Eb. injection Eb as Ex _. rewrite <- Ex. reflexivity.
  - destruct base; reflexivity.
  - destruct base; reflexivity.
Qed.

(** the codes of a variable size primitive *)
Definition varCodes (x : N) : list bytes := [[52; x]; [53; x]; [54; x]; [55; 65; 65; x]; [56; 65; 65; x]; [57; 65; 65; x]].
Definition varLetter (x : N) : Prop := x = 65 \/ x = 66 \/ x = 72.
Lemma lead_lt : forall raw, lead raw = 0 \/ lead raw = 1 \/ lead raw = 2.
Proof. intros. unfold lead. lia. Qed.
Lemma var_raw : forall raw d x m, varLetter x -> d = 52 \/ d = 53 \/ d = 54 -> matter_of_raw raw [d; x] [] None = Ok m ->
  m_raw m = raw /\ In (m_code m) (varCodes x) /\ exists sz, dget Sizes (m_code m) = Some sz /\ ls sz = lead raw.
Proof.
  intros raw d x m Hx Hd H. unfold matter_of_raw in H.
  assert (Z : exists sz, dget Sizes [d; x] = Some sz /\ fs sz = None).
  { destruct Hx as [-> |[-> | ->]], Hd as [-> |[-> | ->]]; eexists; (split; [vm_compute; reflexivity|reflexivity]). }
  destruct Z as (sz & Z1 & Z2). rewrite Z1, Z2 in H. cbv zeta in H. apply bind_ok in H. destruct H as ([c s] & H1 & H).
  rewrite ntake_all in H by lia. rewrite N.eqb_refl in H. cbn [negb] in H. apply ok_inj in H. subst m. cbn [m_raw m_code].
  split; [reflexivity|]. change (lead raw) with ((3 - len raw mod 3) mod 3). fold (lead raw) in H1. change ((3 - len raw mod 3) mod 3) with (lead raw).
  set (size := (len raw + lead raw) / 3) in H1. clearbody size. unfold varCode in H1.
  replace (memN (nth 0 [d; x] 0) SmallVrzDex) with true in H1 by (destruct Hd as [-> |[-> | ->]]; reflexivity).
  assert (E : exists b, c = [nth (N.to_nat (lead raw)) SmallVrzDex 0] ++ [x] /\ b = true \/ c = [nth (N.to_nat (lead raw)) LargeVrzDex 0] ++ [65; 65] ++ [x] /\ b = false).
  { destruct (size <=? 64 ^ 2 - 1); [|destruct (size <=? 64 ^ 4 - 1); [|discriminate]]; apply ok_inj in H1; injection H1 as H1 _; [exists true; left|exists false; right]; (split; [symmetry; exact H1|reflexivity]). }
  clear H1. destruct E as (b & E). destruct (lead_lt raw) as [L|[L|L]]; rewrite L in E |- *; destruct E as [[-> _]|[-> _]]; cbn [N.to_nat nth SmallVrzDex LargeVrzDex s2b list_ascii_of_string map app];
    (destruct Hx as [-> |[-> | ->]]; (split; [vm_compute; tauto|eexists; split; [vm_compute; reflexivity|reflexivity]])).
Qed.

(** ** Labels and texts *)
Lemma inLabelDex_ok : forall m m', inLabelDex m = Ok m' -> m' = m /\ memB (m_code m) LabelDex = true.
Proof. intros m m' H. unfold inLabelDex in H. destruct (memB (m_code m) LabelDex); [|discriminate]. apply ok_inj in H. auto. Qed.
Lemma strCode_cases : forall s, exists d, strCode s = [d; 65] /\ (d = 52 \/ d = 53 \/ d = 54).
Proof.
  intros s. unfold strCode. cbv zeta. destruct (_ =? 0); [exists 52; auto|]. destruct (_ =? 1); [exists 53|exists 54]; auto.
Qed.
Lemma rawify_true : forall s, rawify s true = (r <- decodeB64 (repeat 65 (N.to_nat (wadSize (bext_escape s true))) ++ bext_escape s true) ;; Ok (ndrop ((3 - len (bext_escape s true) mod 4) mod 3) r)).
Proof. reflexivity. Qed.
Lemma compact_ok : forall s m, Reb64 s = true -> s <> [] -> compact s = Ok m -> built m /\ textOf m = Ok s.
Proof.
  intros s m Hs Hn H. unfold compact in H. destruct (tag_codify s) as [code|e] eqn:Et.
  - assert (L : 1 <= len s <= 11).
    { unfold tag_codify in Et. cbv zeta in Et. change (len TagDex) with 11 in Et. destruct ((len s <? 1) || (11 <? len s)) eqn:E; [discriminate|lia]. }
    destruct (c08_tag_round_trip s [] Hs L) as (m' & q & A & B & C & _). unfold tagger_of_tag in A. destruct s as [|x r]; [congruence|].
    rewrite Hs in A. cbn [negb] in A. rewrite Et in A. cbn [bind] in A. rewrite H in A. cbn [bind] in A.
    destruct (negb (special (m_code m)) || negb (memB (m_code m) TagDex)) eqn:E; [discriminate|]. apply ok_inj in A. subst m'.
    split; [exact B|]. unfold textOf. apply orb_false_iff in E. destruct E as [_ E]. apply negb_false_iff in E. rewrite E. unfold tag in C. rewrite C. reflexivity.
  - apply bind_ok in H. destruct H as (raw & Hr & H). pose proof Hs as Ht. apply Reb64_b64text in Ht.
    pose proof (escape_text s true Ht) as HT. destruct (b64raw _ HT) as (raw' & R1 & R2 & R3). rewrite rawify_true in Hr. rewrite Hr in R1. apply ok_inj in R1. subst raw'.
    destruct (strCode_cases s) as (d & Ed & Hd). rewrite Ed in H.
    destruct (var_raw raw d 65 m (or_introl eq_refl) Hd H) as (M1 & M2 & sz & M3 & M4).
    split; [eapply built_raw; [exact R2|exact H]|]. unfold textOf.
    assert (E1 : memB (m_code m) TagDex = false /\ memB (m_code m) BexDex = true).
    { cbn [varCodes In] in M2. destruct M2 as [<-|[<-|[<-|[<-|[<-|[<-|[]]]]]]]; split; vm_compute; reflexivity. }
    destruct E1 as [-> ->]. rewrite M1. pose proof (R3 _ _ M3 M4 (escape_unambiguous s)) as D. apply derawify_escape in D. rewrite D, unescape. reflexivity.
Qed.
Lemma attNext_b64 : forall x, attNext x = true -> isB64 x = true.
Proof.
  intros x H. assert (L : x < 128) by (unfold attNext, attFirst in H; lia).
  assert (A : forallb (fun x => negb (attNext x) || isB64 x) (map N.of_nat (seq 0 128)) = true) by (vm_compute; reflexivity).
  rewrite forallb_forall in A. specialize (A x). rewrite H in A. apply A. apply in_map_iff. exists (N.to_nat x). split; [lia|]. apply in_seq. lia.
Qed.
Lemma attTail_cases : forall s, attTail s = true -> Reb64 s = true \/ exists r, s = r ++ [10].
Proof.
  induction s as [|x s IH]; intros H; [left; reflexivity|]. cbn [attTail] in H. apply orb_true_iff in H. destruct H as [H|H]; apply andb_true_iff in H; destruct H as [H1 H2].
  - destruct (IH H2) as [R|(r & R)].
    + left. cbn [Reb64 forallb]. rewrite (attNext_b64 _ H1). exact R.
    + right. exists (x :: r). cbn. rewrite R. reflexivity.
  - right. apply N.eqb_eq in H1, H2. subst x. destruct s; [exists []; reflexivity|unfold len in H2; cbn in H2; lia].
Qed.
Lemma Reatt_cases : forall s, Reatt s = true -> Reb64 s = true \/ exists r, s = r ++ [10].
Proof.
  intros [|x s] H; [discriminate|]. cbn [Reatt] in H. apply andb_true_iff in H. destruct H as [H1 H2].
  destruct (attTail_cases s H2) as [R|(r & ->)].
  - left. cbn [Reb64 forallb]. rewrite attNext_b64 by (unfold attNext; rewrite H1; reflexivity). exact R.
  - right. exists (x :: r). reflexivity.
Qed.

(** Base64 decoding fails when the number of characters in the alphabet is not a multiple of four *)
Definition alphaCount (s : bytes) : N := len (filter (fun x => match a2bIdx x with Some _ => true | None => false end) s).
Lemma decode_count : forall s quad pads left acc r, ~ In 61 s -> quad < 4 -> decodeB64_loop s quad pads left acc = Ok r -> (quad + alphaCount s) mod 4 = 0.
Proof.
  induction s as [|x s IH]; intros quad pads left acc r N61 Q H; cbn [decodeB64_loop] in H.
  - destruct (N.eqb_spec quad 0); [subst; reflexivity|discriminate].
  - destruct (N.eqb_spec x 61) as [-> |Nx]; [exfalso; apply N61; left; reflexivity|].
    assert (N61' : ~ In 61 s) by (intros I; apply N61; right; exact I). unfold alphaCount. cbn [filter]. destruct (a2bIdx x) as [d|].
    + assert (LC : forall (x : N) (l : bytes), len (x :: l) = len l + 1) by (intros; unfold len; cbn [List.length]; lia). rewrite LC. fold (alphaCount s). destruct (N.eqb_spec quad 0); [apply IH in H; [lia|exact N61'|lia]|]. destruct (N.eqb_spec quad 1); [apply IH in H; [lia|exact N61'|lia]|].
      destruct (N.eqb_spec quad 2); [apply IH in H; [lia|exact N61'|lia]|]. apply IH in H; [lia|exact N61'|lia].
    + fold (alphaCount s). exact (IH _ _ _ _ _ N61' Q H).
Qed.
Lemma alpha_text : forall s, b64text s -> alphaCount s = len s.
Proof.
  intros s H. unfold alphaCount. f_equal. induction H as [|x s Hx F IH]; [reflexivity|]. cbn [filter]. rewrite IH.
  assert (E : exists d, a2bIdx x = Some d); [|destruct E as (d & ->); reflexivity].
  unfold a2bIdx. destruct (x =? 43); [eauto|]. destruct (x =? 47); [eauto|]. destruct (B64IdxByChr x); [eauto|congruence].
Qed.
Lemma b64_no61 : forall s, b64text s -> ~ In 61 s.
Proof. intros s H I. unfold b64text in H. rewrite Forall_forall in H. specialize (H _ I). apply H. reflexivity. Qed.
Lemma attTail_last : forall s, attTail s = true -> Reb64 s = true \/ exists r, s = r ++ [10] /\ Reb64 r = true.
Proof.
  induction s as [|x s IH]; intros H; [left; reflexivity|]. cbn [attTail] in H. apply orb_true_iff in H. destruct H as [H|H]; apply andb_true_iff in H; destruct H as [H1 H2].
  - destruct (IH H2) as [R|(r & -> & R)].
    + left. cbn [Reb64 forallb]. rewrite (attNext_b64 _ H1). exact R.
    + right. exists (x :: r). split; [reflexivity|]. cbn [Reb64 forallb]. rewrite (attNext_b64 _ H1). exact R.
  - right. apply N.eqb_eq in H1, H2. subst x. destruct s; [exists []; split; reflexivity|unfold len in H2; cbn in H2; lia].
Qed.
Lemma Reatt_last : forall s, Reatt s = true -> Reb64 s = true \/ exists r, s = r ++ [10] /\ Reb64 r = true.
Proof.
  intros [|x s] H; [discriminate|]. cbn [Reatt] in H. apply andb_true_iff in H. destruct H as [H1 H2].
  assert (B : isB64 x = true) by (apply attNext_b64; unfold attNext; rewrite H1; reflexivity).
  destruct (attTail_last s H2) as [R|(r & -> & R)].
  - left. cbn [Reb64 forallb]. rewrite B. exact R.
  - right. exists (x :: r). split; [reflexivity|]. cbn [Reb64 forallb]. rewrite B. exact R.
Qed.
(** no label ends in a newline *)
Lemma compact_newline : forall r m, Reb64 r = true -> compact (r ++ [10]) = Ok m -> False.
Proof.
  intros r m R H. unfold compact in H. destruct (tag_codify (r ++ [10])) as [code|ex] eqn:Et.
  - unfold tag_codify in Et. cbv zeta in Et. apply raise_if_ok in Et. destruct Et as [L Et]. apply ok_inj in Et.
    change (len TagDex) with 11 in L. unfold matter_of_soft in H. destruct (dget Sizes code) as [sz|] eqn:Ez; [|discriminate].
    assert (A : len (r ++ [10]) = ss sz - xs sz).
    { assert (X : forallb (fun i => match dget Sizes (nth (N.to_nat (i - 1)) TagDex []) with Some sz => ss sz - xs sz =? i | None => true end) (map N.of_nat (seq 1 11)) = true) by (vm_compute; reflexivity).
      rewrite forallb_forall in X. specialize (X (len (r ++ [10]))). rewrite Et, Ez in X. apply N.eqb_eq in X; [lia|].
      apply in_map_iff. exists (N.to_nat (len (r ++ [10]))). split; [lia|]. apply in_seq. lia. }
    destruct (fs sz); [|discriminate]. apply raise_if_ok in H. destruct H as [_ H]. cbv zeta in H. apply raise_if_ok in H. destruct H as [_ H]. apply raise_if_ok in H. destruct H as [E _].
    rewrite ntake_all in E by exact A. apply negb_false_iff in E. unfold Reb64 in E. rewrite forallb_app in E. cbn in E. rewrite andb_false_r in E. discriminate.
  - apply bind_ok in H. destruct H as (raw & Hr & _). rewrite rawify_true in Hr. apply bind_ok in Hr. destruct Hr as (a & D & _). unfold decodeB64 in D.
    assert (HE : exists e, bext_escape (r ++ [10]) true = e ++ [10] /\ b64text e).
    { clear D Et. apply Reb64_b64text in R. unfold bext_escape. destruct r as [|x r]; [exists []; split; [reflexivity|constructor]|]. cbn [app].
      match goal with |- context[if ?b then _ else _] => destruct b end; [|exists (x :: r); split; [reflexivity|exact R]]. exists (45 :: x :: r). split; [reflexivity|].
      constructor; [discriminate|exact R]. }
    destruct HE as (e & HE & He). rewrite HE in D. apply decode_count in D; [|intros I; apply in_app_iff in I; destruct I as [I|I]; [apply (b64_no61 _ (b64text_repeat_A _) I)|apply in_app_iff in I; destruct I as [I|[I|[]]]; [apply (b64_no61 _ He I)|discriminate]]|lia].
    unfold alphaCount in D. rewrite !filter_app in D. cbn [filter a2bIdx] in D. change (filter _ [10]) with (@nil N) in D. rewrite app_nil_r, len_app in D.
    fold (alphaCount (repeat 65 (N.to_nat (wadSize (e ++ [10]))))) in D. fold (alphaCount e) in D. rewrite !alpha_text in D by (exact He || apply b64text_repeat_A).
    unfold len at 1 in D. rewrite repeat_length in D. unfold wadSize in D. rewrite len_app in D. change (len [10]) with 1 in D. lia.
Qed.
Lemma labeler_label_ok : forall s m, labeler_label s = Ok m -> built m /\ labelOf m = Ok s /\ memB (m_code m) LabelDex = true.
Proof.
  intros s m H. unfold labeler_label in H. destruct s as [|x s]; [discriminate|]. apply raise_if_ok in H. destruct H as [R H]. apply negb_false_iff in R.
  apply bind_ok in H. destruct H as (m' & C & H). apply inLabelDex_ok in H. destruct H as [-> L].
  destruct (Reatt_last _ R) as [B|(r & E & B)].
  - destruct (compact_ok (x :: s) m' B ltac:(discriminate) C) as [H1 H2]. split; [exact H1|]. split; [|exact L]. unfold labelOf. rewrite H2. cbn [bind]. rewrite R. reflexivity.
  - exfalso. rewrite E in C. exact (compact_newline _ _ B C).
Qed.
Lemma fixed_raw : forall raw c n, dget Sizes c = Some n -> forall f, fs n = Some f -> ss n = 0 -> rawSize n = Ok (len raw) -> c <> [] -> matter_of_raw raw c [] None = Ok (mkMatter c [] raw).
Proof.
  intros raw c n Z f F S0 R Nc. unfold matter_of_raw. destruct c as [|x c]; [congruence|]. rewrite Z, F, R. cbn [bind]. rewrite S0. cbn [bind]. change (0 <? 0) with false. cbn iota. cbn [bind].
  rewrite ntake_all by lia. rewrite N.eqb_refl. reflexivity.
Qed.
Lemma labeler_text_ok : forall s m, utf8 s = true -> labeler_text s = Ok m -> built m /\ textOf m = Ok s /\ memB (m_code m) LabelDex = true.
Proof.
  intros s m U H. unfold labeler_text in H. apply bind_ok in H. destruct H as (m' & C & H). apply inLabelDex_ok in H. destruct H as [-> L].
  pose proof (utf8_octets _ U) as O8.
  destruct (Reb64 s) eqn:B.
  - destruct s as [|x s].
    + split; [eapply built_raw; [constructor|exact C]|]. split; [|exact L]. vm_compute in C. apply ok_inj in C. subst m'. reflexivity.
    + destruct (compact_ok (x :: s) m' B ltac:(discriminate) C) as [H1 H2]. auto.
  - split; [eapply built_raw; [exact O8|exact C]|]. split; [|exact L].
    assert (D : decode s = Ok s) by (unfold decode; rewrite U; reflexivity).
    destruct (N.eqb_spec (len s) 1) as [E1|E1]; [|destruct (N.eqb_spec (len s) 2) as [E2|E2]].
    + erewrite fixed_raw in C; [|vm_compute; reflexivity|reflexivity|reflexivity|rewrite E1; reflexivity|discriminate]. apply ok_inj in C. subst m'. exact D.
    + erewrite fixed_raw in C; [|vm_compute; reflexivity|reflexivity|reflexivity|rewrite E2; reflexivity|discriminate]. apply ok_inj in C. subst m'. exact D.
    + destruct (var_raw s 52 66 m' (or_intror (or_introl eq_refl)) (or_introl eq_refl) C) as (M1 & M2 & _). unfold textOf. rewrite M1.
      cbn [varCodes In] in M2. destruct M2 as [<-|[<-|[<-|[<-|[<-|[<-|[]]]]]]]; exact D.
Qed.

(** ** Numbers *)
Lemma decRaw_text : forall t, decRaw t = (r <- decodeB64 (repeat 65 (N.to_nat (wadSize (map toB64 t))) ++ map toB64 t) ;; Ok (ndrop ((3 - len (map toB64 t) mod 4) mod 3) r)).
Proof. intros t. unfold decRaw, wadSize. reflexivity. Qed.
Lemma fromto : forall t, ~ In 112 t -> map fromB64 (map toB64 t) = t.
Proof.
  induction t as [|x t IH]; intros H; [reflexivity|]. cbn [map]. rewrite IH by (intros I; apply H; right; exact I). f_equal.
  unfold toB64. destruct (N.eqb_spec x 46) as [-> |N1]; [reflexivity|]. unfold fromB64. destruct (N.eqb_spec x 112) as [-> |N2]; [exfalso; apply H; left; reflexivity|reflexivity].
Qed.
Lemma decimer_ok : forall pf t d m, decParse pf t = Ok d -> decText d = t -> b64text (map toB64 t) -> ~ ambiguous (map toB64 t) -> ~ In 112 t ->
  decimer_of_dns pf t = Ok m -> built m /\ dnsOf m = Ok t /\ decimal pf m = Ok d /\ memB (m_code m) DecDex = true.
Proof.
  intros pf t d m P T B A N H. unfold decimer_of_dns in H. rewrite P in H. cbn [bind] in H. rewrite T in H. apply bind_ok in H. destruct H as (raw & R & H).
  apply bind_ok in H. destruct H as (m' & M & H). apply raise_if_ok in H. destruct H as [D H]. apply ok_inj in H. subst m'. apply negb_false_iff in D.
  rewrite decRaw_text in R. destruct (b64raw _ B) as (raw' & R1 & R2 & R3). rewrite R in R1. apply ok_inj in R1. subst raw'.
  destruct (var_raw raw 52 72 m (or_intror (or_intror eq_refl)) (or_introl eq_refl) M) as (M1 & _ & sz & M3 & M4).
  assert (E : dnsOf m = Ok t) by (unfold dnsOf; rewrite M1, (R3 _ _ M3 M4 A); cbn [bind]; rewrite fromto by exact N; reflexivity).
  split; [eapply built_raw; [exact R2|exact M]|]. split; [exact E|]. split; [|exact D]. unfold decimal. rewrite E. exact P.
Qed.
(** ints *)
Lemma digitsU_dec : forall s prev, Forall digchr s -> s <> [] \/ prev = true -> digitsU s prev = decdigits s.
Proof.
  induction s as [|x s IH]; intros prev F [H|H]; cbn [digitsU decdigits]; try congruence; try (rewrite H; reflexivity).
  all: inversion F as [|? ? D F']; subst; unfold digchr in D; destruct (N.eqb_spec x 95) as [E|_]; [lia|]; rewrite (IH true F') by (right; reflexivity); reflexivity.
Qed.
Lemma pynat_decstr : forall n, pynat (decstr n) = Some n.
Proof.
  intros n. unfold pynat. rewrite digitsU_dec by (apply decstr_dig || (left; apply decstr_ne)).
  pose proof (decint_decstr n) as D. unfold decint in D. destruct (decstr n) eqn:E; [discriminate|]. exact D.
Qed.
Lemma pyint_nosign : forall x r, 48 <= x <= 57 -> pyint (x :: r) = option_map Z.of_N (pynat (x :: r)).
Proof.
  intros x r B. assert (A : In x [48;49;50;51;52;53;54;55;56;57]) by (cbn; lia). cbn in A.
  repeat (destruct A as [<-|A]; [reflexivity|]). contradiction.
Qed.
Lemma pyint_decstr : forall n, pyint (decstr n) = Some (Z.of_N n).
Proof.
  intros n. destruct (digits_first n) as (x & r & E & B). rewrite E, pyint_nosign by exact B. rewrite <- E, pynat_decstr. reflexivity.
Qed.
Lemma pyint_jint : forall z, pyint (jint z) = Some z.
Proof.
  intros z. unfold jint. destruct z as [|p|p].
  - apply pyint_decstr.
  - rewrite pyint_decstr. cbn. reflexivity.
  - cbn [pyint]. rewrite pynat_decstr. reflexivity.
Qed.
Lemma jint_chars : forall z, Forall (fun x => x = 45 \/ 48 <= x <= 57) (jint z).
Proof.
  assert (D : forall n, Forall (fun x => x = 45 \/ 48 <= x <= 57) (decstr n)).
  { intros n. eapply Forall_impl; [|apply decstr_dig]. intros x Hx. right. exact Hx. }
  intros z. unfold jint. destruct z; auto.
Qed.
Lemma dec_ok : forall pf z, decParse pf (jint z) = Ok (DInt z) /\ b64text (map toB64 (jint z)) /\ ~ ambiguous (map toB64 (jint z)) /\ ~ In 112 (jint z).
Proof.
  intros pf z. pose proof (jint_chars z) as C. unfold decParse. rewrite pyint_jint. split; [reflexivity|].
  assert (M : map toB64 (jint z) = jint z).
  { clear -C. induction C as [|x l Hx F IH]; [reflexivity|]. cbn [map]. rewrite IH. unfold toB64. destruct (N.eqb_spec x 46); [lia|reflexivity]. }
  rewrite M. split; [|split].
  - unfold b64text. eapply Forall_impl; [|exact C]. intros x Hx. cbv beta in Hx. assert (A : In x [45;48;49;50;51;52;53;54;55;56;57]) by (cbn; lia). cbn in A.
    repeat (destruct A as [<-|A]; [discriminate|]). contradiction.
  - intros [A _]. clear M. destruct (jint z) as [|x l]; [discriminate|]. apply Forall_inv in C. cbn in A. injection A as E. clear -C E. lia.
  - intros I. rewrite Forall_forall in C. specialize (C _ I). lia.
Qed.
Lemma decimer_int_ok : forall pf z m, decimer_of_dec pf (DInt z) = Ok m -> built m /\ dnsOf m = Ok (jint z) /\ decimal pf m = Ok (DInt z) /\ memB (m_code m) DecDex = true.
Proof. intros pf z m H. destruct (dec_ok pf z) as (A & B & C & D). exact (decimer_ok pf (jint z) (DInt z) m A eq_refl B C D H). Qed.
