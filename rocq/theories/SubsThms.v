(** Proofs of properties C06 and C08: Number, Seqner, Tagger, Bexter. *)
From Verif Require Import Prelude Lex B64Model B64Proofs MatterModel MatterProofs MatterInv MatterBinInv MatterSpec MatterThms SubsModel SubsProofs.
Ltac Zify.zify_post_hook ::= Z.div_mod_to_equations.

(** ** Numbers *)

Lemma number_built : forall n c m, number_of_num n c = Ok m -> built m.
Proof.
  intros n c m H. unfold number_of_num in H. apply bind_ok in H. destruct H as (code & Hc & H).
  apply bind_ok in H. destruct H as (raw & Hr & H). apply bind_ok in H. destruct H as (m' & Hm & H).
  apply raise_if_ok in H. destruct H as [_ H]. apply ok_inj in H. subst m'.
  apply (built_raw raw code [] None); [|exact Hm].
  destruct (dget Sizes code) as [sz|]; [|discriminate]. destruct (rawSize sz) as [k|]; [|discriminate].
  unfold int_to_bytes in Hr. destruct (n <? 256 ^ k); [|discriminate]. apply ok_inj in Hr. subst raw.
  apply to_digits_bound. lia.
Qed.

Lemma number_dex : forall n c m, number_of_num n c = Ok m -> memB (m_code m) NumDex = true.
Proof.
  intros n c m H. unfold number_of_num in H. apply bind_ok in H. destruct H as (code & Hc & H).
  apply bind_ok in H. destruct H as (raw & Hr & H). apply bind_ok in H. destruct H as (m' & Hm & H).
  apply raise_if_ok in H. destruct H as [E H]. apply ok_inj in H. subst m'. destruct (memB _ _); [reflexivity|discriminate].
Qed.

Lemma numCode_total : forall n, n < 256 ^ 17 -> exists c, numCode n = Ok c.
Proof.
  intros n H. unfold numCode. repeat match goal with |- exists c, (if ?b then _ else _) = _ => destruct b eqn:?; [eauto|] end.
  apply N.leb_gt in Heqb4. exfalso. clear - H Heqb4. lia.
Qed.

Lemma number_none : forall n, number_of_num n None =
  match numCode n with Ok c => number_of_num n (Some c) | Err e => Err e end.
Proof. intros. unfold number_of_num. destruct (numCode n); reflexivity. Qed.

Lemma c06_number_round_trip : forall n, n < 256 ^ 17 ->
  exists m q b, number_of_num n None = Ok m /\ built m /\ num m = n
    /\ infil m = Ok q /\ binfil m = Ok b
    /\ (forall tail, number_of_qb64 (q ++ tail) = Ok m)
    /\ (forall tail, number_of_qb2 (b ++ tail) = Ok m)
    /\ number_of_numh (numh m) = Ok m.
Proof.
  intros n Hn. destruct (numCode_total n Hn) as (c & Hc). destruct (numCode_dex n c Hc) as (Hd & sz & k & D1 & D2 & D3).
  destruct (number_code_ok n c Hd) as (sz' & k' & E1 & E2 & E3).
  rewrite D1 in E1. inv E1. rewrite D2 in E2. inv E2. destruct E3 as [[_ E3]|[E3 _]]; [|lia].
  set (m := mkMatter c [] (to_digits 256 (N.to_nat k') n)) in *. exists m.
  assert (HM : number_of_num n None = Ok m) by (rewrite number_none, Hc; exact E3).
  pose proof (number_built _ _ _ HM) as HB. pose proof (number_dex _ _ _ HM) as HD.
  assert (HN : num m = n).
  { unfold num, m. cbn [m_raw]. unfold int_from_bytes. apply of_to_digits; [lia|rewrite N2Nat.id; exact D3]. }
  destruct (c02_binary_round_trip m [] HB) as (q & b & T1 & T2 & _).
  exists q, b. repeat split; auto.
  - intros tail. destruct (c01_text_round_trip m tail HB) as (q' & U1 & _ & U2 & _). rewrite T1 in U1. apply ok_inj in U1. subst q'.
    unfold number_of_qb64. rewrite U2. cbn [bind]. rewrite HD. reflexivity.
  - intros tail. destruct (c02_binary_round_trip m tail HB) as (q' & b' & U1 & U2 & _ & _ & _ & U3 & _). rewrite T2 in U2. apply ok_inj in U2. subst b'.
    unfold number_of_qb2. rewrite U3. cbn [bind]. rewrite HD. reflexivity.
  - unfold number_of_numh, numh. rewrite hexint_hexstr, HN.
    assert (Hne : hexstr n <> []).
    { unfold hexstr. intros E. apply (f_equal (@List.length _)) in E. rewrite map_length, to_digits_length in E.
      pose proof (ndigits_pos (N.size_nat n) 16 n). cbn in E. lia. }
    destruct (hexstr n); [congruence|]. exact HM.
Qed.

Lemma c06_number_range : forall n,
  (256 ^ 17 <= n -> number_of_num n None = Err InvalidValueError) /\
  forall c, In c NumDex -> exists sz k, dget Sizes c = Some sz /\ rawSize sz = Ok k /\
    (256 ^ k <= n -> number_of_num n (Some c) = Err InvalidValueError) /\
    (n < 256 ^ k -> exists m, number_of_num n (Some c) = Ok m /\ m_code m = c /\ num m = n).
Proof.
  intros n. split.
  - intros H. rewrite number_none. unfold numCode.
    repeat match goal with |- context [?a <=? ?b] => replace (a <=? b) with false by (symmetry; apply N.leb_gt; clear - H; lia) end.
    reflexivity.
  - intros c Hc. destruct (number_code_ok n c (memB_In _ _ Hc)) as (sz & k & D1 & D2 & D3). exists sz, k.
    split; [exact D1|]. split; [exact D2|]. destruct D3 as [[L E]|[L E]]; split; intros L'; try (exfalso; lia); auto.
    eexists. split; [exact E|]. split; [reflexivity|]. unfold num. cbn [m_raw]. unfold int_from_bytes.
    apply of_to_digits; [lia|rewrite N2Nat.id; exact L].
Qed.

Lemma c06_number_smallest : forall n m c m' f f', number_of_num n None = Ok m ->
  In c NumDex -> number_of_num n (Some c) = Ok m' -> fullSize m = Ok f -> fullSize m' = Ok f' -> f <= f'.
Proof.
  intros n m c m' f f' H Hc H' Hf Hf'.
  rewrite number_none in H. destruct (numCode n) as [c0|] eqn:E0; [|discriminate].
  destruct (number_code_ok n c (memB_In _ _ Hc)) as (sz & k & D1 & D2 & [[L E]|[L E]]); [|congruence].
  rewrite H' in E. inv E.
  destruct (numCode_dex n c0 E0) as (Hd & _).
  destruct (number_code_ok n c0 Hd) as (sz0 & k0 & D10 & D20 & [[L0 E]|[L0 E]]); [|congruence].
  rewrite H in E. inv E.
  unfold fullSize in Hf, Hf'. cbn [m_code] in Hf, Hf'.
  assert (Hk : forall c1 sz1 k1 f1, In c1 NumDex -> dget Sizes c1 = Some sz1 -> rawSize sz1 = Ok k1 ->
     match fs sz1 with Some x => Ok x | None => Err TypeError end = Ok f1 ->
     In (k1, f1) [(2,4);(4,8);(5,8);(8,12);(11,16);(14,20);(16,24);(17,24)]).
  { clear. intros c1 sz1 k1 f1 Hin A1 A2 A3. cbn [NumDex In] in Hin.
    repeat (destruct Hin as [<-|Hin]; [vm_compute in A1; inv A1; vm_compute in A2; inv A2; cbn in A3; inv A3; cbn; tauto|]).
    contradiction. }
  rewrite D10 in Hf. rewrite D1 in Hf'.
  assert (Hin0 : In c0 NumDex) by (apply numdex_ok in Hd; destruct Hd as (? & ? & ? & ? & ? & ? & ? & ?); assumption).
  destruct (fs sz0) as [f0|] eqn:F0; [|cbn in Hf; discriminate]. destruct (fs sz) as [f1|] eqn:F1; [|cbn in Hf'; discriminate].
  inv Hf. inv Hf'.
  pose proof (Hk c0 sz0 k0 f Hin0 D10 D20 ltac:(rewrite F0; reflexivity)) as I0.
  pose proof (Hk c sz k f' Hc D1 D2 ltac:(rewrite F1; reflexivity)) as I1.
  unfold numCode in E0.
  assert (J : (k0, f) = (2, 4) \/ 256 ^ 2 <= n /\ (k0, f) = (5,8) \/ 256 ^ 5 <= n /\ (k0, f) = (8,12)
    \/ 256 ^ 8 <= n /\ (k0, f) = (11,16) \/ 256 ^ 11 <= n /\ (k0, f) = (14, 20) \/ 256 ^ 14 <= n /\ (k0, f) = (17,24)).
  { destruct (N.leb_spec n (256 ^ 2 - 1)); [left|].
    { inv E0. vm_compute in D10. inv D10. vm_compute in D20, F0. inv D20. inv F0. reflexivity. }
    right. destruct (N.leb_spec n (256 ^ 5 - 1)); [left|].
    { inv E0. vm_compute in D10. inv D10. vm_compute in D20, F0. inv D20. inv F0. split; [clear - H0; lia|reflexivity]. }
    right. destruct (N.leb_spec n (256 ^ 8 - 1)); [left|].
    { inv E0. vm_compute in D10. inv D10. vm_compute in D20, F0. inv D20. inv F0. split; [clear - H1; lia|reflexivity]. }
    right. destruct (N.leb_spec n (256 ^ 11 - 1)); [left|].
    { inv E0. vm_compute in D10. inv D10. vm_compute in D20, F0. inv D20. inv F0. split; [clear - H2; lia|reflexivity]. }
    right. destruct (N.leb_spec n (256 ^ 14 - 1)); [left|right].
    { inv E0. vm_compute in D10. inv D10. vm_compute in D20, F0. inv D20. inv F0. split; [clear - H3; lia|reflexivity]. }
    destruct (n <=? 256 ^ 17 - 1); [|discriminate].
    inv E0. vm_compute in D10. inv D10. vm_compute in D20, F0. inv D20. inv F0. split; [clear - H4; lia|reflexivity]. }
  clear - L J I1. cbn [In] in I1.
  destruct J as [J|[[J' J]|[[J' J]|[[J' J]|[[J' J]|[J' J]]]]]]; inv J;
  (destruct I1 as [I|[I|[I|[I|[I|[I|[I|[I|[]]]]]]]]]; inv I; lia).
Qed.

Lemma c06_huge_round_trip : forall m tail,
  (num m <= MaxON -> exists q s, huge m = Ok q /\ len q = 24 /\ seqner_of_sn (num m) = Ok s /\ infil s = Ok q
       /\ seqner_of_qb64 (q ++ tail) = Ok s /\ num s = num m) /\
  (MaxON < num m -> huge m = Err InvalidValueError /\ seqner_of_sn (num m) = Err ValidationError /\ onkey m = Err InvalidValueError).
Proof.
  intros m tail. split; intros H.
  - unfold huge, seqner_of_sn. replace (MaxON <? num m) with false by lia.
    destruct (number_code_ok (num m) NumHuge) as (sz & k & D1 & D2 & D3); [vm_compute; reflexivity|].
    vm_compute in D1. inv D1. vm_compute in D2. inv D2.
    destruct D3 as [[L E]|[L _]]; [|exfalso; unfold MaxON in H; clear - H L; lia].
    rewrite E. cbn [bind]. set (s := mkMatter _ _ _) in *.
    pose proof (number_built _ _ _ E) as HB.
    destruct (c01_text_round_trip s tail HB) as (q & T1 & T2 & T3 & T4). exists q, s.
    split; [exact T1|]. split; [cbn in T2; inv T2; reflexivity|].
    split.
    { unfold int_to_bytes. replace (num m <? 256 ^ 16) with true by (symmetry; apply N.ltb_lt; exact L). cbn [bind].
      unfold matter_of_raw. change (dget Sizes NumHuge) with (Some (mkSizage 2 0 0 (Some 24) 0)).
      cbn [fs]. unfold rawSize. cbn [fs bind hs ss ls N.ltb N.compare].
      assert (LL : len (to_digits 256 (N.to_nat 16) (num m)) = 16) by (unfold len; rewrite to_digits_length; reflexivity).
      change ((24 - (2 + 0)) * 3 / 4 - 0) with 16. rewrite ntake_all by (rewrite LL; lia). rewrite LL. reflexivity. }
    split; [exact T1|]. split.
    { unfold seqner_of_qb64. rewrite T3. cbn [bind]. reflexivity. }
    unfold num at 1. cbn [s m_raw]. unfold int_from_bytes. apply of_to_digits; [lia|exact L].
  - unfold huge, seqner_of_sn, onkey. replace (MaxON <? num m) with true by lia. auto.
Qed.

Lemma c06_onkey_sorts : forall m1 m2, num m1 <= MaxON -> num m2 <= MaxON ->
  exists k1 k2, onkey m1 = Ok k1 /\ onkey m2 = Ok k2 /\ len k1 = 32 /\ len k2 = 32
    /\ (blt k1 k2 <-> num m1 < num m2) /\ (k1 = k2 <-> num m1 = num m2)
    /\ hexint k1 = Ok (num m1).
Proof.
  intros m1 m2 H1 H2. exists (hexpad 32 (num m1)), (hexpad 32 (num m2)). unfold onkey.
  replace (MaxON <? num m1) with false by lia. replace (MaxON <? num m2) with false by lia.
  assert (B1 : num m1 < 16 ^ N.of_nat 32) by (unfold MaxON in H1; clear - H1; change (16 ^ N.of_nat 32) with (256 ^ 16); lia).
  assert (B2 : num m2 < 16 ^ N.of_nat 32) by (unfold MaxON in H2; clear - H2; change (16 ^ N.of_nat 32) with (256 ^ 16); lia).
  repeat split.
  - unfold len. rewrite hexpad_len by (auto; lia). reflexivity.
  - unfold len. rewrite hexpad_len by (auto; lia). reflexivity.
  - unfold blt. rewrite hexpad_order by (auto; lia). intros; lia.
  - unfold blt. rewrite hexpad_order by (auto; lia). intros; lia.
  - intros E. pose proof (hexint_hexpad 32 (num m1)) as X. rewrite E, hexint_hexpad in X. inv X. reflexivity.
  - intros ->. reflexivity.
  - apply hexint_hexpad.
Qed.

Lemma c06_huge_sorts_refuted : exists m1 m2 q1 q2, num m1 < num m2 /\ huge m1 = Ok q1 /\ huge m2 = Ok q2 /\ blt q2 q1.
Proof.
  exists (mkMatter NumShort [] [0; 51]), (mkMatter NumShort [] [0; 52]). eexists. eexists.
  split; [vm_compute; reflexivity|]. split; [vm_compute; reflexivity|]. split; vm_compute; reflexivity.
Qed.



Lemma c08_tag_round_trip : forall t tail, Reb64 t = true -> 1 <= len t <= 11 ->
  exists m q, tagger_of_tag t = Ok m /\ built m /\ tag m = t /\ infil m = Ok q
    /\ tagger_of_qb64 (q ++ tail) = Ok m.
Proof.
  intros t tail Ht HL.
  assert (A : forall l, 1 <= l <= 11 -> exists c sz, nth (N.to_nat (l - 1)) TagDex [] = c /\ dget Sizes c = Some sz
     /\ fs sz = Some (hs sz + ss sz) /\ ss sz - xs sz = l /\ (0 <? ss sz) = true /\ ls sz = 0 /\ special c = true /\ memB c TagDex = true).
  { clear. intros l H. assert (l = 1 \/ l = 2 \/ l = 3 \/ l = 4 \/ l = 5 \/ l = 6 \/ l = 7 \/ l = 8 \/ l = 9 \/ l = 10 \/ l = 11) as C by lia.
    repeat (destruct C as [->|C]; [eexists; eexists; repeat split; vm_compute; reflexivity|]).
    subst. eexists; eexists; repeat split; vm_compute; reflexivity. }
  destruct (A _ HL) as (c & sz & A1 & A2 & A3 & A4 & A5 & A6 & A7 & A8).
  assert (HS : matter_of_soft c t = Ok (mkMatter c t [])).
  { unfold matter_of_soft. rewrite A2, A3, A5, N.eqb_refl, A6. cbn [negb orb andb N.eqb].
    rewrite A4. rewrite ntake_all by lia. rewrite N.eqb_refl, Ht. reflexivity. }
  assert (HT : tagger_of_tag t = Ok (mkMatter c t [])).
  { unfold tagger_of_tag. destruct t as [|x r]; [cbn in HL; lia|]. rewrite Ht. cbn [negb]. unfold tag_codify.
    change (len TagDex) with 11. replace ((len (x :: r) <? 1) || (11 <? len (x :: r))) with false by lia.
    cbn [bind]. rewrite A1, HS. cbn [bind m_code]. rewrite A7, A8. reflexivity. }
  assert (HB : built (mkMatter c t [])) by (eapply built_soft; eauto).
  destruct (c01_text_round_trip _ tail HB) as (q & T1 & T2 & T3 & T4).
  exists (mkMatter c t []), q. repeat split; auto.
  unfold tagger_of_qb64. rewrite T3. cbn [bind m_code]. rewrite A7, A8. reflexivity.
Qed.

Lemma c08_tag_rejects : forall t, Reb64 t = false \/ len t = 0 \/ 11 < len t -> exists e, tagger_of_tag t = Err e.
Proof.
  intros t H. unfold tagger_of_tag. destruct t as [|x r]; [eauto|]. destruct H as [->|[H|H]]; [cbn; eauto|cbn in H; lia|].
  destruct (Reb64 _); cbn [negb]; [|eauto]. unfold tag_codify. change (len TagDex) with 11.
  replace ((len (x :: r) <? 1) || (11 <? len (x :: r))) with true by lia. cbn; eauto.
Qed.

(** ** Base64 text *)

Definition ambiguous (e : bytes) : Prop := hd_error e = Some 65 /\ len e mod 4 = 0.

Lemma zeros_of_zero : forall a, octets a -> int_from_bytes a = 0 -> a = zeros (List.length a).
Proof. intros a Ho H. apply (of_digits_zero_inv 256); [lia|exact H]. Qed.

Lemma varCode_bex : forall k l, k <= 64 ^ 4 - 1 -> l < 3 ->
  exists c s, varCode StrB64_L0 k l = Ok (c, s) /\ memB c BexDex = true
     /\ exists sz, dget Sizes c = Some sz /\ ls sz = l.
Proof.
  intros k l Hk Hl. unfold varCode. change (memN (nth 0 StrB64_L0 0) SmallVrzDex) with true. cbv iota.
  assert (C : l = 0 \/ l = 1 \/ l = 2) by lia.
  destruct (N.leb_spec k (64 ^ 2 - 1)).
  - destruct C as [->|[->| ->]]; (eexists; eexists; split; [reflexivity|]; split; [vm_compute; reflexivity|];
      eexists; split; [vm_compute; reflexivity|reflexivity]).
  - replace (k <=? 64 ^ 4 - 1) with true by lia.
    destruct C as [->|[->| ->]]; (eexists; eexists; split; [reflexivity|]; split; [vm_compute; reflexivity|];
      eexists; split; [vm_compute; reflexivity|reflexivity]).
Qed.

Lemma rawify_core : forall e, b64text e -> ~ ambiguous e -> len e <= 4 * (64 ^ 4 - 1) ->
  exists raw c sz, (r <- decodeB64 (repeat 65 (N.to_nat (wadSize e)) ++ e) ;; Ok (ndrop ((3 - len e mod 4) mod 3) r)) = Ok raw
   /\ octets raw /\ (exists s, matter_of_raw raw StrB64_L0 [] None = Ok (mkMatter c s raw)) /\ memB c BexDex = true /\ dget Sizes c = Some sz
   /\ derawify raw c false = Ok e.
Proof.
  intros e He Ha HL. set (ws := wadSize e). set (l := (3 - len e mod 4) mod 3).
  set (base := repeat 65 (N.to_nat ws) ++ e). set (k := (len e + ws) / 4).
  assert (Hk : len e + ws = 4 * k) by (unfold k, ws, wadSize; lia).
  assert (Hwl : 8 * l <= 6 * ws) by (clear; unfold l, ws, wadSize; lia).
  assert (HlC : (len e mod 4 = 0 /\ ws = 0 /\ l = 0) \/ (len e mod 4 = 3 /\ ws = 1 /\ l = 0)
     \/ (len e mod 4 = 2 /\ ws = 2 /\ l = 1) \/ (len e mod 4 = 1 /\ ws = 3 /\ l = 2)) by (clear; unfold l, ws, wadSize; lia).
  assert (Hbt : b64text base) by (apply b64text_app; split; [apply b64text_repeat_A|exact He]).
  assert (Hbl : List.length base = (4 * N.to_nat k)%nat).
  { unfold base. rewrite app_length, repeat_length. unfold len in Hk. clear - Hk. lia. }
  destruct (decode_text (N.to_nat k) base Hbt Hbl) as (a & D1 & D2 & D3 & D4 & D5).
  assert (Hval : int_from_bytes a = val e).
  { rewrite D5. unfold base. rewrite val_app. unfold val at 1. rewrite dig_repeat_A, of_digits_repeat0. lia. }
  assert (Hz : a = zeros (N.to_nat l) ++ ndrop l a).
  { rewrite <- (ntake_ndrop _ l a) at 1. f_equal.
    assert (Ll : (N.to_nat l <= List.length a)%nat) by (clear - D3 HlC Hk; lia).
    unfold ntake. rewrite (zeros_of_zero (firstn (N.to_nat l) a)).
    - rewrite firstn_length, Nat.min_l by exact Ll. reflexivity.
    - apply Forall_firstn. exact D2.
    - rewrite int_firstn by assumption. apply N.div_small. rewrite Hval.
      eapply N.lt_le_trans; [apply val_bound; exact He|].
      replace 64 with (2 ^ 6) by reflexivity. replace 256 with (2 ^ 8) by reflexivity. rewrite <- !N.pow_mul_r.
      apply N.pow_le_mono_r; [lia|]. clear - D3 HlC Hk. lia. }
  set (raw := ndrop l a) in *.
  assert (Hrl : len raw + l = 3 * k) by (unfold raw; rewrite len_ndrop; unfold len; clear - D3 HlC Hk; lia).
  assert (Hro : octets raw) by (apply Forall_skipn; exact D2).
  exists raw. rewrite D1. cbn [bind]. fold raw.
  assert (Hlead : (3 - len raw mod 3) mod 3 = l) by (clear - Hrl HlC; lia).
  assert (Hsz : (len raw + l) / 3 = k) by (clear - Hrl; lia).
  assert (Hkb : k <= 64 ^ 4 - 1) by (clear - Hk HL HlC; lia).
  assert (HV : exists c s, varCode StrB64_L0 k l = Ok (c, s) /\ memB c BexDex = true
     /\ exists sz, dget Sizes c = Some sz /\ ls sz = l).
  { apply varCode_bex; [exact Hkb|]. clear - HlC. lia. }
  destruct HV as (c & s & V1 & V2 & sz & V3 & V4). exists c, sz.
  split; [reflexivity|]. split; [exact Hro|]. split.
  { exists s. unfold matter_of_raw. change (dget Sizes StrB64_L0) with (Some (mkSizage 2 2 0 None 0)). cbn [fs StrB64_L0].
    unfold StrB64_L0 at 1. cbn [s2b list_ascii_of_string map]. cbv zeta.
    rewrite Hlead, Hsz, V1. cbn [bind]. rewrite ntake_all by lia. rewrite N.eqb_refl. reflexivity. }
  split; [exact V2|]. split; [exact V3|].
  unfold derawify. rewrite V3, V4. rewrite <- Hz, D4.
  assert (G : ndrop ws base = e) by (unfold base; apply ndrop_repeat_app).
  assert (Hcase : e = [] \/ e <> []) by (destruct e; [left; reflexivity|right; discriminate]).
  destruct Hcase as [Ee|Ee].
  { assert (base = []) as -> by (unfold base, ws; rewrite Ee; reflexivity). rewrite Ee.
    cbv zeta iota. f_equal. unfold ndrop. apply skipn_nil. }
  cbv zeta iota. f_equal. transitivity (ndrop ws base); [|exact G]. f_equal.
  destruct HlC as [(E1 & E2 & E3)|[(E1 & E2 & E3)|[(E1 & E2 & E3)|(E1 & E2 & E3)]]]; rewrite E2, E3.
  - destruct base as [|x r] eqn:Eb.
    + exfalso. unfold base in Eb. apply app_eq_nil in Eb. destruct Eb as [_ Eb]. congruence.
    + cbn [N.eqb]. destruct (N.eqb_spec x 65); [|reflexivity]. exfalso. apply Ha. unfold base in Eb. rewrite E2 in Eb. cbn in Eb.
      rewrite Eb. subst x. split; [reflexivity|]. rewrite <- Eb. exact E1.
  - destruct base as [|x r] eqn:Eb; [reflexivity|]. unfold base in Eb. rewrite E2 in Eb. cbn in Eb. injection Eb as Ex _. rewrite <- Ex. reflexivity.
  - destruct base; reflexivity.
  - destruct base; reflexivity.
Qed.

Lemma escape_text : forall s b, b64text s -> b64text (bext_escape s b).
Proof.
  intros s b H. unfold bext_escape. destruct s as [|x r]; [exact H|]. destruct (_ && _); [|exact H].
  constructor; [vm_compute; discriminate|exact H].
Qed.

Lemma escape_len : forall s b, len (bext_escape s b) <= len s + 1.
Proof. intros. unfold bext_escape. destruct s as [|x r]; [lia|]. destruct (_ && _); unfold len; cbn [List.length]; lia. Qed.

Lemma escape_unambiguous : forall s, ~ ambiguous (bext_escape s true).
Proof.
  intros s [H1 H2]. unfold bext_escape in *. destruct s as [|x r]; [discriminate|].
  cbn [andb] in *. destruct ((x =? 65) && (wadSize (x :: r) <=? 1) || (x =? 45)) eqn:E; [discriminate|].
  cbn in H1. inv H1. apply orb_false_iff in E. destruct E as [E _]. apply andb_false_iff in E.
  destruct E as [E|E]; [discriminate|]. unfold wadSize in E. rewrite H2 in E. discriminate.
Qed.

Lemma unescape : forall s, match bext_escape s true with 45 :: r => r | _ => bext_escape s true end = s.
Proof.
  intros s. unfold bext_escape. destruct s as [|x r]; [reflexivity|]. cbn [andb].
  destruct ((x =? 65) && (wadSize (x :: r) <=? 1) || (x =? 45)) eqn:E; [reflexivity|].
  apply orb_false_iff in E. destruct E as [_ E]. apply N.eqb_neq in E.
  destruct (N.eq_dec x 45); [contradiction|].
  assert (G : forall y, y <> 45 -> match y with 45 => r | _ => y :: r end = y :: r).
  { clear. intros y Hy. destruct y as [|p]; [reflexivity|].
    do 6 (destruct p as [p|p|]; try reflexivity). congruence. }
  apply (G x n).
Qed.

Lemma derawify_escape : forall raw c e, derawify raw c false = Ok e ->
  derawify raw c true = Ok (match e with 45 :: r => r | _ => e end).
Proof.
  intros raw c e H. unfold derawify in *. destruct (dget Sizes c); [|discriminate]. cbv zeta iota in *.
  apply ok_inj in H. rewrite H. reflexivity.
Qed.

Lemma bexter_core : forall s esc tail, Reb64 s = true -> len s < 4 * (64 ^ 4 - 1) -> ~ ambiguous (bext_escape s esc) ->
  exists m q, bexter_of_bext s esc = Ok m /\ built m /\ infil m = Ok q /\ bexter_of_qb64 (q ++ tail) = Ok m
    /\ bext m false = Ok (bext_escape s esc).
Proof.
  intros s esc tail Hs HL Ha. pose proof Hs as Ht. apply Reb64_b64text in Ht.
  pose proof (escape_len s esc) as HE. pose proof (escape_text s esc Ht) as HT.
  destruct (rawify_core (bext_escape s esc) HT Ha) as (raw & c & sz & R1 & R2 & (s' & R3) & R4 & R5 & R6).
  { set (X := 4 * (64 ^ 4 - 1)) in *. clear - HL HE. lia. }
  assert (HB : built (mkMatter c s' raw)) by (eapply built_raw; [exact R2|exact R3]).
  destruct (c01_text_round_trip _ tail HB) as (q & T1 & T2 & T3 & T4).
  exists (mkMatter c s' raw), q. split; [|split; [exact HB|split; [exact T1|split]]].
  - unfold bexter_of_bext. rewrite Hs. cbn [negb]. unfold rawify. cbv zeta. rewrite R1. cbn [bind].
    rewrite R3. cbn [bind m_code]. rewrite R4. reflexivity.
  - unfold bexter_of_qb64. rewrite T3. cbn [bind m_code]. rewrite R4. reflexivity.
  - exact R6.
Qed.

Lemma c08_bext_round_trip : forall s tail, Reb64 s = true -> len s < 4 * (64 ^ 4 - 1) ->
  exists m q, bexter_of_bext s true = Ok m /\ built m /\ infil m = Ok q /\ bexter_of_qb64 (q ++ tail) = Ok m
    /\ bext m true = Ok s.
Proof.
  intros s tail Hs HL. destruct (bexter_core s true tail Hs HL (escape_unambiguous s)) as (m & q & H1 & H2 & H3 & H4 & H5).
  exists m, q. repeat split; auto. unfold bext in *. apply derawify_escape in H5. rewrite H5, unescape. reflexivity.
Qed.

Lemma c08_bext_unescaped_partial : forall s tail, Reb64 s = true -> len s < 4 * (64 ^ 4 - 1) ->
  ~ (hd_error s = Some 65 /\ len s mod 4 = 0) ->
  exists m q, bexter_of_bext s false = Ok m /\ built m /\ infil m = Ok q /\ bexter_of_qb64 (q ++ tail) = Ok m
    /\ bext m false = Ok s.
Proof.
  intros s tail Hs HL Ha. assert (E : bext_escape s false = s) by (destruct s; reflexivity).
  destruct (bexter_core s false tail Hs HL) as (m & q & H1 & H2 & H3 & H4 & H5); [rewrite E; exact Ha|].
  exists m, q. rewrite E in H5. auto.
Qed.

Lemma c08_bext_unescaped_refuted : exists s m s', Reb64 s = true /\ bexter_of_bext s false = Ok m /\ bext m false = Ok s' /\ s <> s'.
Proof.
  exists (s2b "ABCD"), (mkMatter (s2b "4A") (s2b "AB") [0;16;131]), (s2b "BCD").
  repeat split; try (vm_compute; reflexivity). vm_compute. discriminate.
Qed.

Lemma c08_bext_rejects : forall s b, Reb64 s = false -> bexter_of_bext s b = Err ValueError.
Proof. intros s b H. unfold bexter_of_bext. rewrite H. reflexivity. Qed.



