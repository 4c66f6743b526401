From Verif Require Import Prelude B64Model B64Proofs MatterModel MatterProofs MatterInv MatterBinInv QualProofs IdxModel IdxProofs CtrModel CtrProofs.
Ltac Zify.zify_post_hook ::= Z.div_mod_to_equations.

Lemma c39_text_round_trip : forall v code count c, counter_of v code count = Ok c ->
  c_count c = count /\ c_vrsn c = v /\
  exists q, cinfil c = Ok q /\ b64text q /\ len q mod 4 = 0 /\ forall t, counter_strip v (q ++ t) = Ok (c, t).
Proof.
  intros v code count c H. destruct (counter_of_ok _ _ _ _ H) as (Hv & Hc & codes & sizes & sz & K & _).
  split; [exact Hc|]. split; [exact Hv|]. exists (cboth c sz). split; [apply (cinfil_ok _ _ _ _ K)|].
  split; [apply (q_txt _ _ _ (cq _ _ _ _ K))|]. rewrite (cboth_len _ _ _ _ K).
  split; [apply (qmod4 _ _ _ (cq _ _ _ _ K))|]. intros t. unfold counter_strip. rewrite <- Hv.
  rewrite (cexfil_ok _ _ _ _ _ K). cbn [bind]. rewrite (csize_ok _ _ _ _ K). cbn [bind].
  rewrite <- (cboth_len _ _ _ _ K), ndrop_len_app. reflexivity.
Qed.

Lemma c39_binary_round_trip : forall v code count c, counter_of v code count = Ok c ->
  exists q b, cinfil c = Ok q /\ cbinfil c = Ok b /\ octets b /\ decodeB64 q = Ok b /\ encodeB64 b = q
   /\ forall t, counter_bstrip v (b ++ t) = Ok (c, t).
Proof.
  intros v code count c H. destruct (counter_of_ok _ _ _ _ H) as (Hv & Hc & codes & sizes & sz & K & _).
  pose proof (cq _ _ _ _ K) as Q. pose proof (qmod4 _ _ _ Q) as H4.
  assert (Eq : qtext (cboth c sz) [] = cboth c sz) by (apply qtext_nil; rewrite (cboth_len _ _ _ _ K); exact H4).
  exists (cboth c sz), (qbin (cboth c sz) []). split; [apply (cinfil_ok _ _ _ _ K)|]. split; [apply (cbinfil_ok _ _ _ _ K)|].
  split; [apply (qbin_octets _ _ _ Q)|]. split; [rewrite <- Eq at 1; apply (qdecode _ _ _ Q)|].
  split; [rewrite (qencode _ _ _ Q); exact Eq|].
  intros t. unfold counter_bstrip. rewrite <- Hv.
  rewrite (cbexfil_ok _ _ _ _ _ K). cbn [bind]. rewrite (csize_ok _ _ _ _ K). cbn [bind].
  rewrite <- (qbin_len _ _ _ Q), ndrop_len_app. reflexivity.
Qed.

Lemma c39_canonical : forall v s c, cexfil v s = Ok c ->
  exists q t, cinfil c = Ok q /\ s = q ++ t.
Proof.
  intros v s c H. destruct (cexfil_inv _ _ _ H) as (codes & sizes & sz & K & _ & E & L).
  exists (cboth c sz), (ndrop (cfs sz) s). split; [apply (cinfil_ok _ _ _ _ K)|]. rewrite E, ntake_ndrop. reflexivity.
Qed.

Lemma v2_small : forall x, In [45; x] (map fst CSizes_2_0) -> dget CSizes_2_0 [45; x] = Some (mkC 2 2 4) /\
  dget CSizes_2_0 [45; 45; x] = Some (mkC 3 5 8) /\ digits_ x = false /\ x <> 45 /\
  (exists n, nameOf CtrDex_2_0 [45; x] = Ok n) /\ (exists n, nameOf CtrDex_2_0 [45; 45; x] = Ok n).
Proof.
  intros x H.
  assert (A : forallb (fun k => match k with [a; x] => (a =? 45) && match dget CSizes_2_0 [45; x], dget CSizes_2_0 [45; 45; x] with
     | Some (mkC 2 2 4), Some (mkC 3 5 8) => negb (digits_ x) && negb (x =? 45) &&
        match nameOf CtrDex_2_0 [45; x], nameOf CtrDex_2_0 [45; 45; x] with Ok _, Ok _ => true | _, _ => false end
     | _, _ => false end | _ => true end) (map fst CSizes_2_0) = true) by (vm_compute; reflexivity).
  rewrite forallb_forall in A. specialize (A _ H). cbv beta iota in A.
  apply andb_true_iff in A. destruct A as [_ A].
  destruct (dget CSizes_2_0 [45; x]) as [s1|]; [|discriminate].
  destruct (dget CSizes_2_0 [45; 45; x]) as [s2|]; [|destruct s1 as [a b d]; repeat match type of A with context [match ?y with _ => _ end] => destruct y; try discriminate end; discriminate].
  assert (s1 = mkC 2 2 4 /\ s2 = mkC 3 5 8) as [-> ->].
  { destruct s1 as [a b d], s2 as [a2 b2 d2].
    destruct a as [|[|[]|]]; try discriminate. destruct b as [|[|[]|]]; try discriminate. destruct d as [|[|[|[]|]|]]; try discriminate.
    destruct a2 as [|[[]| |]]; try discriminate. destruct b2 as [|[[|[]|]| |]]; try discriminate.
    destruct d2 as [|[|[|[|[]|]|]|]]; try discriminate. split; reflexivity. }
  destruct (nameOf CtrDex_2_0 [45; x]) as [n1|]; [|rewrite andb_false_r in A; discriminate].
  destruct (nameOf CtrDex_2_0 [45; 45; x]) as [n2|]; [|rewrite andb_false_r in A; discriminate].
  rewrite andb_true_r in A. apply andb_true_iff in A. destruct A as [A1 A2].
  repeat split; eauto.
  - destruct (digits_ x); [discriminate|reflexivity].
  - apply negb_true_iff, N.eqb_neq in A2. exact A2.
Qed.

Lemma c39_promotion : forall x count, In [45; x] (map fst CSizes_2_0) ->
  (count < 4096 -> exists c, counter_of (mkV 2 0) [45; x] count = Ok c /\ c_code c = [45; x]) /\
  (4096 <= count < 64 ^ 5 -> exists c, counter_of (mkV 2 0) [45; x] count = Ok c /\ c_code c = [45; 45; x]) /\
  (64 ^ 5 <= count -> counter_of (mkV 2 0) [45; x] count = Err InvalidVarIndexError).
Proof.
  intros x count H. destruct (v2_small x H) as (E1 & E2 & E3 & E4 & (n1 & E5) & (n2 & E6)).
  assert (HL : lookCode CtrDex_2_0 CSizes_2_0 [45; x] = Ok ([45; x], mkC 2 2 4)).
  { unfold lookCode. rewrite E1. reflexivity. }
  assert (Hx : x =? 45 = false) by (apply N.eqb_neq; exact E4).
  assert (HC : counter_of (mkV 2 0) [45; x] count =
    (if 4095 <? count then raise_if (64 ^ 5 - 1 <? count) InvalidVarIndexError (Ok (mkCtr (mkV 2 0) [45; 45; x] count n2))
     else Ok (mkCtr (mkV 2 0) [45; x] count n1))).
  { unfold counter_of. change (ctables (mkV 2 0)) with (Ok (CtrDex_2_0, CSizes_2_0)). cbn [bind]. rewrite HL. cbn [bind chs css cfs].
    change ((2 <? 2) || negb (4 =? 2 + 2) || negb ((2 + 2) mod 4 =? 0)) with false. cbv iota. cbn [nth]. rewrite E3. cbn [negb].
    change (negb ((2 =? 2) || (2 =? 5))) with false. cbv iota. rewrite Hx. cbn [negb andb]. change (64 ^ 2 - 1) with 4095.
    destruct (4095 <? count) eqn:Ec; cbn [bind].
    - destruct (64 ^ 5 - 1 <? count); [reflexivity|]. rewrite E6. reflexivity.
    - change (64 ^ 2 - 1) with 4095. rewrite Ec. rewrite E5. reflexivity. }
  rewrite HC. change (64 ^ 5) with 1073741824. split; [|split]; intros Hc.
  - replace (4095 <? count) with false by lia. eexists. split; reflexivity.
  - replace (4095 <? count) with true by lia. replace (1073741824 - 1 <? count) with false by lia. eexists. split; reflexivity.
  - replace (4095 <? count) with true by lia. replace (1073741824 - 1 <? count) with true by lia. reflexivity.
Qed.

Lemma c39_code_of_counter : forall v code count c, counter_of v code count = Ok c ->
  (exists sz, csize c = Ok sz /\ count < 64 ^ css sz /\ len (c_code c) = chs sz) /\
  exists hard, (code = hard \/ exists codes sizes, ctables v = Ok (codes, sizes) /\ dget codes code = Some hard) /\
   (c_code c = hard \/ (4096 <= count /\ c_code c = [45; 45; nth 1 hard 0])).
Proof.
  intros v code count c H. destruct (counter_of_ok _ _ _ _ H) as (Hv & Hc & codes & sizes & sz & K & hard & hsz & L1 & L2 & L3).
  split.
  - exists sz. split; [apply (csize_ok _ _ _ _ K)|]. split; [rewrite <- Hc; apply (co_cnt _ _ _ _ K)|].
    apply (cw_len _ _ _ (csizes_wf _ _ _ _ _ (co_tab _ _ _ _ K) (co_sz _ _ _ _ K))).
  - exists hard. split; [|tauto]. pose proof (co_tab _ _ _ _ K) as T. rewrite Hv in T. clear - L1 T. unfold lookCode in L1.
    destruct (dget sizes code) as [s0|].
    + destruct (len code <? 2).
      * destruct (dget codes code) as [c1|] eqn:E; [|discriminate]. destruct (dget sizes c1); [|discriminate].
        destruct (len c1 <? 2); [discriminate|]. apply ok_inj in L1. injection L1 as -> _. right. eauto.
      * apply ok_inj in L1. injection L1 as -> _. auto.
    + destruct (dget codes code) as [c1|] eqn:E; [|discriminate]. destruct (dget sizes c1); [|discriminate].
      destruct (len c1 <? 2); [discriminate|]. apply ok_inj in L1. injection L1 as -> _. right. eauto.
Qed.

Lemma c39_v1_promotion_refuted : exists code count, dget CSizes_1_0 code <> None /\
  counter_of (mkV 1 0) code count = Err KeyError.
Proof. exists (s2b "-A"), 4096. split; [discriminate|vm_compute; reflexivity]. Qed.



Lemma c42_enclose_frames : forall v code s e, enclose v code s = Ok e ->
  exists c, (forall t, counter_strip v (e ++ t) = Ok (c, s ++ t)) /\ byteCount_txt c = len s /\ ntake (byteCount_txt c) (s) = s.
Proof.
  intros v code s e H. unfold enclose in H. apply raise_if_ok in H. destruct H as [H4 H].
  apply bind_ok in H. destruct H as (c & Hc & H). apply raise_if_ok in H. destruct H as [_ H].
  apply bind_ok in H. destruct H as (q & Hq & H). apply ok_inj in H. subst e.
  destruct (c39_text_round_trip _ _ _ _ Hc) as (A & B & q' & D & _ & _ & E). rewrite Hq in D. apply ok_inj in D. subst q'.
  exists c. split; [intros t; rewrite <- app_assoc; apply E|]. unfold byteCount_txt. rewrite A.
  assert (len s / 4 * 4 = len s) as -> by lia. split; [reflexivity|]. apply ntake_all. lia.
Qed.

Lemma c42_benclose_frames : forall v code s e, benclose v code s = Ok e ->
  exists c, (forall t, counter_bstrip v (e ++ t) = Ok (c, s ++ t)) /\ byteCount_bny c = len s.
Proof.
  intros v code s e H. unfold benclose in H. apply raise_if_ok in H. destruct H as [H4 H].
  apply bind_ok in H. destruct H as (c & Hc & H). apply raise_if_ok in H. destruct H as [_ H].
  apply bind_ok in H. destruct H as (q & Hq & H). apply ok_inj in H. subst e.
  destruct (c39_text_round_trip _ _ _ _ Hc) as (A & _).
  destruct (c39_binary_round_trip _ _ _ _ Hc) as (q' & b & D & E & _ & _ & _ & F). rewrite Hq in E. apply ok_inj in E. subst b.
  exists c. split; [intros t; rewrite <- app_assoc; apply F|]. unfold byteCount_bny. rewrite A. lia.
Qed.

Lemma c42_enclose_total : forall x s, In [45; x] (map fst CSizes_2_0) -> len s mod 4 = 0 -> len s < 4 * 64 ^ 5 ->
  exists e, enclose (mkV 2 0) [45; x] s = Ok e.
Proof.
  intros x s Hx H4 HL. change (64 ^ 5) with 1073741824 in HL. destruct (c39_promotion x (len s / 4) Hx) as (P1 & P2 & _).
  change (64 ^ 5) with 1073741824 in P2.
  assert (exists c, counter_of (mkV 2 0) [45; x] (len s / 4) = Ok c) as (c & Hc).
  { destruct (N.lt_ge_cases (len s / 4) 4096).
    - destruct P1 as (c & Hc & _); eauto.
    - destruct P2 as (c & Hc & _); [lia|eauto]. }
  destruct (c39_text_round_trip _ _ _ _ Hc) as (_ & _ & q & Hq & _).
  unfold enclose. rewrite H4, Hc. cbn [bind]. change (N.eqb 0 0) with true. cbn [negb].
  change (vmajor (mkV 2 0) <? 2) with false. cbn [andb]. rewrite Hq. cbn [bind]. eauto.
Qed.

Lemma c42_unaligned : forall v code s, (len s mod 4 <> 0 -> enclose v code s = Err ValueError)
  /\ (len s mod 3 <> 0 -> benclose v code s = Err ValueError).
Proof.
  intros v code s. split; intros H; unfold enclose, benclose.
  - replace (len s mod 4 =? 0) with false by (symmetry; apply N.eqb_neq; exact H). reflexivity.
  - replace (len s mod 3 =? 0) with false by (symmetry; apply N.eqb_neq; exact H). reflexivity.
Qed.



Lemma c43_ver_round_trip : forall major minor, major < 64 -> minor < 4096 ->
  exists b, verToB64 major minor = Ok b /\ len b = 3 /\ b64text b /\ b64ToVer b = Ok (mkV major minor).
Proof.
  intros major minor H1 H2. exists (intToB64 major 1 ++ intToB64 minor 2).
  assert (L1 : len (intToB64 major 1) = 1) by (apply intToB64_len_fits; exact H1).
  assert (L2 : len (intToB64 minor 2) = 2) by (apply intToB64_len_fits; exact H2).
  assert (T : b64text (intToB64 major 1 ++ intToB64 minor 2)) by (apply b64text_app; split; apply intToB64_text).
  split; [|split; [|split; [exact T|]]].
  - unfold verToB64. replace ((63 <? major) || (4095 <? minor)) with false by lia. reflexivity.
  - rewrite len_app. lia.
  - unfold b64ToVer. apply Reb64_b64text in T. rewrite T. cbn [negb].
    destruct (intToB64 major 1) as [|m [|m' r]] eqn:E; [cbn in L1; lia| |unfold len in L1; cbn in L1; lia].
    cbn [app]. rewrite <- E. rewrite ntake_all by lia.
    rewrite b64ToInt_val; [|apply intToB64_text|rewrite E; discriminate]. cbn [bind].
    rewrite b64ToInt_val; [|apply intToB64_text|intros E2; rewrite E2 in L2; cbn in L2; lia]. cbn [bind].
    rewrite !intToB64_val by lia. reflexivity.
Qed.

Lemma c43_ver_exact : forall major minor b, verToB64 major minor = Ok b ->
  major < 64 /\ minor < 4096 /\ b64ToVer b = Ok (mkV major minor).
Proof.
  intros major minor b H. assert (B : major < 64 /\ minor < 4096).
  { unfold verToB64 in H. apply raise_if_ok in H. destruct H as [H _]. apply orb_false_iff in H. destruct H as [H1 H2].
    apply N.ltb_ge in H1. apply N.ltb_ge in H2. lia. }
  destruct B as [B1 B2]. destruct (c43_ver_round_trip _ _ B1 B2) as (b' & E & _ & _ & R). rewrite H in E. apply ok_inj in E. subst b'. auto.
Qed.

Lemma c43_genus_version : forall v, (exists t, ctables v = Ok t) ->
  exists g c, makeGVC v = Ok g /\ (forall t, counter_strip v (g ++ t) = Ok (c, t)) /\ c_code c = s2b "-_AAA" /\
   b64ToVer (intToB64 (c_count c) 3) = Ok v.
Proof.
  intros [ma mi] ((codes & sizes) & H).
  assert (mi = 0 /\ (ma = 1 \/ ma = 2)) as [-> Hm].
  { unfold ctables in H. cbn [vmajor vminor] in H.
    destruct (ma =? 1) eqn:E1; [|destruct (ma =? 2) eqn:E2; [|discriminate]]; apply raise_if_ok in H; destruct H as [H _]; lia. }
  destruct Hm as [-> | ->].
  - destruct (c39_text_round_trip (mkV 1 0) (s2b "KERIACDCGenusVersion") 4096 (mkCtr (mkV 1 0) (s2b "-_AAA") 4096 (s2b "KERIACDCGenusVersion")))
      as (_ & _ & q & Hq & _ & _ & R); [vm_compute; reflexivity|].
    exists q. eexists. split; [change (makeGVC (mkV 1 0)) with (cinfil (mkCtr (mkV 1 0) (s2b "-_AAA") 4096 (s2b "KERIACDCGenusVersion"))); exact Hq|].
    split; [exact R|]. split; vm_compute; reflexivity.
  - destruct (c39_text_round_trip (mkV 2 0) (s2b "KERIACDCGenusVersion") 8192 (mkCtr (mkV 2 0) (s2b "-_AAA") 8192 (s2b "KERIACDCGenusVersion")))
      as (_ & _ & q & Hq & _ & _ & R); [vm_compute; reflexivity|].
    exists q. eexists. split; [change (makeGVC (mkV 2 0)) with (cinfil (mkCtr (mkV 2 0) (s2b "-_AAA") 8192 (s2b "KERIACDCGenusVersion"))); exact Hq|].
    split; [exact R|]. split; vm_compute; reflexivity.
Qed.


