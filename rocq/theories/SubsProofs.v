(** Lemmas on Number, Seqner, Tagger and Bexter. *)
From Verif Require Import Prelude Lex B64Model B64Proofs MatterModel MatterProofs MatterInv MatterBinInv MatterSpec MatterThms SubsModel.
Ltac Zify.zify_post_hook ::= Z.div_mod_to_equations.

(** ** Hexadecimal *)

Lemma ndigits_bound : forall fuel b v, 1 < b -> v < 2 ^ N.of_nat fuel -> v < b ^ N.of_nat (ndigits fuel b v).
Proof.
  induction fuel as [|f IH]; intros b v Hb Hv; cbn [ndigits].
  - cbn in Hv. change (N.of_nat 1) with 1. rewrite N.pow_1_r. lia.
  - destruct (N.ltb_spec v b).
    + change (N.of_nat 1) with 1. rewrite N.pow_1_r. assumption.
    + replace (N.of_nat (S f)) with (N.succ (N.of_nat f)) in Hv by lia. rewrite N.pow_succ_r' in Hv.
      assert (v / b < 2 ^ N.of_nat f) by (apply N.div_lt_upper_bound; [lia|]; eapply N.lt_le_trans; [exact Hv|apply N.mul_le_mono_r; lia]).
      specialize (IH b (v / b) Hb H0).
      replace (N.of_nat (S (ndigits f b (v / b)))) with (N.succ (N.of_nat (ndigits f b (v / b)))) by lia.
      rewrite N.pow_succ_r'. eapply N.lt_le_trans; [apply (N.mul_succ_div_gt v b); lia|]. apply N.mul_le_mono_l. lia.
Qed.

Lemma ndigits_min : forall fuel b v, 1 < b ->
  ndigits fuel b v = 1%nat \/ b ^ N.of_nat (ndigits fuel b v - 1) <= v.
Proof.
  induction fuel as [|f IH]; intros b v Hb; cbn [ndigits]; [auto|].
  destruct (N.ltb_spec v b); [auto|]. right. cbn [Nat.sub]. rewrite Nat.sub_0_r.
  destruct (IH b (v / b) Hb) as [E|E].
  - rewrite E. change (N.of_nat 1) with 1. rewrite N.pow_1_r. assumption.
  - assert (ndigits f b (v / b) <> 0%nat) by (destruct f; cbn; [discriminate|destruct (_ <? _); discriminate]).
    set (k := ndigits f b (v / b)) in *. replace (N.of_nat k) with (N.succ (N.of_nat (k - 1))) by lia.
    rewrite N.pow_succ_r'. eapply N.le_trans; [|apply (N.mul_div_le v b); lia]. apply N.mul_le_mono_l. exact E.
Qed.

Lemma ndigits_pos : forall fuel b v, (1 <= ndigits fuel b v)%nat.
Proof. destruct fuel; intros; cbn; [lia|]. destruct (_ <? _); lia. Qed.

Lemma size_bound : forall v, v < 2 ^ N.of_nat (N.size_nat v).
Proof.
  intros v. pose proof (N.size_gt v) as H. replace (N.of_nat (N.size_nat v)) with (N.size v); [exact H|].
  destruct v as [|p]; [reflexivity|]. clear H. cbn [N.size_nat N.size].
  induction p as [p IH|p IH|]; cbn [Pos.size_nat Pos.size]; try reflexivity; rewrite Nat2N.inj_succ, <- IH; reflexivity.
Qed.

Lemma hexdigits_chr : forall l, Forall (fun d => d < 16) l -> hexdigits (map hexchr l) = Some l.
Proof.
  induction l as [|x l IH]; intros H; [reflexivity|]. inv H. cbn [map hexdigits].
  rewrite (IH H3).
  assert (hexval (hexchr x) = Some x) as ->; [|reflexivity].
  unfold hexval, hexchr. destruct (N.ltb_spec x 10).
  - replace ((48 <=? 48 + x) && (48 + x <=? 57)) with true by lia. f_equal. lia.
  - replace ((48 <=? 87 + x) && (87 + x <=? 57)) with false by lia.
    replace ((97 <=? 87 + x) && (87 + x <=? 102)) with true by lia. f_equal. lia.
Qed.

Lemma hexint_chr : forall n v, (0 < n)%nat -> v < 16 ^ N.of_nat n -> hexint (map hexchr (to_digits 16 n v)) = Ok v.
Proof.
  intros n v Hn Hv. unfold hexint.
  destruct (map hexchr (to_digits 16 n v)) eqn:E.
  - apply (f_equal (@List.length _)) in E. rewrite map_length, to_digits_length in E. cbn in E. lia.
  - rewrite <- E. rewrite hexdigits_chr by (apply to_digits_bound; lia).
    rewrite of_to_digits by (try lia; assumption). reflexivity.
Qed.

Lemma hexint_hexstr : forall v, hexint (hexstr v) = Ok v.
Proof.
  intros v. unfold hexstr. apply hexint_chr.
  - pose proof (ndigits_pos (N.size_nat v) 16 v). lia.
  - apply ndigits_bound; [lia|apply size_bound].
Qed.

Lemma hexint_hexpad : forall w v, hexint (hexpad w v) = Ok v.
Proof.
  intros w v. unfold hexpad. pose proof (ndigits_pos (N.size_nat v) 16 v). apply hexint_chr; [lia|].
  pose proof (ndigits_bound (N.size_nat v) 16 v ltac:(lia) (size_bound v)) as B.
  eapply N.lt_le_trans; [exact B|]. apply N.pow_le_mono_r; lia.
Qed.

Lemma hexpad_fits : forall w v, (0 < w)%nat -> v < 16 ^ N.of_nat w -> hexpad w v = map hexchr (to_digits 16 w v).
Proof.
  intros w v Hw Hv. unfold hexpad. f_equal. f_equal.
  destruct (ndigits_min (N.size_nat v) 16 v ltac:(lia)) as [E|E]; [lia|].
  set (k := ndigits (N.size_nat v) 16 v) in *. destruct (Nat.le_gt_cases k w) as [L|L]; [lia|].
  exfalso. assert (16 ^ N.of_nat w <= 16 ^ N.of_nat (k - 1)) by (apply N.pow_le_mono_r; lia). lia.
Qed.

Lemma hexchr_mono : forall x y, x < 16 -> y < 16 -> (hexchr x <? hexchr y) = (x <? y) /\ (hexchr x =? hexchr y) = (x =? y).
Proof. intros. unfold hexchr. destruct (N.ltb_spec x 10), (N.ltb_spec y 10); split; lia. Qed.

Lemma hexpad_order : forall w v u, (0 < w)%nat -> v < 16 ^ N.of_nat w -> u < 16 ^ N.of_nat w ->
  bltb (hexpad w v) (hexpad w u) = (v <? u).
Proof.
  intros w v u Hw Hv Hu. rewrite !hexpad_fits by assumption. rewrite bltb_map.
  - rewrite (bltb_digits 16) by (rewrite ?to_digits_length; auto; try lia; apply to_digits_bound; lia).
    rewrite !of_to_digits by (auto; lia). reflexivity.
  - intros x y Hx Hy.
    pose proof (to_digits_bound 16 w v ltac:(lia)) as B1. pose proof (to_digits_bound 16 w u ltac:(lia)) as B2.
    rewrite Forall_forall in B1, B2. apply hexchr_mono; [apply B1|apply B2]; assumption.
Qed.

Lemma hexpad_len : forall w v, (0 < w)%nat -> v < 16 ^ N.of_nat w -> List.length (hexpad w v) = w.
Proof. intros. rewrite hexpad_fits by assumption. rewrite map_length, to_digits_length. reflexivity. Qed.

Lemma hexchr_class : forall d, d < 16 -> 48 <= hexchr d <= 57 \/ 97 <= hexchr d <= 102.
Proof. intros. unfold hexchr. destruct (N.ltb_spec d 10); lia. Qed.

(** ** Number *)

Definition num_okb (c : bytes) : bool :=
  match dget Sizes c with
  | Some sz => (match fs sz with Some f => 0 <? f | None => false end) && (ss sz =? 0)
               && match rawSize sz with Ok n => 0 <? n | _ => false end
  | None => false
  end.

Lemma numdex_ok : forall c, memB c NumDex = true ->
  exists sz n, dget Sizes c = Some sz /\ rawSize sz = Ok n /\ 0 < n /\ ss sz = 0 /\ fs sz <> None /\ In c NumDex.
Proof.
  intros c H. unfold memB in H. apply existsb_exists in H. destruct H as (c' & Hin & E). apply beq_eq in E. subst c'.
  assert (A : forallb num_okb NumDex = true) by (vm_compute; reflexivity).
  rewrite forallb_forall in A. specialize (A _ Hin). unfold num_okb in A.
  destruct (dget Sizes c) as [sz|]; [|discriminate]. exists sz.
  destruct (rawSize sz) as [n|] eqn:E; [|rewrite andb_false_r in A; discriminate]. exists n.
  apply andb_true_iff in A. destruct A as [A A3]. apply andb_true_iff in A. destruct A as [A1 A2].
  repeat split; auto; try lia. destruct (fs sz); [discriminate|discriminate].
Qed.

Lemma memB_In : forall c l, In c l -> memB c l = true.
Proof. intros. unfold memB. apply existsb_exists. exists c. split; [assumption|apply beq_refl]. Qed.

(** Number(num, code) for a NumDex code succeeds exactly when num fits, and stores num. *)
Lemma number_code_ok : forall n c, memB c NumDex = true ->
  exists sz k, dget Sizes c = Some sz /\ rawSize sz = Ok k /\
   ((n < 256 ^ k /\ number_of_num n (Some c) = Ok (mkMatter c [] (to_digits 256 (N.to_nat k) n)))
    \/ (256 ^ k <= n /\ number_of_num n (Some c) = Err InvalidValueError)).
Proof.
  intros n c H. destruct (numdex_ok c H) as (sz & k & D1 & D2 & D3 & D4 & D5 & D6). exists sz, k.
  split; [exact D1|]. split; [exact D2|]. unfold number_of_num. cbn [bind]. rewrite D1, D2. unfold int_to_bytes.
  destruct (N.ltb_spec n (256 ^ k)) as [Hlt|Hge]; [left|right; split; [exact Hge|reflexivity]].
  split; [exact Hlt|]. cbn [bind]. unfold matter_of_raw.
  destruct c as [|c0 cr]; [vm_compute in H; discriminate|]. rewrite D1.
  destruct (fs sz) eqn:Ef; [|congruence]. rewrite D2. cbn [bind]. rewrite D4. cbn [N.ltb N.compare bind].
  assert (L : len (to_digits 256 (N.to_nat k) n) = k) by (unfold len; rewrite to_digits_length; lia).
  rewrite ntake_all by lia. rewrite L, N.eqb_refl. cbn [negb bind m_code].
  rewrite H. reflexivity.
Qed.

Lemma numCode_dex : forall n c, numCode n = Ok c -> memB c NumDex = true /\
  exists sz k, dget Sizes c = Some sz /\ rawSize sz = Ok k /\ n < 256 ^ k.
Proof.
  intros n c H. unfold numCode in H.
  repeat match type of H with (if ?b then _ else _) = _ => destruct b eqn:?E in H end;
  try discriminate; inv H; (split; [vm_compute; reflexivity|eexists; eexists; split; [vm_compute; reflexivity|split; [vm_compute; reflexivity|]]]).
  all: apply N.leb_le in E || apply N.leb_le in E0 || apply N.leb_le in E1 || apply N.leb_le in E2 || apply N.leb_le in E3 || apply N.leb_le in E4.
  all: match goal with |- ?x < ?y => let y' := eval vm_compute in y in change y with y' end;
       match goal with H : ?x <= ?y |- _ => let y' := eval vm_compute in y in change y with y' in H end; lia.
Qed.
