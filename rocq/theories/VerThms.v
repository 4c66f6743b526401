From Verif Require Import Prelude B64Model B64Proofs MatterModel MatterProofs SubsModel SubsProofs CtrModel CtrProofs CtrThms VerModel.
Ltac Zify.zify_post_hook ::= Z.div_mod_to_equations.
Open Scope N_scope.

Lemma hexlow_chr : forall d, d < 16 -> hexlow (hexchr d) = true.
Proof. intros d H. unfold hexlow, hexchr. destruct (N.ltb_spec d 10); lia. Qed.
Lemma hexpad_list : forall w v, (0 < w)%nat -> v < 16 ^ N.of_nat w -> List.length (hexpad w v) = w /\ forallb hexlow (hexpad w v) = true.
Proof.
  intros w v A B. split; [apply hexpad_len; assumption|]. rewrite hexpad_fits by assumption. apply forallb_forall. intros x IN. apply in_map_iff in IN. destruct IN as (d & <- & IN).
  apply hexlow_chr. pose proof (to_digits_bound 16 w v ltac:(lia)) as F. rewrite Forall_forall in F. apply F. assumption.
Qed.
Lemma hexpad_low : forall w v, forallb hexlow (hexpad w v) = true.
Proof.
  intros w v. unfold hexpad. apply forallb_forall. intros x IN. apply in_map_iff in IN. destruct IN as (d & <- & IN).
  apply hexlow_chr. pose proof (to_digits_bound 16 (Nat.max w (ndigits (N.size_nat v) 16 v)) v ltac:(lia)) as F. rewrite Forall_forall in F. apply F. assumption.
Qed.
Lemma hexstr_pad : forall v, hexstr v = hexpad 1 v.
Proof. intros v. unfold hexstr, hexpad. pose proof (ndigits_pos (N.size_nat v) 16 v). rewrite Nat.max_r by lia. reflexivity. Qed.
Lemma hexval_low : forall x d, hexlow x = true -> hexval x = Some d -> d < 16 /\ hexchr d = x.
Proof.
  intros x d L H. unfold hexlow, hexval, hexchr in *. destruct ((48 <=? x) && (x <=? 57)) eqn:A; [inversion H; subst; destruct (N.ltb_spec (x - 48) 10); lia|].
  destruct ((97 <=? x) && (x <=? 102)) eqn:B; [inversion H; subst; destruct (N.ltb_spec (x - 87) 10); lia|]. discriminate.
Qed.
Lemma hexdigits_low : forall s l, forallb hexlow s = true -> hexdigits s = Some l -> Forall (fun d => d < 16) l /\ map hexchr l = s.
Proof.
  induction s as [|x s IH]; intros l F H; cbn in *; [inversion H; subst; split; [constructor|reflexivity]|]. apply andb_true_iff in F. destruct F as [F1 F2].
  destruct (hexval x) eqn:A; [|discriminate]. destruct (hexdigits s) eqn:B; [|discriminate]. inversion H; subst. destruct (IH _ F2 eq_refl) as [P Q]. destruct (hexval_low _ _ F1 A) as [R S]. split; [constructor; assumption|]. cbn. congruence.
Qed.
Lemma hexint_low : forall s v, forallb hexlow s = true -> hexint s = Ok v -> v < 16 ^ len s /\ hexpad (List.length s) v = s.
Proof.
  intros s v F H. unfold hexint in H. destruct s as [|x s]; [discriminate|]. remember (x :: s) as t eqn:ET.
  destruct (hexdigits t) as [l|] eqn:E; [|discriminate]. inversion H; subst v. destruct (hexdigits_low _ _ F E) as [P Q].
  assert (L : List.length t = List.length l) by (rewrite <- Q, map_length; reflexivity).
  assert (B : of_digits 16 l < 16 ^ N.of_nat (List.length l)) by (apply of_digits_bound; [lia|exact P]).
  split; [unfold len; rewrite L; exact B|]. rewrite hexpad_fits; rewrite ?L; [|destruct l; cbn in *; subst; cbn in *; lia|exact B].
  rewrite to_of_digits by (try lia; exact P). exact Q.
Qed.
Lemma hexstr_big : forall v, 16 <= v -> (2 <= List.length (hexstr v))%nat.
Proof.
  intros v H. unfold hexstr. rewrite map_length, to_digits_length. pose proof (ndigits_bound (N.size_nat v) 16 v ltac:(lia) (size_bound v)) as B.
  destruct (ndigits (N.size_nat v) 16 v) as [|[|n]]; cbn in B; lia.
Qed.
Lemma hexpad_big : forall w v, 16 ^ N.of_nat w <= v -> (w < List.length (hexpad w v))%nat.
Proof.
  intros w v H. unfold hexpad. rewrite map_length, to_digits_length. pose proof (ndigits_bound (N.size_nat v) 16 v ltac:(lia) (size_bound v)) as B.
  destruct (Nat.le_gt_cases (ndigits (N.size_nat v) 16 v) w) as [L|L]; [|lia]. exfalso.
  assert (16 ^ N.of_nat (ndigits (N.size_nat v) 16 v) <= 16 ^ N.of_nat w) by (apply N.pow_le_mono_r; lia). lia.
Qed.
Lemma hexpad_min : forall w v, (w <= List.length (hexpad w v))%nat.
Proof. intros. unfold hexpad. rewrite map_length, to_digits_length. lia. Qed.
Lemma b64_list : forall i l, 0 < l -> i < 64 ^ l -> List.length (intToB64 i l) = N.to_nat l /\ forallb isB64 (intToB64 i l) = true.
Proof.
  intros i l A B. split; [pose proof (intToB64_len_fits i l B) as X; unfold len in X; lia|]. apply Reb64_b64text. apply intToB64_text.
Qed.
Lemma b64_big : forall i l, 0 < l -> 64 ^ l <= i -> (N.to_nat l < List.length (intToB64 i l))%nat.
Proof.
  intros i l A B. destruct (intToB64_spec i l A) as (n & E & L & [D|[D _]]); rewrite E, map_length, to_digits_length; [|lia]. subst l. lia.
Qed.
Lemma b64_min : forall i l, 0 < l -> (N.to_nat l <= List.length (intToB64 i l))%nat.
Proof. intros i l A. destruct (intToB64_spec i l A) as (n & E & L & [D|[D _]]); rewrite E, map_length, to_digits_length; lia. Qed.
Lemma b64ToInt_back : forall s v, b64ToInt s = Ok v -> v < 64 ^ len s /\ intToB64 v (len s) = s.
Proof. intros s v H. apply b64ToInt_ok in H. destruct H as (A & B & ->). split; [apply val_bound; exact A|apply intToB64_val_self; exact A]. Qed.
Lemma b64ToInt_of : forall i l, 0 < l -> b64ToInt (intToB64 i l) = Ok i.
Proof.
  intros i l A. rewrite b64ToInt_val; [rewrite intToB64_val by exact A; reflexivity|apply intToB64_text|]. intros X. pose proof (b64_min i l A) as L. rewrite X in L. cbn in L. lia.
Qed.

Lemma two_b64 : intToB64 2 1 = [67]. Proof. reflexivity. Qed.
(** What versions, sizes and kinds a version string can express. *)
Definition fits (sm : smellage) : Prop :=
  let '(major, minor) := s_pvrsn sm in
  In (s_proto sm) [s2b "KERI"; s2b "ACDC"] /\
  ((major < 2 /\ minor < 16 /\ s_size sm < 16 ^ 6 /\ In (s_kind sm) [s2b "JSON"; s2b "MGPK"; s2b "CBOR"] /\ s_gvrsn sm = None) \/
   (major = 2 /\ minor < 4096 /\ s_size sm < 64 ^ 4 /\ In (s_kind sm) [s2b "JSON"; s2b "MGPK"; s2b "CBOR"; s2b "CESR"] /\
    exists gminor, gminor < 4096 /\ s_gvrsn sm = Some (2, gminor))).
(** the version string of given values *)
Definition vs_of (sm : smellage) : res bytes := versify (s_proto sm) (s_pvrsn sm) (s_kind sm) (s_size sm) (s_gvrsn sm).

Ltac explode l := repeat (destruct l as [|?x l]; [cbn in *; try discriminate; try lia|]); destruct l; [|cbn in *; try discriminate; try lia].
Ltac booly := repeat match goal with H : _ && _ = true |- _ => apply andb_true_iff in H; destruct H end.

Lemma deversify_app1 : forall proto kind a b s rest,
  In proto [s2b "KERI"; s2b "ACDC"] -> In kind [s2b "JSON"; s2b "MGPK"; s2b "CBOR"] -> a < 2 -> b < 16 -> s < 16 ^ 6 ->
  let vs := proto ++ hexstr a ++ hexstr b ++ kind ++ hexpad 6 s ++ [95] in
  List.length vs = 17%nat /\ matchAt (vs ++ rest) = Some vs /\
  rematch vs = Ok {| s_proto := proto; s_pvrsn := (a, b); s_kind := kind; s_size := s; s_gvrsn := None |}.
Proof.
  intros proto kind a b s rest P K A B S. rewrite !hexstr_pad.
  pose proof (hexint_hexpad 1 a) as HA. pose proof (hexint_hexpad 1 b) as HB. pose proof (hexint_hexpad 6 s) as HS.
  destruct (hexpad_list 1 a ltac:(lia) ltac:(cbn; lia)) as [LA FA]. destruct (hexpad_list 1 b ltac:(lia) B) as [LB FB]. destruct (hexpad_list 6 s ltac:(lia) S) as [LS FS].
  revert HA HB HS LA FA LB FB LS FS. generalize (hexpad 1 a) (hexpad 1 b) (hexpad 6 s). intros la lb ls HA HB HS LA FA LB FB LS FS.
  destruct la as [|a0 [|? ?]]; try discriminate LA. destruct lb as [|b0 [|? ?]]; try discriminate LB. do 6 (destruct ls as [|? ls]; [discriminate LS|]). destruct ls; [|discriminate LS].
  cbn [forallb] in FA, FB, FS. booly.
  assert (U : forall x, hexlow x = true -> upper x = false). { intros x X. unfold hexlow, upper in *. lia. }
  assert (NC : beq kind KindCesr = false). { apply beq_neq. intros ->. cbn in K. intuition discriminate. }
  assert (P4 : exists p0 p1 p2 p3, proto = [p0;p1;p2;p3] /\ upper p0 = true /\ upper p1 = true /\ upper p2 = true /\ upper p3 = true /\ memB proto Protocols = true).
  { cbn in P. destruct P as [<-|[<-|[]]]; do 4 eexists; (split; [reflexivity|]); vm_compute; auto. }
  assert (K4 : exists p0 p1 p2 p3, kind = [p0;p1;p2;p3] /\ upper p0 = true /\ upper p1 = true /\ upper p2 = true /\ upper p3 = true /\ memB kind Kinds = true).
  { cbn in K. destruct K as [<-|[<-|[<-|[]]]]; do 4 eexists; (split; [reflexivity|]); vm_compute; auto. }
  destruct P4 as (p0 & p1 & p2 & p3 & -> & ? & ? & ? & ? & MP). destruct K4 as (k0 & k1 & k2 & k3 & -> & ? & ? & ? & ? & MK).
  split; [reflexivity|]. split.
  - unfold matchAt. cbn [app matches pat1 pat2 firstn]. rewrite (U n) by assumption. cbn [andb]. rewrite !andb_false_r.
    repeat match goal with H : _ = true |- _ => rewrite H; clear H end. reflexivity.
  - unfold rematch, slice, len. cbn [app List.length List.last firstn skipn]. change (N.of_nat 17 =? 19) with false. change ((N.of_nat 17 =? 17) && (95 =? 95)) with true. cbn [andb].
    rewrite MP, HA. cbn [negb bind]. rewrite HB. cbn [bind]. destruct (N.ltb_spec 1 a); [lia|]. rewrite MK, NC, HS. reflexivity.
Qed.

Lemma deversify_app2 : forall proto kind b g s rest,
  In proto [s2b "KERI"; s2b "ACDC"] -> In kind [s2b "JSON"; s2b "MGPK"; s2b "CBOR"; s2b "CESR"] -> b < 4096 -> g < 4096 -> s < 64 ^ 4 ->
  let vs := proto ++ intToB64 2 1 ++ intToB64 b 2 ++ intToB64 2 1 ++ intToB64 g 2 ++ kind ++ intToB64 s 4 ++ [46] in
  List.length vs = 19%nat /\ matchAt (vs ++ rest) = Some vs /\
  rematch vs = Ok {| s_proto := proto; s_pvrsn := (2, b); s_kind := kind; s_size := s; s_gvrsn := Some (2, g) |}.
Proof.
  intros proto kind b g s rest P K B G S. change (intToB64 2 1) with [67].
  pose proof (b64ToInt_of b 2 ltac:(lia)) as HB. pose proof (b64ToInt_of g 2 ltac:(lia)) as HG. pose proof (b64ToInt_of s 4 ltac:(lia)) as HS.
  destruct (b64_list b 2 ltac:(lia) B) as [LB FB]. destruct (b64_list g 2 ltac:(lia) G) as [LG FG]. destruct (b64_list s 4 ltac:(lia) S) as [LS FS].
  revert HB HG HS LB FB LG FG LS FS. generalize (intToB64 b 2) (intToB64 g 2) (intToB64 s 4). intros lb lg ls HB HG HS LB FB LG FG LS FS.
  destruct lb as [|? [|? [|? ?]]]; try discriminate LB. destruct lg as [|? [|? [|? ?]]]; try discriminate LG. do 4 (destruct ls as [|? ls]; [discriminate LS|]). destruct ls; [|discriminate LS].
  cbn [forallb] in FB, FG, FS. booly.
  assert (P4 : exists p0 p1 p2 p3, proto = [p0;p1;p2;p3] /\ upper p0 = true /\ upper p1 = true /\ upper p2 = true /\ upper p3 = true /\ memB proto Protocols = true).
  { cbn in P. destruct P as [<-|[<-|[]]]; do 4 eexists; (split; [reflexivity|]); vm_compute; auto. }
  assert (K4 : exists p0 p1 p2 p3, kind = [p0;p1;p2;p3] /\ upper p0 = true /\ upper p1 = true /\ upper p2 = true /\ upper p3 = true /\ memB kind Kinds = true).
  { cbn in K. destruct K as [<-|[<-|[<-|[<-|[]]]]]; do 4 eexists; (split; [reflexivity|]); vm_compute; auto. }
  destruct P4 as (p0 & p1 & p2 & p3 & -> & ? & ? & ? & ? & MP). destruct K4 as (k0 & k1 & k2 & k3 & -> & ? & ? & ? & ? & MK).
  assert (H67 : isB64 67 = true) by reflexivity.
  split; [reflexivity|]. split.
  - unfold matchAt. cbn [app matches pat2 firstn]. repeat match goal with H : _ = true |- _ => rewrite H; clear H end. reflexivity.
  - unfold rematch, slice, len. cbn [app List.length List.last firstn skipn]. change ((N.of_nat 19 =? 19) && (46 =? 46)) with true. cbn [andb].
    rewrite MP. change (b64ToInt [67]) with (Ok 2). cbn [negb bind]. rewrite HB. cbn [bind]. change (2 =? 2) with true. cbn [negb]. rewrite HG. cbn [bind]. rewrite MK, HS. reflexivity.
Qed.

Lemma round : forall sm, fits sm -> exists vs, vs_of sm = Ok vs /\ (List.length vs = 17%nat \/ List.length vs = 19%nat) /\
  forall rest, matchAt (vs ++ rest) = Some vs /\ rematch vs = Ok sm.
Proof.
  intros [proto [major minor] kind size gv] (P & H). unfold vs_of. cbn [s_proto s_pvrsn s_kind s_size s_gvrsn] in *.
  assert (MP : memB proto Protocols = true) by (apply memB_In; exact P).
  unfold versify. rewrite MP. cbn [negb]. destruct H as [(A & B & S & K & ->)|(-> & B & S & K & g & G & ->)].
  - assert (MK : memB kind Kinds = true). { apply memB_In. cbn in K |- *. intuition. }
    rewrite MK. cbn [negb]. destruct (N.ltb_spec major 2); [|lia].
    assert (NC : beq kind KindCesr = false). { apply beq_neq. intros ->. cbn in K. intuition discriminate. } rewrite NC.
    eexists. split; [reflexivity|]. split; [left; apply (deversify_app1 proto kind major minor size []); assumption|].
    intros rest. destruct (deversify_app1 proto kind major minor size rest P K A B S) as (_ & M & R). auto.
  - assert (MK : memB kind Kinds = true). { apply memB_In. exact K. }
    rewrite MK. cbn [negb]. change (2 <? 2) with false. change (2 =? 2) with true. cbn [negb].
    eexists. split; [reflexivity|]. split; [right; apply (deversify_app2 proto kind minor g size []); assumption|].
    intros rest. destruct (deversify_app2 proto kind minor g size rest P K B G S) as (_ & M & R). auto.
Qed.
Lemma memP_In : forall x l, memB x l = true -> In x l.
Proof. intros x l H. apply existsb_exists in H. destruct H as (y & A & B). apply beq_eq in B. subst. exact A. Qed.
Lemma matchAt_inv : forall s f, matchAt s = Some f -> exists rest, s = f ++ rest /\
  ((List.length f = 19%nat /\ matches pat2 f = true) \/ (List.length f = 17%nat /\ matches pat1 f = true)).
Proof.
  intros s f H. unfold matchAt in H. destruct (matches pat2 s) eqn:M2.
  - assert (EF : f = firstn 19 s) by congruence. subst f. exists (skipn 19 s). split; [symmetry; apply firstn_skipn|]. left. clear H.
    do 19 (destruct s as [|? s]; [cbn [matches pat2] in M2; rewrite ?andb_false_r in M2; discriminate|]). split; [reflexivity|]. cbn [matches pat2 firstn] in *. exact M2.
  - destruct (matches pat1 s) eqn:M1; [|discriminate]. assert (EF : f = firstn 17 s) by congruence. subst f. exists (skipn 17 s). split; [symmetry; apply firstn_skipn|]. right. clear H M2.
    do 17 (destruct s as [|? s]; [cbn [matches pat1] in M1; rewrite ?andb_false_r in M1; discriminate|]). split; [reflexivity|]. cbn [matches pat1 firstn] in *. exact M1.
Qed.
Lemma rematch_inv : forall f sm, (List.length f = 19%nat /\ matches pat2 f = true) \/ (List.length f = 17%nat /\ matches pat1 f = true) ->
  rematch f = Ok sm -> fits sm /\ vs_of sm = Ok f.
Proof.
  intros f sm [[L M]|[L M]] H.
  - do 19 (destruct f as [|? f]; [discriminate L|]). destruct f; [|discriminate L]. clear L. cbn [matches pat2] in M. booly. match goal with X : (46 =? _) = true |- _ => apply N.eqb_eq in X; subst end.
    unfold rematch, slice, len in H. cbn [app List.length List.last firstn skipn] in H. change ((N.of_nat 19 =? 19) && (46 =? 46)) with true in H. cbn [andb] in H.
    destruct (memB [n; n0; n1; n2] Protocols) eqn:MP; [|discriminate]. cbn [negb] in H.
    destruct (b64ToInt [n3]) as [pM|] eqn:B1; [|discriminate]. cbn [bind] in H. destruct (b64ToInt [n4; n5]) as [pm|] eqn:B2; [|discriminate]. cbn [bind] in H.
    destruct (N.eqb_spec pM 2) as [->|]; [|discriminate]. cbn [negb] in H.
    destruct (b64ToInt [n6]) as [gM|] eqn:B3; [|discriminate]. cbn [bind] in H. destruct (b64ToInt [n7; n8]) as [gm|] eqn:B4; [|discriminate]. cbn [bind] in H.
    destruct (N.eqb_spec gM 2) as [->|]; [|discriminate]. cbn [negb] in H. destruct (memB [n9; n10; n11; n12] Kinds) eqn:MK; [|discriminate]. cbn [negb] in H.
    destruct (b64ToInt [n13; n14; n15; n16]) as [sz|] eqn:B5; [|discriminate]. cbn [bind] in H. inversion H; subst sm; clear H.
    destruct (b64ToInt_back _ _ B1) as [C1 D1]. destruct (b64ToInt_back _ _ B2) as [C2 D2]. destruct (b64ToInt_back _ _ B3) as [C3 D3]. destruct (b64ToInt_back _ _ B4) as [C4 D4]. destruct (b64ToInt_back _ _ B5) as [C5 D5].
    split.
    + unfold fits. cbn [s_proto s_pvrsn s_kind s_size s_gvrsn]. split; [apply memP_In; exact MP|]. right. split; [reflexivity|]. split; [exact C2|]. split; [exact C5|]. split; [apply memP_In; exact MK|]. exists gm. split; [exact C4|reflexivity].
    + unfold vs_of, versify. cbn [s_proto s_pvrsn s_kind s_size s_gvrsn]. rewrite MP, MK. cbn [negb]. change (2 <? 2) with false. change (2 =? 2) with true. cbn [negb].
      change (len [n3]) with 1 in D1. change (len [n4; n5]) with 2 in D2. change (len [n6]) with 1 in D3. change (len [n7; n8]) with 2 in D4. change (len [n13; n14; n15; n16]) with 4 in D5.
      assert (n6 = n3) by congruence. subst n6. rewrite D2, D4, D5, !D1. reflexivity.
  - do 17 (destruct f as [|? f]; [discriminate L|]). destruct f; [|discriminate L]. clear L. cbn [matches pat1] in M. booly. match goal with X : (95 =? _) = true |- _ => apply N.eqb_eq in X; subst end.
    unfold rematch, slice, len in H. cbn [app List.length List.last firstn skipn] in H. change ((N.of_nat 17 =? 19)) with false in H. change ((N.of_nat 17 =? 17) && (95 =? 95)) with true in H. cbn [andb] in H.
    destruct (memB [n; n0; n1; n2] Protocols) eqn:MP; [|discriminate]. cbn [negb] in H.
    destruct (hexint [n3]) as [pM|] eqn:B1; [|discriminate]. cbn [bind] in H. destruct (hexint [n4]) as [pm|] eqn:B2; [|discriminate]. cbn [bind] in H.
    destruct (N.ltb_spec 1 pM); [discriminate|]. destruct (memB [n5; n6; n7; n8] Kinds) eqn:MK; [|discriminate]. cbn [negb] in H. destruct (beq [n5; n6; n7; n8] KindCesr) eqn:NC; [discriminate|].
    destruct (hexint [n9; n10; n11; n12; n13; n14]) as [sz|] eqn:B5; [|discriminate]. cbn [bind] in H. inversion H; subst sm; clear H.
    assert (F1 : forallb hexlow [n3] = true) by (cbn [forallb]; repeat match goal with X : hexlow ?y = true |- context [hexlow ?y] => rewrite X; clear X end; reflexivity). assert (F2 : forallb hexlow [n4] = true) by (cbn [forallb]; repeat match goal with X : hexlow ?y = true |- context [hexlow ?y] => rewrite X; clear X end; reflexivity).
    assert (F5 : forallb hexlow [n9; n10; n11; n12; n13; n14] = true) by (cbn [forallb]; repeat match goal with X : hexlow ?y = true |- context [hexlow ?y] => rewrite X; clear X end; reflexivity).
    destruct (hexint_low _ _ F1 B1) as [C1 D1]. destruct (hexint_low _ _ F2 B2) as [C2 D2]. destruct (hexint_low _ _ F5 B5) as [C5 D5].
    split.
    + unfold fits. cbn [s_proto s_pvrsn s_kind s_size s_gvrsn]. split; [apply memP_In; exact MP|]. left. split; [lia|]. split; [exact C2|]. split; [exact C5|]. split; [|reflexivity].
      apply memP_In in MK. apply beq_neq in NC. cbn in MK |- *. intuition.
    + unfold vs_of, versify. cbn [s_proto s_pvrsn s_kind s_size s_gvrsn]. rewrite MP, MK. cbn [negb]. destruct (N.ltb_spec pM 2); [|lia]. rewrite NC. rewrite !hexstr_pad. cbn [List.length] in D1, D2, D5. rewrite D1, D2, D5. reflexivity.
Qed.

Lemma c09_round_trip : forall sm, fits sm -> exists vs, vs_of sm = Ok vs /\ (len vs = 17 \/ len vs = 19) /\
  forall rest, deversify (vs ++ rest) = Ok sm.
Proof.
  intros sm F. destruct (round sm F) as (vs & A & L & R). exists vs. split; [exact A|]. split; [unfold len; lia|].
  intros rest. destruct (R rest) as [M N]. unfold deversify. rewrite M. exact N.
Qed.
Lemma c09_canonical : forall s sm, deversify s = Ok sm -> fits sm /\ exists vs rest, s = vs ++ rest /\ vs_of sm = Ok vs.
Proof.
  intros s sm H. unfold deversify in H. destruct (matchAt s) as [f|] eqn:M; [|discriminate]. destruct (matchAt_inv _ _ M) as (rest & -> & C).
  destruct (rematch_inv _ _ C H) as [F V]. split; [exact F|]. exists f, rest. auto.
Qed.
Lemma pat_nth : forall p s i f, matches p s = true -> nth_error p i = Some f -> exists x, nth_error s i = Some x /\ f x = true.
Proof.
  induction p as [|g p IH]; intros s i f M E; [destruct i; discriminate|]. destruct s as [|x s]; [discriminate|]. cbn in M. apply andb_true_iff in M. destruct M as [M1 M2]. destruct i as [|i]; cbn in *; [inversion E; subst; eauto|eauto].
Qed.
Lemma upper_text : forall x, In x Protocols \/ In x Kinds -> List.length x = 4%nat /\ forallb upper x = true.
Proof. intros x H. cbn in H. decompose [or] H; subst; try contradiction; vm_compute; auto. Qed.
Lemma mark_end : forall (b : N) l x i, forallb (fun y => negb (y =? b)) l = true -> nth_error (l ++ [x]) i = Some b -> i = List.length l.
Proof.
  induction l as [|y l IH]; intros x i F E; cbn in *; [destruct i as [|[|i]]; [reflexivity| |]; discriminate|]. apply andb_true_iff in F. destruct F as [F1 F2]. destruct i as [|i]; cbn in E; [inversion E; subst; rewrite N.eqb_refl in F1; discriminate|]. f_equal. eapply IH; eauto.
Qed.
Lemma forallb_imp : forall {A} (f g : A -> bool) l, (forall x, f x = true -> g x = true) -> forallb f l = true -> forallb g l = true.
Proof. intros A f g l H F. apply forallb_forall. intros x IN. apply H. rewrite forallb_forall in F. auto. Qed.
Lemma c09_never_misread : forall proto pvrsn kind size gvrsn vs sm, versify proto pvrsn kind size gvrsn = Ok vs -> deversify vs = Ok sm ->
  s_proto sm = proto /\ s_pvrsn sm = pvrsn /\ s_kind sm = kind /\ s_size sm = size /\
  s_gvrsn sm = (if fst pvrsn <? 2 then None else match gvrsn with Some g => Some g | None => Some pvrsn end).
Proof.
  intros proto [M m] kind size gv vs sm V D. unfold versify in V. cbn [fst].
  destruct (memB proto Protocols) eqn:MP; [|discriminate]. destruct (memB kind Kinds) eqn:MK; [|discriminate]. cbn [negb] in V.
  pose proof (memP_In _ _ MP) as IP. pose proof (memP_In _ _ MK) as IK.
  destruct (upper_text proto (or_introl IP)) as [LP UP]. destruct (upper_text kind (or_intror IK)) as [LK UK].
  assert (HN : forall b l, (b = 95 \/ b = 46) -> forallb hexlow l = true -> forallb (fun y => negb (y =? b)) l = true). { intros b l B. apply forallb_imp. intros x X. unfold hexlow in X. lia. }
  assert (UN : forall b l, (b = 95 \/ b = 46) -> forallb upper l = true -> forallb (fun y => negb (y =? b)) l = true). { intros b l B. apply forallb_imp. intros x X. unfold upper in X. lia. }
  assert (BN : forall l, forallb isB64 l = true -> forallb (fun y => negb (y =? 46)) l = true). { intros l. apply forallb_imp. intros x X. destruct (N.eqb_spec x 46); [subst; vm_compute in X; discriminate|reflexivity]. }
  unfold deversify in D. destruct (matchAt vs) as [f|] eqn:MA; [|discriminate].
  destruct (N.ltb_spec M 2) as [LM|LM].
  - destruct (match gv with Some (a, b) => negb (a =? M) || negb (b =? m) | None => false end) eqn:GV; [discriminate|].
    destruct (beq kind KindCesr) eqn:NC; [discriminate|]. inversion V as [V']; clear V. rewrite !hexstr_pad in V'.
    assert (K3 : In kind [s2b "JSON"; s2b "MGPK"; s2b "CBOR"]). { apply beq_neq in NC. cbn in IK |- *. intuition. }
    set (body := proto ++ hexpad 1 M ++ hexpad 1 m ++ kind ++ hexpad 6 size) in *.
    assert (EB : vs = body ++ [95]). { rewrite <- V'. unfold body. rewrite !app_assoc. reflexivity. }
    assert (NB : forall b, b = 95 \/ b = 46 -> forallb (fun y => negb (y =? b)) body = true). { intros b B. unfold body. rewrite !forallb_app. rewrite (UN b proto B UP), (UN b kind B UK), !(HN b _ B) by apply hexpad_low. reflexivity. }
    assert (L : List.length vs = 17%nat).
    { unfold matchAt in MA. destruct (matches pat2 vs) eqn:M2.
      - destruct (pat_nth _ _ 18 _ M2 eq_refl) as (x & X & Y). apply N.eqb_eq in Y. subst x. exfalso. rewrite EB in X.
        assert (In 46 (body ++ [95])) by (eapply nth_error_In; exact X). apply in_app_iff in H. destruct H as [H|[H|[]]]; [|discriminate H].
        pose proof (NB 46 ltac:(auto)) as Q. rewrite forallb_forall in Q. specialize (Q _ H). discriminate Q.
      - destruct (matches pat1 vs) eqn:M1; [|discriminate]. destruct (pat_nth _ _ 16 _ M1 eq_refl) as (x & X & Y). apply N.eqb_eq in Y. subst x. rewrite EB in X. apply mark_end in X; [|apply NB; auto].
        rewrite EB, app_length. cbn. lia. }
    assert (LL : (List.length (hexpad 1 M) = 1 /\ List.length (hexpad 1 m) = 1 /\ List.length (hexpad 6 size) = 6)%nat).
    { rewrite EB, app_length in L. unfold body in L. rewrite !app_length, LP, LK in L. cbn [List.length] in L. pose proof (hexpad_min 1 M). pose proof (hexpad_min 1 m). pose proof (hexpad_min 6 size). lia. }
    destruct LL as (L1 & L2 & L3).
    assert (Bm : m < 16). { destruct (N.lt_ge_cases m 16) as [|Q]; [assumption|]. apply (hexpad_big 1 m) in Q. lia. }
    assert (Bs : size < 16 ^ 6). { destruct (N.lt_ge_cases size (16 ^ 6)) as [|Q]; [assumption|]. apply (hexpad_big 6 size) in Q. lia. }
    destruct (deversify_app1 proto kind M m size [] IP K3 LM Bm Bs) as (_ & MM & R). rewrite app_nil_r, !hexstr_pad, V', MA in MM. inversion MM; subst f. rewrite !hexstr_pad, V' in R. rewrite D in R. inversion R; subst sm. cbn. auto.
  - destruct (N.eqb_spec M 2) as [->|]; [|discriminate]. destruct (match gv with Some g => g | None => (2, m) end) as [G g] eqn:EG. destruct (N.eqb_spec G 2) as [->|]; [|discriminate]. cbn [negb] in V. rewrite two_b64 in V. apply ok_inj in V. pose proof V as V'; clear V.
    set (body := proto ++ [67] ++ intToB64 m 2 ++ [67] ++ intToB64 g 2 ++ kind ++ intToB64 size 4) in *.
    assert (EB : vs = body ++ [46]). { rewrite <- V'. unfold body. rewrite <- !app_assoc. reflexivity. }
    assert (BB : forall i l, forallb isB64 (intToB64 i l) = true). { intros. apply Reb64_b64text. apply intToB64_text. }
    assert (NB : forallb (fun y => negb (y =? 46)) body = true). { unfold body. rewrite !forallb_app. rewrite (UN 46 proto (or_intror eq_refl) UP), (UN 46 kind (or_intror eq_refl) UK), !BN by (apply BB || reflexivity). reflexivity. }
    assert (L : List.length vs = 19%nat).
    { unfold matchAt in MA. destruct (matches pat2 vs) eqn:M2.
      - destruct (pat_nth _ _ 18 _ M2 eq_refl) as (x & X & Y). apply N.eqb_eq in Y. subst x. rewrite EB in X. apply mark_end in X; [|exact NB]. rewrite EB, app_length. cbn. lia.
      - destruct (matches pat1 vs) eqn:M1; [|discriminate]. exfalso. destruct (pat_nth _ _ 4 _ M1 eq_refl) as (x & X & Y). rewrite EB in X. unfold body in X. destruct proto as [|? [|? [|? [|? [|? ?]]]]]; try discriminate LP. cbn in X. inversion X; subst x. discriminate Y. }
    assert (LL : (List.length (intToB64 m 2) = 2 /\ List.length (intToB64 g 2) = 2 /\ List.length (intToB64 size 4) = 4)%nat).
    { rewrite EB, app_length in L. unfold body in L. rewrite !app_length, LP, LK in L. cbn [List.length] in L. pose proof (b64_min m 2 ltac:(lia)). pose proof (b64_min g 2 ltac:(lia)). pose proof (b64_min size 4 ltac:(lia)). lia. }
    destruct LL as (L1 & L2 & L3).
    assert (Bm : m < 4096). { destruct (N.lt_ge_cases m 4096) as [|Q]; [assumption|]. apply (b64_big m 2 ltac:(lia)) in Q. lia. }
    assert (Bg : g < 4096). { destruct (N.lt_ge_cases g 4096) as [|Q]; [assumption|]. apply (b64_big g 2 ltac:(lia)) in Q. lia. }
    assert (Bs : size < 64 ^ 4). { destruct (N.lt_ge_cases size (64 ^ 4)) as [|Q]; [assumption|]. apply (b64_big size 4 ltac:(lia)) in Q. lia. }
    destruct (deversify_app2 proto kind m g size [] IP IK Bm Bg Bs) as (_ & MM & R). rewrite app_nil_r in MM. rewrite two_b64 in MM, R. rewrite V' in MM, R. rewrite MA in MM. inversion MM; subst f. rewrite D in R. inversion R; subst sm. cbn. destruct gv as [g'|]; [|inversion EG; subst; auto]. subst g'. auto.
Qed.
Lemma no_match_lower : forall x s, upper x = false -> matchAt (x :: s) = None.
Proof. intros x s U. unfold matchAt. cbn [matches pat1 pat2]. rewrite U. reflexivity. Qed.
Lemma search_pre : forall pre s i vs, Forall (fun x => upper x = false) pre -> matchAt s = Some vs -> search (pre ++ s) i = Some (i + len pre, vs).
Proof.
  induction pre as [|x pre IH]; intros s i vs F M; cbn [app].
  - destruct s; cbn [search]; rewrite M; f_equal; f_equal; cbn; lia.
  - inversion F; subst. cbn [search]. rewrite (no_match_lower _ _ H1), (IH s (i + 1) vs H2 M). f_equal. f_equal. unfold len. cbn [List.length]. lia.
Qed.
Lemma search_sound : forall s i j f, search s i = Some (j, f) -> exists pre rest, s = pre ++ f ++ rest /\ j = i + len pre /\ matchAt (f ++ rest) = Some f.
Proof.
  induction s as [|x s IH]; intros i j f H; cbn [search] in H.
  - destruct (matchAt []) eqn:M; [|discriminate]. vm_compute in M. discriminate.
  - destruct (matchAt (x :: s)) as [f'|] eqn:M.
    + inversion H; subst. destruct (matchAt_inv _ _ M) as (rest & E & _). exists [], rest. split; [exact E|]. split; [cbn; lia|]. rewrite <- E. exact M.
    + destruct (IH _ _ _ H) as (pre & rest & -> & -> & Q). exists (x :: pre), rest. split; [reflexivity|]. split; [unfold len; cbn [List.length]; lia|exact Q].
Qed.
Lemma c09_smell : forall sm pre vs post, fits sm -> vs_of sm = Ok vs -> Forall (fun x => upper x = false) pre -> len pre <= 8 ->
  27 <= len (pre ++ vs ++ post) -> smell (pre ++ vs ++ post) = Ok sm.
Proof.
  intros sm pre vs post F V U L LN. destruct (round sm F) as (vs' & A & _ & R). rewrite V in A. inversion A; subst vs'. destruct (R post) as [M N].
  unfold smell, SMELLSIZE. destruct (N.ltb_spec (len (pre ++ vs ++ post)) 27); [lia|]. rewrite (search_pre _ _ 0 _ U M). unfold MAXVSOFFSET. destruct (N.ltb_spec 8 (0 + len pre)); [lia|]. exact N.
Qed.
Lemma c09_smell_sound : forall raw sm, smell raw = Ok sm -> fits sm /\ exists pre vs post, raw = pre ++ vs ++ post /\ len pre <= 8 /\ vs_of sm = Ok vs.
Proof.
  intros raw sm H. unfold smell, SMELLSIZE, MAXVSOFFSET in H. destruct (len raw <? 27); [discriminate|]. destruct (search raw 0) as [[j f]|] eqn:S; [|discriminate].
  destruct (N.ltb_spec 8 j); [discriminate|]. destruct (search_sound _ _ _ _ S) as (pre & rest & -> & -> & M). destruct (matchAt_inv _ _ M) as (r & _ & C). destruct (rematch_inv _ _ C H) as [F V].
  split; [exact F|]. exists pre, f, rest. split; [reflexivity|]. split; [lia|exact V].
Qed.
Lemma matches_app : forall p s t, matches p s = true -> matches p (s ++ t) = true.
Proof. induction p as [|g p IH]; intros [|x s] t H; cbn in *; auto; try discriminate. apply andb_true_iff in H. destruct H as [A B]. rewrite A. cbn. auto. Qed.
Lemma matches_app_short : forall p s t, (List.length p <= List.length s)%nat -> matches p (s ++ t) = matches p s.
Proof. induction p as [|g p IH]; intros [|x s] t H; cbn in *; auto; try lia. rewrite IH by lia. reflexivity. Qed.
Lemma search_stable : forall s t i, (i <= 8)%N -> (27 <= List.length s + N.to_nat i)%nat ->
  (forall j f, (j <= 8)%N -> search s i = Some (j, f) <-> search (s ++ t) i = Some (j, f)).
Proof.
  induction s as [|x s IH]; intros t i Hi HL j f Hj; [cbn in HL; lia|].
  assert (M : matchAt ((x :: s) ++ t) = matchAt (x :: s)).
  { unfold matchAt. rewrite !matches_app_short by (cbn [List.length pat1 pat2] in *; lia). rewrite !firstn_app. cbn [List.length] in *.
    replace (19 - S (List.length s))%nat with 0%nat by lia. replace (17 - S (List.length s))%nat with 0%nat by lia. cbn [firstn]. rewrite !app_nil_r. reflexivity. }
  cbn [app] in *. cbn [search]. rewrite M. destruct (matchAt (x :: s)); [reflexivity|].
  destruct (N.eq_dec i 8) as [->|NE].
  - assert (Q : forall l, search l (8 + 1) = Some (j, f) -> False). { intros l E. apply search_sound in E. destruct E as (pre & rest & _ & E & _). lia. }
    split; intros E; exfalso; eapply Q; eauto.
  - apply IH; cbn [List.length] in HL; lia.
Qed.
Lemma c09_smell_stable : forall raw more, smell raw <> Err ShortageError -> smell (raw ++ more) = smell raw.
Proof.
  intros raw more H. unfold smell in *. unfold SMELLSIZE, MAXVSOFFSET in *. destruct (N.ltb_spec (len raw) 27) as [L|L]; [congruence|].
  destruct (N.ltb_spec (len (raw ++ more)) 27) as [L'|L']; [unfold len in *; rewrite app_length in L'; lia|]. clear L'.
  assert (ST := search_stable raw more 0 ltac:(lia) ltac:(unfold len in L; lia)).
  destruct (search raw 0) as [[j f]|] eqn:S1.
  - destruct (N.ltb_spec 8 j) as [G|G].
    + destruct (search (raw ++ more) 0) as [[j' f']|] eqn:S2; [|reflexivity]. destruct (N.ltb_spec 8 j') as [G'|G']; [reflexivity|]. destruct (ST j' f' G') as [_ Q]; specialize (Q eq_refl). inversion Q; subst; lia.
    + destruct (ST j f G) as [Q _]. rewrite (Q eq_refl). destruct (N.ltb_spec 8 j); [lia|reflexivity].
  - destruct (search (raw ++ more) 0) as [[j' f']|] eqn:S2; [|reflexivity]. destruct (N.ltb_spec 8 j') as [G'|G']; [reflexivity|]. destruct (ST j' f' G') as [_ Q]. specialize (Q eq_refl). congruence.
Qed.


Lemma c48_sniff_total : forall x rest, x < 256 -> exists s, sniff (x :: rest) = Ok s /\ forall rest', sniff (x :: rest') = Ok s.
Proof.
  intros x rest B. unfold sniff. rewrite N.shiftr_div_pow2. change (2 ^ 5) with 32. assert (D : x / 32 < 8) by lia. revert D. generalize (x / 32). intros d D.
  destruct (N.eqb_spec d 3); cbn [orb]; [eauto|]. destruct (N.eqb_spec d 4); cbn [orb]; [eauto|]. destruct (N.eqb_spec d 5); cbn [orb]; [eauto|]. destruct (N.eqb_spec d 6); cbn [orb]; [eauto|].
  destruct (N.eqb_spec d 1); cbn [orb]; [eauto|]. destruct (N.eqb_spec d 2); cbn [orb]; [eauto|]. destruct (N.eqb_spec d 7); [eauto|]. destruct (N.eqb_spec d 0); [eauto|]. lia.
Qed.
Lemma c48_messages : forall x rest, x = 123 \/ 128 <= x <= 143 \/ x = 222 \/ x = 223 \/ 160 <= x <= 191 -> sniff (x :: rest) = Ok Cmsg.
Proof.
  intros x rest B. unfold sniff. rewrite N.shiftr_div_pow2. change (2 ^ 5) with 32.
  assert (D : x / 32 = 3 \/ x / 32 = 4 \/ x / 32 = 5 \/ x / 32 = 6) by lia. destruct D as [->|[->|[->| ->]]]; reflexivity.
Qed.

Definition dash (k : bytes) : bool := match k with x :: _ => x =? 45 | [] => false end.
Lemma counter_dash : forall v code count c q, counter_of v code count = Ok c -> cinfil c = Ok q -> exists r, q = 45 :: r.
Proof.
  intros v code count c q H Q. destruct (counter_of_ok _ _ _ _ H) as (_ & _ & codes & sizes & sz & K & _). rewrite (cinfil_ok _ _ _ _ K) in Q. apply ok_inj in Q. subst q.
  destruct K as [T S _ _]. assert (D : dash (c_code c) = true).
  { apply dget_In in S. unfold ctables in T. destruct (vmajor (c_vrsn c) =? 1).
    - apply raise_if_ok in T. destruct T as [_ T]. apply ok_inj in T. injection T as <- <-.
      assert (A : forallb (fun e => dash (fst e)) CSizes_1_0 = true) by (vm_compute; reflexivity). rewrite forallb_forall in A. apply (A _ S).
    - destruct (vmajor (c_vrsn c) =? 2); [|discriminate]. apply raise_if_ok in T. destruct T as [_ T]. apply ok_inj in T. injection T as <- <-.
      assert (A : forallb (fun e => dash (fst e)) CSizes_2_0 = true) by (vm_compute; reflexivity). rewrite forallb_forall in A. apply (A _ S). }
  unfold cboth. destruct (c_code c) as [|x k]; [discriminate|]. cbn in D. apply N.eqb_eq in D. subst x. cbn. eauto.
Qed.
Lemma c48_counters : forall v code count c, counter_of v code count = Ok c ->
  exists q b, cinfil c = Ok q /\ cbinfil c = Ok b /\ forall rest, sniff (q ++ rest) = Ok Ctxt /\ sniff (b ++ rest) = Ok Cbny.
Proof.
  intros v code count c H. destruct (c39_binary_round_trip _ _ _ _ H) as (q & b & A & B & O & _ & E & _). exists q, b. split; [exact A|]. split; [exact B|]. intros rest.
  destruct (counter_dash _ _ _ _ _ H A) as (r & ->). split; [reflexivity|].
  assert (X : exists x b', b = x :: b' /\ x < 256 /\ B64ChrByIdx (x / 4) = 45).
  { destruct b as [|x [|y [|z b']]]; cbn [encodeB64] in E; [discriminate| | |]; inversion E; inversion O; subst; eauto. }
  destruct X as (x & b' & -> & L & C). assert (F : 248 <= x). { unfold B64ChrByIdx in C. revert C. destruct (N.ltb_spec (x / 4) 26); [lia|]. destruct (N.ltb_spec (x / 4) 52); [lia|]. destruct (N.ltb_spec (x / 4) 62); [lia|]. lia. }
  cbn [app]. unfold sniff. rewrite N.shiftr_div_pow2. change (2 ^ 5) with 32. replace (x / 32) with 7 by lia. reflexivity.
Qed.

