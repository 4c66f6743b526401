(** Theorems on thresholds. *)
From Coq Require Import Permutation.
From Verif Require Import Prelude B64Model B64Proofs MatterModel MatterProofs MatterSpec MatterThms SubsModel SubsProofs SubsThms ThModel ThSpec ThProofs.
Ltac Zify.zify_post_hook ::= Z.div_mod_to_equations.

(** ** ample *)

Lemma cdiv2 : forall a, 2 * cdiv a 2 >= a /\ 2 * cdiv a 2 <= a + 1.
Proof. intros. unfold cdiv. lia. Qed.

Lemma ample_default : forall n w m, 0 < n -> ample n None w = Ok m ->
  1 <= m <= n /\ n + (n - 1) / 3 + 1 <= 2 * m /\ m + (n - 1) / 3 <= n.
Proof.
  intros n w m Hn H. unfold ample in H. destruct w; inv H; unfold cdiv.
  - set (F := (n - 1) / 3). assert (HF : n - 1 = 3 * F \/ n - 1 = 3 * F + 1 \/ n - 1 = 3 * F + 2) by (unfold F; lia).
    assert (HG : (n - 1 + (3 - 1)) / 3 = F \/ (n - 1 + (3 - 1)) / 3 = F + 1 /\ n - 1 <> 3 * F) by (unfold F; lia).
    set (G := (n - 1 + (3 - 1)) / 3) in *. clearbody F G. lia.
  - set (F := (n - 1) / 3). assert (HF : n - 1 = 3 * F \/ n - 1 = 3 * F + 1 \/ n - 1 = 3 * F + 2) by (unfold F; lia).
    clearbody F. lia.
Qed.

Lemma overlap : forall (W A B : list N), NoDup W -> NoDup A -> NoDup B -> incl A W -> incl B W ->
  exists C, NoDup C /\ incl C A /\ incl C B /\ (List.length A + List.length B <= List.length W + List.length C)%nat.
Proof.
  intros W A B HW HA HB IA IB. exists (filter (fun x => memN x B) A).
  split; [apply NoDup_filter; exact HA|]. split; [intros x Hx; apply filter_In in Hx; tauto|].
  split; [intros x Hx; apply filter_In in Hx; apply memN_In; tauto|].
  assert (L : (List.length (filter (fun x => negb (memN x B)) A ++ B) <= List.length W)%nat).
  { apply NoDup_incl_length.
    - clear IA IB HW. revert HB. induction A as [|x A IH]; intros HB; cbn [filter app]; [exact HB|]. inv HA.
      destruct (memN x B) eqn:E; cbn [negb]; [apply IH; assumption|]. cbn [app]. constructor; [|apply IH; assumption].
      intros Hx. apply in_app_or in Hx. destruct Hx as [Hx|Hx].
      + apply filter_In in Hx. tauto.
      + apply memN_In in Hx. congruence.
    - intros x Hx. apply in_app_or in Hx. destruct Hx as [Hx|Hx]; [apply filter_In in Hx; apply IA; tauto|auto]. }
  rewrite app_length in L.
  assert (E : List.length A = (List.length (filter (fun x => memN x B) A) + List.length (filter (fun x => negb (memN x B)) A))%nat).
  { clear. induction A as [|x A IH]; [reflexivity|]. cbn [filter]. destruct (memN x B); cbn [negb List.length]; lia. }
  lia.
Qed.

Lemma honest_overlap : forall (W A B Bad : list N) f, NoDup W -> NoDup A -> NoDup B -> incl A W -> incl B W ->
  len Bad <= f -> len W + f < len A + len B -> exists x, In x A /\ In x B /\ ~ In x Bad.
Proof.
  intros W A B Bad f HW HA HB IA IB Hf HL.
  destruct (overlap W A B HW HA HB IA IB) as (C & C1 & C2 & C3 & C4).
  destruct (forallb (fun x => memN x Bad) C) eqn:E.
  - exfalso. rewrite forallb_forall in E. assert (incl C Bad) as I by (intros x Hx; apply memN_In; auto).
    pose proof (NoDup_incl_length C1 I). unfold len in *. lia.
  - assert (exists x, In x C /\ memN x Bad = false) as (x & X1 & X2).
    { clear - E. induction C as [|y C IH]; [discriminate|]. cbn in E. destruct (memN y Bad) eqn:F.
      - destruct (IH E) as (x & ? & ?). exists x. split; [right|]; assumption.
      - exists y. split; [left; reflexivity|assumption]. }
    exists x. split; [auto|]. split; [auto|]. intros Hx. apply memN_In in Hx. congruence.
Qed.

Lemma c13_default_quorum : forall (W : list N) weak, NoDup W -> W <> [] ->
  exists m, ample (len W) None weak = Ok m /\ 1 <= m <= len W /\
  forall Bad, NoDup Bad -> incl Bad W -> len Bad <= (len W - 1) / 3 ->
    m <= len W - len Bad /\
    forall A B, NoDup A -> NoDup B -> incl A W -> incl B W -> m <= len A -> m <= len B ->
      exists x, In x A /\ In x B /\ ~ In x Bad.
Proof.
  intros W weak HW Hne. assert (Hn : 0 < len W) by (destruct W; [congruence|unfold len; cbn; lia]).
  destruct (ample (len W) None weak) as [m|] eqn:E; [|destruct weak; discriminate]. exists m.
  destruct (ample_default _ _ _ Hn E) as (H1 & H2 & H3).
  set (F := (len W - 1) / 3) in *. clearbody F. split; [reflexivity|]. split; [exact H1|]. intros Bad HB IB HL.
  split; [lia|]. intros A B NA NB IA IBB LA LB. apply (honest_overlap W A B Bad F); auto. lia.
Qed.

Lemma c13_given_quorum : forall (W : list N) f weak, NoDup W -> W <> [] ->
  (3 * f < len W <-> exists m, ample (len W) (Some f) weak = Ok m) /\
  (forall m, ample (len W) (Some f) weak = Ok m -> 1 <= m <= len W /\
   forall Bad, NoDup Bad -> incl Bad W -> len Bad <= f ->
    m <= len W - len Bad /\
    forall A B, NoDup A -> NoDup B -> incl A W -> incl B W -> m <= len A -> m <= len B ->
      exists x, In x A /\ In x B /\ ~ In x Bad).
Proof.
  intros W f weak HW Hne. assert (Hn : 0 < len W) by (destruct W; [congruence|unfold len; cbn; lia]).
  unfold ample. pose proof (cdiv2 (len W + f + 1)) as HC. set (m1 := cdiv (len W + f + 1) 2) in *. clearbody m1.
  replace (0 <? len W) with true by lia. rewrite andb_true_r. split.
  - destruct (N.ltb_spec (len W - f) m1) as [L|L].
    + split; [lia|]. intros (m & H). discriminate.
    + split; [|lia]. intros _. destruct weak; eexists; reflexivity.
  - intros m H. destruct (N.ltb_spec (len W - f) m1) as [L|L]; [discriminate|].
    assert (Hm : m1 <= m <= len W - f) by (destruct weak; apply ok_inj in H; lia).
    assert (f <= len W) by lia.
    split; [lia|]. intros Bad HB IB HL. split; [lia|]. intros A B NA NB IA IBB LA LB.
    apply (honest_overlap W A B Bad f); auto. lia.
Qed.

Lemma c13_no_witness : forall f weak, ample 0 f weak = Ok 0.
Proof.
  intros [f|] weak; unfold ample; [|destruct weak; reflexivity].
  cbn [N.ltb N.compare]. rewrite andb_false_r. destruct weak; rewrite N.min_0_l; reflexivity.
Qed.



(** ** satisfaction *)

Lemma c11_numeric : forall n is, satisfy (TNum n) is = true <-> 0 < n <= len is.
Proof. intros. unfold satisfy, satisfy_numeric. lia. Qed.

Lemma c11_weighted : forall th is, threshold (TWt th) -> is <> [] -> Forall (fun i => i < thsize (TWt th)) is ->
  (satisfy (TWt th) is = true <-> holds is th).
Proof. intros th is _ Hne Hb. apply satisfy_weighted_spec; assumption. Qed.

Lemma c11_empty : forall t, satisfy t [] = false.
Proof. intros [n|th]; [|reflexivity]. cbn. unfold satisfy_numeric. unfold len. cbn [List.length]. lia. Qed.

Lemma threshold_ok : forall th, threshold (TWt th) -> okth th /\ existsb badClause th = false.
Proof.
  intros th H. apply threshold_norm in H. destruct H as [(n & E & _)|(th' & E & H1 & H2 & _)]; [discriminate|]. inv E. auto.
Qed.

Lemma c11_monotone : forall t is1 is2, threshold t -> NoDup is1 -> incl is1 is2 ->
  Forall (fun i => i < thsize t) is2 -> satisfy t is1 = true -> satisfy t is2 = true.
Proof.
  intros [n|th] is1 is2 HT ND HI HB H.
  - rewrite c11_numeric in *. pose proof (NoDup_incl_length ND HI). unfold len in *. lia.
  - assert (is1 <> []) by (intros ->; rewrite c11_empty in H; discriminate).
    assert (is2 <> []) by (intros ->; destruct is1 as [|x ?]; [congruence|]; destruct (HI x); left; reflexivity).
    rewrite c11_weighted in *; auto.
    + eapply holds_mono; [exact HI|apply okth_nonneg; apply threshold_ok; exact HT|exact H].
    + rewrite Forall_forall in *. auto.
Qed.

Lemma c11_set_only : forall th is1 is2, threshold (TWt th) -> (forall i, In i is1 <-> In i is2) ->
  satisfy (TWt th) is1 = satisfy (TWt th) is2.
Proof.
  intros th is1 is2 HT HE.
  assert (X : forall is is', (forall i, In i is <-> In i is') -> satisfy (TWt th) is = true -> satisfy (TWt th) is' = true).
  { clear is1 is2 HE. intros is1 is2 HE H.
    assert (N1 : is1 <> []) by (intros ->; rewrite c11_empty in H; discriminate).
    assert (N2 : is2 <> []) by (intros ->; destruct is1 as [|x ?]; [congruence|]; destruct (proj1 (HE x)); left; reflexivity).
    assert (B1 : Forall (fun i => i < thsize (TWt th)) is1).
    { unfold satisfy, satisfy_weighted in H. destruct is1; [discriminate|]. destruct (existsb _ _) eqn:E in H; [discriminate|].
      apply Forall_forall. intros x Hx. destruct (N.lt_ge_cases x (thsize (TWt th))) as [L|L]; [exact L|].
      assert (existsb (fun i => thsize (TWt th) <=? i) (n :: is1) = true) by (apply existsb_exists; exists x; split; [exact Hx|lia]). congruence. }
    assert (B2 : Forall (fun i => i < thsize (TWt th)) is2) by (rewrite Forall_forall in *; intros; apply B1; apply HE; assumption).
    rewrite c11_weighted in *; auto. eapply holds_mono; [|apply okth_nonneg; apply threshold_ok; exact HT|exact H].
    intros i Hi. apply HE. exact Hi. }
  destruct (satisfy (TWt th) is1) eqn:E1; [symmetry; eapply X; eassumption|].
  destruct (satisfy (TWt th) is2) eqn:E2; [|reflexivity]. rewrite <- E1. apply (X is2 is1); [|exact E2]. intros. symmetry. apply HE.
Qed.

Lemma qsum_total : forall l a, (fold_left Qplus l a == a + total l)%Q.
Proof. induction l as [|x l IH]; intros a; cbn [fold_left total]; [ring|]. rewrite IH. ring. Qed.

Lemma lt1_false : forall q, lt1 q = false -> (1 <= q)%Q.
Proof. intros q H. unfold lt1 in H. apply negb_false_iff in H. apply Qle_bool_iff. exact H. Qed.

Lemma full_leaves : forall vs p S, (forall i, p <= i < p + len vs -> In i S) -> (signed_weight S (number_leaves p vs) == total vs)%Q.
Proof.
  induction vs as [|w vs IH]; intros p S H; [reflexivity|]. cbn [number_leaves]. unfold signed_weight. cbn [filter fst].
  assert (existsb (N.eqb p) S = true) as ->.
  { apply memN_In. apply H. unfold len. cbn [List.length]. lia. }
  cbn [map snd total]. fold (signed_weight S (number_leaves (p + 1) vs)). rewrite IH; [reflexivity|].
  intros i Hi. apply H. unfold len in *. cbn [List.length]. lia.
Qed.

Lemma full_clause : forall cl p S, existsb badElem cl = false -> (forall i, p <= i < p + len (leaves cl) -> In i S) ->
  (total (map (contrib S) (number_clause p cl)) == total (map topw cl))%Q.
Proof.
  induction cl as [|e cl IH]; intros p S HB H; [reflexivity|]. cbn [existsb] in HB. apply orb_false_iff in HB. destruct HB as [HB1 HB2].
  destruct e as [w|k vs]; cbn [number_clause map total contrib topw].
  - rewrite leaves_EW in H. rewrite IH; [|assumption|intros i Hi; apply H; lia].
    rewrite (full_leaves [w] p); [cbn; ring|]. intros i Hi. apply H. unfold len in *. cbn [List.length] in *. lia.
  - rewrite leaves_EN in H. rewrite IH; [|assumption|intros i Hi; apply H; lia].
    cbn [badElem] in HB1. apply lt1_false in HB1. unfold qsum in HB1. rewrite qsum_total in HB1. rewrite Qplus_0_l in HB1.
    assert (Qle_bool 1 (signed_weight S (number_leaves p vs)) = true) as ->; [|reflexivity].
    apply Qle_bool_iff. rewrite full_leaves; [exact HB1|]. intros i Hi. apply H. lia.
Qed.

Lemma thsize_leaves : forall th a, fold_left (fun s cl => s + csize cl) th a = a + len (flat_map leaves th).
Proof.
  induction th as [|cl th IH]; intros a; cbn [fold_left flat_map]; [unfold len; cbn; lia|].
  rewrite IH, len_app. unfold csize. rewrite fold_csize. lia.
Qed.

Lemma full_holds : forall th p S, existsb badClause th = false -> (forall i, p <= i < p + len (flat_map leaves th) -> In i S) ->
  Forall (clause_holds S) (number_clauses p th).
Proof.
  induction th as [|cl th IH]; intros p S HB H; cbn [number_clauses]; [constructor|]. cbn [existsb] in HB. apply orb_false_iff in HB. destruct HB as [HB1 HB2].
  cbn [flat_map] in H. rewrite len_app in H. unfold badClause in HB1. apply orb_false_iff in HB1. destruct HB1 as [HB0 HB1].
  constructor; [|apply IH; [assumption|]; intros i Hi; apply H; lia].
  apply clause_holds_iff. rewrite full_clause; [|assumption|intros i Hi; apply H; lia].
  apply lt1_false in HB1. unfold qsum in HB1. rewrite qsum_total in HB1. rewrite Qplus_0_l in HB1. exact HB1.
Qed.

Lemma c11_satisfiable : forall th, threshold (TWt th) ->
  satisfy (TWt th) (map N.of_nat (seq 0 (N.to_nat (thsize (TWt th))))) = true.
Proof.
  intros th HT. destruct (threshold_ok th HT) as [Hok HB]. pose proof (thsize_leaves th 0) as HS.
  assert (HI : forall i, In i (map N.of_nat (seq 0 (N.to_nat (thsize (TWt th))))) <-> i < thsize (TWt th)).
  { intros i. rewrite in_map_iff. split.
    - intros (x & <- & Hx). apply in_seq in Hx. lia.
    - intros L. exists (N.to_nat i). split; [lia|]. apply in_seq. lia. }
  apply c11_weighted; [exact HT| |apply Forall_forall; intros i Hi; apply HI; exact Hi|].
  - assert (H0 : 0 < thsize (TWt th)).
    { destruct Hok as [Hne _]. destruct th as [|cl th]; [congruence|].
      cbn [thsize]. rewrite HS. destruct (bad_parts _ cl (EW 0) HB (or_introl eq_refl)) as [Hcl _].
      destruct cl as [|e cl]; [congruence|]. cbn [flat_map]. rewrite len_app.
      destruct e as [w|k vs]; rewrite ?leaves_EW, ?leaves_EN; [lia|].
      destruct (bad_parts _ (EN k vs :: cl) (EN k vs) HB (or_introl eq_refl)) as [_ G]. specialize (G (or_introl eq_refl)).
      destruct vs; [vm_compute in G; discriminate|]. unfold len. cbn [List.length]. lia. }
    intros E. specialize (HI 0). rewrite E in HI. destruct HI as [_ HI]. destruct (HI H0).
  - apply full_holds; [exact HB|]. intros i Hi. apply HI. cbn [thsize]. rewrite HS. lia.
Qed.

Lemma c11_monotone_refuted : exists t keys sigs extra vs vs',
  processSith (SList [IElem (SW (s2b "1/2")); IElem (SW (s2b "1/2"))]) = Ok t /\
  validateSigs N (fun _ _ _ => true) (s2b "msg") sigs keys t = Ok (vs, true) /\
  validateSigs N (fun _ _ _ => true) (s2b "msg") (sigs ++ [extra]) keys t = Ok (vs', false).
Proof.
  exists (TWt [[EW (1 # 2); EW (1 # 2)]]), [0; 1; 2], [mkSiger (s2b "a") 0 []; mkSiger (s2b "b") 1 []], (mkSiger (s2b "c") 2 []).
  eexists. eexists. split; [vm_compute; reflexivity|]. split; vm_compute; reflexivity.
Qed.



(** ** representations *)

Lemma bext_reb64 : forall th, Forall (Forall oke) th -> Reb64 (bextOf th) = true /\ (bextOf th = [] \/ exists x r, bextOf th = x :: r /\ x <> 45 /\ x <> 65).
Proof.
  intros th H.
  assert (CH : Forall (fun ch => digchr ch \/ In ch [115; 107; 118; 99; 97]) (bextOf th)).
  { assert (J : forall sep l, In sep [115; 107; 118; 99; 97] -> Forall (Forall (fun ch => digchr ch \/ In ch [115; 107; 118; 99; 97])) l ->
       Forall (fun ch => digchr ch \/ In ch [115; 107; 118; 99; 97]) (joinb sep l)).
    { intros sep l Hs Hl. induction Hl as [|x l Hx Hl IH]; [constructor|]. destruct l as [|y l]; [exact Hx|].
      change (joinb sep (x :: y :: l)) with (x ++ sep :: joinb sep (y :: l)). apply Forall_app. split; [exact Hx|]. constructor; [right; exact Hs|exact IH]. }
    assert (WS : forall w, okw w -> Forall (fun ch => digchr ch \/ In ch [115; 107; 118; 99; 97]) (wstr 115 w)).
    { intros w Hw. eapply Forall_impl; [|apply wstr_chr; exact Hw]. intros ch [A|A]; [left; exact A|right; left; auto]. }
    unfold bextOf. apply J; [cbn; tauto|]. apply Forall_map. eapply Forall_impl; [|exact H]. intros cl Hcl.
    apply J; [cbn; tauto|]. apply Forall_map. eapply Forall_impl; [|exact Hcl]. intros [w|k vs] He; cbn [oke estr] in *; [auto|].
    destruct He as [Hk Hv]. apply J; [cbn; tauto|]. constructor; [auto|]. constructor; [|constructor].
    apply J; [cbn; tauto|]. apply Forall_map. eapply Forall_impl; [|exact Hv]. auto. }
  split.
  - apply Reb64_b64text. eapply Forall_impl; [|exact CH]. intros ch [A|A].
    + unfold digchr in A. assert (C : ch = 48 \/ ch = 49 \/ ch = 50 \/ ch = 51 \/ ch = 52 \/ ch = 53 \/ ch = 54 \/ ch = 55 \/ ch = 56 \/ ch = 57) by lia.
      destruct C as [->|[->|[->|[->|[->|[->|[->|[->|[->| ->]]]]]]]]]; vm_compute; discriminate.
    + destruct A as [<-|[<-|[<-|[<-|[<-|[]]]]]]; vm_compute; discriminate.
  - destruct (bextOf th) as [|x r]; [left; reflexivity|right]. exists x, r. split; [reflexivity|]. inv CH. destruct H2 as [A|A].
    + unfold digchr in A. lia.
    + destruct A as [<-|[<-|[<-|[<-|[<-|[]]]]]]; lia.
Qed.

Lemma varCode_none : forall k l, 64 ^ 4 - 1 < k -> varCode StrB64_L0 k l = Err InvalidVarRawSizeError.
Proof.
  intros k l H. unfold varCode. change (memN (nth 0 StrB64_L0 0) SmallVrzDex) with true. cbv iota.
  replace (k <=? 64 ^ 2 - 1) with false by lia. replace (k <=? 64 ^ 4 - 1) with false by lia. reflexivity.
Qed.

(** A text accepted by Bexter and not starting with A or - is recovered. *)
Lemma bexter_ok_round : forall s m, Reb64 s = true -> (s = [] \/ exists x r, s = x :: r /\ x <> 45 /\ x <> 65) ->
  bexter_of_bext s true = Ok m ->
  built m /\ memB (m_code m) BexDex = true /\ matter_of_raw (m_raw m) (m_code m) [] None = Ok m /\ bext m true = Ok s.
Proof.
  intros s m Hs Hc H. pose proof Hs as Ht. apply Reb64_b64text in Ht.
  assert (HE : bext_escape s true = s).
  { destruct Hc as [->|(x & r & -> & H1 & H2)]; [reflexivity|]. unfold bext_escape.
    apply N.eqb_neq in H1, H2. rewrite H1, H2. reflexivity. }
  assert (HL : len s <= 4 * (64 ^ 4 - 1)).
  { destruct (N.le_gt_cases (len s) (4 * (64 ^ 4 - 1))) as [L|L]; [exact L|]. exfalso.
    unfold bexter_of_bext in H. rewrite Hs in H. cbn [negb] in H. unfold rawify in H. cbv zeta in H. rewrite HE in H.
    set (k := (len s + wadSize s) / 4).
    assert (Hk : len s + wadSize s = 4 * k) by (unfold k, wadSize; lia).
    destruct (decode_text (N.to_nat k) (repeat 65 (N.to_nat (wadSize s)) ++ s)) as (a & D1 & D2 & D3 & _).
    { apply b64text_app. split; [apply b64text_repeat_A|exact Ht]. }
    { rewrite app_length, repeat_length. unfold len in Hk. clear - Hk. lia. }
    rewrite D1 in H. cbn [bind] in H. unfold matter_of_raw in H. change (dget Sizes StrB64_L0) with (Some (mkSizage 2 2 0 None 0)) in H. cbn [fs StrB64_L0] in H.
    unfold StrB64_L0 at 1 in H. cbn [s2b list_ascii_of_string map] in H. cbv zeta in H.
    rewrite varCode_none in H; [discriminate|]. rewrite len_ndrop. unfold len at 1 3. rewrite D3.
    set (X := 64 ^ 4 - 1) in *. unfold wadSize in Hk. clear - L Hk. clearbody X k. set (n := len s) in *. clearbody n. lia. }
  destruct (rawify_core s Ht) as (raw & c & sz & R1 & R2 & (s' & R3) & R4 & R5 & R6); [|exact HL|].
  { intros [A _]. destruct Hc as [->|(x & r & -> & H1 & H2)]; [discriminate|]. cbn in A. congruence. }
  assert (HM : m = mkMatter c s' raw).
  { unfold bexter_of_bext in H. rewrite Hs in H. cbn [negb] in H. unfold rawify in H. cbv zeta in H. rewrite HE, R1 in H. cbn [bind] in H.
    rewrite R3 in H. cbn [bind m_code] in H. rewrite R4 in H. cbn [negb] in H. inv H. reflexivity. }
  subst m. cbn [m_code m_raw]. destruct (bex_again raw _ R3) as [_ A]. cbn [m_code] in A.
  split; [eapply built_raw; [exact R2|exact R3]|]. split; [exact R4|]. split; [exact A|].
  unfold bext. cbn [m_code m_raw]. rewrite (derawify_escape raw c s R6). f_equal.
  destruct Hc as [->|(x & r & -> & H1 & H2)]; [reflexivity|].
  destruct x as [|p]; [reflexivity|]. do 6 (destruct p as [p|p|]; try reflexivity). congruence.
Qed.

Lemma bex_not_num : forall c, memB c BexDex = true -> memB c NumDex = false.
Proof.
  intros c H. apply existsb_exists in H. destruct H as (x & Hx & E). apply beq_eq in E. subst x.
  repeat (destruct Hx as [<-|Hx]; [reflexivity|]). contradiction.
Qed.

Lemma c12_limen_round_trip : forall t, threshold t ->
  exists q, limenOf t = Ok q /\ forall tail, processLimen (q ++ tail) = Ok t.
Proof.
  intros t HT. apply threshold_norm in HT. destruct HT as [(n & -> & Hn)|(th & -> & Ho & HB & m & Hm)].
  - destruct (c06_number_round_trip n Hn) as (m & q & b & M1 & M2 & M3 & M4 & _ & _ & _ & _).
    exists q. cbn [limenOf]. rewrite M1. cbn [bind]. split; [exact M4|]. intros tail.
    destruct (c01_text_round_trip m tail M2) as (q' & U1 & _ & U2 & _). rewrite M4 in U1. apply ok_inj in U1. subst q'.
    unfold processLimen. rewrite U2. cbn [bind]. rewrite (number_dex _ _ _ M1). rewrite (num_again _ _ _ M1). cbn [bind]. rewrite M3.
    unfold processUnweighted. rewrite M1. reflexivity.
  - destruct (bext_reb64 th (proj2 Ho)) as [B1 B2]. destruct (bexter_ok_round _ m B1 B2 Hm) as (R1 & R2 & R3 & R4).
    destruct (c01_text_round_trip m [] R1) as (q & U1 & _). exists q. cbn [limenOf]. rewrite Hm. cbn [bind]. split; [exact U1|].
    intros tail. destruct (c01_text_round_trip m tail R1) as (q' & V1 & _ & V2 & _). rewrite U1 in V1. apply ok_inj in V1. subst q'.
    unfold processLimen. rewrite V2. cbn [bind]. rewrite (bex_not_num _ R2), R2, R3. cbn [bind]. rewrite R4. cbn [bind].
    change (fun ch : N => if ch =? 115 then 47 else ch) with rep. rewrite (limen_parse th Ho HB). cbn [bind].
    unfold processWeighted. rewrite HB, Hm. reflexivity.
Qed.

Lemma c12_sith_round_trip : forall t, threshold t -> processSith (sithOf t) = Ok t.
Proof.
  intros t HT. apply threshold_norm in HT. destruct HT as [(n & -> & Hn)|(th & -> & Ho & HB & m & Hm)].
  - cbn [sithOf processSith]. pose proof (hexint_hexstr n) as HH.
    destruct (hexstr n) as [|x r]; [discriminate|]. rewrite HH. cbn [bind].
    destruct (c06_number_round_trip n Hn) as (m & q & b & M1 & _). unfold processUnweighted. rewrite M1. reflexivity.
  - assert (PW : processWeighted th = Ok (TWt th)) by (unfold processWeighted; rewrite HB, Hm; reflexivity).
    destruct Ho as [Hne Ho]. destruct th as [|cl [|cl2 th]]; [congruence| |].
    + cbn [sithOf]. destruct (bad_parts [cl] cl (EW 0) HB (or_introl eq_refl)) as [Hcl _].
      unfold processSith. destruct cl as [|e cl]; [congruence|]. cbn [map].
      change (forallb isClause (IElem (selemOf e) :: map (fun e0 => IElem (selemOf e0)) cl)) with false. cbv iota.
      change (IElem (selemOf e) :: map (fun e0 => IElem (selemOf e0)) cl) with (map (fun e0 => IElem (selemOf e0)) (e :: cl)).
      rewrite (mapr_map _ _ _ asElem (fun e0 => IElem (selemOf e0)) selemOf) by reflexivity. cbn [bind].
      change [map selemOf (e :: cl)] with (map (map selemOf) [e :: cl]). rewrite sith_parse by exact Ho. cbn [bind]. exact PW.
    + cbn [sithOf]. set (th0 := cl :: cl2 :: th) in *. unfold processSith.
      assert (A1 : forallb isClause (map (fun cl => IClause (map selemOf cl)) th0) = true) by (apply forallb_forall; intros i Hi; apply in_map_iff in Hi; destruct Hi as (? & <- & _); reflexivity).
      assert (A2 : map clauseOf (map (fun cl => IClause (map selemOf cl)) th0) = map (map selemOf) th0) by (rewrite map_map; reflexivity).
      rewrite A1, A2. change (map (fun cl0 => IClause (map selemOf cl0)) th0) with (IClause (map selemOf cl) :: map (fun cl0 => IClause (map selemOf cl0)) (cl2 :: th)). cbv iota.
      cbn [bind]. rewrite sith_parse by exact Ho. cbn [bind]. exact PW.
Qed.

Lemma c12_thold_kept : forall t t', processThold t = Ok t' -> t' = t.
Proof.
  intros [n|th] t' H; cbn in H.
  - apply processUnweighted_inv in H. tauto.
  - apply processWeighted_inv in H. tauto.
Qed.

Lemma c12_out_of_range_refuted : exists th t q t', processThold (TWt th) = Ok t /\ limenOf t = Ok q /\ processLimen q = Ok t' /\ t' <> t.
Proof.
  exists [[EW (3 # 2)]], (TWt [[EW (3 # 2)]]), (s2b "6AABAAA1"). exists (TWt [[EW (1 # 1)]]).
  split; [vm_compute; reflexivity|]. split; [vm_compute; reflexivity|]. split; [vm_compute; reflexivity|]. intros E. inversion E.
Qed.



(** ** signatures *)

Lemma dedupB_incl : forall l seen, incl (dedupB seen l) l.
Proof.
  induction l as [|s l IH]; intros seen x Hx; cbn [dedupB] in Hx; [contradiction|].
  destruct (memB (sg_qb64 s) seen); [right; eapply IH; exact Hx|]. destruct Hx as [<-|Hx]; [left; reflexivity|right; eapply IH; exact Hx].
Qed.

Lemma dedupB_NoDup : forall l seen, NoDup (map sg_qb64 (dedupB seen l)) /\ (forall s, In s (dedupB seen l) -> ~ In (sg_qb64 s) seen).
Proof.
  induction l as [|s l IH]; intros seen; cbn [dedupB map]; [split; [constructor|contradiction]|].
  destruct (memB (sg_qb64 s) seen) eqn:E; [apply IH|].
  destruct (IH (sg_qb64 s :: seen)) as [I1 I2]. split.
  - cbn [map]. constructor; [|exact I1]. intros Hin. apply in_map_iff in Hin. destruct Hin as (x & Ex & Hx). apply (I2 x Hx). left. congruence.
  - intros x [<-|Hx]; [intros Hin; apply memB_In in Hin; congruence|]. intros Hin. apply (I2 x Hx). right. exact Hin.
Qed.

Lemma c10_verified : forall key vrfy raw sigers (verfers : list key) vs is,
  verifySigs key vrfy raw sigers verfers = (vs, is) ->
  incl vs sigers /\ is = map sg_index vs /\ NoDup (map sg_qb64 vs) /\
  (forall i, In i is -> exists s k, In s sigers /\ sg_index s = i /\ nth_error verfers (N.to_nat i) = Some k /\ vrfy k (sg_raw s) raw = true).
Proof.
  intros key vrfy raw sigers verfers vs is H. unfold verifySigs in H. apply pair_equal_spec in H. destruct H as [<- <-].
  set (P := fun s => match nth_error verfers (N.to_nat (sg_index s)) with Some k => vrfy k (sg_raw s) raw | None => false end).
  split; [intros x Hx; apply filter_In in Hx; eapply dedupB_incl; apply Hx|]. split; [reflexivity|]. split.
  - destruct (dedupB_NoDup sigers []) as [ND _]. induction (dedupB [] sigers) as [|s l IH]; [constructor|]. cbn [filter]. cbn [map] in ND. inv ND.
    destruct (P s); [|auto]. cbn [map]. constructor; [|auto]. intros Hin. apply H1. apply in_map_iff in Hin. destruct Hin as (x & E & Hx).
    apply filter_In in Hx. rewrite <- E. apply in_map. tauto.
  - intros i Hi. apply in_map_iff in Hi. destruct Hi as (s & <- & Hs). apply filter_In in Hs. destruct Hs as [Hs HP]. unfold P in HP.
    destruct (nth_error verfers (N.to_nat (sg_index s))) as [k|] eqn:E; [|discriminate].
    exists s, k. repeat split; auto. eapply dedupB_incl. exact Hs.
Qed.

Lemma c10_returned : forall key vrfy raw sigers (verfers : list key) th vs b,
  validateSigs key vrfy raw sigers verfers th = Ok (vs, b) ->
  vs <> [] /\ NoDup (map sg_qb64 vs) /\
  (forall s, In s vs -> In s sigers /\ exists k, nth_error verfers (N.to_nat (sg_index s)) = Some k /\ vrfy k (sg_raw s) raw = true) /\
  b = satisfy th (map sg_index vs).
Proof.
  intros key vrfy raw sigers verfers th vs b H. unfold validateSigs in H. destruct (len verfers <? thsize th); [discriminate|].
  destruct (verifySigs key vrfy raw sigers verfers) as [vs' is] eqn:E. destruct (c10_verified _ _ _ _ _ _ _ E) as (VI & VE & ND & _).
  unfold verifySigs in E. apply pair_equal_spec in E. destruct E as [Ev _].
  destruct is as [|i0 is0] eqn:Ei; [discriminate|]. rewrite <- Ei in *. apply ok_inj in H. apply pair_equal_spec in H. destruct H as [<- <-].
  split; [intros ->; rewrite VE in Ei; discriminate|]. split; [exact ND|]. split; [|rewrite VE; reflexivity].
  intros s I. split; [apply VI; exact I|]. rewrite <- Ev in I. apply filter_In in I. destruct I as [_ V].
  destruct (nth_error verfers (N.to_nat (sg_index s))) as [k|]; [|discriminate]. exists k. auto.
Qed.

Lemma c10_weighted_distinct : forall key vrfy raw sigers (verfers : list key) th vs, threshold (TWt th) ->
  validateSigs key vrfy raw sigers verfers (TWt th) = Ok (vs, true) ->
  exists S, NoDup S /\ holds S th /\
   forall i, In i S -> exists s k, In s sigers /\ sg_index s = i /\ nth_error verfers (N.to_nat i) = Some k /\ vrfy k (sg_raw s) raw = true.
Proof.
  intros key vrfy raw sigers verfers th vs HT H. unfold validateSigs in H. destruct (len verfers <? thsize (TWt th)); [discriminate|].
  destruct (verifySigs key vrfy raw sigers verfers) as [vs' is] eqn:E. destruct (c10_verified _ _ _ _ _ _ _ E) as (_ & _ & _ & V).
  destruct is as [|i0 is0]; [discriminate|]. set (is := i0 :: is0) in *. apply ok_inj in H. apply pair_equal_spec in H. destruct H as [_ H].
  exists (nodup N.eq_dec is). split; [apply NoDup_nodup|]. split.
  - rewrite (c11_set_only th is (nodup N.eq_dec is) HT) in H by (intros; symmetry; apply nodup_In).
    assert (Hb : Forall (fun i => i < thsize (TWt th)) (nodup N.eq_dec is)).
    { unfold satisfy, satisfy_weighted in H. destruct (nodup N.eq_dec is) as [|n l] eqn:El; [constructor|]. destruct (existsb _ _) eqn:Ex in H; [discriminate|].
      apply Forall_forall. intros x Hx. destruct (N.lt_ge_cases x (thsize (TWt th))) as [L|L]; [exact L|].
      assert (existsb (fun i => thsize (TWt th) <=? i) (n :: l) = true) by (apply existsb_exists; exists x; split; [exact Hx|lia]). congruence. }
    apply c11_weighted in H; [exact H|exact HT| |exact Hb]. intros En. rewrite En in H. discriminate.
  - intros i Hi. apply nodup_In in Hi. auto.
Qed.

Lemma c10_numeric_distinct_partial : forall key vrfy raw sigers (verfers : list key) n vs,
  (forall s s', In s sigers -> In s' sigers -> sg_index s = sg_index s' -> sg_qb64 s = sg_qb64 s') ->
  validateSigs key vrfy raw sigers verfers (TNum n) = Ok (vs, true) ->
  exists S, NoDup S /\ 0 < n <= len S /\
   forall i, In i S -> exists s k, In s sigers /\ sg_index s = i /\ nth_error verfers (N.to_nat i) = Some k /\ vrfy k (sg_raw s) raw = true.
Proof.
  intros key vrfy raw sigers verfers n vs HU H. unfold validateSigs in H. destruct (len verfers <? thsize (TNum n)); [discriminate|].
  destruct (verifySigs key vrfy raw sigers verfers) as [vs' is] eqn:E. destruct (c10_verified _ _ _ _ _ _ _ E) as (VI & VE & ND & V).
  destruct is as [|i0 is0]; [discriminate|]. set (is := i0 :: is0) in *. apply ok_inj in H. apply pair_equal_spec in H. destruct H as [_ H].
  exists is. split; [|split; [apply c11_numeric; exact H|exact V]].
  rewrite VE. clear - ND VI HU. induction vs' as [|s l IH]; [constructor|]. cbn [map] in *. inv ND. constructor.
  - intros Hin. apply in_map_iff in Hin. destruct Hin as (x & Ex & Hx). apply H1. rewrite (HU s x); [apply in_map; exact Hx| | |congruence].
    + apply VI. left. reflexivity.
    + apply VI. right. exact Hx.
  - apply IH; [intros x Hx; apply VI; right; exact Hx|exact H2].
Qed.

Lemma c10_none_verified : forall key vrfy raw sigers (verfers : list key) t,
  (forall s k, In s sigers -> nth_error verfers (N.to_nat (sg_index s)) = Some k -> vrfy k (sg_raw s) raw = false) ->
  validateSigs key vrfy raw sigers verfers t = Err ValidationError.
Proof.
  intros key vrfy raw sigers verfers t H. unfold validateSigs. destruct (len verfers <? thsize t); [reflexivity|].
  destruct (verifySigs key vrfy raw sigers verfers) as [vs' is] eqn:E. destruct (c10_verified _ _ _ _ _ _ _ E) as (_ & _ & _ & V).
  destruct is as [|i is]; [reflexivity|]. exfalso. destruct (V i (or_introl eq_refl)) as (s & k & A & B & C & D). subst i. rewrite (H s k A C) in D. discriminate.
Qed.


