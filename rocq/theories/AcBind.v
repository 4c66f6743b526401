(** ACDC messages: what the said of a verified message is the digest of, and what it binds. *)
From Verif Require Import Prelude B64Model B64Proofs MatterModel MatterProofs SubsModel VerModel VerThms ThModel JsonModel JsonProofs SerModel SerSpec SerProofs SerInv CpModel CpSpec CpProofs CpRoll CpAgg CpCompact AcModel AcSpec AcProofs.
Notation val := JsonModel.val.
Open Scope N_scope.
Ltac Zify.zify_post_hook ::= Z.div_mod_to_equations.
Notation d_ := (s2b "d").
Notation E_ := (s2b "E").

Lemma forall2_get : forall (P : bytes -> val -> val -> Prop) (m c : sad), NoDup (keysOf m) -> keysOf c = keysOf m -> (forall k v w, dget m k = Some v -> dget c k = Some w -> P k v w) ->
  Forall2 (fun a b => fst a = fst b /\ P (fst a) (snd a) (snd b)) m c.
Proof.
  intros P. induction m as [|[k v] m IH]; intros c N K H; destruct c as [|[k' w] c]; try discriminate; [constructor|]. cbn [keysOf map fst] in *. injection K as -> K. inversion N as [|? ? Nk N']; subst. constructor.
  - cbn [fst snd]. split; [reflexivity|]. apply H; cbn [dget]; rewrite beq_refl; reflexivity.
  - apply IH; [exact N'|exact K|]. intros k0 v0 w0 A B. assert (Ne : k0 <> k) by (intros ->; apply Nk; apply (dget_keys m); eauto). apply H; cbn [dget]; apply beq_neq in Ne; rewrite Ne; assumption.
Qed.
Lemma get_forall2 : forall (P : bytes -> val -> val -> Prop) (m c : sad), Forall2 (fun a b => fst a = fst b /\ P (fst a) (snd a) (snd b)) m c -> forall k,
  (dget m k = None /\ dget c k = None) \/ exists v w, dget m k = Some v /\ dget c k = Some w /\ P k v w.
Proof.
  intros P m c F k. induction F as [|[a v] [b w] m c [E H] F IH]; [left; split; reflexivity|]. cbn [fst snd] in *. subst b. cbn [dget]. destruct (beq k a) eqn:Q; [|exact IH]. apply beq_eq in Q. subst a. right. eauto.
Qed.
Lemma forall2_keys' : forall (P : bytes -> val -> val -> Prop) (m c : sad), Forall2 (fun a b => fst a = fst b /\ P (fst a) (snd a) (snd b)) m c -> keysOf m = keysOf c.
Proof. intros P m c F. induction F as [|[a v] [b w] m c [E H] F IH]; [reflexivity|]. cbn [keysOf map fst] in *. subst b. f_equal. exact IH. Qed.
Lemma dotless_get : forall L m k v, dotless L (VMap m) -> dget m k = Some v -> dotless L v.
Proof.
  intros L m k v D G. cbn [dotless] in D. induction m as [|[a x] m IH]; [discriminate|]. cbn [fold_right snd fst] in D. destruct D as (_ & D1 & D2). cbn [dget] in G. destruct (beq k a); [injection G as <-; exact D1|apply IH; assumption].
Qed.
Lemma wfv_get : forall m k v, wfv (VMap m) -> dget m k = Some v -> wfv v.
Proof. intros m k v W G. apply wfv_values in W. destruct W as [_ W]. apply dget_In' in G. exact (W _ _ G). Qed.

Section Ac.
Variable digest : bytes -> bytes -> bytes.
Variable odumps : bytes -> sad -> res bytes.
Variable cdumps : bytes -> versionage -> option versionage -> sad -> res bytes.
Variable loads : bytes -> bytes -> res sad.
Variable nmap : bool -> list bytes -> sad -> res bytes.
Variable olist : bytes -> list val -> res bytes.
Hypothesis Hd : digest_ok digest.
Notation mapDump := (mapDump odumps nmap).
Notation listDump := (listDump olist).
Notation compactSection := (compactSection digest odumps nmap olist).
Notation compactSections := (compactSections digest odumps nmap olist).
Notation verifyACDC := (verifyACDC digest odumps cdumps nmap olist).
Notation mostCompact := (mostCompact digest odumps cdumps nmap olist).
Notation dumps := (dumps odumps cdumps).
Notation acdcOk := (acdcOk digest odumps cdumps nmap olist).
Notation compactMessage kind := (compactMessage digest (mapDump kind) (listDump kind)).
Notation sectionCompact kind := (sectionCompact digest (mapDump kind) (listDump kind)).
Notation sectionSaid kind := (sectionSaid digest (mapDump kind) (listDump kind)).

Lemma notS : forall l, In l mapSections -> l <> s2b "s". Proof. intros l [<-|[<-|[<-|[]]]]; discriminate. Qed.
Lemma mapSaid_null : forall n kind l m, kind <> KindCesr -> wfv (VMap m) -> dotless d_ (VMap m) -> mapSaid digest odumps nmap n kind l m = Some (Ok VNull) -> ~ saided l (VMap m).
Proof.
  intros n kind l m NK W D H. pose proof (mapDump_strict odumps nmap kind NK) as Hs. unfold mapSaid in H. cbn [saided]. destruct (beq_spec l (s2b "s")) as [->|Ns].
  - destruct (mapperMake digest (mapDump kind) false SaidsS m) as [[m' s']|] eqn:M; [|discriminate]. injection H as H. intros [(_ & G)|(I & _)]; [|exact (notS _ I eq_refl)]. destruct (make_saidText digest (mapDump kind) Hd Hs _ _ _ _ _ _ G M) as (t & T & -> & _ & Lt). unfold saidOf, SaidsS in H. rewrite dget_dset, beq_refl in H. discriminate.
  - intros [(E & _)|(I & G)]; [contradiction|]. assert (M : memB l (map s2b ["a"; "e"; "r"]%string) = true) by (apply memB_In; exact I). rewrite M in H. apply obind_ok in H. destruct H as ([m3 s3] & C & H). cbn [fst] in H. injection H as H. destruct (compactor_text digest (mapDump kind) Hd d_ E_ _ _ _ _ _ W D G C) as (m' & t & R & T & -> & _). unfold saidOf, SaidsD in H. rewrite dget_dset, beq_refl in H. discriminate.
Qed.
Lemma section_compact : forall n kind l v w, kind <> KindCesr -> wfv v -> dotless d_ v -> compactSection n kind l v = Some (Ok w) -> sectionCompact kind l v w.
Proof.
  intros n kind l v w NK W D H. destruct (section_form _ _ _ _ Hd _ _ _ _ _ NK W D H) as [->|X]; [|left; exact X].
  pose proof (mapDump_strict odumps nmap kind NK) as Hs. unfold AcModel.compactSection in H. destruct (negb (truthy (Some v))) eqn:T.
  { right. split; [reflexivity|]. apply negb_true_iff in T. destruct v as [| | | |es|m]; cbn [saided]; try tauto; cbn [truthy] in T.
    - destruct es; [intros (_ & X); contradiction|discriminate].
    - destruct m; [|discriminate]. cbn [dget]. intros [(_ & X)|(_ & X)]; contradiction. }
  destruct v as [| | |t|es|m]; try (right; split; [reflexivity|cbn [saided]; tauto]).
  - destruct (beq_spec l (s2b "A")) as [->|Na]; [|right; split; [reflexivity|cbn [saided]; tauto]]. destruct (aggorMake digest (mapDump kind) (listDump kind) E_ SaidsD es) as [[|q r]|] eqn:A; try discriminate.
    + exfalso. unfold aggorMake in A. destruct es as [|[| | |h| |] es]; try discriminate. destruct (aggMake digest (mapDump kind) SaidsD es) as [[r' ss]|]; cbn [bind] in A; [|discriminate]. destruct (listDump kind (dummy (fullSize E_) :: ss)); cbn [bind] in A; [|discriminate]. destruct (digerOf digest E_ _); cbn [bind] in A; [|discriminate]. destruct (listDump kind (VStr _ :: r')); cbn [bind] in A; discriminate.
    + destruct (truthy (Some q)) eqn:Tq.
      { injection H as ->. exfalso. unfold aggorMake in A. destruct es as [|[| | |h| |] es]; try discriminate. destruct (aggMake digest (mapDump kind) SaidsD es) as [[r' ss]|]; cbn [bind] in A; [|discriminate]. destruct (listDump kind (dummy (fullSize E_) :: ss)); cbn [bind] in A; [|discriminate]. destruct (digerOf digest E_ _); cbn [bind] in A; [|discriminate]. destruct (listDump kind (VStr _ :: r')); cbn [bind] in A; discriminate. }
      exfalso. unfold aggorMake in A. destruct es as [|[| | |h| |] es]; try discriminate. destruct (aggMake digest (mapDump kind) SaidsD es) as [[r' ss]|]; cbn [bind] in A; [|discriminate]. destruct (listDump kind (dummy (fullSize E_) :: ss)); cbn [bind] in A; [|discriminate].
      destruct (digerOf digest E_ _) as [t|] eqn:Q; cbn [bind] in A; [|discriminate]. destruct (listDump kind (VStr _ :: r')); cbn [bind] in A; [|discriminate]. injection A as <- _. destruct (digerOf_inv _ _ _ _ Hd Q) as (_ & Lq & _). change (len E_ =? 1) with true in Lq. cbn [truthy] in Tq. apply N.ltb_ge in Tq. cbv iota in Lq. lia.
  - apply obind_ok in H. destruct H as (q & M & H). injection H as H. destruct (mapSaid_form _ _ _ olist Hd _ _ _ _ _ NK W D M) as [->|(t & -> & Lt & _)].
    + right. split; [reflexivity|]. eapply mapSaid_null; eassumption.
    + exfalso. cbn [truthy] in H. apply N.ltb_lt in Lt. rewrite Lt in H. discriminate.
Qed.

(** the most compact form and its version string *)
Lemma compact_facts : forall n s ilk t cd csad D vs, acdcOk n s ilk t cd csad D vs -> wfv (VMap (d_sad s)) -> dotless d_ (VMap (d_sad s)) -> d_kind s <> KindCesr -> In cd DigDex -> compactable (d_pvrsn s) ilk = true ->
  exists c0 raw vs', compactSections n (d_kind s) SectLabels (dset (d_sad s) d_ (VStr (repeat 35 (List.length t)))) = Some (Ok c0) /\ dumps s c0 = Ok raw /\ versify (d_proto s) (d_pvrsn s) (d_kind s) (len raw) (d_gvrsn s) = Ok vs' /\
    csad = dset c0 (s2b "v") (VStr vs') /\ keysOf c0 = keysOf (d_sad s) /\ dget c0 (s2b "v") = Some (VStr vs) /\ compactMessage (d_kind s) (d_sad s) csad.
Proof.
  intros n s ilk t cd csad D vs A W DL NK DD CB. destruct (ak_most _ _ _ _ _ _ _ _ _ _ _ _ _ A DD) as (M & RD & Q). unfold AcModel.mostCompact in M. rewrite CB in M. apply obind_ok in M. destruct M as (c0 & C & M). apply some_inj in M. apply beq_neq in NK. rewrite NK in M. cbn [negb] in M. apply beq_neq in NK.
  apply bind_ok in M. destruct M as (raw & R & M). apply bind_ok in M. destruct M as (vs' & V & M). injection M as <-. exists c0, raw, vs'.
  destruct (ak_said _ _ _ _ _ _ _ _ _ _ _ _ _ A) as (GD & _). assert (ID : In d_ (keysOf (d_sad s))) by (apply dget_keys; eauto). pose proof (ak_vs _ _ _ _ _ _ _ _ _ _ _ _ _ A) as GV.
  destruct (sections_spec _ _ _ _ _ _ _ _ _ sections_nodup C) as (K & B & S). rewrite keys_dset in K by exact ID.
  assert (GV' : dget c0 (s2b "v") = Some (VStr vs)). { rewrite B by (intros X; cbn in X; repeat (destruct X as [X|X]; [discriminate|]); exact X). rewrite dget_dset. change (beq (s2b "v") d_) with false. exact GV. }
  split; [exact C|]. split; [exact R|]. split; [exact V|]. split; [reflexivity|]. split; [exact K|]. split; [exact GV'|].
  assert (IV : In (s2b "v") (keysOf c0)) by (apply dget_keys; eauto).
  unfold AcSpec.compactMessage. apply (forall2_get (fun k v w => k = s2b "v" \/ (if beq k d_ then match v with VStr t0 => w = VStr (repeat 35 (List.length t0)) | _ => False end else if memB k sections then sectionCompact (d_kind s) k v w else w = v))).
  { apply wfv_values in W. apply W. }
  { rewrite keys_dset by exact IV. exact K. }
  intros k v w G1 G2. destruct (beq_spec k (s2b "v")) as [Ek|Nv]; [left; exact Ek|]. right. rewrite dget_dset in G2. apply beq_neq in Nv. rewrite Nv in G2. destruct (beq k d_) eqn:Ed.
  - apply beq_eq in Ed. subst k. rewrite GD in G1. injection G1 as <-. rewrite B in G2 by (intros X; cbn in X; repeat (destruct X as [X|X]; [discriminate|]); exact X). rewrite dget_dset, beq_refl in G2. congruence.
  - destruct (memB k sections) eqn:Ms.
    + apply memB_In in Ms. specialize (S _ Ms). rewrite dget_dset, Ed, G1 in S. destruct S as (w' & S & G3). rewrite G2 in G3. injection G3 as <-. eapply section_compact; [exact NK| | |exact S]; [eapply wfv_get; eassumption|eapply dotless_get; eassumption].
    + apply memB_nIn in Ms. rewrite (B _ Ms), dget_dset, Ed, G1 in G2. congruence.
Qed.
Lemma plain_facts : forall n s ilk t cd csad D vs, acdcOk n s ilk t cd csad D vs -> In cd DigDex -> compactable (d_pvrsn s) ilk = false -> csad = dset (d_sad s) d_ (VStr (repeat 35 (List.length t))).
Proof.
  intros n s ilk t cd csad D vs A DD CB. destruct (ak_most _ _ _ _ _ _ _ _ _ _ _ _ _ A DD) as (M & _). unfold AcModel.mostCompact in M. rewrite CB in M. destruct (sectional (d_pvrsn s) ilk); [apply obind_ok in M; destruct M as (? & _ & M)|]; injection M as <-; reflexivity.
Qed.
Lemma acdc_digest : forall n s ilk t cd csad D vs, acdcOk n s ilk t cd csad D vs -> In cd DigDex -> dumps s csad = Ok D /\ isDigestOf digest cd D t.
Proof. intros n s ilk t cd csad D vs A DD. exact (proj2 (ak_most _ _ _ _ _ _ _ _ _ _ _ _ _ A DD)). Qed.

(** the most compact forms of two messages are the same *)
Lemma agree_of_compact : forall kind m1 m2 c, injDump (mapDump kind) -> injDumpl (listDump kind) -> kind <> KindCesr -> NoDup (keysOf m1) -> compactMessage kind m1 c -> compactMessage kind m2 c -> dget m1 d_ = dget m2 d_ ->
  messageAgree digest (mapDump kind) (listDump kind) m1 m2 \/ collision digest.
Proof.
  intros kind m1 m2 c Hi Hl NK ND C1 C2 GD. pose proof (mapDump_strict odumps nmap kind NK) as Hs.
  set (P := fun k v w => k = s2b "v" \/ (if beq k d_ then match v with VStr t0 => w = VStr (repeat 35 (List.length t0)) | _ => False end else if memB k sections then sectionCompact kind k v w else w = v)).
  assert (X : forall k v1 v2 w, P k v1 w -> P k v2 w -> k <> d_ -> (k = s2b "v" \/ (if memB k sections then sectionAgree digest (mapDump kind) (listDump kind) k v1 v2 else v1 = v2)) \/ collision digest).
  { intros k v1 v2 w A B Nd. destruct A as [A|A]; [left; left; exact A|]. destruct B as [B|B]; [left; left; exact B|]. apply beq_neq in Nd. rewrite Nd in A, B. destruct (memB k sections); [|left; right; congruence].
    assert (Y : sectionAgree digest (mapDump kind) (listDump kind) k v1 v2 \/ collision digest); [|destruct Y; auto].
    destruct A as [(q & -> & A)|(-> & NA)]; destruct B as [(q' & EB & B)|(EB & NB)].
    - injection EB as <-. eapply sectionSaid_inj; eauto.
    - subst v2. left. right. left. eauto.
    - subst v1. left. right. right. left. eauto.
    - subst v2. left. left. reflexivity. }
  unfold messageAgree. change (Forall2 (fun a b => fst a = fst b /\ P (fst a) (snd a) (snd b)) m1 c) in C1. change (Forall2 (fun a b => fst a = fst b /\ P (fst a) (snd a) (snd b)) m2 c) in C2. clearbody P. 
  revert m1 m2 ND GD C1 C2. induction c as [|[k w] c IH]; intros m1 m2 ND GD C1 C2; inversion C1 as [|[k1 v1] ? m1' ? [E1 P1] C1']; subst; inversion C2 as [|[k2 v2] ? m2' ? [E2 P2] C2']; subst; [left; constructor|]. cbn [fst snd] in *. subst k1 k2. cbn [keysOf map fst] in ND. inversion ND as [|? ? Nk ND']; subst. cbn [dget] in GD.
  assert (KE : keysOf m1' = keysOf m2') by (rewrite (forall2_keys' P _ _ C1'), (forall2_keys' P _ _ C2'); reflexivity).
  assert (GD' : dget m1' d_ = dget m2' d_).
  { destruct (beq d_ k) eqn:Ek; [|exact GD]. apply beq_eq in Ek. subst k. destruct (dget m1' d_) as [x|] eqn:X1; [exfalso; apply Nk; apply (dget_keys m1'); eauto|]. destruct (dget m2' d_) as [y|] eqn:X2; [exfalso; apply Nk; unfold keysOf in KE; rewrite KE; apply (dget_keys m2'); eauto|reflexivity]. }
  destruct (IH _ _ ND' GD' C1' C2') as [F|C]; [|right; exact C].
  destruct (beq d_ k) eqn:Ek.
  - apply beq_eq in Ek. subst k. injection GD as <-. left. constructor; [|exact F]. cbn [fst snd]. split; [reflexivity|]. right. reflexivity.
  - destruct (X _ _ _ _ P1 P2 ltac:(intros ->; rewrite beq_refl in Ek; discriminate)) as [Y|C]; [|right; exact C]. left. constructor; [|exact F]. cbn [fst snd]. split; [reflexivity|exact Y].
Qed.

Lemma dset_blank : forall (m1 m2 : sad) k v, dset m1 k v = dset m2 k v -> dget m1 k = dget m2 k -> dget m1 k <> None -> m1 = m2.
Proof.
  induction m1 as [|[a x] m1 IH]; intros [|[b y] m2] k v E G N; cbn [dset dget] in *; [congruence|congruence|rewrite <- G in N; congruence|].
  - destruct (beq k a) eqn:Ka, (beq k b) eqn:Kb; try (apply beq_eq in Ka); try (apply beq_eq in Kb); inversion E; subst; rewrite ?beq_refl in *; try congruence. f_equal. eapply IH; eassumption.
Qed.
Lemma agree_refl : forall dm dl m, messageAgree digest dm dl m m.
Proof. intros dm dl m. unfold messageAgree. induction m as [|[k v] m IH]; constructor; [|exact IH]. cbn [fst snd]. split; [reflexivity|]. right. destruct (memB k sections); [left|]; reflexivity. Qed.
Lemma notSection : forall k, memB k sections = false -> forall kind m c v, compactMessage kind m c -> k <> s2b "v" -> k <> d_ -> dget c k = Some v <-> dget m k = Some v.
Proof.
  intros k Ms kind m c v C Nv Nd. unfold AcSpec.compactMessage in C. apply (get_forall2 (fun k v w => k = s2b "v" \/ (if beq k d_ then match v with VStr t0 => w = VStr (repeat 35 (List.length t0)) | _ => False end else if memB k sections then sectionCompact kind k v w else w = v)) m c) with (k := k) in C.
  destruct C as [(-> & ->)|(x & y & -> & -> & [E|E])]; [tauto|contradiction|]. apply beq_neq in Nd. rewrite Nd, Ms in E. subst y. tauto.
Qed.
Lemma compact_ilk : forall kind m c, compactMessage kind m c -> ilkOf c = ilkOf m.
Proof.
  intros kind m c C. unfold ilkOf. pose proof (fun v => notSection (s2b "t") eq_refl kind m c v C ltac:(discriminate) ltac:(discriminate)) as H. destruct (dget m (s2b "t")) as [x|]; [rewrite (proj2 (H x) eq_refl); reflexivity|]. destruct (dget c (s2b "t")) as [y|]; [specialize (proj1 (H y) eq_refl); discriminate|reflexivity].
Qed.
Lemma acdc_binds : forall n1 n2 s1 s2 i1 i2 t cd1 cd2 c1 c2 D1 D2 v1 v2, acdcOk n1 s1 i1 t cd1 c1 D1 v1 -> acdcOk n2 s2 i2 t cd2 c2 D2 v2 -> wfv (VMap (d_sad s1)) -> wfv (VMap (d_sad s2)) ->
  dotless d_ (VMap (d_sad s1)) -> dotless d_ (VMap (d_sad s2)) -> d_kind s1 = d_kind s2 -> d_kind s1 <> KindCesr -> injDump (mapDump (d_kind s1)) -> injDumpl (listDump (d_kind s1)) -> In cd1 DigDex ->
  (messageAgree digest (mapDump (d_kind s1)) (listDump (d_kind s1)) (d_sad s1) (d_sad s2) /\ (compactable (d_pvrsn s1) i1 = false -> d_sad s1 = d_sad s2)) \/ collision digest.
Proof.
  intros n1 n2 s1 s2 i1 i2 t cd1 cd2 c1 c2 D1 D2 v1 v2 A1 A2 W1 W2 L1 L2 EK NK Hi Hl DD.
  destruct (ak_said _ _ _ _ _ _ _ _ _ _ _ _ _ A1) as (G1 & C1). destruct (ak_said _ _ _ _ _ _ _ _ _ _ _ _ _ A2) as (G2 & C2). rewrite C1 in C2. injection C2 as <-.
  destruct (acdc_digest _ _ _ _ _ _ _ _ A1 DD) as (R1 & Q1). destruct (acdc_digest _ _ _ _ _ _ _ _ A2 DD) as (R2 & Q2).
  destruct (list_eq_dec N.eq_dec D1 D2) as [<-|ND]; [|right; exists cd1, D1, D2; split; [exact DD|]; split; [exact ND|]; destruct Q1 as (_ & Q1 & _), Q2 as (_ & Q2 & _); rewrite Q1 in Q2; congruence].
  pose proof NK as NK2. rewrite EK in NK2. rewrite (dumps_map _ _ nmap s1 c1 true [] NK) in R1. rewrite (dumps_map _ _ nmap s2 c2 true [] NK2), <- EK in R2. pose proof (Hi _ _ _ _ _ R1 R2) as <-.
  assert (IS : forall k v, memB k sections = false -> k <> d_ -> k <> s2b "v" -> forall s n ilk cd c D vs t, acdcOk n s ilk t cd c D vs -> d_kind s = d_kind s1 -> wfv (VMap (d_sad s)) -> dotless d_ (VMap (d_sad s)) -> In cd DigDex -> dget c k = Some v <-> dget (d_sad s) k = Some v).
  { intros k v Ms Nd Nv s n ilk cd c D vs t' A E W L DD'. destruct (compactable (d_pvrsn s) ilk) eqn:CB.
    - destruct (compact_facts _ _ _ _ _ _ _ _ A W L ltac:(congruence) DD' CB) as (c0 & raw & vs' & _ & _ & _ & _ & _ & _ & CM). eapply notSection; eassumption.
    - rewrite (plain_facts _ _ _ _ _ _ _ _ A DD' CB), dget_dset. apply beq_neq in Nd. rewrite Nd. tauto. }
  assert (EI : i1 = i2).
  { pose proof (ak_ilk _ _ _ _ _ _ _ _ _ _ _ _ _ A1) as I1. pose proof (ak_ilk _ _ _ _ _ _ _ _ _ _ _ _ _ A2) as I2. unfold ilkOf in I1, I2.
    pose proof (fun v => IS (s2b "t") v eq_refl ltac:(discriminate) ltac:(discriminate) _ _ _ _ _ _ _ _ A1 eq_refl W1 L1 DD) as J1. pose proof (fun v => IS (s2b "t") v eq_refl ltac:(discriminate) ltac:(discriminate) _ _ _ _ _ _ _ _ A2 (eq_sym EK) W2 L2 DD) as J2.
    assert (E : dget (d_sad s1) (s2b "t") = dget (d_sad s2) (s2b "t")).
    { destruct (dget (d_sad s1) (s2b "t")) as [x|]; [symmetry; apply J2, J1; reflexivity|]. destruct (dget (d_sad s2) (s2b "t")) as [y|]; [|reflexivity]. apply J1, J2. reflexivity. }
    rewrite E in I1. congruence. }
  subst i2.
  destruct (ak_sm _ _ _ _ _ _ _ _ _ _ _ _ _ A1) as (sm1 & DV1 & _ & PV1 & _). destruct (ak_sm _ _ _ _ _ _ _ _ _ _ _ _ _ A2) as (sm2 & DV2 & _ & PV2 & _).
  pose proof (ak_vs _ _ _ _ _ _ _ _ _ _ _ _ _ A1) as GV1. pose proof (ak_vs _ _ _ _ _ _ _ _ _ _ _ _ _ A2) as GV2.
  destruct (compactable (d_pvrsn s1) i1) eqn:CB1; destruct (compactable (d_pvrsn s2) i1) eqn:CB2.
  - destruct (compact_facts _ _ _ _ _ _ _ _ A1 W1 L1 NK DD CB1) as (? & ? & ? & _ & _ & _ & _ & _ & _ & M1). destruct (compact_facts _ _ _ _ _ _ _ _ A2 W2 L2 NK2 DD CB2) as (? & ? & ? & _ & _ & _ & _ & _ & _ & M2). rewrite <- EK in M2.
    destruct (agree_of_compact _ _ _ _ Hi Hl NK ltac:(apply wfv_values in W1; apply W1) M1 M2 ltac:(congruence)) as [X|X]; [left; split; [exact X|discriminate]|right; exact X].
  - exfalso. destruct (compact_facts _ _ _ _ _ _ _ _ A1 W1 L1 NK DD CB1) as (c0 & raw & vs' & _ & _ & V & EC & _). pose proof (plain_facts _ _ _ _ _ _ _ _ A2 DD CB2) as EC2.
    assert (X : dget c1 (s2b "v") = Some (VStr v2)) by (rewrite EC2, dget_dset; change (beq (s2b "v") d_) with false; exact GV2). rewrite EC, dget_dset, beq_refl in X. injection X as ->. destruct (c09_never_misread _ _ _ _ _ _ _ V DV2) as (_ & X & _). unfold compactable in CB1, CB2. rewrite PV2, X in CB2. congruence.
  - exfalso. destruct (compact_facts _ _ _ _ _ _ _ _ A2 W2 L2 NK2 DD CB2) as (c0 & raw & vs' & _ & _ & V & EC & _). pose proof (plain_facts _ _ _ _ _ _ _ _ A1 DD CB1) as EC2.
    assert (X : dget c1 (s2b "v") = Some (VStr v1)) by (rewrite EC2, dget_dset; change (beq (s2b "v") d_) with false; exact GV1). rewrite EC, dget_dset, beq_refl in X. injection X as ->. destruct (c09_never_misread _ _ _ _ _ _ _ V DV1) as (_ & X & _). unfold compactable in CB1, CB2. rewrite PV1, X in CB1. congruence.
  - left. assert (E : d_sad s1 = d_sad s2) by (eapply (dset_blank _ _ d_); [rewrite <- (plain_facts _ _ _ _ _ _ _ _ A1 DD CB1); exact (plain_facts _ _ _ _ _ _ _ _ A2 DD CB2)|congruence|congruence]). split; [rewrite E; apply agree_refl|intros _; exact E].
Qed.

Hypothesis LIB : library odumps loads.
(** reading a message *)
Lemma ofRaw_ok : forall n raw s, acdcOfRaw digest odumps cdumps loads nmap olist n raw = Some (Ok s) -> d_kind s <> KindCesr ->
  wfv (VMap (d_sad s)) /\ kindOk (d_kind s) /\ (exists rest, raw = d_raw s ++ rest) /\ verifyACDC n s = Some (Ok tt) /\ exists ilk t cd csad D vs, acdcOk n s ilk t cd csad D vs.
Proof.
  intros n raw s H N. unfold acdcOfRaw in H. apply obind_ok in H. destruct H as (s' & I & H). apply some_inj in I. destruct (verifyACDC n s') as [[[]|e]|] eqn:V; try discriminate. injection H as <-.
  destruct (inhale_inv _ _ _ I) as (rest & R & LS & SM & _ & LO & _). pose proof (smell_kindOk _ _ SM N) as K. cbn [smellOf s_kind] in K. pose proof (lib_wf _ _ LIB _ _ _ LO) as W. split; [exact W|]. split; [exact K|]. split; [eauto|]. split; [exact V|]. eapply acdc_ok; eassumption.
Qed.
End Ac.
