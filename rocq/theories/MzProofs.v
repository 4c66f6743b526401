(** Proofs for C55. *)
From Verif Require Import Prelude B64Model B64Proofs MatterModel MatterProofs MatterSpec MatterThms IdxModel IdxThms SubsModel SubsProofs SubsThms
  SerModel VerModel CtrModel CtrProofs CtrThms KelModel PsModel PsSpec PsProofs PsTerm MzModel MzSpec.
Open Scope N_scope.
Ltac Zify.zify_post_hook ::= Z.div_mod_to_equations.

(* ------------------------------------------------------------------ *)
(** Codes of attachment groups. *)
Definition plainCtr (c : counter) : Prop :=
  isGenus c || isGeneric c || isOther c = false /\ isAttGroup c = false /\ isBodyAtt c || isBody c = false.
Definition smalls1 : list string := ["ControllerIdxSigs"; "WitnessIdxSigs"; "NonTransReceiptCouples"; "TransReceiptIdxSigGroups"; "TransIdxSigGroups";
  "TransLastIdxSigGroups"; "FirstSeenReplayCouples"; "SealSourceTriples"; "SealSourceCouples"]%string.
Definition smalls2 : list string := smalls1 ++ ["TypedDigestSealCouples"; "BlindedStateQuadruples"; "BoundStateSextuples"; "TypedMediaQuadruples"]%string.
Definition smalls (v : CtrModel.versionage) := if vmajor v =? 1 then smalls1 else smalls2.
Definition methodNamed (v : CtrModel.versionage) (name : string) : option method :=
  match find (fun p => beq (s2b name) (s2b (fst p))) (if vmajor v =? 1 then methods1 else methods2) with Some (_, m) => Some m | None => None end.

Lemma ctr_method : forall v name count c, v = V1 \/ v = V2 -> In name (smalls v) -> counter_of v (s2b name) count = Ok c ->
  methodOf c = methodNamed v name /\ plainCtr c.
Proof.
  intros v name count c Hv I H. destruct (counter_of_ok _ _ _ _ H) as (Ev & Hc & codes & sizes & sz & K & hard & hsz & L1 & L2 & L3).
  pose proof (co_tab _ _ _ _ K) as T. pose proof (co_name _ _ _ _ K) as Nm. rewrite Ev in T. unfold methodOf, methodNamed. rewrite Ev. clear - I L1 L3 T Nm Hv.
  destruct Hv as [-> | ->]; vm_compute in T; apply ok_inj in T; injection T as <- <-; vm_compute in I;
  repeat (destruct I as [<-|I]; [vm_compute in L1; apply ok_inj in L1; injection L1 as <- _;
   (destruct L3 as [L3|(_ & _ & L3 & _)]; rewrite L3 in Nm;
    match type of Nm with nameOf ?a ?b = _ => let y := eval vm_compute in (nameOf a b) in
      assert (X : nameOf a b = y) by (vm_compute; reflexivity); rewrite X in Nm end;
    [apply ok_inj in Nm; unfold plainCtr, isGenus, isGeneric, isOther, isAttGroup, isBodyAtt, isBody, isNonNative, isFixBody, isMapBody, isName; rewrite <- Nm; vm_compute; auto
    |first [discriminate Nm | apply ok_inj in Nm; unfold plainCtr, isGenus, isGeneric, isOther, isAttGroup, isBodyAtt, isBody, isNonNative, isFixBody, isMapBody, isName; rewrite <- Nm; vm_compute; auto]])|]);
  destruct I.
Qed.

(** the counter of inner signature groups *)
Lemma ctr_idxsigs : forall v count c, v = V1 \/ v = V2 -> counter_of v (s2b "ControllerIdxSigs") count = Ok c ->
  (vmajor v = 2 -> count < 4096) -> isIdxSigs c = true.
Proof.
  intros v count c Hv H B. destruct (counter_of_ok _ _ _ _ H) as (Ev & Hc & codes & sizes & sz & K & hard & hsz & L1 & L2 & L3).
  pose proof (co_tab _ _ _ _ K) as T. pose proof (co_name _ _ _ _ K) as Nm. rewrite Ev in T. unfold isIdxSigs. clear - L1 L3 T Nm Hv B.
  destruct Hv as [-> | ->]; vm_compute in T; apply ok_inj in T; injection T as <- <-; vm_compute in L1; apply ok_inj in L1; injection L1 as <- _;
   (destruct L3 as [L3|(_ & G & L3 & _)]; rewrite L3 in Nm;
    match type of Nm with nameOf ?a ?b = _ => let y := eval vm_compute in (nameOf a b) in
      assert (X : nameOf a b = y) by (vm_compute; reflexivity); rewrite X in Nm end;
    [apply ok_inj in Nm; rewrite <- Nm; vm_compute; reflexivity| first [discriminate Nm | exfalso; specialize (B eq_refl); lia]]).
Qed.

(* ------------------------------------------------------------------ *)
(** Texts of elements. *)
Lemma cat_nil : cat [] = Ok []. Proof. reflexivity. Qed.
Lemma cat_cons : forall r l b, cat (r :: l) = Ok b -> exists x y, r = Ok x /\ cat l = Ok y /\ b = x ++ y.
Proof.
  intros r l b H. cbn [cat] in H. apply bind_ok in H. destruct H as (x & R & H). apply bind_ok in H. destruct H as (y & Y & H).
  apply ok_inj in H. exists x, y. auto.
Qed.
Lemma cat_map : forall {X} (f : X -> res bytes) l b, cat (map f l) = Ok b -> exists bs, Forall2 (fun x y => f x = Ok y) l bs /\ b = List.concat bs.
Proof.
  intros X f. induction l as [|x l IH]; intros b H.
  - apply ok_inj in H. exists []. auto.
  - destruct (cat_cons _ _ _ H) as (y & z & Y & Z & ->). destruct (IH _ Z) as (bs & F & ->). exists (y :: bs). auto.
Qed.

Lemma sig_read : forall x q, sig_ok x -> iinfil x = Ok q -> q <> [] /\ forall t, sigAt Ctxt (q ++ t) = Ok (x, t).
Proof.
  intros x q (raw & code & i & o & Or & H) Q. destruct (c05_text_round_trip _ _ _ _ _ Or H) as (_ & _ & _ & _ & q' & Q' & _ & R).
  rewrite Q in Q'. apply ok_inj in Q'. subst q'. split; [|exact R]. intros ->. specialize (R []). vm_compute in R. discriminate R.
Qed.

Lemma sigsB_read : forall xs, Forall sig_ok xs -> forall b, sigsB xs = Ok b ->
  (forall t, sigsN Ctxt (List.length xs) (b ++ t) = Ok (xs, t)) /\
  (forall v t, resume (sigsC Ctxt true (List.length xs)) (mkP v (b ++ t)) = Done (Ok xs) (mkP v t)) /\
  (forall n, (List.length b <= n)%nat -> sigsAll n Ctxt b = Ok xs).
Proof.
  induction 1 as [|x xs P F IH]; intros b H.
  - apply ok_inj in H. subst b. split; [reflexivity|]. split; [reflexivity|]. intros [|n] _; reflexivity.
  - destruct (cat_cons _ _ _ H) as (q & b' & Q & B & ->). destruct (sig_read _ _ P Q) as (Nq & R). destruct (IH _ B) as (I1 & I2 & I3).
    split; [|split].
    + intros t. cbn [sigsN List.length]. rewrite <- app_assoc, R. cbn [bind]. rewrite I1. reflexivity.
    + intros v t. cbn [sigsC List.length]. rewrite resume_bindc. unfold extractor at 1. rewrite resume_op. cbn [pb pv]. rewrite <- app_assoc, R.
      cbn [pv]. rewrite resume_bindc, I2. reflexivity.
    + intros n L. destruct q as [|c q]; [congruence|]. destruct n as [|n]; [cbn in L; lia|].
      change (sigsAll (S n) Ctxt ((c :: q) ++ b')) with ('(x, b) <- sigAt Ctxt ((c :: q) ++ b') ;; xs <- sigsAll n Ctxt b ;; Ok (x :: xs)).
      rewrite R. cbn [bind]. rewrite I3; [reflexivity|]. cbn [List.length app] in L. rewrite app_length in L. lia.
Qed.

Section Mz.
Variable kcheck : klas -> matter -> res unit.
Local Notation prim := (prim kcheck).
Local Notation matAt := (matAt kcheck).
Local Notation matsP := (matsP kcheck).
Local Notation matsC := (matsC kcheck).
Local Notation elemP := (elemP kcheck).
Local Notation elemC := (elemC kcheck).
Local Notation elemsP := (elemsP kcheck).
Local Notation elemsC := (elemsC kcheck).

Lemma prim_read : forall k m q, prim k m -> infil m = Ok q -> q <> [] /\ forall t, matAt k Ctxt (q ++ t) = Ok (m, t).
Proof.
  intros k m q [B C] Q.
  assert (R : forall t, matter_strip (q ++ t) = Ok (m, t)).
  { intros t. destruct (c01_text_round_trip m t B) as (q' & Q' & _ & _ & S). rewrite Q in Q'. apply ok_inj in Q'. subst q'. exact S. }
  split.
  - intros ->. specialize (R []). vm_compute in R. discriminate R.
  - intros t. unfold PsModel.matAt. rewrite R. cbn [bind]. rewrite C. reflexivity.
Qed.
Lemma matsB_read : forall ks ms, Forall2 prim ks ms -> forall b, matsB ms = Ok b ->
  (ks <> [] -> b <> []) /\ (forall t, matsP Ctxt ks (b ++ t) = Ok (ms, t)) /\
  forall v t, resume (matsC Ctxt true ks) (mkP v (b ++ t)) = Done (Ok ms) (mkP v t).
Proof.
  induction 1 as [|k m ks ms P F IH]; intros b H.
  - apply ok_inj in H. subst b. split; [congruence|]. split; reflexivity.
  - destruct (cat_cons _ _ _ H) as (q & b' & Q & B & ->). destruct (prim_read _ _ _ P Q) as (Nq & R). destruct (IH _ B) as (_ & I1 & I2).
    split; [intros _ E; apply app_eq_nil in E; tauto|]. split.
    + intros t. cbn [PsModel.matsP]. rewrite <- app_assoc, R. cbn [bind]. rewrite I1. reflexivity.
    + intros v t. cbn [PsModel.matsC]. rewrite resume_bindc. unfold extractor at 1. rewrite resume_op. cbn [pb pv]. rewrite <- app_assoc, R.
      cbn [pv]. rewrite resume_bindc, I2. reflexivity.
Qed.
(** a text that reads as one element *)
Definition readsP (v : CtrModel.versionage) (sh : shape) (b : bytes) (i : item) : Prop :=
  b <> [] /\ forall t, elemP v Ctxt sh (b ++ t) = Ok (i, t).
Definition readsC (v : CtrModel.versionage) (sh : shape) (b : bytes) (i : item) : Prop :=
  forall t, resume (elemC Ctxt true sh) (mkP v (b ++ t)) = Done (Ok i) (mkP v t).
Lemma elemsP_read : forall v sh bs is, Forall2 (readsP v sh) bs is -> forall n, (List.length (List.concat bs) <= n)%nat ->
  elemsP n v Ctxt sh (List.concat bs) = Ok is.
Proof.
  induction 1 as [|b i bs is [Nb R] F IH]; intros n L; [destruct n; reflexivity|].
  cbn [List.concat] in *. destruct b as [|c b]; [congruence|]. destruct n as [|n]; [cbn in L; lia|].
  change (elemsP (S n) v Ctxt sh ((c :: b) ++ List.concat bs)) with ('(x, b) <- elemP v Ctxt sh ((c :: b) ++ List.concat bs) ;; xs <- elemsP n v Ctxt sh b ;; Ok (x :: xs)).
  rewrite R. cbn [bind]. rewrite IH; [reflexivity|]. cbn [List.length app] in L. rewrite app_length in L. lia.
Qed.
Lemma elemsC_read : forall v sh bs is, Forall2 (readsC v sh) bs is -> forall t,
  resume (elemsC Ctxt true sh (List.length is)) (mkP v (List.concat bs ++ t)) = Done (Ok is) (mkP v t).
Proof.
  induction 1 as [|b i bs is R F IH]; intros t; [reflexivity|]. cbn [List.concat PsModel.elemsC List.length].
  rewrite resume_bindc, <- app_assoc, R, resume_bindc, IH. reflexivity.
Qed.
End Mz.
