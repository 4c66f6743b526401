(** What verification of a message establishes. *)
From Verif Require Import Prelude B64Model B64Proofs MatterModel MatterProofs MatterInv MatterSpec MatterThms SubsModel SubsProofs ThModel VerModel VerThms JsonModel JsonProofs SerModel SerSpec SerProofs.
Open Scope N_scope.
Ltac Zify.zify_post_hook ::= Z.div_mod_to_equations.

Lemma plain_rep : forall n, plain (repeat 35 n).
Proof. intros n. apply Forall_forall. intros x I. apply repeat_spec in I. subst. lia. Qed.
Lemma dset_same : forall {V} (d : list (bytes * V)) k v, dget d k = Some v -> dset d k v = d.
Proof.
  intros V d k v. induction d as [|[a x] d IH]; cbn [dget dset]; [discriminate|]. destruct (beq_spec k a) as [->|N]; [intros H; injection H as ->; reflexivity|].
  intros H. rewrite (IH H). reflexivity.
Qed.

Lemma inhale_inv : forall loads raw s, inhale loads raw = Ok s -> exists rest, raw = d_raw s ++ rest /\ len (d_raw s) = d_size s /\ smell raw = Ok (smellOf s) /\ sniff raw = Ok Cmsg /\
  loads (d_kind s) (d_raw s) = Ok (d_sad s) /\ In (s2b "v") (keysOf (d_sad s)).
Proof.
  intros loads raw s H. unfold inhale in H. apply bind_ok in H. destruct H as (co & SN & H). destruct co; try discriminate. apply bind_ok in H. destruct H as (sm & SM & H). apply raise_if_ok in H. destruct H as [L H].
  apply bind_ok in H. destruct H as (sd & LO & H). apply raise_if_ok in H. destruct H as [V H]. apply ok_inj in H. subst s. cbn. apply N.ltb_ge in L. exists (ndrop (s_size sm) raw).
  split; [unfold ntake, ndrop; symmetry; apply firstn_skipn|]. split; [unfold len, ntake in *; rewrite firstn_length; lia|]. split; [unfold smellOf; cbn; destruct sm; exact SM|]. split; [exact SN|]. split; [exact LO|].
  apply negb_false_iff, memB_In in V. exact V.
Qed.

Section Lib.
Variable digest : bytes -> bytes -> bytes.
Variable odumps : bytes -> sad -> res bytes.
Variable cdumps : bytes -> versionage -> option versionage -> sad -> res bytes.
Variable loads : bytes -> bytes -> res sad.
Hypothesis DOK : digest_ok digest.
Hypothesis LIB : library odumps loads.
Notation dumps := (dumps odumps cdumps).
Notation compute := (compute digest odumps cdumps).
Notation verifyBase := (verifyBase digest odumps cdumps).
Notation shape := (shape digest odumps cdumps).

Definition kindOk (k : bytes) : Prop := In k [s2b "JSON"; s2b "CBOR"; s2b "MGPK"].
Lemma kindOk_ne : forall k, kindOk k -> k <> KindCesr.
Proof. intros k [<-|[<-|[<-|[]]]]; discriminate. Qed.
Lemma loads_dumps : forall s m r, kindOk (d_kind s) -> wfv (VMap m) -> dumps s m = Ok r -> loads (d_kind s) r = Ok m.
Proof.
  intros s m r K W H. unfold SerModel.dumps in H. destruct K as [E|[E|[E|[]]]]; rewrite <- E in *; cbn [beq s2b] in H.
  - change (beq (s2b "JSON") (s2b "JSON")) with true in H. cbv iota in H. apply ok_inj in H. subst r. apply (lib_json _ _ LIB). exact W.
  - change (beq (s2b "CBOR") (s2b "JSON")) with false in H. change (beq (s2b "CBOR") KindCesr) with false in H. cbv iota in H. eapply (lib_other _ _ LIB); [left; reflexivity|exact W|exact H].
  - change (beq (s2b "MGPK") (s2b "JSON")) with false in H. change (beq (s2b "MGPK") KindCesr) with false in H. cbv iota in H. eapply (lib_other _ _ LIB); [right; left; reflexivity|exact W|exact H].
Qed.
Lemma dumps_inj : forall s s' m m' r, d_kind s = d_kind s' -> kindOk (d_kind s) -> wfv (VMap m) -> wfv (VMap m') -> dumps s m = Ok r -> dumps s' m' = Ok r -> m = m'.
Proof.
  intros s s' m m' r E K W W' A B. pose proof (loads_dumps s m r K W A) as P. rewrite E in K. pose proof (loads_dumps s' m' r K W' B) as Q. rewrite E, Q in P. congruence.
Qed.
Lemma dumps_kind : forall s s' m, d_kind s = d_kind s' -> d_kind s <> KindCesr -> dumps s m = dumps s' m.
Proof. intros s s' m E N. unfold SerModel.dumps. apply beq_neq in N. rewrite <- E, N. reflexivity. Qed.
Lemma plain_json : forall a b, plain a -> plain b -> len a = len b -> List.length (json (VStr a)) = List.length (json (VStr b)).
Proof.
  intros a b A B L. cbn [json]. rewrite !json_str_len; [unfold len in L; lia| |].
  - eapply Forall_impl; [|exact B]. cbn beta. intros; tauto.
  - eapply Forall_impl; [|exact A]. cbn beta. intros; tauto.
Qed.
Lemma dumps_len : forall s m k a b ra, kindOk (d_kind s) -> dget m k = Some (VStr a) -> plain a -> plain b -> len a = len b -> dumps s m = Ok ra ->
  exists rb, dumps s (dset m k (VStr b)) = Ok rb /\ len rb = len ra.
Proof.
  intros s m k a b ra K G A B L H. unfold SerModel.dumps in *. destruct K as [E|[E|[E|[]]]]; rewrite <- E in *.
  - change (beq (s2b "JSON") (s2b "JSON")) with true in *. cbv iota in *. apply ok_inj in H. subst ra. eexists. split; [reflexivity|]. unfold len. f_equal. apply (json_dset_len m k (VStr a) (VStr b) G). apply plain_json; assumption.
  - change (beq (s2b "CBOR") (s2b "JSON")) with false in *. change (beq (s2b "CBOR") KindCesr) with false in *. cbv iota in *. eapply (lib_len _ _ LIB); [left; reflexivity|exact G|exact A|exact B|exact L|exact H].
  - change (beq (s2b "MGPK") (s2b "JSON")) with false in *. change (beq (s2b "MGPK") KindCesr) with false in *. cbv iota in *. eapply (lib_len _ _ LIB); [right; left; reflexivity|exact G|exact A|exact B|exact L|exact H].
Qed.
Lemma fill_len : forall s cds raw sd sd' r, kindOk (d_kind s) -> fillSaids digest cds raw sd = Ok sd' -> NoDup (keysOf cds) ->
  (forall l cd, In (l, cd) cds -> In cd DigDex -> exists n, dget sd l = Some (VStr (repeat 35 n)) /\ N.of_nat n = (if len cd =? 1 then 44 else 88)) ->
  dumps s sd = Ok r -> exists r', dumps s sd' = Ok r' /\ len r' = len r.
Proof.
  intros s cds raw. induction cds as [|[l c0] cds IH]; intros sd sd' r K H N P R; cbn [fillSaids] in H.
  - injection H as <-. eauto.
  - inversion N as [|? ? Nl N']; subst. destruct (memB c0 DigDex) eqn:M.
    + destruct (digerOf digest c0 raw) as [q|] eqn:Q; cbn [bind] in H; [|discriminate]. apply memB_In in M. destruct (P l c0 (or_introl eq_refl) M) as (n & G & L).
      destruct (digerOf_inv _ _ _ _ DOK Q) as (_ & LQ & PQ). destruct (dumps_len s sd l (repeat 35 n) q r K G (plain_rep n) PQ) as (rb & RB & LB); [unfold len at 1; rewrite repeat_length; congruence|exact R|].
      assert (PP : exists r', dumps s sd' = Ok r' /\ len r' = len rb); [|destruct PP as (r' & A & B); exists r'; split; [exact A|congruence]].
      eapply IH; [exact K|exact H|exact N'| |exact RB]. intros l' cd I D. destruct (P l' cd (or_intror I) D) as (n' & G' & L'). exists n'. split; [|exact L']. rewrite dget_dset. destruct (beq_spec l' l) as [->|]; [|exact G']. exfalso. apply Nl. exact (in_map fst _ _ I).
    + cbn [bind] in H. eapply IH; [exact K|exact H|exact N'| |exact R]. intros l' cd I D. apply (P l' cd (or_intror I) D).
Qed.

(** the facts about a verified message whose serialization is [d_raw] *)
Record verified (req : option bytes) (s : serder) (ilk : option bytes) (D vs : bytes) : Prop := {
  ve_req : match req with Some p => d_proto s = p | None => True end;
  ve_ilk : ilkOf (d_sad s) = Ok ilk;
  ve_tbl : exists tbl fd, Fields (d_proto s) (d_pvrsn s) = Some tbl /\ ilkget tbl ilk = Some fd /\ checkFields fd (keysOf (d_sad s)) = Ok tt /\ fdOk ilk fd;
  ve_raw : dumps s (d_sad s) = Ok (d_raw s);
  ve_D : dumps s (blank (saidFields ilk) (d_sad s)) = Ok D;
  ve_vs : dget (d_sad s) (s2b "v") = Some (VStr vs);
  ve_sm : deversify vs = Ok (smellOf s) /\ vs_of (smellOf s) = Ok vs;
  ve_size : d_size s = len (d_raw s);
  ve_said : forall l, In l (saidFields ilk) -> exists t cd, dget (d_sad s) l = Some (VStr t) /\ codeOf (Some (VStr t)) = Ok cd /\ (In cd DigDex -> isDigestOf digest cd D t) }.

Lemma shape_verified : forall req s ilk cds sd0 raw0 vs sd1 D sd2 sm, shape req s ilk cds sd0 raw0 vs sd1 D sd2 sm -> wfv (VMap (d_sad s)) -> kindOk (d_kind s) ->
  (d_sad s = sd2 \/ (dumps s (d_sad s) = Ok (d_raw s))) -> verified req s ilk D vs.
Proof.
  intros req s ilk cds sd0 raw0 vs sd1 D sd2 sm SH W K EQ. destruct SH as [RQ IL TB CD CO K0 G0 R0 VS S1 RD FI RR SM EQS SZ]. destruct (saidFields_nodup ilk) as (SN & SV & _).
  assert (KV : In (s2b "v") (keysOf (d_sad s))). { destruct TB as (tbl & fd & _ & _ & CF & FO). destruct (checkFields_v _ _ _ FO CF) as (r & ->). left. reflexivity. }
  assert (IK : forall l, In l (keysOf cds) -> In l (keysOf (d_sad s))).
  { intros l I. apply dget_keys. apply in_map_iff in I. destruct I as ([l' cd] & <- & I). specialize (CO _ _ I). cbn [fst]. destruct (dget (d_sad s) l'); [eauto|discriminate]. }
  assert (K1 : keysOf sd1 = keysOf (d_sad s)) by (subst sd1; rewrite keys_dset; [exact K0|rewrite K0; exact KV]).
  assert (NDc : NoDup (keysOf cds)) by (rewrite CD; exact SN).
  destruct (fillSaids_inv digest _ _ _ _ FI NDc) as (K2 & F1 & F2); [intros l I; rewrite K1; apply IK; exact I|].
  assert (ND : NoDup (keysOf (d_sad s))) by (destruct W as [A _]; exact A).
  assert (W0 : wfv (VMap sd0)).
  { split; [change (map fst sd0) with (keysOf sd0); rewrite K0; exact ND|]. destruct W as [_ W].
    assert (A : forall k v, In (k, v) (d_sad s) -> wfv v). { clear -W. induction (d_sad s) as [|[a x] d IH]; intros k v []; cbn [fold_right snd] in W; [injection H as -> ->; tauto|]. eapply IH; [tauto|exact H]. }
    assert (B : forall k v, In (k, v) sd0 -> wfv v).
    { intros k v I. apply (In_dget sd0 k v) in I; [|rewrite K0; exact ND]. rewrite G0 in I. destruct (dget (d_sad s) k) as [w|] eqn:G; [|discriminate]. cbn [option_map] in I. injection I as <-.
      apply dget_In' in G. apply A in G. unfold blankv. destruct (memB k (saidFields ilk)); [|exact G]. destruct (digestCode w); [|exact G]. destruct w; exact G. }
    clear -B. induction sd0 as [|[a x] d IH]; cbn [fold_right snd]; [exact Logic.I|]. split; [apply (B a x); left; reflexivity|]. apply IH. intros k v I. apply (B k v). right. exact I. }
  assert (W1 : wfv (VMap sd1)) by (subst sd1; apply wfv_dset; [exact W0|exact I|rewrite K0; exact KV]).
  assert (W2 : wfv (VMap sd2)) by (eapply fillSaids_wf; [exact FI| |exact W1]; intros l I; rewrite K1; apply IK; exact I).
  assert (E2 : d_sad s = sd2). { destruct EQ as [E|E]; [exact E|]. eapply (dumps_inj s s); [reflexivity|exact K|exact W|exact W2|exact E|exact RR]. }
  assert (GV : dget (d_sad s) (s2b "v") = Some (VStr vs)).
  { rewrite E2, F2; [subst sd1; rewrite dget_dset, beq_refl; reflexivity|]. intros cd I. exfalso. apply SV. rewrite <- CD. exact (in_map fst _ _ I). }
  assert (E1 : sd1 = blank (saidFields ilk) (d_sad s)).
  { apply alist_ext; [rewrite K1; exact ND|rewrite K1, blank_keys; reflexivity|]. intros k. subst sd1. rewrite dget_dset, blank_get. destruct (beq_spec k (s2b "v")) as [->|]; [|apply G0]. rewrite GV. cbn [option_map]. rewrite blankv_none by exact SV. reflexivity. }
  assert (E0 : sd1 = sd0). { rewrite S1. apply dset_same. rewrite G0, GV. cbn [option_map]. rewrite blankv_none by exact SV. reflexivity. }
  assert (ED : raw0 = D). { rewrite E0 in RD. rewrite R0 in RD. congruence. }
  assert (SD : forall l cd, In (l, cd) cds -> In cd DigDex -> exists t, dget (d_sad s) l = Some (VStr t) /\ digerOf digest cd D = Ok t).
  { intros l cd I DD. destruct (F1 l cd I DD) as (q & Q & G). exists q. rewrite E2. auto. }
  assert (LD : len (d_raw s) = len D).
  { destruct (fill_len s cds D sd1 sd2 D K FI NDc) as (r' & R' & L'); [|exact RD|rewrite RR in R'; injection R' as <-; exact L'].
    intros l cd I DD. destruct (SD l cd I DD) as (t & G & Q). destruct (digerOf_inv _ _ _ _ DOK Q) as ((_ & E & _) & L & _). exists (List.length t). split; [|exact L].
    rewrite E1, blank_get, G. cbn [option_map]. f_equal. unfold blankv. assert (M : memB l (saidFields ilk) = true) by (apply memB_In; rewrite <- CD; exact (in_map fst _ _ I)). rewrite M.
    assert (DC : digestCode (VStr t) = Some cd) by (apply digestCode_some; split; [cbn [codeOf]; rewrite E; reflexivity|exact DD]). rewrite DC. reflexivity. }
  destruct (c09_never_misread _ _ _ _ _ _ _ VS SM) as (N1 & N2 & N3 & N4 & N5). destruct EQS as (Q1 & Q2 & Q3 & Q4).
  assert (SZ' : d_size s = len (d_raw s)) by (destruct SZ as [S|S]; [rewrite <- S, N4, ED; congruence|exact S]).
  assert (SMO : sm = smellOf s). { unfold smellOf. destruct sm as [a b cc dd e]. cbn in *. subst a b cc. rewrite <- Q4. f_equal. congruence. }
  constructor; auto.
  - rewrite E2. exact RR.
  - rewrite <- E1. exact RD.
  - subst sm. split; [exact SM|]. unfold vs_of, smellOf. cbn. rewrite SZ', LD, <- ED. exact VS.
  - intros l I. assert (I' : In l (keysOf cds)) by (rewrite CD; exact I). apply in_map_iff in I'. destruct I' as ([l' cd] & E & I'). cbn [fst] in E. subst l'.
    pose proof (CO _ _ I') as C. destruct (dget (d_sad s) l) as [v|] eqn:G; [|discriminate]. destruct v; try discriminate. exists s0, cd. split; [reflexivity|]. split; [exact C|]. intros DD.
    destruct (SD l cd I' DD) as (t & G' & Q). rewrite G in G'. injection G' as ->. apply (digerOf_inv _ _ _ _ DOK Q).
Qed.

Lemma fits_kind : forall sm, fits sm -> s_kind sm <> KindCesr -> kindOk (s_kind sm).
Proof.
  intros sm F N. unfold fits in F. destruct (s_pvrsn sm) as [a b]. destruct F as [_ [(_ & _ & _ & I & _)|(_ & _ & _ & I & _)]]; cbn [In] in I; unfold kindOk; cbn [In]; [tauto|]. destruct I as [E|[E|[E|[E|[]]]]]; try tauto. exfalso. apply N. symmetry. exact E.
Qed.
Lemma smell_kindOk : forall raw sm, smell raw = Ok sm -> s_kind sm <> KindCesr -> kindOk (s_kind sm).
Proof. intros raw sm H N. destruct (c09_smell_sound _ _ H) as [F _]. apply fits_kind; assumption. Qed.

Lemma verify_base : forall k s, verify digest odumps cdumps k s = Ok tt -> verifyBase (match k with Base => None | KERI => Some (s2b "KERI") end) s = Ok tt.
Proof. intros [|] s H; cbn [verify] in H; [exact H|]. unfold verifyKERI in H. apply bind_ok in H. destruct H as ([] & H & _). exact H. Qed.
Lemma ofRaw_inv : forall k raw s, serderOfRaw digest odumps cdumps loads k raw = Ok s -> inhale loads raw = Ok s /\ verify digest odumps cdumps k s = Ok tt.
Proof. intros k raw s H. unfold serderOfRaw in H. apply bind_ok in H. destruct H as (s' & A & H). destruct (verify _ _ _ k s') as [[]|] eqn:V; [|discriminate]. apply ok_inj in H. subst. auto. Qed.

Lemma raw_verified : forall k raw s, serderOfRaw digest odumps cdumps loads k raw = Ok s -> d_kind s <> KindCesr ->
  exists ilk D vs, verified (match k with Base => None | KERI => Some (s2b "KERI") end) s ilk D vs.
Proof.
  intros k raw s H N. destruct (ofRaw_inv _ _ _ H) as [A V]. destruct (inhale_inv _ _ _ A) as (rest & _ & LS & SM & _ & LO & _). apply verify_base in V.
  destruct (verify_shape _ _ _ _ _ V N) as (ilk & cds & sd0 & raw0 & vs & sd1 & D & sd2 & sm & SH). pose proof (smell_kindOk _ _ SM N) as K. cbn in K.
  pose proof (lib_wf _ _ LIB _ _ _ LO) as W. exists ilk, D, vs. eapply shape_verified; [exact SH|exact W|exact K|].
  (* what was read is what the recomputed serialization reads as *)
  left. destruct SH as [RQ IL TB CD CO K0 G0 R0 VS S1 RD FI RR SM' EQS SZ].
  assert (W2 : wfv (VMap sd2)).
  { destruct (saidFields_nodup ilk) as (SN & SV & _). destruct TB as (tbl & fd & _ & _ & CF & FO). destruct (checkFields_v _ _ _ FO CF) as (r & KV).
    assert (KV' : In (s2b "v") (keysOf sd0)) by (rewrite K0, KV; left; reflexivity).
    eapply fillSaids_wf; [exact FI| |].
    - intros l I. rewrite S1, keys_dset by exact KV'. rewrite K0. apply dget_keys. apply in_map_iff in I. destruct I as ([l' cd] & <- & I). specialize (CO _ _ I). cbn [fst]. destruct (dget (d_sad s) l'); [eauto|discriminate].
    - rewrite S1. apply wfv_dset; [|exact Logic.I|exact KV'].
      destruct W as [ND W]. split; [change (map fst sd0) with (keysOf sd0); rewrite K0; exact ND|].
      assert (A' : forall k v, In (k, v) (d_sad s) -> wfv v). { clear -W. induction (d_sad s) as [|[a x] d IH]; intros k v []; cbn [fold_right snd] in W; [injection H as -> ->; tauto|]. eapply IH; [tauto|exact H]. }
      assert (B : forall k v, In (k, v) sd0 -> wfv v).
      { intros k0 v I. apply (In_dget sd0 k0 v) in I; [|rewrite K0; exact ND]. rewrite G0 in I. destruct (dget (d_sad s) k0) as [w|] eqn:G; [|discriminate]. cbn [option_map] in I. injection I as <-.
        apply dget_In' in G. apply A' in G. unfold blankv. destruct (memB k0 (saidFields ilk)); [|exact G]. destruct (digestCode w); [|exact G]. destruct w; exact G. }
      clear -B. induction sd0 as [|[a x] d IH]; cbn [fold_right snd]; [exact Logic.I|]. split; [apply (B a x); left; reflexivity|]. apply IH. intros k v I. apply (B k v). right. exact I. }
  pose proof (loads_dumps s sd2 _ K W2 RR) as L2. rewrite LO in L2. congruence.
Qed.
Lemma wfv_values : forall m, wfv (VMap m) <-> NoDup (keysOf m) /\ forall k v, In (k, v) m -> wfv v.
Proof.
  intros m. cbn [wfv]. change (map fst m) with (keysOf m). assert (E : fold_right (fun kv a => wfv (snd kv) /\ a) True m <-> forall k v, In (k, v) m -> wfv v); [|cbn beta in *; tauto].
  induction m as [|[a x] m IH]; cbn [fold_right snd]; [split; [intros _ ? ? []|auto]|]. rewrite IH. split.
  - intros [A B] k v [E|I]; [injection E as <- <-; exact A|eauto].
  - intros A. split; [apply (A a x); left; reflexivity|]. intros k v I. apply (A k v). right. exact I.
Qed.
Lemma blank_wf : forall L m, wfv (VMap m) -> wfv (VMap (blank L m)).
Proof.
  intros L m. rewrite !wfv_values. intros [N W]. rewrite blank_keys. split; [exact N|]. intros k v I. apply In_dget in I; [|rewrite blank_keys; exact N]. rewrite blank_get in I.
  destruct (dget m k) as [w|] eqn:G; [|discriminate]. cbn [option_map] in I. injection I as <-. apply dget_In' in G. apply W in G. unfold blankv. destruct (memB k L); [|exact G]. destruct (digestCode w); [|exact G]. destruct w; exact G.
Qed.

(** two verified messages that agree on the digest in a self addressing field *)
Lemma two_verified : forall rq1 rq2 s1 s2 ilk1 ilk2 D1 D2 vs1 vs2 l t cd, verified rq1 s1 ilk1 D1 vs1 -> verified rq2 s2 ilk2 D2 vs2 ->
  wfv (VMap (d_sad s1)) -> wfv (VMap (d_sad s2)) -> kindOk (d_kind s1) -> d_kind s1 = d_kind s2 ->
  In l (saidFields ilk1) -> In l (saidFields ilk2) -> dget (d_sad s1) l = Some (VStr t) -> dget (d_sad s2) l = Some (VStr t) -> digestCode (VStr t) = Some cd ->
  collision digest \/
  (ilk1 = ilk2 /\ vs1 = vs2 /\ keysOf (d_sad s1) = keysOf (d_sad s2) /\ (forall k, ~ In k (saidFields ilk1) -> dget (d_sad s1) k = dget (d_sad s2) k) /\
   forall k, In k (saidFields ilk1) -> dget (d_sad s1) k = dget (d_sad s2) k \/
     exists t1 t2 c1 c2, c1 <> c2 /\ dget (d_sad s1) k = Some (VStr t1) /\ dget (d_sad s2) k = Some (VStr t2) /\ isDigestOf digest c1 D1 t1 /\ isDigestOf digest c2 D1 t2).
Proof.
  intros rq1 rq2 s1 s2 ilk1 ilk2 D1 D2 vs1 vs2 l t cd V1 V2 W1 W2 K EK I1 I2 G1 G2 DC.
  apply digestCode_some in DC. destruct DC as [C DD].
  destruct (ve_said _ _ _ _ _ V1 l I1) as (x & cx & GX & CX & PX). rewrite G1 in GX. injection GX as <-. rewrite C in CX. injection CX as <-. specialize (PX DD).
  destruct (ve_said _ _ _ _ _ V2 l I2) as (y & cy & GY & CY & PY). rewrite G2 in GY. injection GY as <-. rewrite C in CY. injection CY as <-. specialize (PY DD).
  destruct (list_N_dec D1 D2) as [ED|ND].
  2:{ left. exists cd, D1, D2. split; [exact DD|]. split; [exact ND|]. destruct PX as (_ & EX & _), PY as (_ & EY & _). rewrite EX in EY. congruence. }
  subst D2. right.
  assert (B : blank (saidFields ilk1) (d_sad s1) = blank (saidFields ilk2) (d_sad s2)).
  { eapply (dumps_inj s1 s2); [exact EK|exact K|apply blank_wf; exact W1|apply blank_wf; exact W2|exact (ve_D _ _ _ _ _ V1)|exact (ve_D _ _ _ _ _ V2)]. }
  destruct (saidFields_nodup ilk1) as (_ & SV1 & ST1). destruct (saidFields_nodup ilk2) as (_ & SV2 & ST2).
  assert (BG : forall k, option_map (blankv (saidFields ilk1) k) (dget (d_sad s1) k) = option_map (blankv (saidFields ilk2) k) (dget (d_sad s2) k)) by (intros k; rewrite <- !blank_get, B; reflexivity).
  assert (EI : ilk1 = ilk2).
  { pose proof (ve_ilk _ _ _ _ _ V1) as L1. pose proof (ve_ilk _ _ _ _ _ V2) as L2. pose proof (BG (s2b "t")) as E. unfold ilkOf in L1, L2.
    assert (dget (d_sad s1) (s2b "t") = dget (d_sad s2) (s2b "t")) as E'. { destruct (dget (d_sad s1) (s2b "t")), (dget (d_sad s2) (s2b "t")); cbn [option_map] in E; try discriminate; [|reflexivity]. rewrite !blankv_none in E by assumption. exact E. }
    rewrite E' in L1. rewrite L1 in L2. congruence. }
  subst ilk2. split; [reflexivity|]. assert (NS : forall k, ~ In k (saidFields ilk1) -> dget (d_sad s1) k = dget (d_sad s2) k).
  { intros k N. specialize (BG k). destruct (dget (d_sad s1) k), (dget (d_sad s2) k); cbn [option_map] in BG; try discriminate; [|reflexivity]. rewrite !blankv_none in BG by exact N. exact BG. }
  split. { pose proof (NS _ SV1) as E. rewrite (ve_vs _ _ _ _ _ V1), (ve_vs _ _ _ _ _ V2) in E. congruence. }
  split. { rewrite <- (blank_keys (saidFields ilk1) (d_sad s1)), <- (blank_keys (saidFields ilk1) (d_sad s2)), B. reflexivity. }
  split; [exact NS|]. intros k Ik. destruct (ve_said _ _ _ _ _ V1 k Ik) as (a & ca & GA & CA & PA). destruct (ve_said _ _ _ _ _ V2 k Ik) as (b & cb & GB & CB & PB).
  specialize (BG k). rewrite GA, GB in BG |- *. cbn [option_map] in BG. injection BG as BG. unfold blankv in BG. assert (M : memB k (saidFields ilk1) = true) by (apply memB_In; exact Ik). rewrite M in BG.
  assert (HD : forall n, ~ exists c0, codeOf (Some (VStr (repeat 35 n))) = Ok c0). { intros n [c0 E]. destruct (dummy_no_code n) as [E'|[e E']]; congruence. }
  destruct (memB ca DigDex) eqn:MA; destruct (memB cb DigDex) eqn:MB; [apply memB_In in MA, MB|apply memB_In in MA; apply memB_nIn in MB|apply memB_nIn in MA; apply memB_In in MB|apply memB_nIn in MA, MB].
  - specialize (PA MA). specialize (PB MB). destruct (list_N_dec ca cb) as [EC|NC]; [subst cb; left; f_equal; f_equal; eapply isDigestOf_fun; eassumption|]. right. exists a, b, ca, cb. auto.
  - exfalso. rewrite (digestCode_none _ _ CB MB) in BG. assert (DA : digestCode (VStr a) = Some ca) by (apply digestCode_some; auto). rewrite DA in BG. injection BG as BG. apply (HD (List.length a)). rewrite BG. eauto.
  - exfalso. rewrite (digestCode_none _ _ CA MA) in BG. assert (DB : digestCode (VStr b) = Some cb) by (apply digestCode_some; auto). rewrite DB in BG. injection BG as BG. apply (HD (List.length b)). rewrite <- BG. eauto.
  - rewrite (digestCode_none _ _ CA MA), (digestCode_none _ _ CB MB) in BG. left. congruence.
Qed.
Lemma verified_same : forall rq1 rq2 s1 s2 ilk1 ilk2 D1 D2 vs, verified rq1 s1 ilk1 D1 vs -> verified rq2 s2 ilk2 D2 vs -> kindOk (d_kind s1) -> d_sad s1 = d_sad s2 -> s1 = s2.
Proof.
  intros rq1 rq2 s1 s2 ilk1 ilk2 D1 D2 vs V1 V2 K E. destruct (ve_sm _ _ _ _ _ V1) as [A _]. destruct (ve_sm _ _ _ _ _ V2) as [B _]. rewrite A in B. injection B as B1 B2 B3 B4 B5.
  pose proof (ve_raw _ _ _ _ _ V1) as R1. pose proof (ve_raw _ _ _ _ _ V2) as R2. rewrite E in R1. rewrite (dumps_kind s1 s2 _ B3 (kindOk_ne _ K)) in R1. rewrite R1 in R2. injection R2 as R2.
  destruct s1, s2. cbn in *. congruence.
Qed.

End Lib.

(** reading a JSON message *)
Lemma concat_plain : forall s, plain s -> List.concat (map jchar s) = s.
Proof.
  induction s as [|x s IH]; intros P; [reflexivity|]. inversion P as [|? ? Px Ps]; subst. cbn [map List.concat]. rewrite (IH Ps). unfold jchar.
  rewrite !(proj2 (N.eqb_neq x _)) by lia. destruct (N.ltb_spec x 32); [lia|]. reflexivity.
Qed.
Lemma jstr_plain : forall s : bytes, plain s -> jstr s = 34 :: s ++ [34].
Proof. intros s P. unfold jstr. f_equal. f_equal. apply concat_plain. exact P. Qed.
Lemma json_head : forall vs m, plain vs -> exists post, json (VMap ((s2b "v", VStr vs) :: m)) = (s2b "{""v"":""" ++ vs ++ post)%list /\ (m <> [] -> 6 <= len post).
Proof.
  intros vs m P. assert (A : exists tail, json (VMap ((s2b "v", VStr vs) :: m)) = 123 :: (jstr (s2b "v") ++ 58 :: json (VStr vs)) ++ tail /\ (m <> [] -> 5 <= len tail)).
  { cbn [json map fst snd]. destruct m as [|[k v] m]; cbn [map joinb]; eexists; (split; [|]); [reflexivity|congruence|rewrite <- app_assoc; reflexivity|]. intros _.
    cbn [fst snd]. unfold len. destruct (map _ m) as [|y l]; cbn [joinb app]; unfold jstr; repeat (rewrite ?app_length; cbn [List.length app]); lia. }
  destruct A as (tail & -> & L). exists (34 :: tail). cbn [json]. rewrite (jstr_plain vs P). split; [|intros M; specialize (L M); unfold len in *; cbn; lia].
  change (jstr (s2b "v")) with [34; 118; 34]. cbn [app]. rewrite <- !app_assoc. reflexivity.
Qed.
Lemma matches_plain : forall p f, matches p f = true -> List.length p = List.length f -> Forall (fun g : N -> bool => forall x, g x = true -> 32 <= x /\ x <> 34 /\ x <> 92 /\ x < 128) p -> plain f.
Proof.
  induction p as [|g p IH]; intros [|x f] M L F; try discriminate; [constructor|]. cbn [matches] in M. apply andb_true_iff in M. destruct M as [A B]. inversion F as [|? ? G F']; subst.
  constructor; [apply G; exact A|]. apply IH; [exact B|cbn in L; lia|exact F'].
Qed.
Definition okc (x : N) : Prop := 32 <= x /\ x <> 34 /\ x <> 92 /\ x < 128.
Lemma vs_plain : forall sm vs, fits sm -> vs_of sm = Ok vs -> plain vs /\ (len vs = 17 \/ len vs = 19).
Proof.
  intros sm vs F V. destruct (round sm F) as (vs' & A & L & R). rewrite V in A. injection A as <-. split; [|unfold len; lia]. destruct (R []) as [M _].
  assert (U : forall x, upper x = true -> okc x) by (intros x X; unfold upper in X; unfold okc; lia). assert (H : forall x, hexlow x = true -> okc x) by (intros x X; unfold hexlow in X; unfold okc; lia).
  assert (B : forall x, isB64 x = true -> okc x) by (intros x X; apply b64_plain; unfold isB64 in X; destruct (B64IdxByChr x); congruence).
  assert (E46 : forall x, 46 =? x = true -> okc x) by (intros x X; apply N.eqb_eq in X; unfold okc; lia). assert (E95 : forall x, 95 =? x = true -> okc x) by (intros x X; apply N.eqb_eq in X; unfold okc; lia).
  destruct (matchAt_inv _ _ M) as (r & E & [[L' C]|[L' C]]).
  - eapply matches_plain; [exact C|rewrite L'; reflexivity|]. unfold pat2. repeat (apply Forall_cons; [assumption|]). apply Forall_nil.
  - eapply matches_plain; [exact C|rewrite L'; reflexivity|]. unfold pat1. repeat (apply Forall_cons; [assumption|]). apply Forall_nil.
Qed.
