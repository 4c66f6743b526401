(** Accepted native messages commit to their own content. *)
From Verif Require Import Prelude B64Model B64Proofs MatterModel MatterProofs MatterInv MatterSpec MatterThms SubsModel SubsProofs SubsThms CtrModel CtrProofs CtrThms ThModel VerModel VerThms JsonModel JsonProofs SerModel SerSpec SerProofs SerInv PsProofs NmModel NmSpec NmProofs NmProofs2 NkModel NkSpec NkProofs NkProofs2 NkProofs3.
Open Scope N_scope.
Ltac Zify.zify_post_hook ::= Z.div_mod_to_equations.
Notation val := JsonModel.val.
Notation versionage := VerModel.versionage.
Notation inhaleNative := NkModel.inhaleNative.

(** ** Texts that were read *)
Lemma b64_Reb64 : forall s, b64text s -> Reb64 s = true.
Proof. intros s H. apply Reb64_b64text. exact H. Qed.
Definition fixedCode (c : bytes) : bool := match dget Sizes c with Some sz => match fs sz with Some _ => (ss sz =? 0) && negb (len c =? 0) | None => false end | None => false end.
Lemma strip_prim : forall dex s q r, forallb fixedCode dex = true -> stripDex dex s = Ok (q, r) -> isPrimOf dex q.
Proof.
  intros dex s q r F H. unfold stripDex in H. apply bind_ok in H. destruct H as ([m r'] & M & H). apply raise_if_ok in H. destruct H as [C H]. apply negb_false_iff, memB_In in C.
  apply bind_ok in H. destruct H as (q' & I & H). apply ok_inj in H. injection H as -> ->.
  unfold matter_strip in M. apply bind_ok in M. destruct M as (m' & X & M). apply bind_ok in M. destruct M as (f & _ & M). apply ok_inj in M. injection M as -> _.
  rewrite forallb_forall in F. specialize (F _ C). unfold fixedCode in F. destruct (exfil_inv _ _ X) as (sz & [XS _ _ XF _ XO _ _ XR]). rewrite XS in F. destruct (fs sz) as [n|] eqn:FS; [|discriminate].
  apply andb_true_iff in F. destruct F as [F NC]. apply N.eqb_eq in F. apply negb_true_iff, N.eqb_neq in NC.
  assert (SO : m_soft m = []) by (rewrite F in XF; destruct (m_soft m) as [|x0 so]; [reflexivity|]; exfalso; clear - XF; unfold len in XF; cbn [List.length] in XF; lia).
  assert (B : built m).
  { destruct m as [c so ra]. cbn [m_code m_soft m_raw] in *. subst so. eapply (built_raw ra c [] None); [exact XO|]. eapply fixed_raw; [exact XS|exact FS|exact F| |].
    - unfold rawSize. rewrite FS in *. f_equal. cbv iota in XR. generalize dependent ((n - (hs sz + ss sz)) * 3 / 4). clear. intros; lia.
    - intros ->. apply NC. reflexivity. }
  pose proof (prim_of _ _ B I) as P. split; [apply b64_Reb64; exact (pr_text _ _ P)|]. exists m. split; [exact (pr_exfil _ _ P)|]. split; [exact I|exact C].
Qed.
Lemma digest_prim : forall digest code ser t, digest_ok digest -> isDigestOf digest code ser t -> isPrimOf DigDex t.
Proof.
  intros digest code ser t OK (C & X & I). destruct (OK code ser C) as [O8 L]. pose proof (dig_matter code _ C L) as M.
  pose proof (prim_of _ _ (built_raw _ _ _ _ _ O8 M) I) as P. split; [apply b64_Reb64; exact (pr_text _ _ P)|]. eexists. split; [exact X|]. split; [exact I|exact C].
Qed.
Lemma prim_weaken : forall d d' s, (forall c, In c d -> In c d') -> isPrimOf d s -> isPrimOf d' s.
Proof. intros d d' s H (A & m & X & I & C). split; [exact A|]. exists m. auto. Qed.
Lemma dig_pre : forall c, In c DigDex -> In c PreDex.
Proof. intros c H. apply SerProofs.memB_In. unfold DigDex in H. cbn [map In] in H. repeat (destruct H as [<-|H]; [reflexivity|]). contradiction. Qed.

(** ** What acceptance establishes *)
Section Accept.
Variable digest : bytes -> bytes -> bytes.
Variable odumps : bytes -> sad -> res bytes.
Variable adumps : versionage -> option versionage -> sad -> res bytes.
Variable aloads : versionage -> option versionage -> bytes -> res sad.
Hypothesis DOK : digest_ok digest.
Notation cd_ := (cdumps adumps).

Lemma native_inv : forall k strip raw s r, nativeOfRaw digest odumps adumps aloads k strip raw = Ok (s, r) -> d_proto s = s2b "KERI" ->
  d_kind s = KindCesr /\ d_size s = len (d_raw s) /\ nativeLoads (d_pvrsn s) (d_gvrsn s) (d_raw s) = Ok (d_sad s) /\ verify digest odumps cd_ k s = Ok tt /\
  (sniff raw = Ok Ctxt -> exists rest, raw = d_raw s ++ rest /\ r = if strip then rest else raw).
Proof.
  intros k strip raw s r H PR. unfold nativeOfRaw in H. apply bind_ok in H. destruct H as ([s' r'] & IN & H). destruct (verify digest odumps cd_ k s') as [[]|e] eqn:V; [|discriminate]. apply ok_inj in H. injection H as -> ->.
  assert (TX : forall ctr sraw, inhaleText aloads ctr sraw = Ok s -> d_kind s = KindCesr /\ d_size s = len (d_raw s) /\ nativeLoads (d_pvrsn s) (d_gvrsn s) (d_raw s) = Ok (d_sad s) /\ d_raw s = sraw).
  { intros ctr sraw T. unfold inhaleText in T. apply bind_ok in T. destruct T as (sz & _ & T). apply bind_ok in T. destruct T as (off & _ & T). apply bind_ok in T. destruct T as ([vm x] & _ & T). apply bind_ok in T. destruct T as ([[pr p] g] & _ & T).
    apply bind_ok in T. destruct T as (sd & L & T). apply raise_if_ok in T. destruct T as [_ T]. apply ok_inj in T. subst s. cbn [d_kind d_size d_raw d_pvrsn d_gvrsn d_sad d_proto] in *. subst pr. unfold cloads in L. rewrite beq_refl in L.
    destruct (nativeLoads p g sraw) as [sd'|] eqn:NL; [|discriminate]. apply ok_inj in L. subst sd'. auto. }
  unfold inhaleNative in IN. apply bind_ok in IN. destruct IN as (co & SN & IN). destruct co; try discriminate.
  - apply bind_ok in IN. destruct IN as (ctr & C & IN). apply bind_ok in IN. destruct IN as (sz & S & IN). cbv zeta in IN. apply raise_if_ok in IN. destruct IN as [L IN]. apply bind_ok in IN. destruct IN as (s' & T & IN). apply ok_inj in IN. injection IN as -> <-.
    destruct (TX _ _ T) as (A & B & D & E). repeat (split; [assumption|]). intros _. exists (ndrop (byteCount_txt ctr + cfs sz) raw). rewrite E. split; [unfold ntake, ndrop; symmetry; apply firstn_skipn|reflexivity].
  - apply bind_ok in IN. destruct IN as (ctr & C & IN). apply bind_ok in IN. destruct IN as (sz & S & IN). cbv zeta in IN. apply raise_if_ok in IN. destruct IN as [L IN]. apply bind_ok in IN. destruct IN as (s' & T & IN). apply ok_inj in IN. injection IN as -> <-.
    destruct (TX _ _ T) as (A & B & D & E). repeat (split; [assumption|]). rewrite SN. discriminate.
Qed.

Lemma loadFields_keys : forall p g size ilk ls s m, loadFields p g size ilk ls s = Ok m -> keysOf m = ls.
Proof.
  intros p g size ilk ls. induction ls as [|l ls IH]; intros s m H; cbn [loadFields] in H; [apply ok_inj in H; subst m; reflexivity|].
  apply bind_ok in H. destruct H as ([v r] & _ & H). apply bind_ok in H. destruct H as (m' & M & H). apply ok_inj in H. subst m. cbn [keysOf map fst]. f_equal. exact (IH _ _ M).
Qed.
Lemma loads_inv : forall raw sd, nativeLoads (2, 0) G2 raw = Ok sd -> exists ilk fd ls vs fs b, layout ilk fd ls /\ sd = (s2b "v", VStr vs) :: (s2b "t", VStr ilk) :: fs /\ keysOf fs = s2b "d" :: ls /\
  versify (s2b "KERI") (2, 0) KindCesr (len raw) G2 = Ok vs /\ loadFields (2, 0) G2 (len raw) ilk (s2b "d" :: ls) b = Ok fs.
Proof.
  intros raw sd H. unfold nativeLoads in H. apply bind_ok in H. destruct H as ([ctr r] & _ & H). apply raise_if_ok in H. destruct H as [_ H]. apply raise_if_ok in H. destruct H as [_ H].
  apply bind_ok in H. destruct H as ([vm r1] & _ & H). apply bind_ok in H. destruct H as (va & _ & H). apply bind_ok in H. destruct H as ([ilk b] & _ & H). apply raise_if_ok in H. destruct H as [_ H].
  apply bind_ok in H. destruct H as (fd & F & H). destruct (fixed_layout _ _ F) as (ls & L). rewrite (la_keys _ _ _ L) in H. cbn [loadFields] in H.
  change (loadField (2, 0) G2 (len raw) ilk (s2b "v") b) with (vs <- versify (s2b "KERI") (2, 0) KindCesr (len raw) G2 ;; Ok (VStr vs, b)) in H.
  apply bind_ok in H. destruct H as ([v' b'] & V & H). apply bind_ok in V. destruct V as (vs & V & V'). apply ok_inj in V'. apply pair_equal_spec in V'. destruct V' as [<- <-].
  apply bind_ok in H. destruct H as (m & M & H). apply ok_inj in H. subst sd.
  change (loadField (2, 0) G2 (len raw) ilk (s2b "t") b) with (Ok (VStr ilk, b)) in M. cbn [bind] in M. apply bind_ok in M. destruct M as (fs & FS & M). apply ok_inj in M. subst m.
  exists ilk, fd, ls, vs, fs, b. split; [exact L|]. split; [reflexivity|]. split; [exact (loadFields_keys _ _ _ _ (s2b "d" :: ls) _ _ FS)|]. split; [exact V|exact FS].
Qed.

Record nverified (s : serder) (ilk vs dq : bytes) (fs : sad) (ls : list bytes) (vt it b D : bytes) : Prop := {
  nv_proto : d_proto s = s2b "KERI"; nv_kind : d_kind s = KindCesr; nv_p : d_pvrsn s = (2, 0); nv_g : d_gvrsn s = G2; nv_size : d_size s = len (d_raw s);
  nv_lay : exists fd, layout ilk fd ls;
  nv_sad : d_sad s = (s2b "v", VStr vs) :: (s2b "t", VStr ilk) :: (s2b "d", VStr dq) :: fs;
  nv_keys : keysOf fs = ls;
  nv_vs : versify (s2b "KERI") (2, 0) KindCesr (len (d_raw s)) G2 = Ok vs /\ deversify vs = Ok (smellOf s);
  nv_parts : parts (d_raw s) ilk ((s2b "d", VStr dq) :: fs) vt it (dq ++ b);
  nv_b : fields ilk fs = Ok b;
  nv_load : loadFields (2, 0) G2 (len (d_raw s)) ilk ls b = Ok fs;
  nv_dq : isPrimOf DigDex dq;
  nv_D : nativeDumps (2, 0) G2 (blank (saidFields (Some ilk)) (d_sad s)) = Ok D;
  nv_said : forall l, In l (saidFields (Some ilk)) -> exists t cd, dget (d_sad s) l = Some (VStr t) /\ isPrimOf PreDex t /\ codeOf (Some (VStr t)) = Ok cd /\ (In cd DigDex -> isDigestOf digest cd D t) }.

Lemma versions : forall p g raw sd tbl, nativeLoads p g raw = Ok sd -> Fields (s2b "KERI") p = Some tbl -> (fst p <? 2) = false -> (match g with Some g => fst g <? 2 | None => false end) = false -> p = (2, 0) /\ g = G2.
Proof.
  intros p g raw sd tbl H F P1 P2. split.
  - unfold Fields in F. change (beq (s2b "KERI") (s2b "KERI")) with true in F. cbv iota zeta in F. destruct p as [a c]. cbn [fst snd] in *.
    destruct ((a =? 1) && (c =? 0)) eqn:E1; [apply andb_true_iff in E1; destruct E1 as [E1 _]; apply N.eqb_eq in E1; subst a; discriminate|].
    destruct ((a =? 2) && (c =? 0)) eqn:E2; [|discriminate]. apply andb_true_iff in E2. destruct E2 as [E2 E3]. apply N.eqb_eq in E2, E3. subst. reflexivity.
  - unfold nativeLoads in H. apply bind_ok in H. destruct H as ([ctr r] & C & H). apply raise_if_ok in H. destruct H as [NG _]. destruct g as [[a c]|]; [|discriminate].
    unfold counter_strip in C. apply bind_ok in C. destruct C as (c' & X & _). unfold cexfil in X. apply bind_ok in X. destruct X as ([co si] & T & _). cbn [ctrV] in T. unfold ctables in T. cbn [vmajor vminor] in T. cbn [fst] in P2.
    destruct (a =? 1) eqn:E1; [apply N.eqb_eq in E1; subst a; discriminate|]. destruct (a =? 2) eqn:E2; [|discriminate]. apply raise_if_ok in T. destruct T as [T _]. apply N.eqb_eq in E2. apply N.ltb_ge in T.
    assert (c = 0) by lia. subst. reflexivity.
Qed.
Lemma ilkOf_cons : forall x ilk fs, ilkOf ((s2b "v", x) :: (s2b "t", VStr ilk) :: fs) = Ok (Some ilk).
Proof. reflexivity. Qed.
Lemma in_said : forall ilk l, In l (saidFields (Some ilk)) -> l = s2b "d" \/ (l = s2b "i" /\ In (s2b "d") (saidFields (Some ilk))).
Proof.
  intros ilk l I. cbn [saidFields] in *. destruct (beq ilk (s2b "rct")); [contradiction|]. destruct (memB ilk _); [destruct I as [I|[I|[]]]|destruct I as [I|[]]]; subst; auto. right. split; [reflexivity|left; reflexivity].
Qed.
Lemma primCode : forall dex t, isPrimOf dex t -> exists cd, codeOf (Some (VStr t)) = Ok cd /\ In cd dex.
Proof. intros dex t (_ & m & X & _ & C). exists (m_code m). split; [|exact C]. cbn [codeOf]. rewrite X. reflexivity. Qed.
Lemma prim_eq : forall dex q b q1 r1, isPrimOf dex q -> stripDex dex (q ++ b) = Ok (q1, r1) -> q1 = q /\ r1 = b.
Proof. intros dex q b q1 r1 P H. rewrite (rd_read _ _ _ (stripDex_reads _ _ P)) in H. apply ok_inj in H. injection H as <- <-. auto. Qed.
Lemma fixed_dig : forallb fixedCode DigDex = true. Proof. vm_compute. reflexivity. Qed.
Lemma fixed_pre : forallb fixedCode PreDex = true. Proof. vm_compute. reflexivity. Qed.
Lemma nodup_layout : forall ilk fd ls, layout ilk fd ls -> NoDup (s2b "v" :: s2b "t" :: s2b "d" :: ls).
Proof.
  intros ilk fd ls L. rewrite <- (la_keys _ _ _ L). eapply fo_nodup. eapply fd_ok; [|exact (ilks_once _ _ (la_in _ _ _ L))]. instantiate (1 := (2, 0)). instantiate (1 := s2b "KERI"). reflexivity.
Qed.

Lemma native_verified : forall k s, verify digest odumps cd_ k s = Ok tt -> d_proto s = s2b "KERI" -> d_kind s = KindCesr -> d_size s = len (d_raw s) ->
  nativeLoads (d_pvrsn s) (d_gvrsn s) (d_raw s) = Ok (d_sad s) -> exists ilk vs dq fs ls vt it b D, nverified s ilk vs dq fs ls vt it b D.
Proof.
  intros k s V PR KI SZ LO. apply verify_base in V. unfold verifyBase in V. apply bind_ok in V. destruct V as ([sd0 cds] & VA & V). unfold validate in VA.
  apply raise_if_ok in VA. destruct VA as [_ VA]. apply raise_if_ok in VA. destruct VA as [_ VA]. apply raise_if_ok in VA. destruct VA as [GM VA]. apply raise_if_ok in VA. destruct VA as [PM VA].
  rewrite KI in PM. change (beq KindCesr KindCesr) with true in PM. cbn [andb] in PM. rewrite PR in VA.
  destruct (Fields (s2b "KERI") (d_pvrsn s)) as [tbl|] eqn:FT; [|discriminate]. apply bind_ok in VA. destruct VA as (ilk' & IL & VA). destruct (ilkget tbl ilk') as [fd'|] eqn:IG; [|discriminate].
  apply bind_ok in VA. destruct VA as ([] & CF & VA).
  destruct (versions _ _ _ _ _ LO FT PM GM) as [EP EG]. rewrite EP, EG in LO. destruct (loads_inv _ _ LO) as (ilk & fd & ls & vs & fs & b & LA & ES & KF & VS & LF).
  rewrite ES, ilkOf_cons in IL. apply ok_inj in IL. subst ilk'. rewrite EP in FT. change (Fields (s2b "KERI") (2, 0)) with (Some Fields_KERI_2) in FT. apply some_inj in FT. subst tbl.
  rewrite (ilks_once _ _ (la_in _ _ _ LA)) in IG. apply some_inj in IG. subst fd'.
  assert (FO : fdOk (Some ilk) fd) by (eapply fd_ok; [|exact (ilks_once _ _ (la_in _ _ _ LA))]; instantiate (1 := (2, 0)); instantiate (1 := s2b "KERI"); reflexivity).
  destruct (saidFields_nodup (Some ilk)) as (SN & SV & _).
  destruct (dummySaids_inv _ _ _ _ VA) as (K1 & K2 & K3 & K4). { rewrite (fo_saids _ _ FO). exact SN. } { apply (fo_dig _ _ FO). }
  rewrite (fo_saids _ _ FO) in K1, K4.
  apply bind_ok in V. destruct V as ([[sdv raw] size] & C & V). unfold compute in C. rewrite KI in C. change (beq KindCesr KindCesr) with true in C. cbn [negb] in C. cbv iota in C.
  assert (DU : forall sd, SerModel.dumps odumps cd_ s sd = nativeDumps (2, 0) G2 sd).
  { intros sd. unfold SerModel.dumps. rewrite KI, PR, EP, EG. reflexivity. }
  rewrite DU in C. apply bind_ok in C. destruct C as (D & RD & C). apply bind_ok in C. destruct C as (sd2 & FI & C). rewrite DU in C. apply bind_ok in C. destruct C as (raw' & RR & C). apply bind_ok in C. destruct C as (vs' & VS' & C). apply ok_inj in C. injection C as <- <- <-.
  apply raise_if_ok in V. destruct V as [EQ V]. apply negb_false_iff, beq_eq in EQ. subst raw'.
  rewrite ?PR, ?KI, ?EP, ?EG, VS in VS'. apply ok_inj in VS'. subst vs'.
  rewrite dget_dset, beq_refl in V. apply bind_ok in V. destruct V as (sm & DV & V). clear V.
  destruct (fillSaids_inv digest _ _ _ _ FI) as (F1 & F2 & F3). { rewrite K1. exact SN. }
  { intros l I. rewrite K2. apply dget_keys. apply in_map_iff in I. destruct I as ([l' cd] & <- & I). specialize (K3 _ _ I). cbn [fst]. destruct (dget (d_sad s) l'); [eauto|discriminate]. }
  rewrite K2 in F1.
  assert (CODE : forall l, In l (saidFields (Some ilk)) -> exists cd, In (l, cd) cds /\ codeOf (dget (d_sad s) l) = Ok cd).
  { intros l I. rewrite <- K1 in I. apply in_map_iff in I. destruct I as ([l' cd] & E & I). cbn [fst] in E. subst l'. exists cd. split; [exact I|exact (K3 _ _ I)]. }
  (* fields that are not recomputed *)
  assert (NOT : forall k0, ~ In k0 (saidFields (Some ilk)) -> dget sd2 k0 = dget (d_sad s) k0).
  { intros k0 N. rewrite F3, K4 by (intros cd I _; apply N; rewrite <- K1; exact (in_map fst _ _ I)). destruct (dget (d_sad s) k0); [|reflexivity]. cbn [option_map]. rewrite blankv_none by exact N. reflexivity. }
  (* those that are *)
  assert (SAID : forall l t, In l (saidFields (Some ilk)) -> dget (d_sad s) l = Some (VStr t) -> isPrimOf PreDex t -> exists t2, dget sd2 l = Some (VStr t2) /\
     ((t2 = t /\ digestCode (VStr t) = None) \/ exists cd, digestCode (VStr t) = Some cd /\ isDigestOf digest cd D t2)).
  { intros l t I G P. destruct (CODE _ I) as (cd & IC & CO). rewrite G in CO. destruct (in_dec list_N_dec cd DigDex) as [Id|Nd].
    - destruct (F2 _ _ IC Id) as (q & DQ & G2'). exists q. split; [exact G2'|]. right. exists cd. split; [apply digestCode_some; auto|]. apply digerOf_inv in DQ; [tauto|exact DOK].
    - exists t. split; [|left; split; [reflexivity|eapply digestCode_none; eassumption]]. rewrite F3, K4.
      + rewrite G. cbn [option_map]. rewrite blankv_nodig; [reflexivity|]. eapply digestCode_none; eassumption.
      + intros cd' I' D'. apply Nd. specialize (K3 _ _ I'). rewrite G, CO in K3. apply ok_inj in K3. subst cd'. exact D'. }
  (* the shape of the recomputed map *)
  assert (KS : keysOf (d_sad s) = s2b "v" :: s2b "t" :: s2b "d" :: ls) by (rewrite ES; cbn [keysOf map fst]; f_equal; f_equal; exact KF).
  destruct fs as [|[d0 d1] fs]; [discriminate KF|]. cbn [keysOf map fst] in KF. injection KF as -> KF. change (map fst fs) with (keysOf fs) in KF.
  rewrite KS in F1. destruct sd2 as [|[a0 x0] [|[a1 x1] [|[a2 x2] fs2]]]; try discriminate F1. cbn [keysOf map fst] in F1. injection F1 as -> -> -> F1. change (map fst fs2) with (keysOf fs2) in F1.
  assert (TI : ~ In (s2b "t") (saidFields (Some ilk))) by (intros I; destruct (in_said _ _ I) as [X|[X _]]; discriminate X).
  assert (X1 : x1 = VStr ilk). { pose proof (NOT _ TI) as N. rewrite ES in N. change (Some x1 = Some (VStr ilk)) in N. apply some_inj in N. exact N. } subst x1.
  assert (VI : x0 = VStr vs). { pose proof (NOT _ SV) as N. rewrite ES in N. change (Some x0 = Some (VStr vs)) in N. apply some_inj in N. exact N. } subst x0.
  destruct (dumps_parts _ _ _ _ RR) as (ilk' & vt & it & b2 & E & _ & P). injection E as <-.
  assert (LL : loadFields (2, 0) G2 (len (d_raw s)) ilk (s2b "d" :: ls) b2 = Ok ((s2b "d", d1) :: fs)).
  { pose proof (loads_parts _ _ _ _ _ _ P) as Q. rewrite LO, (layout_fixed _ _ _ LA) in Q. cbn [bind] in Q. rewrite (la_keys _ _ _ LA) in Q. cbn [loadFields] in Q.
    change (loadField (2, 0) G2 (len (d_raw s)) ilk (s2b "v") b2) with (vs <- versify (s2b "KERI") (2, 0) KindCesr (len (d_raw s)) G2 ;; Ok (VStr vs, b2)) in Q. rewrite VS in Q. cbn [bind] in Q.
    change (loadField (2, 0) G2 (len (d_raw s)) ilk (s2b "t") b2) with (Ok (VStr ilk, b2)) in Q. cbn [bind] in Q. symmetry in Q. apply bind_ok in Q. destruct Q as (m' & Q1 & Q2). apply bind_ok in Q1. destruct Q1 as (m & Q1 & Q3).
    apply ok_inj in Q2, Q3. subst m'. rewrite ES in Q2. injection Q2 as E2. rewrite <- E2. exact Q1. }
  cbn [loadFields] in LL. change (loadField (2, 0) G2 (len (d_raw s)) ilk (s2b "d") b2) with ('(q, r) <- stripDex DigDex b2 ;; Ok (VStr q, r)) in LL.
  apply bind_ok in LL. destruct LL as ([y r] & Q1 & LL). apply bind_ok in Q1. destruct Q1 as ([dq r'] & SD & Q1). apply ok_inj in Q1. apply pair_equal_spec in Q1. destruct Q1 as [<- <-]. rename r' into r.
  apply bind_ok in LL. destruct LL as (m & LM & LL). apply ok_inj in LL. injection LL as <- ->. subst ls.
  pose proof (strip_prim _ _ _ _ fixed_dig SD) as PD.
  assert (GD : dget (d_sad s) (s2b "d") = Some (VStr dq)) by (rewrite ES; reflexivity).
  (* d *)
  pose proof (pa_b _ _ _ _ _ _ P) as PB. unfold fields in PB. cbn [concatr fst snd] in PB. apply bind_ok in PB. destruct PB as (q2 & Q2 & PB). change (dumpField (2, 0) G2 ilk (s2b "d") x2) with (textVal x2) in Q2.
  apply bind_ok in PB. destruct PB as (b3 & PB & E). apply ok_inj in E. destruct x2 as [ | | |s2| | ]; try discriminate Q2. cbn [textVal] in Q2. apply ok_inj in Q2. subst s2.
  assert (GD2 : forall P0 : Prop, (Some (VStr q2) = dget ((s2b "v", VStr vs) :: (s2b "t", VStr ilk) :: (s2b "d", VStr q2) :: fs2) (s2b "d") -> P0) -> P0) by (intros P0 HH; apply HH; reflexivity).
  assert (DQ : q2 = dq /\ b3 = r).
  { assert (PQ : isPrimOf DigDex q2).
    { destruct (in_dec list_N_dec (s2b "d") (saidFields (Some ilk))) as [I|N].
      - destruct (SAID _ _ I GD (prim_weaken _ _ _ dig_pre PD)) as (t2 & G' & [[-> N]|(cd & C1 & C2)]).
        + change (Some (VStr q2) = Some (VStr dq)) in G'. injection G' as ->. exact PD.
        + change (Some (VStr q2) = Some (VStr t2)) in G'. injection G' as ->. eapply digest_prim; eassumption.
      - pose proof (NOT _ N) as G'. rewrite GD in G'. change (Some (VStr q2) = Some (VStr dq)) in G'. injection G' as ->. exact PD. }
    rewrite <- E in SD. destruct (prim_eq _ _ _ _ _ PQ SD) as [-> ->]. auto. }
  clear GD2. destruct DQ as [-> ->].
  (* i *)
  assert (II : In (s2b "i") (saidFields (Some ilk)) -> exists ti, isPrimOf PreDex ti /\ dget (d_sad s) (s2b "i") = Some (VStr ti) /\ dget ((s2b "v", VStr vs) :: (s2b "t", VStr ilk) :: (s2b "d", VStr dq) :: fs2) (s2b "i") = Some (VStr ti)).
  { intros I. destruct (la_i _ _ _ LA I) as (ls' & EL & _). destruct fs as [|[k1 i1] fs]; [discriminate EL|]. cbn [keysOf map fst] in EL. injection EL as -> EL. cbn [keysOf map fst loadFields] in LM.
    change (loadField (2, 0) G2 (len (d_raw s)) ilk (s2b "i") r) with ('(q, r) <- stripDex PreDex r ;; Ok (VStr q, r)) in LM.
    apply bind_ok in LM. destruct LM as ([y r2] & Q1 & LM). apply bind_ok in Q1. destruct Q1 as ([iq r3] & SI & Q1). apply ok_inj in Q1. apply pair_equal_spec in Q1. destruct Q1 as [<- <-].
    apply bind_ok in LM. destruct LM as (m & LM & LL). apply ok_inj in LL. injection LL as <- ->.
    pose proof (strip_prim _ _ _ _ fixed_pre SI) as PI. assert (GI : dget (d_sad s) (s2b "i") = Some (VStr iq)) by (rewrite ES; reflexivity).
    exists iq. split; [exact PI|]. split; [exact GI|].
    destruct fs2 as [|[k2 i2] fs2]; [discriminate F1|]. cbn [keysOf map fst] in F1. injection F1 as -> F1. cbn [concatr fst snd] in PB. apply bind_ok in PB. destruct PB as (q3 & Q3 & PB). change (dumpField (2, 0) G2 ilk (s2b "i") i2) with (textVal i2) in Q3.
    apply bind_ok in PB. destruct PB as (b4 & PB & E4). apply ok_inj in E4. destruct i2 as [ | | |s2| | ]; try discriminate Q3. cbn [textVal] in Q3. apply ok_inj in Q3. subst s2.
    change (Some (VStr q3) = Some (VStr iq)). f_equal. f_equal.
    assert (PQ : isPrimOf PreDex q3).
    { destruct (SAID _ _ I GI PI) as (t2 & G' & [[-> N]|(cd & C1 & C2)]).
      - change (Some (VStr q3) = Some (VStr iq)) in G'. injection G' as ->. exact PI.
      - change (Some (VStr q3) = Some (VStr t2)) in G'. injection G' as ->. eapply prim_weaken; [exact dig_pre|]. eapply digest_prim; eassumption. }
    rewrite <- E4 in SI. destruct (prim_eq _ _ _ _ _ PQ SI) as [-> _]. reflexivity. }
  assert (SAME : (s2b "v", VStr vs) :: (s2b "t", VStr ilk) :: (s2b "d", VStr dq) :: fs2 = d_sad s).
  { apply alist_ext.
    - cbn [keysOf map fst]. change (map fst fs2) with (keysOf fs2). rewrite F1. eapply nodup_layout. exact LA.
    - rewrite KS. cbn [keysOf map fst]. change (map fst fs2) with (keysOf fs2). rewrite F1. reflexivity.
    - intros k0. destruct (in_dec list_N_dec k0 (saidFields (Some ilk))) as [I|N]; [|apply NOT; exact N]. destruct (in_said _ _ I) as [-> | [-> _]]; [rewrite GD; reflexivity|].
      destruct (II I) as (ti & _ & A & B). rewrite A, B. reflexivity. }
  rewrite ES in SAME. injection SAME as SAME. subst fs2.
  assert (BL : sd0 = blank (saidFields (Some ilk)) (d_sad s)).
  { apply alist_ext; [rewrite K2, KS; eapply nodup_layout; exact LA|rewrite blank_keys, K2; reflexivity|]. intros k0. rewrite blank_get. apply K4. }
  exists ilk, vs, dq, fs, (keysOf fs), vt, it, r, D. constructor; auto.
  - exists fd. exact LA.
  - split; [exact VS|]. rewrite DV. f_equal. destruct (c09_never_misread _ _ _ _ _ _ _ VS DV) as (M1 & M2 & M3 & M4 & M5). destruct sm as [a1 a2 a3 a4 a5]. cbn [s_proto s_pvrsn s_kind s_size s_gvrsn] in *. unfold smellOf. rewrite PR, KI, EP, EG, SZ. subst. reflexivity.
  - rewrite E. exact P.
  - rewrite <- BL. exact RD.
  - intros l I. assert (G : exists t, dget (d_sad s) l = Some (VStr t) /\ isPrimOf PreDex t /\ dget ((s2b "v", VStr vs) :: (s2b "t", VStr ilk) :: (s2b "d", VStr dq) :: fs) l = Some (VStr t)).
    { destruct (in_said _ _ I) as [-> | [-> _]]; [exists dq; split; [exact GD|]; split; [exact (prim_weaken _ _ _ dig_pre PD)|reflexivity]|]. destruct (II I) as (ti & A & B & C'). eauto. }
    destruct G as (t & G & PT & G'). destruct (primCode _ _ PT) as (cd & CO & _). exists t, cd. do 3 (split; [assumption|]). intros ID.
    destruct (SAID _ _ I G PT) as (t2 & G3 & [[_ N]|(cd' & C1 & C2)]).
    + exfalso. assert (X : digestCode (VStr t) = Some cd) by (apply digestCode_some; auto). congruence.
    + rewrite G' in G3. injection G3 as <-. apply digestCode_some in C1. destruct C1 as [C1 _]. rewrite CO in C1. injection C1 as <-. exact C2.
Qed.
End Accept.
