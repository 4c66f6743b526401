From Verif Require Import Prelude B64Model B64Proofs MatterModel MatterProofs MatterInv MatterSpec MatterThms SubsModel SubsProofs ThModel VerModel VerThms JsonModel JsonProofs SerModel SerSpec SerProofs SerInv SerMake.
Open Scope N_scope.
Ltac Zify.zify_post_hook ::= Z.div_mod_to_equations.

Lemma ofRaw_wf : forall digest odumps cdumps loads k raw s, library odumps loads -> serderOfRaw digest odumps cdumps loads k raw = Ok s -> d_kind s <> KindCesr -> wfv (VMap (d_sad s)) /\ kindOk (d_kind s).
Proof.
  intros digest odumps cdumps loads k raw s LIB H N. destruct (ofRaw_inv _ _ _ _ _ _ _ H) as [A _]. destruct (inhale_inv _ _ _ A) as (rest & _ & _ & SM & _ & LO & _).
  split; [exact (lib_wf _ _ LIB _ _ _ LO)|]. exact (smell_kindOk _ _ SM N).
Qed.
Lemma verified_make : forall digest odumps cdumps loads k args sd s, digest_ok digest -> library odumps loads -> serderMake digest odumps cdumps k args sd = Ok s ->
  wfv (VMap sd) -> d_kind s <> KindCesr -> d_proto s = s2b "KERI" -> (forall l d, In (l, d) (a_saids args) -> In d DigDex) ->
  wfv (VMap (d_sad s)) /\ verify digest odumps cdumps k s = Ok tt /\ exists ilk D vs, verified digest odumps cdumps (match k with Base => None | KERI => Some (s2b "KERI") end) s ilk D vs.
Proof.
  intros digest odumps cdumps loads k args sd s DOK LIB H W NK PK O. unfold serderMake in H. apply bind_ok in H. destruct H as (s' & M & H). destruct (verify digest odumps cdumps k s') as [[]|] eqn:V; [|discriminate]. apply ok_inj in H. subst s'.
  destruct (makify_made _ _ _ _ _ _ _ M W NK PK O) as (ilk & tbl & fd & sd4 & cds & raw0 & vs & sd1 & D & MD). destruct (made_facts _ _ _ _ _ _ _ _ _ _ _ _ _ MD NK PK) as (_ & WS & _).
  split; [exact WS|]. split; [exact V|]. apply verify_base in V. destruct (verify_shape _ _ _ _ _ V NK) as (ilk' & cds' & sd0 & raw0' & vs' & sd1' & D' & sd2 & sm & SH).
  assert (K : kindOk (d_kind s)). { destruct SH as [? ? ? ? ? ? ? ? ? ? ? ? ? SM (Q1 & Q2 & Q3 & Q4) ?]. destruct (c09_canonical _ _ SM) as [F _]. rewrite Q3. apply fits_kind; [exact F|rewrite <- Q3; exact NK]. }
  exists ilk', D', vs'. eapply shape_verified; [exact DOK|exact LIB|exact SH|exact WS|exact K|]. right. exact (md_raw _ _ _ _ _ _ _ _ _ _ _ _ _ MD).
Qed.

Lemma said_only : forall ilk k, In k (saidFields ilk) -> k = s2b "d" \/ k = s2b "i".
Proof.
  intros ilk k I. unfold saidFields in I. destruct ilk as [x|]; [|destruct I as [I|[]]; left; congruence]. destruct (beq x (s2b "rct")); [contradiction|].
  destruct (memB x [s2b "icp"; s2b "dip"; s2b "vcp"]); [destruct I as [I|[I|[]]]|destruct I as [I|[]]]; subst; auto.
Qed.

Lemma c37_accepted : forall digest odumps cdumps loads, digest_ok digest -> library odumps loads -> forall k raw s,
  serderOfRaw digest odumps cdumps loads k raw = Ok s -> d_kind s <> KindCesr ->
  exists rest ilk D, raw = d_raw s ++ rest /\ dumps odumps cdumps s (d_sad s) = Ok (d_raw s) /\ ilkOf (d_sad s) = Ok ilk /\
    dumps odumps cdumps s (blank (saidFields ilk) (d_sad s)) = Ok D /\
    forall l, In l (saidFields ilk) -> exists t, dget (d_sad s) l = Some (VStr t) /\ forall cd, digestCode (VStr t) = Some cd -> isDigestOf digest cd D t.
Proof.
  intros digest odumps cdumps loads DOK LIB k raw s H N. destruct (raw_verified _ _ _ _ DOK LIB _ _ _ H N) as (ilk & D & vs & V). destruct (ofRaw_inv _ _ _ _ _ _ _ H) as [A _]. destruct (inhale_inv _ _ _ A) as (rest & E & _).
  exists rest, ilk, D. split; [exact E|]. split; [exact (ve_raw _ _ _ _ _ _ _ _ V)|]. split; [exact (ve_ilk _ _ _ _ _ _ _ _ V)|]. split; [exact (ve_D _ _ _ _ _ _ _ _ V)|].
  intros l I. destruct (ve_said _ _ _ _ _ _ _ _ V l I) as (t & cd & G & C & P). exists t. split; [exact G|]. intros cd' DC. apply digestCode_some in DC. destruct DC as [C' DD]. rewrite C in C'. injection C' as <-. auto.
Qed.

Lemma c37_said_commits : forall digest odumps cdumps loads, digest_ok digest -> library odumps loads -> forall k1 k2 raw1 raw2 s1 s2 ilk1 ilk2 t cd,
  serderOfRaw digest odumps cdumps loads k1 raw1 = Ok s1 -> serderOfRaw digest odumps cdumps loads k2 raw2 = Ok s2 ->
  d_kind s1 = d_kind s2 -> d_kind s1 <> KindCesr -> ilkOf (d_sad s1) = Ok ilk1 -> ilkOf (d_sad s2) = Ok ilk2 -> ilk1 <> Some (s2b "rct") -> ilk2 <> Some (s2b "rct") ->
  dget (d_sad s1) (s2b "d") = Some (VStr t) -> dget (d_sad s2) (s2b "d") = Some (VStr t) -> digestCode (VStr t) = Some cd ->
  s1 = s2 \/ collision digest \/
  (ilk1 = ilk2 /\ In ilk1 [Some (s2b "icp"); Some (s2b "dip"); Some (s2b "vcp")] /\ keysOf (d_sad s1) = keysOf (d_sad s2) /\ (forall l, l <> s2b "i" -> dget (d_sad s1) l = dget (d_sad s2) l) /\
   exists D i1 i2 c1 c2, c1 <> c2 /\ dget (d_sad s1) (s2b "i") = Some (VStr i1) /\ dget (d_sad s2) (s2b "i") = Some (VStr i2) /\ isDigestOf digest c1 D i1 /\ isDigestOf digest c2 D i2).
Proof.
  intros digest odumps cdumps loads DOK LIB k1 k2 raw1 raw2 s1 s2 ilk1 ilk2 t cd H1 H2 EK NK L1 L2 R1 R2 G1 G2 DC. assert (NK2 : d_kind s2 <> KindCesr) by congruence.
  destruct (ofRaw_wf _ _ _ _ _ _ _ LIB H1 NK) as [W1 KO]. destruct (ofRaw_wf _ _ _ _ _ _ _ LIB H2 NK2) as [W2 _].
  destruct (raw_verified _ _ _ _ DOK LIB _ _ _ H1 NK) as (i1 & D1 & vs1 & V1). destruct (raw_verified _ _ _ _ DOK LIB _ _ _ H2 NK2) as (i2 & D2 & vs2 & V2).
  pose proof (ve_ilk _ _ _ _ _ _ _ _ V1) as E1. pose proof (ve_ilk _ _ _ _ _ _ _ _ V2) as E2. rewrite L1 in E1. rewrite L2 in E2. injection E1 as <-. injection E2 as <-.
  assert (DI : forall ilk, ilk <> Some (s2b "rct") -> In (s2b "d") (saidFields ilk)). { intros [x|] N; cbn [saidFields]; [|left; reflexivity]. destruct (beq_spec x (s2b "rct")) as [->|]; [congruence|]. destruct (memB _ _); left; reflexivity. }
  destruct (two_verified _ _ _ _ LIB _ _ _ _ _ _ _ _ _ _ (s2b "d") t cd V1 V2 W1 W2 KO EK (DI _ R1) (DI _ R2) G1 G2 DC) as [C|(<- & <- & EKS & NS & SD)]; [auto|].
  destruct (in_dec list_N_dec (s2b "i") (saidFields ilk1)) as [Ii|Ni].
  - destruct (SD _ Ii) as [EI|(a & b & c1 & c2 & NC & A & B & P & Q)].
    + left. eapply verified_same; [exact V1|exact V2|exact KO|]. apply alist_ext; [apply wfv_values in W1; tauto|exact EKS|]. intros k.
      destruct (in_dec list_N_dec k (saidFields ilk1)) as [I|N]; [|apply NS; exact N]. destruct (list_N_dec k (s2b "d")) as [Ek|Nd]; [subst; congruence|]. destruct (list_N_dec k (s2b "i")) as [Ek|Nk]; [subst; exact EI|].
      exfalso. destruct (said_only _ _ I) as [X|X]; first [contradiction|apply Ni; subst k; exact I].
    + right. right. split; [reflexivity|]. split.
      { clear -Ii. unfold saidFields in Ii. destruct ilk1 as [x|]; [|destruct Ii as [E|[]]; discriminate]. destruct (beq x (s2b "rct")); [contradiction|]. destruct (memB x _) eqn:M; [|destruct Ii as [E|[]]; discriminate].
        apply SerProofs.memB_In in M. cbn [In] in M |- *. intuition congruence. }
      split; [exact EKS|]. split; [|exists D1, a, b, c1, c2; auto].
      intros k Nk. destruct (in_dec list_N_dec k (saidFields ilk1)) as [I|N]; [|apply NS; exact N]. destruct (list_N_dec k (s2b "d")) as [Ek|Nd]; [subst; congruence|].
      exfalso. destruct (said_only _ _ I) as [X|X]; first [contradiction|apply Ni; subst k; exact I].
  - left. eapply verified_same; [exact V1|exact V2|exact KO|]. apply alist_ext; [apply wfv_values in W1; tauto|exact EKS|]. intros k.
    destruct (in_dec list_N_dec k (saidFields ilk1)) as [I|N]; [|apply NS; exact N]. destruct (list_N_dec k (s2b "d")) as [Ek|Nd]; [subst; congruence|].
    exfalso. destruct (said_only _ _ I) as [X|X]; first [contradiction|apply Ni; subst k; exact I].
Qed.

Lemma c37_tamper_evident : forall digest odumps cdumps loads, digest_ok digest -> library odumps loads -> forall k1 k2 raw1 raw2 s1 s2 ilk t cd,
  serderOfRaw digest odumps cdumps loads k1 raw1 = Ok s1 -> serderOfRaw digest odumps cdumps loads k2 raw2 = Ok s2 ->
  d_kind s1 = d_kind s2 -> d_kind s1 <> KindCesr -> ilkOf (d_sad s1) = Ok ilk -> ~ In ilk [Some (s2b "rct"); Some (s2b "icp"); Some (s2b "dip"); Some (s2b "vcp")] -> ilkOf (d_sad s2) <> Ok (Some (s2b "rct")) ->
  dget (d_sad s1) (s2b "d") = Some (VStr t) -> dget (d_sad s2) (s2b "d") = Some (VStr t) -> digestCode (VStr t) = Some cd ->
  d_raw s1 = d_raw s2 \/ collision digest.
Proof.
  intros digest odumps cdumps loads DOK LIB k1 k2 raw1 raw2 s1 s2 ilk t cd H1 H2 EK NK L1 NI R2 G1 G2 DC.
  assert (NK2 : d_kind s2 <> KindCesr) by congruence. destruct (raw_verified _ _ _ _ DOK LIB _ _ _ H2 NK2) as (i2 & D2 & vs2 & V2). pose proof (ve_ilk _ _ _ _ _ _ _ _ V2) as E2.
  destruct (c37_said_commits _ _ _ _ DOK LIB _ _ _ _ _ _ _ _ t cd H1 H2 EK NK L1 E2) as [E|[C|(_ & I & _)]]; auto.
  - intros ->. apply NI. left. reflexivity.
  - intros ->. contradiction.
  - left. congruence.
  - exfalso. apply NI. right. exact I.
Qed.

Lemma c09_accepted_size : forall digest odumps cdumps loads, digest_ok digest -> library odumps loads -> forall k raw s,
  serderOfRaw digest odumps cdumps loads k raw = Ok s -> d_kind s <> KindCesr ->
  d_size s = len (d_raw s) /\ exists vs, dget (d_sad s) (s2b "v") = Some (VStr vs) /\ deversify vs = Ok (smellOf s) /\ vs_of (smellOf s) = Ok vs.
Proof.
  intros digest odumps cdumps loads DOK LIB k raw s H N. destruct (raw_verified _ _ _ _ DOK LIB _ _ _ H N) as (ilk & D & vs & V). split; [exact (ve_size _ _ _ _ _ _ _ _ V)|].
  exists vs. split; [exact (ve_vs _ _ _ _ _ _ _ _ V)|exact (ve_sm _ _ _ _ _ _ _ _ V)].
Qed.

Lemma c09_made_size : forall digest odumps cdumps loads, digest_ok digest -> library odumps loads -> forall k args sd s,
  serderMake digest odumps cdumps k args sd = Ok s -> wfv (VMap sd) -> d_kind s <> KindCesr -> d_proto s = s2b "KERI" -> (forall l d, In (l, d) (a_saids args) -> In d DigDex) ->
  d_size s = len (d_raw s) /\ exists vs, dget (d_sad s) (s2b "v") = Some (VStr vs) /\ deversify vs = Ok (smellOf s) /\ vs_of (smellOf s) = Ok vs.
Proof.
  intros digest odumps cdumps loads DOK LIB k args sd s H W NK PK O. destruct (verified_make _ _ _ _ _ _ _ _ DOK LIB H W NK PK O) as (_ & _ & ilk & D & vs & V). split; [exact (ve_size _ _ _ _ _ _ _ _ V)|].
  exists vs. split; [exact (ve_vs _ _ _ _ _ _ _ _ V)|exact (ve_sm _ _ _ _ _ _ _ _ V)].
Qed.

Lemma c37_made_verifies : forall digest odumps cdumps loads, digest_ok digest -> library odumps loads -> forall req args sd s,
  makify digest odumps cdumps req args sd = Ok s -> wfv (VMap sd) -> d_kind s <> KindCesr -> d_proto s = s2b "KERI" ->
  (forall l d, In (l, d) (a_saids args) -> In d DigDex) -> fits (smellOf s) -> verifyBase digest odumps cdumps None s = Ok tt.
Proof.
  intros digest odumps cdumps loads DOK LIB req args sd s H W NK PK O F. destruct (makify_made _ _ _ _ _ _ _ H W NK PK O) as (ilk & tbl & fd & sd4 & cds & raw0 & vs & sd1 & D & MD).
  eapply made_verifies; eauto.
Qed.

Lemma c37_read_back : forall digest odumps cdumps loads, digest_ok digest -> library odumps loads -> forall k args sd s rest,
  serderMake digest odumps cdumps k args sd = Ok s -> wfv (VMap sd) -> d_kind s = s2b "JSON" -> d_proto s = s2b "KERI" -> (forall l d, In (l, d) (a_saids args) -> In d DigDex) ->
  serderOfRaw digest odumps cdumps loads k (d_raw s ++ rest) = Ok s.
Proof.
  intros digest odumps cdumps loads DOK LIB k args sd s rest H W K PK O. assert (NK : d_kind s <> KindCesr) by (rewrite K; discriminate).
  destruct (verified_make _ _ _ _ _ _ _ _ DOK LIB H W NK PK O) as (WS & VK & ilk & D & vs & V). eapply read_back; eauto.
Qed.

Lemma c37_reread : forall digest odumps cdumps loads, digest_ok digest -> library odumps loads -> forall k raw s rest,
  serderOfRaw digest odumps cdumps loads k raw = Ok s -> d_kind s = s2b "JSON" -> serderOfRaw digest odumps cdumps loads k (d_raw s ++ rest) = Ok s.
Proof.
  intros digest odumps cdumps loads DOK LIB k raw s rest H K. assert (NK : d_kind s <> KindCesr) by (rewrite K; discriminate).
  destruct (ofRaw_wf _ _ _ _ _ _ _ LIB H NK) as [W _]. destruct (raw_verified _ _ _ _ DOK LIB _ _ _ H NK) as (ilk & D & vs & V). destruct (ofRaw_inv _ _ _ _ _ _ _ H) as [_ VK]. eapply read_back; eauto.
Qed.

(** ** class Saider *)
Lemma dset_dset : forall {V} (d : list (bytes * V)) k a b, dset (dset d k a) k b = dset d k b.
Proof.
  intros V d k a b. induction d as [|[x v] d IH]; cbn [dset]; [rewrite beq_refl; reflexivity|]. destruct (beq k x) eqn:E; cbn [dset]; rewrite ?beq_refl, ?E; [reflexivity|rewrite IH; reflexivity].
Qed.

Lemma c37_saidify_verifies : forall digest odumps cdumps, digest_ok digest -> forall code kind label ignore sd m sd' prefixed,
  label <> s2b "v" -> saidify digest odumps cdumps code kind label ignore sd = Ok (m, sd') ->
  saiderVerify digest odumps cdumps m sd' prefixed kind label ignore = true.
Proof.
  intros digest odumps cdumps DOK code kind label ignore sd m sd' prefixed NV H. unfold saidify in H. apply raise_if_ok in H. destruct H as [IL H]. apply negb_false_iff, SerProofs.memB_In in IL.
  apply bind_ok in H. destruct H as (raw & DE & H). apply bind_ok in H. destruct H as (m0 & MR & H). apply bind_ok in H. destruct H as (q & Q & H). apply ok_inj in H. injection H as -> <-.
  unfold saiderDerive in DE. apply raise_if_ok in DE. destruct DE as [MD DE]. apply negb_false_iff in MD. pose proof MD as DD. apply SerProofs.memB_In in DD. apply raise_if_ok in DE. destruct DE as [MV DE].
  destruct (dig_sizes code DD) as (sz & S & _ & F & _). rewrite S, F in DE. cbv zeta in DE. apply raise_if_ok in DE. destruct DE as [IG DE]. apply bind_ok in DE. destruct DE as (ser & SE & DE). apply ok_inj in DE. subst raw.
  destruct (DOK code ser DD) as [_ L]. rewrite (dig_matter code _ DD L) in MR. apply ok_inj in MR. subst m.
  unfold saiderVerify, saiderDerive. cbn [m_code]. rewrite MD. cbn [negb]. assert (MV' : memB (s2b "v") (keysOf (dset sd label (VStr q))) = false) by (rewrite keys_dset by exact IL; exact MV). rewrite MV', S, F. cbv zeta. rewrite dset_dset.
  rewrite IG, SE. cbn [bind]. rewrite (dig_matter code _ DD L). cbn [bind]. rewrite Q. cbn [bind]. rewrite beq_refl. cbn [negb]. destruct prefixed; [|reflexivity]. rewrite dget_dset, beq_refl, beq_refl. reflexivity.
Qed.

Lemma c37_saider_binds : forall digest odumps cdumps loads, digest_ok digest -> library odumps loads -> forall m sd1 sd2 p1 p2 kind label ignore,
  In kind [s2b "JSON"; s2b "CBOR"; s2b "MGPK"] -> wfv (VMap sd1) -> wfv (VMap sd2) -> octets (m_raw m) ->
  saiderVerify digest odumps cdumps m sd1 p1 kind label ignore = true -> saiderVerify digest odumps cdumps m sd2 p2 kind label ignore = true ->
  (forall k, k <> label -> ~ In k ignore -> dget sd1 k = dget sd2 k) \/ collision digest.
Proof.
  intros digest odumps cdumps loads DOK LIB m sd1 sd2 p1 p2 kind label ignore K W1 W2 OM H1 H2.
  assert (X : forall sd p, saiderVerify digest odumps cdumps m sd p kind label ignore = true -> exists f ser, fs (match dget Sizes (m_code m) with Some z => z | None => mkSizage 0 0 0 None 0 end) = Some f /\
     saiderSer odumps cdumps kind (filter (fun kv => negb (memB (fst kv) ignore)) (dset sd label (dummy f))) = Ok ser /\ In (m_code m) DigDex /\ infil (mkMatter (m_code m) [] (digest (m_code m) ser)) = infil m).
  { intros sd p H. unfold saiderVerify in H. destruct (bind _ _) as [u|] eqn:E in H; [clear H|discriminate]. apply bind_ok in E. destruct E as (raw & DE & E).
    unfold saiderDerive in DE. apply raise_if_ok in DE. destruct DE as [MD DE]. apply negb_false_iff, SerProofs.memB_In in MD. apply raise_if_ok in DE. destruct DE as [_ DE]. destruct (dig_sizes _ MD) as (sz & S & _ & F & _). rewrite S, F in DE. cbv zeta in DE.
    apply raise_if_ok in DE. destruct DE as [_ DE]. apply bind_ok in DE. destruct DE as (ser & SE & DE). apply ok_inj in DE. subst raw. destruct (DOK _ ser MD) as [_ L]. rewrite (dig_matter _ _ MD L) in E. cbn [bind] in E.
    apply bind_ok in E. destruct E as (q' & Q' & E). apply bind_ok in E. destruct E as (q & Q & E). apply raise_if_ok in E. destruct E as [BE _]. apply negb_false_iff, beq_eq in BE. subst q'.
    exists (if len (m_code m) =? 1 then 44 else 88), ser. rewrite S. split; [exact F|]. split; [exact SE|]. split; [exact MD|]. congruence. }
  destruct (X _ _ H1) as (f & r1 & F & S1 & DD & I1). destruct (X _ _ H2) as (f' & r2 & F' & S2 & _ & I2). rewrite F in F'. injection F' as <-. clear X.
  destruct (list_N_dec r1 r2) as [->|NR].
  - left. unfold saiderSer in *. assert (E : filter (fun kv => negb (memB (fst kv) ignore)) (dset sd1 label (dummy f)) = filter (fun kv => negb (memB (fst kv) ignore)) (dset sd2 label (dummy f))).
    { assert (WF : forall sd, wfv (VMap sd) -> wfv (VMap (filter (fun kv => negb (memB (fst kv) ignore)) (dset sd label (dummy f))))).
      { intros sd W. assert (W' : wfv (VMap (dset sd label (dummy f)))) by (apply wfv_dset'; [exact W|exact Logic.I]). apply wfv_values in W'. destruct W' as [N V]. apply wfv_values. split; [apply filter_keys_nodup; exact N|]. intros k v I. apply filter_In in I. apply (V k v). tauto. }
      eapply (dumps_inj odumps cdumps loads LIB (mkSerder [] [] [] (1, 0) None kind 0) (mkSerder [] [] [] (1, 0) None kind 0)); [reflexivity|exact K|apply WF; exact W1|apply WF; exact W2|exact S1|exact S2]. }
    intros k NL NI. assert (G : forall sd : sad, dget (filter (fun kv => negb (memB (fst kv) ignore)) sd) k = dget sd k).
    { intros sd. induction sd as [|[a v] sd IH]; [reflexivity|]. cbn [filter fst]. destruct (memB a ignore) eqn:M; cbn [negb dget].
      - apply SerProofs.memB_In in M. destruct (beq_spec k a) as [->|]; [contradiction|exact IH].
      - destruct (beq k a); [reflexivity|exact IH]. }
    pose proof (f_equal (fun d => dget d k) E) as EG. cbn beta in EG. rewrite !G, !dget_dset in EG. apply beq_neq in NL. rewrite NL in EG. exact EG.
  - right. exists (m_code m), r1, r2. split; [exact DD|]. split; [exact NR|]. rewrite <- I2 in I1.
    destruct (dig_text digest (m_code m) r1 DOK DD) as (t1 & (_ & E1 & Q1) & _). destruct (dig_text digest (m_code m) r2 DOK DD) as (t2 & (_ & E2 & Q2) & _). rewrite Q1, Q2 in I1. injection I1 as ->. rewrite E1 in E2. congruence.
Qed.

(** ** self certifying identifiers *)
Lemma c49_inception_binds : forall digest odumps cdumps loads, digest_ok digest -> library odumps loads -> forall raw s ilk,
  serderOfRaw digest odumps cdumps loads KERI raw = Ok s -> d_kind s <> KindCesr -> ilkOf (d_sad s) = Ok (Some ilk) -> In ilk [s2b "icp"; s2b "dip"] ->
  exists p, dget (d_sad s) (s2b "i") = Some (VStr p) /\
   ((exists D c, dumps odumps cdumps s (blank [s2b "d"; s2b "i"] (d_sad s)) = Ok D /\ isDigestOf digest c D p) \/
    (ilk = s2b "icp" /\ dget (d_sad s) (s2b "k") = Some (VList [VStr p]) /\ (dget (d_sad s) (s2b "kt") = Some (VInt 1) \/ exists kt, dget (d_sad s) (s2b "kt") = Some (VStr kt) /\ hexint kt = Ok 1)) \/
    (ilk = s2b "icp" /\ codeOf (Some (VStr p)) = Ok (s2b "1AAE"))).
Proof.
  intros digest odumps cdumps loads DOK LIB raw s ilk H NK IL II. destruct (raw_verified _ _ _ _ DOK LIB _ _ _ H NK) as (ilk' & D & vs & V). pose proof (ve_ilk _ _ _ _ _ _ _ _ V) as E. rewrite IL in E. injection E as <-.
  destruct (ofRaw_inv _ _ _ _ _ _ _ H) as [_ VK]. cbn [verify] in VK. unfold verifyKERI in VK. apply bind_ok in VK. destruct VK as (? & _ & VK). rewrite IL in VK. cbn [bind] in VK.
  destruct (Fields (d_proto s) (d_pvrsn s)) as [tbl|]; [|discriminate]. destruct (ilkget tbl (Some ilk)) as [fd|]; [|discriminate]. apply raise_if_ok in VK. destruct VK as [_ VK]. apply bind_ok in VK. destruct VK as (? & VK & _).
  assert (SF : saidFields (Some ilk) = [s2b "d"; s2b "i"]) by (destruct II as [<-|[<-|[]]]; reflexivity).
  destruct (ve_said _ _ _ _ _ _ _ _ V (s2b "i")) as (p & cd & G & C & P); [rewrite SF; right; left; reflexivity|]. exists p. split; [exact G|].
  pose proof (ve_D _ _ _ _ _ _ _ _ V) as RD. rewrite SF in RD.
  assert (NQ : ilkIn (Some ilk) ["qry"; "rpy"; "pro"; "bar"; "exn"]%string = false) by (destruct II as [<-|[<-|[]]]; reflexivity). rewrite NQ, andb_false_r in VK. rewrite G, C in VK. apply raise_if_ok in VK. destruct VK as [MC VK]. apply negb_false_iff in MC.
  destruct (memB cd DigDex) eqn:MD; [left; exists D, cd; split; [exact RD|apply P; apply SerProofs.memB_In; exact MD]|]. right.
  destruct II as [<-|[<-|[]]].
  2:{ exfalso. change (ilkIn (Some (s2b "dip")) ["dip"; "drt"]%string) with true in MC. cbv iota in MC. congruence. }
  destruct (list_N_dec cd (s2b "1AAE")) as [Esig|Nsig]; [right; split; [reflexivity|rewrite C, Esig; reflexivity]|]. left.
  split; [reflexivity|]. change (ilkIn (Some (s2b "icp")) ["dip"; "drt"]%string) with false in MC. change (ilkIn (Some (s2b "icp")) ["icp"; "dip"; "rot"; "drt"]%string) with true in VK. change (ilkIn (Some (s2b "icp")) ["icp"; "dip"]%string) with true in VK. cbv iota in VK, MC. cbn [andb] in VK.
  assert (PN : memB cd PreNonDigDex = true).
  { clear -MC MD Nsig. apply SerProofs.memB_In in MC. cbn in MC. repeat (destruct MC as [<-|MC]; [first [reflexivity|vm_compute in MD; discriminate|exfalso; apply Nsig; reflexivity]|]). contradiction. }
  rewrite PN in VK. apply bind_ok in VK. destruct VK as (? & VK & _). destruct (dget (d_sad s) (s2b "k")) as [[| | | |[|[| | |k0| |] [|]]|]|]; try discriminate. apply raise_if_ok in VK. destruct VK as [KT VK]. apply raise_if_ok in VK. destruct VK as [EP _].
  apply negb_false_iff, beq_eq in EP. subst k0. split; [reflexivity|]. apply negb_false_iff in KT. unfold ktIsOne in KT. destruct (dget (d_sad s) (s2b "kt")) as [[| |z|t| |]|]; try discriminate.
  - left. apply Z.eqb_eq in KT. subst. reflexivity.
  - right. exists t. split; [reflexivity|]. destruct (hexint t) as [n|]; [|discriminate]. apply N.eqb_eq in KT. subst. reflexivity.
Qed.

Lemma c49_prefix_commits : forall digest odumps cdumps loads, digest_ok digest -> library odumps loads -> forall raw1 raw2 s1 s2 ilk1 ilk2 p cd,
  serderOfRaw digest odumps cdumps loads KERI raw1 = Ok s1 -> serderOfRaw digest odumps cdumps loads KERI raw2 = Ok s2 -> d_kind s1 = d_kind s2 -> d_kind s1 <> KindCesr ->
  ilkOf (d_sad s1) = Ok (Some ilk1) -> ilkOf (d_sad s2) = Ok (Some ilk2) -> In ilk1 [s2b "icp"; s2b "dip"; s2b "vcp"] -> In ilk2 [s2b "icp"; s2b "dip"; s2b "vcp"] ->
  dget (d_sad s1) (s2b "i") = Some (VStr p) -> dget (d_sad s2) (s2b "i") = Some (VStr p) -> digestCode (VStr p) = Some cd ->
  collision digest \/ (keysOf (d_sad s1) = keysOf (d_sad s2) /\ forall l, l <> s2b "d" -> dget (d_sad s1) l = dget (d_sad s2) l).
Proof.
  intros digest odumps cdumps loads DOK LIB raw1 raw2 s1 s2 ilk1 ilk2 p cd H1 H2 EK NK L1 L2 I1 I2 G1 G2 DC. assert (NK2 : d_kind s2 <> KindCesr) by congruence.
  destruct (ofRaw_wf _ _ _ _ _ _ _ LIB H1 NK) as [W1 KO]. destruct (ofRaw_wf _ _ _ _ _ _ _ LIB H2 NK2) as [W2 _].
  destruct (raw_verified _ _ _ _ DOK LIB _ _ _ H1 NK) as (i1 & D1 & vs1 & V1). destruct (raw_verified _ _ _ _ DOK LIB _ _ _ H2 NK2) as (i2 & D2 & vs2 & V2).
  pose proof (ve_ilk _ _ _ _ _ _ _ _ V1) as E1. pose proof (ve_ilk _ _ _ _ _ _ _ _ V2) as E2. rewrite L1 in E1. rewrite L2 in E2. injection E1 as <-. injection E2 as <-.
  assert (SF : forall x, In x [s2b "icp"; s2b "dip"; s2b "vcp"] -> saidFields (Some x) = [s2b "d"; s2b "i"]) by (intros x [<-|[<-|[<-|[]]]]; reflexivity).
  destruct (two_verified _ _ _ _ LIB _ _ _ _ _ _ _ _ _ _ (s2b "i") p cd V1 V2 W1 W2 KO EK) as [C|(E & _ & EKS & NS & SD)]; auto; try (rewrite SF by assumption; right; left; reflexivity).
  right. split; [exact EKS|]. intros l Nl. rewrite (SF _ I1) in NS. destruct (list_N_dec l (s2b "i")) as [El|Ni]; [subst; congruence|]. apply NS. intros [X|[X|[]]]; congruence.
Qed.

Lemma c49_nontransferable : forall digest odumps cdumps loads raw s ilk p code,
  serderOfRaw digest odumps cdumps loads KERI raw = Ok s -> ilkOf (d_sad s) = Ok (Some ilk) -> In ilk [s2b "icp"; s2b "dip"; s2b "rot"; s2b "drt"] ->
  dget (d_sad s) (s2b "i") = Some (VStr p) -> codeOf (Some (VStr p)) = Ok code -> In code NonTransDex ->
  truthy (dget (d_sad s) (s2b "n")) = false /\ truthy (dget (d_sad s) (s2b "b")) = false /\ truthy (dget (d_sad s) (s2b "a")) = false /\ In ilk [s2b "icp"; s2b "rot"].
Proof.
  intros digest odumps cdumps loads raw s ilk p code H IL II G C NT. destruct (ofRaw_inv _ _ _ _ _ _ _ H) as [_ VK]. cbn [verify] in VK. unfold verifyKERI in VK. apply bind_ok in VK. destruct VK as (? & _ & VK). rewrite IL in VK. cbn [bind] in VK.
  destruct (Fields (d_proto s) (d_pvrsn s)) as [tbl|]; [|discriminate]. destruct (ilkget tbl (Some ilk)) as [fd|]; [|discriminate]. apply raise_if_ok in VK. destruct VK as [_ VK]. apply bind_ok in VK. destruct VK as (? & VK & _).
  assert (NQ : ilkIn (Some ilk) ["qry"; "rpy"; "pro"; "bar"; "exn"]%string = false) by (destruct II as [<-|[<-|[<-|[<-|[]]]]]; reflexivity). rewrite NQ, andb_false_r, G, C in VK. apply raise_if_ok in VK. destruct VK as [MC VK]. apply negb_false_iff in MC.
  assert (IE : ilkIn (Some ilk) ["icp"; "dip"; "rot"; "drt"]%string = true) by (destruct II as [<-|[<-|[<-|[<-|[]]]]]; reflexivity). rewrite IE in VK. apply bind_ok in VK. destruct VK as (? & _ & VK).
  apply SerProofs.memB_In in NT as MT. rewrite MT in VK. apply raise_if_ok in VK. destruct VK as [A VK]. apply raise_if_ok in VK. destruct VK as [B VK]. apply raise_if_ok in VK. destruct VK as [D _]. split; [exact A|]. split; [exact B|]. split; [exact D|].
  assert (ND : memB code DigDex = false). { clear -NT. cbn in NT. repeat (destruct NT as [<-|NT]; [reflexivity|]). contradiction. }
  destruct II as [<-|[<-|[<-|[<-|[]]]]]; cbn [In]; auto; exfalso; [change (ilkIn (Some (s2b "dip")) ["dip"; "drt"]%string) with true in MC|change (ilkIn (Some (s2b "drt")) ["dip"; "drt"]%string) with true in MC]; cbv iota in MC; congruence.
Qed.

(** ** concrete cases *)
Lemma ref_library : library noDumps refLoads.
Proof.
  constructor.
  - intros kind r m H. unfold refLoads in H. destruct (beq kind (s2b "JSON")); [|discriminate]. destruct (jread r) as [[| | | | |m']|]; try discriminate. destruct (wfvB (VMap m')) eqn:W; [|discriminate]. apply ok_inj in H. subst. apply wfvB_ok. exact W.
  - intros m W. unfold refLoads. rewrite beq_refl, jread_json. apply wfvB_ok in W. rewrite W. reflexivity.
  - intros; discriminate.
  - intros; discriminate.
Qed.
(** a digest for examples: the length and a checksum, repeated *)
Definition toyDigest (code ser : bytes) : bytes :=
  ntake (digestSize code) (len ser mod 256 :: repeat (fold_right (fun x a => (a * 31 + x) mod 251) 7 ser) 63).
Lemma toy_ok : digest_ok toyDigest.
Proof.
  intros code ser I. unfold toyDigest. set (y := fold_right _ _ _).
  assert (Y : y < 256). { unfold y. destruct ser as [|x l]; cbn [fold_right]; [lia|]. pose proof (N.mod_lt (fold_right (fun x a => (a * 31 + x) mod 251) 7 l * 31 + x) 251). lia. }
  assert (F : Forall is_byte (len ser mod 256 :: repeat y 63)). { constructor; [unfold is_byte; pose proof (N.mod_lt (len ser) 256); lia|]. apply Forall_forall. intros z Z. apply repeat_spec in Z. subst z. exact Y. }
  split.
  - unfold octets, ntake. apply Forall_forall. intros z Z. rewrite Forall_forall in F. apply F. rewrite <- (firstn_skipn (N.to_nat (digestSize code)) (len ser mod 256 :: repeat y 63)). apply in_or_app. left. exact Z.
  - unfold ntake, len at 1. rewrite firstn_length. cbn [List.length]. rewrite repeat_length. unfold digestSize. destruct (len code =? 1); cbn; reflexivity.
Qed.
(** an interaction event *)
Definition akey (x : string) : bytes := s2b "D" ++ repeat 65 42 ++ s2b x.
Definition withV (f : bytes -> sad) : sad := f (match versify (s2b "KERI") (1, 0) (s2b "JSON") (len (json (VMap (f (repeat 35 17))))) None with Ok vs => vs | Err _ => [] end).
Definition ixnArgs : mkargs := mkArgs (Some (s2b "KERI")) (Some (1, 0)) None (Some (s2b "JSON")) (Some (s2b "ixn")) [].
Definition ixnSad (x : string) : sad := [(s2b "i", VStr (akey "A")); (s2b "s", VStr (s2b "1")); (s2b "p", VStr (akey "B")); (s2b "a", VList [VMap [(s2b "x", VStr (s2b x))]])].
Definition ixnMsg (x : string) : res serder := serderMake toyDigest noDumps (fun _ _ _ _ => Err ValueError) KERI ixnArgs (ixnSad x).



Lemma c37_nondigest_said_refuted : forall digest odumps cdumps, exists raw1 raw2 s1 s2 t,
  serderOfRaw digest odumps cdumps refLoads KERI raw1 = Ok s1 /\ serderOfRaw digest odumps cdumps refLoads KERI raw2 = Ok s2 /\
  dget (d_sad s1) (s2b "d") = Some (VStr t) /\ dget (d_sad s2) (s2b "d") = Some (VStr t) /\ ilkOf (d_sad s1) = Ok (Some (s2b "ixn")) /\ d_raw s1 <> d_raw s2.
Proof.
  intros digest odumps cdumps.
  set (m := fun (x : string) vs => [(s2b "v", VStr vs); (s2b "t", VStr (s2b "ixn")); (s2b "d", VStr (akey "C")); (s2b "i", VStr (akey "A")); (s2b "s", VStr (s2b "1")); (s2b "p", VStr (akey "B")); (s2b "a", VList [VStr (s2b x)])]).
  exists (json (VMap (withV (m "one"%string)))), (json (VMap (withV (m "two"%string)))). do 2 eexists. exists (akey "C").
  split; [vm_compute; reflexivity|]. split; [vm_compute; reflexivity|]. split; [vm_compute; reflexivity|]. split; [vm_compute; reflexivity|]. split; [vm_compute; reflexivity|]. vm_compute. discriminate.
Qed.

(** ** inceptions for every digest algorithm *)
Lemma keri_icp : forall digest odumps cdumps s tbl fd cd, verifyBase digest odumps cdumps (Some (s2b "KERI")) s = Ok tt -> ilkOf (d_sad s) = Ok (Some (s2b "icp")) ->
  Fields (d_proto s) (d_pvrsn s) = Some tbl -> ilkget tbl (Some (s2b "icp")) = Some fd -> keysOf (f_alls fd) = keysOf (d_sad s) -> codeOf (dget (d_sad s) (s2b "i")) = Ok cd ->
  In cd DigDex \/ cd = s2b "1AAE" -> verifyKERI digest odumps cdumps s = Ok tt.
Proof.
  intros digest odumps cdumps s tbl fd cd VB IL TB FD KE C I. unfold verifyKERI. rewrite VB. cbn [bind]. rewrite IL. cbn [bind]. rewrite TB, FD. destruct (list_eq_dec list_N_dec (keysOf (f_alls fd)) (keysOf (d_sad s))); [|contradiction]. cbn [negb].
  change (ilkIn (Some (s2b "icp")) ["qry"; "rpy"; "pro"; "bar"; "exn"]%string) with false. rewrite andb_false_r, C.
  change (ilkIn (Some (s2b "icp")) ["dip"; "drt"]%string) with false. change (ilkIn (Some (s2b "icp")) ["icp"; "dip"; "rot"; "drt"]%string) with true. change (ilkIn (Some (s2b "icp")) ["icp"; "dip"]%string) with true. change (ilkIn (Some (s2b "icp")) ["dip"]%string) with false. cbn [andb].
  assert (X : memB cd PreDex = true /\ memB cd PreNonDigDex = false /\ memB cd NonTransDex = false).
  { destruct I as [I| ->]; [|vm_compute; auto]. cbn in I. repeat (destruct I as [<-|I]; [vm_compute; auto|]). contradiction. }
  destruct X as (-> & -> & ->). reflexivity.
Qed.
Definition icpArgs (over : list (bytes * bytes)) : mkargs := mkArgs (Some (s2b "KERI")) (Some (1, 0)) None (Some (s2b "JSON")) (Some (s2b "icp")) over.
Definition icpSad (pre k : bytes) : sad := [(s2b "i", VStr pre); (s2b "kt", VStr (s2b "1")); (s2b "k", VList [VStr k]); (s2b "nt", VStr (s2b "0"))].
Definition dflt : serder * list (bytes * bytes) := (mkSerder [] [] [] (0, 0) None [] 0, []).
Definition icpPre (over : list (bytes * bytes)) (pre k : bytes) : serder * list (bytes * bytes) := match makifyPre (Some (s2b "KERI")) (icpArgs over) (icpSad pre k) with Ok x => x | Err _ => dflt end.
Definition icpSd1 (over : list (bytes * bytes)) (pre k : bytes) : sad :=
  let s0 := fst (icpPre over pre k) in
  dset (d_sad s0) (s2b "v") (VStr (match versify (s2b "KERI") (1, 0) (s2b "JSON") (len (json (VMap (d_sad s0)))) None with Ok vs => vs | Err _ => [] end)).
Definition icpD (over : list (bytes * bytes)) (pre k : bytes) : bytes := json (VMap (icpSd1 over pre k)).
Definition goodIcp (over : list (bytes * bytes)) (pre k : bytes) : bool :=
  match makifyPre (Some (s2b "KERI")) (icpArgs over) (icpSad pre k) with
  | Ok (s0, cds) => beq (d_proto s0) (s2b "KERI") && (fst (d_pvrsn s0) =? 1) && (snd (d_pvrsn s0) =? 0) && match d_gvrsn s0 with None => true | _ => false end && beq (d_kind s0) (s2b "JSON") &&
      match versify (s2b "KERI") (1, 0) (s2b "JSON") (len (json (VMap (d_sad s0)))) None with Ok _ => true | Err _ => false end && (len (json (VMap (d_sad s0))) <? 16 ^ 6)
  | Err _ => false
  end.
Lemma icp_make : forall digest odumps cdumps loads over pre k sdF, digest_ok digest -> library odumps loads -> goodIcp over pre k = true -> (forall l d, In (l, d) over -> In d DigDex) ->
  fillSaids digest (snd (icpPre over pre k)) (icpD over pre k) (icpSd1 over pre k) = Ok sdF ->
  exists s, makify digest odumps cdumps (Some (s2b "KERI")) (icpArgs over) (icpSad pre k) = Ok s /\ d_sad s = sdF /\ d_kind s = s2b "JSON" /\ d_proto s = s2b "KERI" /\ d_pvrsn s = (1, 0) /\
    verifyBase digest odumps cdumps (Some (s2b "KERI")) s = Ok tt.
Proof.
  intros digest odumps cdumps loads over pre k sdF DOK LIB G O FI. unfold goodIcp in G. unfold icpD, icpSd1, icpPre in FI. destruct (makifyPre (Some (s2b "KERI")) (icpArgs over) (icpSad pre k)) as [[s0 cds]|] eqn:MP; [|discriminate].
  cbn [fst snd] in FI. destruct s0 as [raw sd proto [a b] gv kind size]. cbn [d_proto d_pvrsn d_gvrsn d_kind d_sad fst snd] in *.
  apply andb_true_iff in G. destruct G as [G LN]. apply andb_true_iff in G. destruct G as [G VS]. apply andb_true_iff in G. destruct G as [G G5]. apply andb_true_iff in G. destruct G as [G G4]. apply andb_true_iff in G. destruct G as [G G3]. apply andb_true_iff in G. destruct G as [G1 G2].
  apply beq_eq in G1, G5. apply N.eqb_eq in G2, G3. destruct gv; [discriminate|]. subst proto kind a b. destruct (versify _ _ _ _ _) as [vs|] eqn:V; [|discriminate]. apply N.ltb_lt in LN.
  set (r0 := json (VMap sd)) in *.
  assert (MK : makify digest odumps cdumps (Some (s2b "KERI")) (icpArgs over) (icpSad pre k) = Ok (mkSerder (json (VMap sdF)) sdF (s2b "KERI") (1, 0) None (s2b "JSON") (len r0))).
  { unfold makify. rewrite MP. cbn [bind d_sad]. unfold compute, dumps. cbn [d_kind d_proto d_pvrsn d_gvrsn]. change (beq (s2b "JSON") KindCesr) with false. change (beq (s2b "JSON") (s2b "JSON")) with true. cbn [negb bind]. cbv zeta. fold r0. rewrite V. cbn [bind]. rewrite FI. reflexivity. }
  eexists. split; [exact MK|]. cbn [d_sad d_kind d_proto d_pvrsn]. split; [reflexivity|]. split; [reflexivity|]. split; [reflexivity|]. split; [reflexivity|].
  assert (W : wfv (VMap (icpSad pre k))). { apply wfvB_ok. reflexivity. }
  destruct (makify_made digest odumps cdumps _ _ _ _ MK W) as (ilk & tbl & fd & sd4 & cds' & raw0 & vs' & sd1 & D & MD); [discriminate|reflexivity|exact O|].
  eapply made_verifies; [exact DOK|exact LIB|exact MD|discriminate|reflexivity| |reflexivity].
  unfold fits, smellOf. cbn. split; [left; reflexivity|]. left. split; [lia|]. split; [lia|]. split; [exact LN|]. split; [left; reflexivity|reflexivity].
Qed.

Definition sigPre : bytes := s2b "1AAE" ++ repeat 65 152.
Lemma c49_signature_prefix_refuted : forall digest odumps cdumps, digest_ok digest -> library odumps refLoads -> exists raw1 raw2 s1 s2 p k1 k2,
  serderOfRaw digest odumps cdumps refLoads KERI raw1 = Ok s1 /\ serderOfRaw digest odumps cdumps refLoads KERI raw2 = Ok s2 /\ k1 <> k2 /\
  dget (d_sad s1) (s2b "i") = Some (VStr p) /\ dget (d_sad s2) (s2b "i") = Some (VStr p) /\ dget (d_sad s1) (s2b "k") = Some (VList [VStr k1]) /\ dget (d_sad s2) (s2b "k") = Some (VList [VStr k2]).
Proof.
  intros digest odumps cdumps DOK LIB.
  assert (X : forall x, In x ["A"; "B"]%string -> exists raw s, serderOfRaw digest odumps cdumps refLoads KERI raw = Ok s /\ dget (d_sad s) (s2b "i") = Some (VStr sigPre) /\ dget (d_sad s) (s2b "k") = Some (VList [VStr (akey x)])).
  { intros x I. assert (GD : goodIcp [] sigPre (akey x) = true) by (destruct I as [<-|[<-|[]]]; vm_compute; reflexivity).
    assert (SP : snd (icpPre [] sigPre (akey x)) = [(s2b "d", s2b "E"); (s2b "i", s2b "1AAE")]) by (destruct I as [<-|[<-|[]]]; vm_compute; reflexivity).
    destruct (digerOf_ok digest (s2b "E") (icpD [] sigPre (akey x)) DOK) as (t & Q & _); [left; reflexivity|destruct I as [<-|[<-|[]]]; vm_compute; discriminate|].
    destruct (icp_make digest odumps cdumps refLoads [] sigPre (akey x) (dset (icpSd1 [] sigPre (akey x)) (s2b "d") (VStr t)) DOK LIB GD) as (s & MK & ES & EK & EP & EV & VB); [intros ? ? []| |].
    { rewrite SP. cbn [fillSaids]. change (memB (s2b "E") DigDex) with true. change (memB (s2b "1AAE") DigDex) with false. cbv iota. rewrite Q. reflexivity. }
    assert (KS : keysOf (d_sad s) = keysOf (icpSd1 [] sigPre (akey x))). { rewrite ES. apply keys_dset. apply (proj1 (SerProofs.memB_In _ _)). destruct I as [<-|[<-|[]]]; vm_compute; reflexivity. }
    assert (VK : verifyKERI digest odumps cdumps s = Ok tt).
    { eapply keri_icp with (cd := s2b "1AAE") (tbl := Fields_KERI_1); [exact VB| |rewrite EP, EV; reflexivity|reflexivity|rewrite KS; destruct I as [<-|[<-|[]]]; vm_compute; reflexivity| |right; reflexivity].
      - unfold ilkOf. rewrite ES, dget_dset. change (beq (s2b "t") (s2b "d")) with false. destruct I as [<-|[<-|[]]]; vm_compute; reflexivity.
      - rewrite ES, dget_dset. change (beq (s2b "i") (s2b "d")) with false. destruct I as [<-|[<-|[]]]; vm_compute; reflexivity. }
    exists (d_raw s ++ []), s. split.
    - eapply c37_read_back with (args := icpArgs []) (sd := icpSad sigPre (akey x)); [exact DOK|exact LIB| |apply wfvB_ok; reflexivity|exact EK|exact EP|intros ? ? []]. unfold serderMake. rewrite MK. cbn [bind verify]. rewrite VK. reflexivity.
    - rewrite ES, !dget_dset. change (beq (s2b "i") (s2b "d")) with false. change (beq (s2b "k") (s2b "d")) with false. destruct I as [<-|[<-|[]]]; vm_compute; auto. }
  destruct (X "A"%string) as (r1 & s1 & A1 & B1 & C1); [left; reflexivity|]. destruct (X "B"%string) as (r2 & s2 & A2 & B2 & C2); [right; left; reflexivity|].
  exists r1, r2, s1, s2, sigPre, (akey "A"), (akey "B"). split; [exact A1|]. split; [exact A2|]. split; [vm_compute; discriminate|]. auto.
Qed.

Lemma c37_prefix_code_refuted : forall digest odumps cdumps, digest_ok digest -> library odumps refLoads -> exists raw1 raw2 s1 s2 t i1 i2,
  serderOfRaw digest odumps cdumps refLoads KERI raw1 = Ok s1 /\ serderOfRaw digest odumps cdumps refLoads KERI raw2 = Ok s2 /\
  dget (d_sad s1) (s2b "d") = Some (VStr t) /\ dget (d_sad s2) (s2b "d") = Some (VStr t) /\ dget (d_sad s1) (s2b "i") = Some (VStr i1) /\ dget (d_sad s2) (s2b "i") = Some (VStr i2) /\ i1 <> i2.
Proof.
  intros digest odumps cdumps DOK LIB. set (K := akey "A").
  destruct (digerOf_ok digest (s2b "E") (icpD [(s2b "i", s2b "E")] [] K) DOK) as (t & Q & _); [left; reflexivity|vm_compute; discriminate|].
  assert (X : forall x, In x ["E"; "F"]%string -> exists raw s p, serderOfRaw digest odumps cdumps refLoads KERI raw = Ok s /\ dget (d_sad s) (s2b "d") = Some (VStr t) /\ dget (d_sad s) (s2b "i") = Some (VStr p) /\ codeOf (Some (VStr p)) = Ok (s2b x)).
  { intros x I. set (ov := [(s2b "i", s2b x)]). assert (GD : goodIcp ov [] K = true) by (destruct I as [<-|[<-|[]]]; vm_compute; reflexivity).
    assert (SP : snd (icpPre ov [] K) = [(s2b "d", s2b "E"); (s2b "i", s2b x)]) by (destruct I as [<-|[<-|[]]]; vm_compute; reflexivity).
    assert (ED : icpD ov [] K = icpD [(s2b "i", s2b "E")] [] K) by (destruct I as [<-|[<-|[]]]; vm_compute; reflexivity).
    assert (ID : In (s2b x) DigDex) by (destruct I as [<-|[<-|[]]]; [left|right; left]; reflexivity).
    destruct (digerOf_ok digest (s2b x) (icpD ov [] K) DOK ID) as (p & QP & (_ & EX & _) & _); [rewrite ED; vm_compute; discriminate|].
    assert (OV : forall l d, In (l, d) ov -> In d DigDex) by (intros l d [E|[]]; injection E as <- <-; exact ID).
    set (sdF := dset (dset (icpSd1 ov [] K) (s2b "d") (VStr t)) (s2b "i") (VStr p)).
    destruct (icp_make digest odumps cdumps refLoads ov [] K sdF DOK LIB GD OV) as (s & MK & ES & EK & EP & EV & VB).
    { rewrite SP. cbn [fillSaids]. change (memB (s2b "E") DigDex) with true. apply SerProofs.memB_In in ID as MI. rewrite MI. cbv iota. rewrite ED, Q. cbn [bind]. rewrite <- ED, QP. reflexivity. }
    assert (IK : forall l, In l [s2b "d"; s2b "i"] -> In l (keysOf (icpSd1 ov [] K))) by (intros l [<-|[<-|[]]]; apply (proj1 (SerProofs.memB_In _ _)); destruct I as [<-|[<-|[]]]; vm_compute; reflexivity).
    assert (KS : keysOf (d_sad s) = keysOf (icpSd1 ov [] K)). { rewrite ES. unfold sdF. assert (K1 : keysOf (dset (icpSd1 ov [] K) (s2b "d") (VStr t)) = keysOf (icpSd1 ov [] K)) by (apply keys_dset; apply IK; left; reflexivity).
      rewrite keys_dset; [exact K1|rewrite K1; apply IK; right; left; reflexivity]. }
    assert (GI : dget (d_sad s) (s2b "i") = Some (VStr p)) by (rewrite ES; unfold sdF; rewrite dget_dset, beq_refl; reflexivity).
    assert (CI : codeOf (Some (VStr p)) = Ok (s2b x)) by (cbn [codeOf]; rewrite EX; reflexivity).
    assert (VK : verifyKERI digest odumps cdumps s = Ok tt).
    { eapply keri_icp with (cd := s2b x) (tbl := Fields_KERI_1); [exact VB| |rewrite EP, EV; reflexivity|reflexivity|rewrite KS; destruct I as [<-|[<-|[]]]; vm_compute; reflexivity|rewrite GI; exact CI|left; exact ID].
      unfold ilkOf. rewrite ES. unfold sdF. rewrite !dget_dset. change (beq (s2b "t") (s2b "d")) with false. change (beq (s2b "t") (s2b "i")) with false. destruct I as [<-|[<-|[]]]; vm_compute; reflexivity. }
    exists (d_raw s ++ []), s, p. split.
    - eapply c37_read_back with (args := icpArgs ov) (sd := icpSad [] K); [exact DOK|exact LIB| |apply wfvB_ok; reflexivity|exact EK|exact EP|exact OV]. unfold serderMake. rewrite MK. cbn [bind verify]. rewrite VK. reflexivity.
    - split; [|auto]. rewrite ES. unfold sdF. rewrite !dget_dset. reflexivity. }
  destruct (X "E"%string) as (r1 & s1 & p1 & A1 & B1 & C1 & D1); [left; reflexivity|]. destruct (X "F"%string) as (r2 & s2 & p2 & A2 & B2 & C2 & D2); [right; left; reflexivity|].
  exists r1, r2, s1, s2, t, p1, p2. split; [exact A1|]. split; [exact A2|]. split; [exact B1|]. split; [exact B2|]. split; [exact C1|]. split; [exact C2|]. intros ->. rewrite D1 in D2. discriminate.
Qed.




