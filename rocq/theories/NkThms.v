From Verif Require Import Prelude B64Model B64Proofs MatterModel MatterProofs MatterInv MatterSpec MatterThms SubsModel SubsProofs SubsThms CtrModel CtrProofs CtrThms ThModel VerModel VerThms JsonModel JsonProofs SerModel SerSpec SerProofs SerInv SerThms PsProofs NmModel NmSpec NmProofs NmProofs2 NmProofs3 NmProofs4 NkModel NkSpec NkProofs NkProofs2 NkProofs3 NkProofs4 NkProofs5 NkProofs6 NkProofs7.
Open Scope N_scope.
Ltac Zify.zify_post_hook ::= Z.div_mod_to_equations.
Notation val := JsonModel.val.
Notation versionage := VerModel.versionage.

Lemma nv_dumps : forall digest s ilk vs dq fs ls vt it b D, nverified digest s ilk vs dq fs ls vt it b D -> nativeDumps (2, 0) G2 (d_sad s) = Ok (d_raw s).
Proof. intros digest s ilk vs dq fs ls vt it b D V. destruct (nv_lay _ _ _ _ _ _ _ _ _ _ _ V) as (fd & L). rewrite (nv_sad _ _ _ _ _ _ _ _ _ _ _ V). eapply parts_dumps; [exact (nv_parts _ _ _ _ _ _ _ _ _ _ _ V)|exact (layout_fixed _ _ _ L)]. Qed.
Lemma prim_code : forall t, isPrimOf DigDex t -> exists cd, digestCode (VStr t) = Some cd.
Proof. intros t (_ & m & X & _ & C). cbn [digestCode]. rewrite X. exists (m_code m). apply SerProofs.memB_In in C. rewrite C. reflexivity. Qed.

Lemma c86_accepted : forall digest odumps adumps aloads, digest_ok digest -> forall k strip raw s r,
  nativeOfRaw digest odumps adumps aloads k strip raw = Ok (s, r) -> d_proto s = s2b "KERI" ->
  d_kind s = s2b "CESR" /\ d_size s = len (d_raw s) /\ d_pvrsn s = (2, 0) /\ d_gvrsn s = Some (2, 0) /\ nativeDumps (2, 0) (Some (2, 0)) (d_sad s) = Ok (d_raw s) /\
  (exists vs, dget (d_sad s) (s2b "v") = Some (VStr vs) /\ deversify vs = Ok (smellOf s)) /\
  (exists ilk fd D, dget (d_sad s) (s2b "t") = Some (VStr ilk) /\ In (Some ilk, fd) Fields_KERI_2 /\ keysOf (d_sad s) = keysOf (f_alls fd) /\
     nativeDumps (2, 0) (Some (2, 0)) (blank (saidFields (Some ilk)) (d_sad s)) = Ok D /\
     forall l, In l (saidFields (Some ilk)) -> exists t, dget (d_sad s) l = Some (VStr t) /\ (l = s2b "d" -> exists cd, digestCode (VStr t) = Some cd) /\ forall cd, digestCode (VStr t) = Some cd -> isDigestOf digest cd D t) /\
  (sniff raw = Ok Ctxt -> exists rest, raw = d_raw s ++ rest /\ r = if strip then rest else raw).
Proof.
  intros digest odumps adumps aloads DOK k strip raw s r H P. destruct (native_inv digest odumps adumps aloads _ _ _ _ _ H P) as (K & SZ & LO & V & TX).
  destruct (native_verified digest odumps adumps aloads DOK _ _ V P K SZ LO) as (ilk & vs & dq & fs & ls & vt & it & b & D & NV). destruct (nv_lay _ _ _ _ _ _ _ _ _ _ _ NV) as (fd & L). pose proof (nv_sad _ _ _ _ _ _ _ _ _ _ _ NV) as SA.
  split; [exact K|]. split; [exact SZ|]. split; [exact (nv_p _ _ _ _ _ _ _ _ _ _ _ NV)|]. split; [exact (nv_g _ _ _ _ _ _ _ _ _ _ _ NV)|]. split; [exact (nv_dumps _ _ _ _ _ _ _ _ _ _ _ NV)|].
  split; [exists vs; split; [rewrite SA; reflexivity|exact (proj2 (nv_vs _ _ _ _ _ _ _ _ _ _ _ NV))]|]. split; [|exact TX].
  exists ilk, fd, D. split; [rewrite SA; reflexivity|]. split; [exact (la_in _ _ _ L)|]. split; [rewrite SA, (la_keys _ _ _ L); cbn [keysOf map fst]; rewrite <- (nv_keys _ _ _ _ _ _ _ _ _ _ _ NV); reflexivity|].
  split; [exact (nv_D _ _ _ _ _ _ _ _ _ _ _ NV)|]. intros l I. destruct (nv_said _ _ _ _ _ _ _ _ _ _ _ NV l I) as (t & cd & G & _ & C & X). exists t. split; [exact G|]. split.
  - intros ->. rewrite SA in G. change (Some (VStr dq) = Some (VStr t)) in G. injection G as <-. exact (prim_code _ (nv_dq _ _ _ _ _ _ _ _ _ _ _ NV)).
  - intros cd' DC. apply digestCode_some in DC. destruct DC as [C' DD]. rewrite C in C'. apply ok_inj in C'. subst cd'. exact (X DD).
Qed.
(** An inception and a reply. *)
Definition noA (p : versionage) (g : option versionage) (sd : sad) : res bytes := Err SerializeError.
Definition noL (p : versionage) (g : option versionage) (r : bytes) : res sad := Err SerializeError.
Definition nkArgs (ilk : string) : mkargs := mkArgs (Some (s2b "KERI")) (Some (2, 0)) (Some (2, 0)) (Some (s2b "CESR")) (Some (s2b ilk)) [].
Definition dg (x : string) : bytes := s2b "E" ++ repeat 65 42 ++ s2b x.
Definition vkey (x : string) : bytes := s2b "D" ++ repeat 65 42 ++ s2b x.
Definition nkIcp : sad := [(s2b "s", VStr (s2b "0")); (s2b "kt", VList [VStr (s2b "1/2"); VStr (s2b "1/2")]); (s2b "k", VList [VStr (vkey "A"); VStr (vkey "B")]); (s2b "nt", VStr (s2b "1")); (s2b "n", VList [VStr (dg "A")]);
  (s2b "bt", VStr (s2b "1")); (s2b "b", VList [VStr (s2b "B" ++ repeat 65 43)]); (s2b "c", VList [VStr (s2b "DND"); VStr (s2b "EO")]);
  (s2b "a", VList [VMap [(s2b "i", VStr (dg "A")); (s2b "s", VStr (s2b "ff")); (s2b "d", VStr (dg "B"))]; VMap [(s2b "d", VStr (dg "C"))]; VMap [(s2b "d", VStr (dg "D"))]])].
Definition nkRpy : sad := [(s2b "i", VStr (dg "A")); (s2b "dt", VStr (s2b "2026-11-15T20:00:00.000000+00:00")); (s2b "r", VStr (s2b "/loc/scheme")); (s2b "a", VMap [(s2b "eid", VStr (dg "B")); (s2b "url", VStr (s2b "http://x/"))])].
Definition nkMake (ilk : string) (sd : sad) : res serder := serderMake toyDigest noDumps (cdumps noA) KERI (nkArgs ilk) sd.
Definition nkRaw (ilk : string) (sd : sad) : bytes := match nkMake ilk sd with Ok s => d_raw s | Err _ => [] end.
Definition nkRead (strip : bool) (raw : bytes) : res (serder * bytes) := nativeOfRaw toyDigest noDumps noA noL KERI strip raw.
Definition isOk {A} (r : res A) : bool := match r with Ok _ => true | Err _ => false end.


Lemma c87_said_commits : forall digest odumps adumps aloads, digest_ok digest -> forall k1 k2 b1 b2 raw1 raw2 s1 s2 r1 r2 ilk1 ilk2 t,
  nativeOfRaw digest odumps adumps aloads k1 b1 raw1 = Ok (s1, r1) -> nativeOfRaw digest odumps adumps aloads k2 b2 raw2 = Ok (s2, r2) -> d_proto s1 = s2b "KERI" -> d_proto s2 = s2b "KERI" ->
  ilkOf (d_sad s1) = Ok ilk1 -> ilkOf (d_sad s2) = Ok ilk2 -> ilk1 <> Some (s2b "rct") -> ilk2 <> Some (s2b "rct") ->
  dget (d_sad s1) (s2b "d") = Some t -> dget (d_sad s2) (s2b "d") = Some t ->
  s1 = s2 \/ collision digest \/
  (ilk1 = ilk2 /\ In ilk1 [Some (s2b "icp"); Some (s2b "dip")] /\ keysOf (d_sad s1) = keysOf (d_sad s2) /\ (forall l, l <> s2b "i" -> dget (d_sad s1) l = dget (d_sad s2) l) /\
   exists D i1 i2 c1 c2, c1 <> c2 /\ dget (d_sad s1) (s2b "i") = Some (VStr i1) /\ dget (d_sad s2) (s2b "i") = Some (VStr i2) /\ isDigestOf digest c1 D i1 /\ isDigestOf digest c2 D i2).
Proof.
  intros digest odumps adumps aloads DOK k1 k2 b1 b2 raw1 raw2 s1 s2 r1 r2 ilk1 ilk2 t H1 H2 P1 P2 L1 L2 R1 R2 G1 G2'.
  destruct (native_inv digest odumps adumps aloads _ _ _ _ _ H1 P1) as (K1 & Z1 & O1 & V1 & _). destruct (native_inv digest odumps adumps aloads _ _ _ _ _ H2 P2) as (K2 & Z2 & O2 & V2 & _).
  destruct (native_verified digest odumps adumps aloads DOK _ _ V1 P1 K1 Z1 O1) as (i1 & vs1 & q1 & fs1 & ls1 & vt1 & it1 & a1 & D1 & N1). destruct (native_verified digest odumps adumps aloads DOK _ _ V2 P2 K2 Z2 O2) as (i2 & vs2 & q2 & fs2 & ls2 & vt2 & it2 & a2 & D2 & N2).
  pose proof (nv_sad _ _ _ _ _ _ _ _ _ _ _ N1) as S1. pose proof (nv_sad _ _ _ _ _ _ _ _ _ _ _ N2) as S2. rewrite S1 in G1, L1. rewrite S2 in G2', L2. change (Some (VStr q1) = Some t) in G1. change (Some (VStr q2) = Some t) in G2'.
  rewrite <- G1 in G2'. injection G2' as ->. rewrite ilkOf_cons in L1, L2. apply ok_inj in L1, L2. subst ilk1 ilk2.
  assert (DI : forall ilk, Some ilk <> Some (s2b "rct") -> In (s2b "d") (saidFields (Some ilk))). { intros x N; cbn [saidFields]. destruct (beq_spec x (s2b "rct")) as [->|]; [congruence|]. destruct (memB _ _); left; reflexivity. }
  destruct (native_commits digest _ _ _ _ _ _ _ _ _ _ _ _ _ _ _ _ _ _ _ N1 N2 (DI _ R1) (DI _ R2)) as [E|[C|(E & Ii & X)]]; [left; exact E|right; left; exact C|]. right. right. split; [congruence|]. split; [|exact X].
  destruct (nv_lay _ _ _ _ _ _ _ _ _ _ _ N1) as (fd & L). apply la_in in L. clear -Ii L. unfold saidFields in Ii. destruct (beq i1 (s2b "rct")); [contradiction|]. destruct (memB i1 _) eqn:M; [|destruct Ii as [E|[]]; discriminate].
  apply SerProofs.memB_In in M. destruct M as [<-|[<-|[<-|[]]]]; [left; reflexivity|right; left; reflexivity|]. exfalso. apply ilks_once in L. vm_compute in L. discriminate.
Qed.
Lemma c87_tamper_evident : forall digest odumps adumps aloads, digest_ok digest -> forall k1 k2 b1 b2 raw1 raw2 s1 s2 r1 r2 ilk t,
  nativeOfRaw digest odumps adumps aloads k1 b1 raw1 = Ok (s1, r1) -> nativeOfRaw digest odumps adumps aloads k2 b2 raw2 = Ok (s2, r2) -> d_proto s1 = s2b "KERI" -> d_proto s2 = s2b "KERI" ->
  ilkOf (d_sad s1) = Ok ilk -> ~ In ilk [Some (s2b "rct"); Some (s2b "icp"); Some (s2b "dip")] -> ilkOf (d_sad s2) <> Ok (Some (s2b "rct")) ->
  dget (d_sad s1) (s2b "d") = Some t -> dget (d_sad s2) (s2b "d") = Some t -> d_raw s1 = d_raw s2 \/ collision digest.
Proof.
  intros digest odumps adumps aloads DOK k1 k2 b1 b2 raw1 raw2 s1 s2 r1 r2 ilk t H1 H2 P1 P2 L1 NI R2 G1 G2'.
  destruct (native_inv digest odumps adumps aloads _ _ _ _ _ H2 P2) as (K2 & Z2 & O2 & V2 & _). destruct (native_verified digest odumps adumps aloads DOK _ _ V2 P2 K2 Z2 O2) as (i2 & vs2 & q2 & fs2 & ls2 & vt2 & it2 & a2 & D2 & N2).
  assert (L2 : ilkOf (d_sad s2) = Ok (Some i2)) by (rewrite (nv_sad _ _ _ _ _ _ _ _ _ _ _ N2); apply ilkOf_cons).
  destruct (c87_said_commits digest odumps adumps aloads DOK _ _ _ _ _ _ _ _ _ _ _ _ t H1 H2 P1 P2 L1 L2) as [E|[C|(_ & I & _)]]; auto.
  - intros ->. apply NI. left. reflexivity.
  - intros E. apply R2. rewrite L2, E. reflexivity.
  - left. congruence.
  - exfalso. apply NI. right. exact I.
Qed.
(** A message with one character of its route changed is rejected, and so is one with another said. *)
Definition setAt (n : nat) (x : N) (s : bytes) : bytes := firstn n s ++ x :: skipn (S n) s.

(** Seals of unknown type are dropped without notice, so that events with different seals have the same serialization and said. *)
Definition nkIxn (seals : list val) : sad := [(s2b "i", VStr (dg "A")); (s2b "s", VStr (s2b "1")); (s2b "p", VStr (dg "B")); (s2b "a", VList seals)].
Lemma c87_dropped_seal_refuted : exists s1 s2, nkMake "ixn" (nkIxn [VMap [(s2b "x", VStr (s2b "pay Bob 10"))]]) = Ok s1 /\ nkMake "ixn" (nkIxn [VMap [(s2b "x", VStr (s2b "pay Eve 1000"))]]) = Ok s2 /\
  d_raw s1 = d_raw s2 /\ dget (d_sad s1) (s2b "d") = dget (d_sad s2) (s2b "d") /\ dget (d_sad s1) (s2b "a") <> dget (d_sad s2) (s2b "a") /\
  exists s3, nkRead true (d_raw s1) = Ok (s3, []) /\ dget (d_sad s3) (s2b "a") = Some (VList []).
Proof.
  do 2 eexists. split; [vm_compute; reflexivity|]. split; [vm_compute; reflexivity|]. split; [reflexivity|]. split; [reflexivity|]. split; [vm_compute; discriminate|].
  eexists. split; [vm_compute; reflexivity|vm_compute; reflexivity].
Qed.

Lemma c88_read_back_partial : forall digest odumps adumps aloads k args sd s strip rest,
  serderMake digest odumps (cdumps adumps) k args sd = Ok s -> d_proto s = s2b "KERI" -> d_kind s = s2b "CESR" -> wellFormed (d_sad s) ->
  nativeOfRaw digest odumps adumps aloads k strip (d_raw s ++ rest) = Ok (s, if strip then rest else d_raw s ++ rest).
Proof. intros digest odumps adumps aloads k args sd s strip rest H P K W. apply (made_round_trip digest odumps adumps aloads k s); [exact (make_made _ _ _ _ _ _ _ H P K)|exact W]. Qed.
Lemma c88_of_field_map_partial : forall digest odumps adumps aloads k sd s strip rest,
  serderOfSad digest odumps (cdumps adumps) k sd = Ok s -> d_proto s = s2b "KERI" -> d_kind s = s2b "CESR" -> wellFormed (d_sad s) ->
  nativeOfRaw digest odumps adumps aloads k strip (d_raw s ++ rest) = Ok (s, if strip then rest else d_raw s ++ rest).
Proof. intros digest odumps adumps aloads k sd s strip rest H P K W. apply (made_round_trip digest odumps adumps aloads k s); [exact (ofSad_made _ _ _ _ _ _ H P K)|exact W]. Qed.
Lemma c88_reread : forall digest odumps adumps aloads, digest_ok digest -> forall k strip raw s r strip' rest,
  nativeOfRaw digest odumps adumps aloads k strip raw = Ok (s, r) -> d_proto s = s2b "KERI" ->
  nativeOfRaw digest odumps adumps aloads k strip' (d_raw s ++ rest) = Ok (s, if strip' then rest else d_raw s ++ rest).
Proof.
  intros digest odumps adumps aloads DOK k strip raw s r strip' rest H P. destruct (native_inv digest odumps adumps aloads _ _ _ _ _ H P) as (K & SZ & LO & V & _).
  destruct (native_verified digest odumps adumps aloads DOK _ _ V P K SZ LO) as (ilk & vs & dq & fs & ls & vt & it & b & D & NV). pose proof (nv_p _ _ _ _ _ _ _ _ _ _ _ NV) as EP. pose proof (nv_g _ _ _ _ _ _ _ _ _ _ _ NV) as EG. rewrite EP, EG in LO.
  unfold nativeOfRaw. rewrite (inhale_parts aloads _ _ _ _ _ _ _ (nv_parts _ _ _ _ _ _ _ _ _ _ _ NV) LO); [|rewrite (nv_sad _ _ _ _ _ _ _ _ _ _ _ NV); left; reflexivity]. cbn [bind].
  assert (E : s = mkSerder (d_raw s) (d_sad s) (s2b "KERI") (2, 0) G2 KindCesr (len (d_raw s))) by (clear -P K SZ EP EG; destruct s as [x1 x2 x3 x4 x5 x6 x7]; cbn [d_proto d_kind d_pvrsn d_gvrsn d_size d_raw d_sad] in *; congruence).
  rewrite <- E, V. reflexivity.
Qed.
Lemma c88_injective_partial : forall sd1 sd2 raw vs, wellFormed sd1 -> wellFormed sd2 -> nativeDumps (2, 0) (Some (2, 0)) sd1 = Ok raw -> nativeDumps (2, 0) (Some (2, 0)) sd2 = Ok raw ->
  versify (s2b "KERI") (2, 0) (s2b "CESR") (len raw) (Some (2, 0)) = Ok vs -> dset sd1 (s2b "v") (VStr vs) = dset sd2 (s2b "v") (VStr vs).
Proof. intros sd1 sd2 raw vs W1 W2 H1 H2 V. destruct (native_read _ _ _ W1 H1 V) as [A _]. destruct (native_read _ _ _ W2 H2 V) as [B _]. rewrite A in B. apply ok_inj in B. exact B. Qed.

Lemma c88_leading_zero_refuted : exists s, nkMake "ixn" (dset (nkIxn []) (s2b "s") (VStr (s2b "01"))) = Ok s /\ exists s', nkRead true (d_raw s) = Ok (s', []) /\ dget (d_sad s) (s2b "s") = Some (VStr (s2b "01")) /\ dget (d_sad s') (s2b "s") = Some (VStr (s2b "1")) /\ d_raw s' = d_raw s.
Proof. eexists. split; [vm_compute; reflexivity|]. eexists. split; [vm_compute; reflexivity|]. split; [vm_compute; reflexivity|]. split; vm_compute; reflexivity. Qed.
Lemma c88_list_refuted : exists s s' a b, nkMake "icp" (dset nkIcp (s2b "b") (VList [VStr a; VStr b])) = Ok s /\ len a = 40 /\ len b = 4 /\ nkRead true (d_raw s) = Ok (s', []) /\ dget (d_sad s') (s2b "b") = Some (VList [VStr (a ++ b)]).
Proof.
  do 2 eexists. exists (s2b "B" ++ repeat 65 39), (repeat 65 4). split; [vm_compute; reflexivity|]. split; [reflexivity|]. split; [reflexivity|]. split; [vm_compute; reflexivity|vm_compute; reflexivity].
Qed.
Lemma c88_many_seals_refuted : exists s, nkMake "ixn" (nkIxn (repeat (VMap [(s2b "d", VStr (dg "C"))]) 373)) = Ok s /\ nkRead true (d_raw s) = Err DeserializeError /\
  isOk (nkRead true (nkRaw "ixn" (nkIxn (repeat (VMap [(s2b "d", VStr (dg "C"))]) 372)))) = true.
Proof. eexists. split; [vm_compute; reflexivity|]. split; vm_compute; reflexivity. Qed.

Lemma c89_date_round_trip_partial : forall s, isDate s -> exists q, daterText s = Ok q /\ b64text q /\ len q mod 4 = 0 /\ forall rest, daterStrip (q ++ rest) = Ok (s, rest).
Proof. intros s D. destruct (date_reads s D) as (q & Q & R). exists q. split; [exact Q|]. split; [exact (rd_text _ _ _ R)|]. split; [exact (rd_four _ _ _ R)|exact (rd_read _ _ _ R)]. Qed.
Lemma c89_route_round_trip_partial : forall s q, isRoute s -> patherText s = Ok q -> b64text q /\ len q mod 4 = 0 /\ forall rest, patherStrip (q ++ rest) = Ok (s, rest).
Proof. intros s q I H. pose proof (path_reads s q I H) as R. split; [exact (rd_text _ _ _ R)|]. split; [exact (rd_four _ _ _ R)|exact (rd_read _ _ _ R)]. Qed.
Lemma c89_date_refuted : exists q, daterText (s2b "2026-11-15T20:00:00.000000+00:00") = Ok q /\ daterText (s2b "2026-11-15T20:00:00.000000+00:00, or later") = Ok q.
Proof. eexists. split; vm_compute; reflexivity. Qed.
Lemma c89_route_refuted : exists q, patherText (s2b "log-out") = Ok q /\ patherText (s2b "log/out") = Ok q /\ patherStrip q = Ok (s2b "log/out", []).
Proof. eexists. split; [vm_compute; reflexivity|]. split; vm_compute; reflexivity. Qed.


Lemma c90_reading_ends : forall p g raw, nativeLoads p g raw <> Err OverflowError.
Proof. exact loads_nov. Qed.


Lemma c91_binary_partial : forall digest odumps adumps aloads k args sd s,
  serderMake digest odumps (cdumps adumps) k args sd = Ok s -> d_proto s = s2b "KERI" -> d_kind s = s2b "CESR" -> wellFormed (d_sad s) ->
  exists q, decodeB64 (d_raw s) = Ok q /\ octets q /\ encodeB64 q = d_raw s /\ 4 * len q = 3 * len (d_raw s) /\ nativeOfRaw digest odumps adumps aloads k false q = Ok (s, q).
Proof. intros digest odumps adumps aloads k args sd s H P K W. apply (made_binary digest odumps adumps aloads k s); [exact (make_made _ _ _ _ _ _ _ H P K)|exact W]. Qed.
Definition nkBin (ilk : string) (sd : sad) : bytes := match decodeB64 (nkRaw ilk sd) with Ok q => q | Err _ => [] end.
Lemma c91_stripped_refuted : isOk (nkRead false (nkBin "ixn" (nkIxn []))) = true /\ isOk (nkRead true (nkBin "ixn" (nkIxn []))) = false.
Proof. split; vm_compute; reflexivity. Qed.
Lemma c91_stream_refuted : exists s, let other := nkIxn [VMap [(s2b "d", VStr (dg "C"))]] in nkMake "ixn" other = Ok s /\
  nkRead true (nkBin "ixn" (nkIxn []) ++ nkBin "ixn" other) = Ok (s, nkBin "ixn" other) /\ isOk (nkRead false (nkBin "ixn" (nkIxn []) ++ nkBin "ixn" other)) = false.
Proof. eexists. cbv zeta. split; [vm_compute; reflexivity|]. split; [vm_compute; reflexivity|vm_compute; reflexivity]. Qed.

