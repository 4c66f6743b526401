(** messages *)
From Verif Require Import Prelude B64Model B64Proofs MatterModel MatterProofs MatterInv MatterSpec MatterThms SubsModel SubsProofs ThModel VerModel VerThms JsonModel JsonProofs SerModel SerSpec SerProofs SerInv SerMake SerThms.
Open Scope N_scope.

(** A message accepted from a stream is the serialization of its own field map, what follows it in the stream is left alone, and every digest
    in a self addressing field is the digest of that serialization with the digests in those fields blanked out. *)
Theorem C37_accepted : forall digest odumps cdumps loads, digest_ok digest -> library odumps loads -> forall k raw s,
  serderOfRaw digest odumps cdumps loads k raw = Ok s -> d_kind s <> KindCesr ->
  exists rest ilk D, raw = d_raw s ++ rest /\ dumps odumps cdumps s (d_sad s) = Ok (d_raw s) /\ ilkOf (d_sad s) = Ok ilk /\
    dumps odumps cdumps s (blank (saidFields ilk) (d_sad s)) = Ok D /\
    forall l, In l (saidFields ilk) -> exists t, dget (d_sad s) l = Some (VStr t) /\ forall cd, digestCode (VStr t) = Some cd -> isDigestOf digest cd D t.
Proof. exact c37_accepted. Qed.
Print Assumptions C37_accepted.

(** Two accepted messages of the same serialization kind with the same digest as said are the same message, or exhibit a collision, or
    are inceptions that differ in nothing but the derivation code of the self addressing identifier. *)
Theorem C37_said_commits : forall digest odumps cdumps loads, digest_ok digest -> library odumps loads -> forall k1 k2 raw1 raw2 s1 s2 ilk1 ilk2 t cd,
  serderOfRaw digest odumps cdumps loads k1 raw1 = Ok s1 -> serderOfRaw digest odumps cdumps loads k2 raw2 = Ok s2 ->
  d_kind s1 = d_kind s2 -> d_kind s1 <> KindCesr -> ilkOf (d_sad s1) = Ok ilk1 -> ilkOf (d_sad s2) = Ok ilk2 -> ilk1 <> Some (s2b "rct") -> ilk2 <> Some (s2b "rct") ->
  dget (d_sad s1) (s2b "d") = Some (VStr t) -> dget (d_sad s2) (s2b "d") = Some (VStr t) -> digestCode (VStr t) = Some cd ->
  s1 = s2 \/ collision digest \/
  (ilk1 = ilk2 /\ In ilk1 [Some (s2b "icp"); Some (s2b "dip"); Some (s2b "vcp")] /\ keysOf (d_sad s1) = keysOf (d_sad s2) /\ (forall l, l <> s2b "i" -> dget (d_sad s1) l = dget (d_sad s2) l) /\
   exists D i1 i2 c1 c2, c1 <> c2 /\ dget (d_sad s1) (s2b "i") = Some (VStr i1) /\ dget (d_sad s2) (s2b "i") = Some (VStr i2) /\ isDigestOf digest c1 D i1 /\ isDigestOf digest c2 D i2).
Proof. exact c37_said_commits. Qed.
Print Assumptions C37_said_commits.

(** Tamper evidence: accepted messages that are not inceptions and share their digest are identical, byte for byte, unless there is a collision. *)
Theorem C37_tamper_evident : forall digest odumps cdumps loads, digest_ok digest -> library odumps loads -> forall k1 k2 raw1 raw2 s1 s2 ilk t cd,
  serderOfRaw digest odumps cdumps loads k1 raw1 = Ok s1 -> serderOfRaw digest odumps cdumps loads k2 raw2 = Ok s2 ->
  d_kind s1 = d_kind s2 -> d_kind s1 <> KindCesr -> ilkOf (d_sad s1) = Ok ilk -> ~ In ilk [Some (s2b "rct"); Some (s2b "icp"); Some (s2b "dip"); Some (s2b "vcp")] -> ilkOf (d_sad s2) <> Ok (Some (s2b "rct")) ->
  dget (d_sad s1) (s2b "d") = Some (VStr t) -> dget (d_sad s2) (s2b "d") = Some (VStr t) -> digestCode (VStr t) = Some cd ->
  d_raw s1 = d_raw s2 \/ collision digest.
Proof. exact c37_tamper_evident. Qed.
Print Assumptions C37_tamper_evident.

(** An accepted prefix of a stream states its own length: the size in the version string is the number of bytes of the message. *)
Theorem C09_accepted_size : forall digest odumps cdumps loads, digest_ok digest -> library odumps loads -> forall k raw s,
  serderOfRaw digest odumps cdumps loads k raw = Ok s -> d_kind s <> KindCesr ->
  d_size s = len (d_raw s) /\ exists vs, dget (d_sad s) (s2b "v") = Some (VStr vs) /\ deversify vs = Ok (smellOf s) /\ vs_of (smellOf s) = Ok vs.
Proof. exact c09_accepted_size. Qed.
Print Assumptions C09_accepted_size.

(** The same of a message made by the constructor. *)
Theorem C09_made_size : forall digest odumps cdumps loads, digest_ok digest -> library odumps loads -> forall k args sd s,
  serderMake digest odumps cdumps k args sd = Ok s -> wfv (VMap sd) -> d_kind s <> KindCesr -> d_proto s = s2b "KERI" -> (forall l d, In (l, d) (a_saids args) -> In d DigDex) ->
  d_size s = len (d_raw s) /\ exists vs, dget (d_sad s) (s2b "v") = Some (VStr vs) /\ deversify vs = Ok (smellOf s) /\ vs_of (smellOf s) = Ok vs.
Proof. exact c09_made_size. Qed.
Print Assumptions C09_made_size.

(** What makify produces passes verification: for every field map, all argument combinations that give a representable version string and ask for digests in the said fields. *)
Theorem C37_made_verifies : forall digest odumps cdumps loads, digest_ok digest -> library odumps loads -> forall req args sd s,
  makify digest odumps cdumps req args sd = Ok s -> wfv (VMap sd) -> d_kind s <> KindCesr -> d_proto s = s2b "KERI" ->
  (forall l d, In (l, d) (a_saids args) -> In d DigDex) -> fits (smellOf s) -> verifyBase digest odumps cdumps None s = Ok tt.
Proof. exact c37_made_verifies. Qed.
Print Assumptions C37_made_verifies.

(** A JSON message made by the constructor is read back from any stream that starts with it as the same message. *)
Theorem C37_read_back : forall digest odumps cdumps loads, digest_ok digest -> library odumps loads -> forall k args sd s rest,
  serderMake digest odumps cdumps k args sd = Ok s -> wfv (VMap sd) -> d_kind s = s2b "JSON" -> d_proto s = s2b "KERI" -> (forall l d, In (l, d) (a_saids args) -> In d DigDex) ->
  serderOfRaw digest odumps cdumps loads k (d_raw s ++ rest) = Ok s.
Proof. exact c37_read_back. Qed.
Print Assumptions C37_read_back.

(** Reading is idempotent: an accepted JSON message reads back from its own serialization. *)
Theorem C37_reread : forall digest odumps cdumps loads, digest_ok digest -> library odumps loads -> forall k raw s rest,
  serderOfRaw digest odumps cdumps loads k raw = Ok s -> d_kind s = s2b "JSON" -> serderOfRaw digest odumps cdumps loads k (d_raw s ++ rest) = Ok s.
Proof. exact c37_reread. Qed.
Print Assumptions C37_reread.

(** saidify puts a said into the map that Saider.verify accepts, also with the check of the field itself. *)
Theorem C37_saidify_verifies : forall digest odumps cdumps, digest_ok digest -> forall code kind label ignore sd m sd' prefixed,
  label <> s2b "v" -> saidify digest odumps cdumps code kind label ignore sd = Ok (m, sd') ->
  saiderVerify digest odumps cdumps m sd' prefixed kind label ignore = true.
Proof. exact c37_saidify_verifies. Qed.
Print Assumptions C37_saidify_verifies.

(** A said that verifies against two maps (JSON, CBOR or MGPK) binds every field but itself and the ignored ones. *)
Theorem C37_saider_binds : forall digest odumps cdumps loads, digest_ok digest -> library odumps loads -> forall m sd1 sd2 p1 p2 kind label ignore,
  In kind [s2b "JSON"; s2b "CBOR"; s2b "MGPK"] -> wfv (VMap sd1) -> wfv (VMap sd2) -> octets (m_raw m) ->
  saiderVerify digest odumps cdumps m sd1 p1 kind label ignore = true -> saiderVerify digest odumps cdumps m sd2 p2 kind label ignore = true ->
  (forall k, k <> label -> ~ In k ignore -> dget sd1 k = dget sd2 k) \/ collision digest.
Proof. exact c37_saider_binds. Qed.
Print Assumptions C37_saider_binds.

(** An accepted inception has an identifier that is either the digest of the inception itself, or, for the non delegated one only, its single key
    under a threshold of one, or it is an Ed448 signature, of which nothing is checked (see C49_signature_prefix_refuted). *)
Theorem C49_inception_binds : forall digest odumps cdumps loads, digest_ok digest -> library odumps loads -> forall raw s ilk,
  serderOfRaw digest odumps cdumps loads KERI raw = Ok s -> d_kind s <> KindCesr -> ilkOf (d_sad s) = Ok (Some ilk) -> In ilk [s2b "icp"; s2b "dip"] ->
  exists p, dget (d_sad s) (s2b "i") = Some (VStr p) /\
   ((exists D c, dumps odumps cdumps s (blank [s2b "d"; s2b "i"] (d_sad s)) = Ok D /\ isDigestOf digest c D p) \/
    (ilk = s2b "icp" /\ dget (d_sad s) (s2b "k") = Some (VList [VStr p]) /\ (dget (d_sad s) (s2b "kt") = Some (VInt 1) \/ exists kt, dget (d_sad s) (s2b "kt") = Some (VStr kt) /\ hexint kt = Ok 1)) \/
    (ilk = s2b "icp" /\ codeOf (Some (VStr p)) = Ok (s2b "1AAE"))).
Proof. exact c49_inception_binds. Qed.
Print Assumptions C49_inception_binds.

(** Two accepted inceptions with the same digest as identifier have the same content but for the derivation code of the said, or exhibit a collision. *)
Theorem C49_prefix_commits : forall digest odumps cdumps loads, digest_ok digest -> library odumps loads -> forall raw1 raw2 s1 s2 ilk1 ilk2 p cd,
  serderOfRaw digest odumps cdumps loads KERI raw1 = Ok s1 -> serderOfRaw digest odumps cdumps loads KERI raw2 = Ok s2 -> d_kind s1 = d_kind s2 -> d_kind s1 <> KindCesr ->
  ilkOf (d_sad s1) = Ok (Some ilk1) -> ilkOf (d_sad s2) = Ok (Some ilk2) -> In ilk1 [s2b "icp"; s2b "dip"; s2b "vcp"] -> In ilk2 [s2b "icp"; s2b "dip"; s2b "vcp"] ->
  dget (d_sad s1) (s2b "i") = Some (VStr p) -> dget (d_sad s2) (s2b "i") = Some (VStr p) -> digestCode (VStr p) = Some cd ->
  collision digest \/ (keysOf (d_sad s1) = keysOf (d_sad s2) /\ forall l, l <> s2b "d" -> dget (d_sad s1) l = dget (d_sad s2) l).
Proof. exact c49_prefix_commits. Qed.
Print Assumptions C49_prefix_commits.

(** Identifiers with a non transferable derivation code are accepted only in establishment events that commit to no next keys, no witnesses and no seals. *)
Theorem C49_nontransferable : forall digest odumps cdumps loads raw s ilk p code,
  serderOfRaw digest odumps cdumps loads KERI raw = Ok s -> ilkOf (d_sad s) = Ok (Some ilk) -> In ilk [s2b "icp"; s2b "dip"; s2b "rot"; s2b "drt"] ->
  dget (d_sad s) (s2b "i") = Some (VStr p) -> codeOf (Some (VStr p)) = Ok code -> In code NonTransDex ->
  truthy (dget (d_sad s) (s2b "n")) = false /\ truthy (dget (d_sad s) (s2b "b")) = false /\ truthy (dget (d_sad s) (s2b "a")) = false /\ In ilk [s2b "icp"; s2b "rot"].
Proof. exact c49_nontransferable. Qed.
Print Assumptions C49_nontransferable.

(** An interaction event is made, verifies, states its size, reads back and is rejected once a byte of its seal is changed. *)
Example C37_ixn_example : exists s raw, ixnMsg "one" = Ok s /\ d_size s = 214 /\ len (d_raw s) = 214 /\
  serderOfRaw toyDigest noDumps (fun _ _ _ _ => Err ValueError) refLoads KERI (d_raw s ++ s2b "rest") = Ok s /\
  jread raw = Some (VMap (dset (d_sad s) (s2b "a") (VList [VMap [(s2b "x", VStr (s2b "two"))]]))) /\
  serderOfRaw toyDigest noDumps (fun _ _ _ _ => Err ValueError) refLoads KERI raw = Err ValidationError.
Proof.
  eexists. eexists (json (VMap (dset (match ixnMsg "one" with Ok s => d_sad s | Err _ => [] end) (s2b "a") (VList [VMap [(s2b "x", VStr (s2b "two"))]])))).
  split; [vm_compute; reflexivity|]. split; [reflexivity|]. split; [reflexivity|]. split; [vm_compute; reflexivity|]. split; [vm_compute; reflexivity|]. vm_compute. reflexivity.
Qed.

(** The said is only checked when it is a digest: any other primitive is accepted in its place, so that two different accepted events
    can have the same said whatever the digest algorithm. *)
Theorem C37_nondigest_said_refuted : forall digest odumps cdumps, exists raw1 raw2 s1 s2 t,
  serderOfRaw digest odumps cdumps refLoads KERI raw1 = Ok s1 /\ serderOfRaw digest odumps cdumps refLoads KERI raw2 = Ok s2 /\
  dget (d_sad s1) (s2b "d") = Some (VStr t) /\ dget (d_sad s2) (s2b "d") = Some (VStr t) /\ ilkOf (d_sad s1) = Ok (Some (s2b "ixn")) /\ d_raw s1 <> d_raw s2.
Proof. exact c37_nondigest_said_refuted. Qed.
Print Assumptions C37_nondigest_said_refuted.

(** Of an identifier that is a signature nothing is checked: two accepted inceptions of the same such identifier with different keys, whatever the digest algorithm. *)
Theorem C49_signature_prefix_refuted : forall digest odumps cdumps, digest_ok digest -> library odumps refLoads -> exists raw1 raw2 s1 s2 p k1 k2,
  serderOfRaw digest odumps cdumps refLoads KERI raw1 = Ok s1 /\ serderOfRaw digest odumps cdumps refLoads KERI raw2 = Ok s2 /\ k1 <> k2 /\
  dget (d_sad s1) (s2b "i") = Some (VStr p) /\ dget (d_sad s2) (s2b "i") = Some (VStr p) /\ dget (d_sad s1) (s2b "k") = Some (VList [VStr k1]) /\ dget (d_sad s2) (s2b "k") = Some (VList [VStr k2]).
Proof. exact c49_signature_prefix_refuted. Qed.
Print Assumptions C49_signature_prefix_refuted.

(** The said of an inception does not commit to the derivation code of its identifier: whatever the digest algorithms, two accepted inceptions
    have the same said and different identifiers. *)
Theorem C37_prefix_code_refuted : forall digest odumps cdumps, digest_ok digest -> library odumps refLoads -> exists raw1 raw2 s1 s2 t i1 i2,
  serderOfRaw digest odumps cdumps refLoads KERI raw1 = Ok s1 /\ serderOfRaw digest odumps cdumps refLoads KERI raw2 = Ok s2 /\
  dget (d_sad s1) (s2b "d") = Some (VStr t) /\ dget (d_sad s2) (s2b "d") = Some (VStr t) /\ dget (d_sad s1) (s2b "i") = Some (VStr i1) /\ dget (d_sad s2) (s2b "i") = Some (VStr i2) /\ i1 <> i2.
Proof. exact c37_prefix_code_refuted. Qed.
Print Assumptions C37_prefix_code_refuted.

(** A digest identifier and a key identifier, accepted; the same inception with another key under the same identifier is rejected. *)
Example C49_example :
  let mk over pre k := serderMake toyDigest noDumps (fun _ _ _ _ => Err ValueError) KERI (icpArgs over) (icpSad pre k) in
  (exists s p, mk [] [] (akey "A") = Ok s /\ dget (d_sad s) (s2b "i") = Some (VStr p) /\ dget (d_sad s) (s2b "d") = Some (VStr p) /\ codeOf (Some (VStr p)) = Ok (s2b "E")) /\
  (exists s, mk [] (akey "A") (akey "A") = Ok s /\ dget (d_sad s) (s2b "i") = Some (VStr (akey "A"))) /\
  mk [] (akey "A") (akey "B") = Err ValidationError.
Proof.
  cbv zeta. split; [|split].
  - do 2 eexists. split; [vm_compute; reflexivity|]. split; [vm_compute; reflexivity|]. split; vm_compute; reflexivity.
  - eexists. split; vm_compute; reflexivity.
  - vm_compute. reflexivity.
Qed.

(** A map is saidified, verifies, and no longer verifies after a change outside the ignored labels; changes of ignored labels do not matter. *)
Example C37_saidify_example :
  let sd x y := [(s2b "d", VStr []); (s2b "n", VStr (s2b x)); (s2b "u", VStr (s2b y))] in
  let cd := fun (_ : bytes) (_ : versionage) (_ : option versionage) (_ : sad) => @Err bytes ValueError in
  exists m sd', saidify toyDigest noDumps cd (s2b "E") (s2b "JSON") (s2b "d") [s2b "u"] (sd "name" "one")%string = Ok (m, sd') /\
    saiderVerify toyDigest noDumps cd m sd' true (s2b "JSON") (s2b "d") [s2b "u"] = true /\
    saiderVerify toyDigest noDumps cd m (dset sd' (s2b "u") (VStr (s2b "two"))) true (s2b "JSON") (s2b "d") [s2b "u"] = true /\
    saiderVerify toyDigest noDumps cd m (dset sd' (s2b "n") (VStr (s2b "nome"))) true (s2b "JSON") (s2b "d") [s2b "u"] = false.
Proof. cbv zeta. do 2 eexists. split; [vm_compute; reflexivity|]. split; [vm_compute; reflexivity|]. split; vm_compute; reflexivity. Qed.
