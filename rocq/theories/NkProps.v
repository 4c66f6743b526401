(** Native KERI messages *)
From Verif Require Import Prelude B64Model B64Proofs MatterModel MatterProofs MatterInv MatterSpec MatterThms SubsModel SubsProofs SubsThms CtrModel CtrProofs CtrThms ThModel VerModel VerThms JsonModel JsonProofs SerModel SerSpec SerProofs SerInv SerThms PsProofs NmModel NmSpec NmProofs NmProofs2 NmProofs3 NmProofs4 NkModel NkSpec NkProofs NkProofs2 NkProofs3 NkProofs4 NkProofs5 NkProofs6 NkProofs7 NkThms.
Open Scope N_scope.

(** A native message accepted from a stream is the serialization of its own field map, which has the fields of its type in their order, its version
    string describes it, and its said, which always is a digest, and every other digest in a self addressing field are those of the serialization with these
    digests blanked out.  In the text domain the message is what the stream begins with, and what follows is left alone. *)
Theorem C86_accepted : forall digest odumps adumps aloads, digest_ok digest -> forall k strip raw s r,
  nativeOfRaw digest odumps adumps aloads k strip raw = Ok (s, r) -> d_proto s = s2b "KERI" ->
  d_kind s = s2b "CESR" /\ d_size s = len (d_raw s) /\ d_pvrsn s = (2, 0) /\ d_gvrsn s = Some (2, 0) /\ nativeDumps (2, 0) (Some (2, 0)) (d_sad s) = Ok (d_raw s) /\
  (exists vs, dget (d_sad s) (s2b "v") = Some (VStr vs) /\ deversify vs = Ok (smellOf s)) /\
  (exists ilk fd D, dget (d_sad s) (s2b "t") = Some (VStr ilk) /\ In (Some ilk, fd) Fields_KERI_2 /\ keysOf (d_sad s) = keysOf (f_alls fd) /\
     nativeDumps (2, 0) (Some (2, 0)) (blank (saidFields (Some ilk)) (d_sad s)) = Ok D /\
     forall l, In l (saidFields (Some ilk)) -> exists t, dget (d_sad s) l = Some (VStr t) /\ (l = s2b "d" -> exists cd, digestCode (VStr t) = Some cd) /\ forall cd, digestCode (VStr t) = Some cd -> isDigestOf digest cd D t) /\
  (sniff raw = Ok Ctxt -> exists rest, raw = d_raw s ++ rest /\ r = if strip then rest else raw).
Proof. exact c86_accepted. Qed.
Print Assumptions C86_accepted.

Example C86_example : digest_ok toyDigest /\ sniff (nkRaw "icp" nkIcp) = Ok Ctxt /\ (exists s, nkRead true (nkRaw "icp" nkIcp ++ nkRaw "rpy" nkRpy) = Ok (s, nkRaw "rpy" nkRpy) /\ d_proto s = s2b "KERI" /\ len (d_raw s) = 524) /\
  (exists s, nkRead true (nkRaw "rpy" nkRpy) = Ok (s, []) /\ ntake 4 (d_raw s) = s2b "-FA5").
Proof. split; [exact toy_ok|]. split; [vm_compute; reflexivity|]. split; eexists; (split; [vm_compute; reflexivity|]); [split; vm_compute; reflexivity|vm_compute; reflexivity]. Qed.

(** Two accepted native messages with the same said are the same message, or exhibit a collision, or are inceptions that differ in nothing but the
    derivation code of the self addressing identifier. *)
Theorem C87_said_commits : forall digest odumps adumps aloads, digest_ok digest -> forall k1 k2 b1 b2 raw1 raw2 s1 s2 r1 r2 ilk1 ilk2 t,
  nativeOfRaw digest odumps adumps aloads k1 b1 raw1 = Ok (s1, r1) -> nativeOfRaw digest odumps adumps aloads k2 b2 raw2 = Ok (s2, r2) -> d_proto s1 = s2b "KERI" -> d_proto s2 = s2b "KERI" ->
  ilkOf (d_sad s1) = Ok ilk1 -> ilkOf (d_sad s2) = Ok ilk2 -> ilk1 <> Some (s2b "rct") -> ilk2 <> Some (s2b "rct") ->
  dget (d_sad s1) (s2b "d") = Some t -> dget (d_sad s2) (s2b "d") = Some t ->
  s1 = s2 \/ collision digest \/
  (ilk1 = ilk2 /\ In ilk1 [Some (s2b "icp"); Some (s2b "dip")] /\ keysOf (d_sad s1) = keysOf (d_sad s2) /\ (forall l, l <> s2b "i" -> dget (d_sad s1) l = dget (d_sad s2) l) /\
   exists D i1 i2 c1 c2, c1 <> c2 /\ dget (d_sad s1) (s2b "i") = Some (VStr i1) /\ dget (d_sad s2) (s2b "i") = Some (VStr i2) /\ isDigestOf digest c1 D i1 /\ isDigestOf digest c2 D i2).
Proof. exact c87_said_commits. Qed.
Print Assumptions C87_said_commits.

(** Tamper evidence: accepted native messages that are not inceptions and share their said are identical, byte for byte, unless there is a collision. *)
Theorem C87_tamper_evident : forall digest odumps adumps aloads, digest_ok digest -> forall k1 k2 b1 b2 raw1 raw2 s1 s2 r1 r2 ilk t,
  nativeOfRaw digest odumps adumps aloads k1 b1 raw1 = Ok (s1, r1) -> nativeOfRaw digest odumps adumps aloads k2 b2 raw2 = Ok (s2, r2) -> d_proto s1 = s2b "KERI" -> d_proto s2 = s2b "KERI" ->
  ilkOf (d_sad s1) = Ok ilk -> ~ In ilk [Some (s2b "rct"); Some (s2b "icp"); Some (s2b "dip")] -> ilkOf (d_sad s2) <> Ok (Some (s2b "rct")) ->
  dget (d_sad s1) (s2b "d") = Some t -> dget (d_sad s2) (s2b "d") = Some t -> d_raw s1 = d_raw s2 \/ collision digest.
Proof. exact c87_tamper_evident. Qed.
Print Assumptions C87_tamper_evident.

Example C87_example : isOk (nkRead true (nkRaw "rpy" nkRpy)) = true /\ nkRead true (setAt 152 66 (nkRaw "rpy" nkRpy)) = Err ValidationError /\ nkRead true (setAt 30 66 (nkRaw "rpy" nkRpy)) = Err ValidationError /\
  (exists s r, nkRead true (nkRaw "rpy" nkRpy) = Ok (s, r) /\ ilkOf (d_sad s) = Ok (Some (s2b "rpy"))).
Proof. split; [vm_compute; reflexivity|]. split; [vm_compute; reflexivity|]. split; [vm_compute; reflexivity|]. do 2 eexists. split; vm_compute; reflexivity. Qed.

Theorem C87_dropped_seal_refuted : exists s1 s2, nkMake "ixn" (nkIxn [VMap [(s2b "x", VStr (s2b "pay Bob 10"))]]) = Ok s1 /\ nkMake "ixn" (nkIxn [VMap [(s2b "x", VStr (s2b "pay Eve 1000"))]]) = Ok s2 /\
  d_raw s1 = d_raw s2 /\ dget (d_sad s1) (s2b "d") = dget (d_sad s2) (s2b "d") /\ dget (d_sad s1) (s2b "a") <> dget (d_sad s2) (s2b "a") /\
  exists s3, nkRead true (d_raw s1) = Ok (s3, []) /\ dget (d_sad s3) (s2b "a") = Some (VList []).
Proof. exact c87_dropped_seal_refuted. Qed.
Print Assumptions C87_dropped_seal_refuted.

(** A native message made from its fields is read back as the same message from the front of any stream. *)
Theorem C88_read_back_partial : forall digest odumps adumps aloads k args sd s strip rest,
  serderMake digest odumps (cdumps adumps) k args sd = Ok s -> d_proto s = s2b "KERI" -> d_kind s = s2b "CESR" -> wellFormed (d_sad s) ->
  nativeOfRaw digest odumps adumps aloads k strip (d_raw s ++ rest) = Ok (s, if strip then rest else d_raw s ++ rest).
Proof. exact c88_read_back_partial. Qed.
Print Assumptions C88_read_back_partial.

(** So is a message made from a complete field map. *)
Theorem C88_of_field_map_partial : forall digest odumps adumps aloads k sd s strip rest,
  serderOfSad digest odumps (cdumps adumps) k sd = Ok s -> d_proto s = s2b "KERI" -> d_kind s = s2b "CESR" -> wellFormed (d_sad s) ->
  nativeOfRaw digest odumps adumps aloads k strip (d_raw s ++ rest) = Ok (s, if strip then rest else d_raw s ++ rest).
Proof. exact c88_of_field_map_partial. Qed.
Print Assumptions C88_of_field_map_partial.

(** Reading is idempotent for every accepted message. *)
Theorem C88_reread : forall digest odumps adumps aloads, digest_ok digest -> forall k strip raw s r strip' rest,
  nativeOfRaw digest odumps adumps aloads k strip raw = Ok (s, r) -> d_proto s = s2b "KERI" ->
  nativeOfRaw digest odumps adumps aloads k strip' (d_raw s ++ rest) = Ok (s, if strip' then rest else d_raw s ++ rest).
Proof. exact c88_reread. Qed.
Print Assumptions C88_reread.

(** Well formed field maps with the same serialization are the same but for the version string. *)
Theorem C88_injective_partial : forall sd1 sd2 raw vs, wellFormed sd1 -> wellFormed sd2 -> nativeDumps (2, 0) (Some (2, 0)) sd1 = Ok raw -> nativeDumps (2, 0) (Some (2, 0)) sd2 = Ok raw ->
  versify (s2b "KERI") (2, 0) (s2b "CESR") (len raw) (Some (2, 0)) = Ok vs -> dset sd1 (s2b "v") (VStr vs) = dset sd2 (s2b "v") (VStr vs).
Proof. exact c88_injective_partial. Qed.
Print Assumptions C88_injective_partial.

Example C88_example : (exists s, nkMake "icp" nkIcp = Ok s /\ wellFormed (d_sad s) /\ nkRead true (d_raw s ++ s2b "-AAB") = Ok (s, s2b "-AAB")) /\ (exists s, nkMake "rpy" nkRpy = Ok s /\ wellFormed (d_sad s) /\ d_proto s = s2b "KERI" /\ d_kind s = s2b "CESR" /\
  serderOfSad toyDigest noDumps (cdumps noA) KERI (d_sad s) = Ok s).
Proof.
  split; eexists; (split; [vm_compute; reflexivity|]); (split; [apply wfB_ok; vm_compute; reflexivity|]); [vm_compute; reflexivity|]. split; [vm_compute; reflexivity|]. split; [vm_compute; reflexivity|vm_compute; reflexivity].
Qed.

(** What is not well formed need not come back: a number with a leading zero, the keys of a list cut elsewhere and seals that need a large
    count code. *)
Theorem C88_leading_zero_refuted : exists s, nkMake "ixn" (dset (nkIxn []) (s2b "s") (VStr (s2b "01"))) = Ok s /\ exists s', nkRead true (d_raw s) = Ok (s', []) /\ dget (d_sad s) (s2b "s") = Some (VStr (s2b "01")) /\ dget (d_sad s') (s2b "s") = Some (VStr (s2b "1")) /\ d_raw s' = d_raw s.
Proof. exact c88_leading_zero_refuted. Qed.
Print Assumptions C88_leading_zero_refuted.

Theorem C88_list_refuted : exists s s' a b, nkMake "icp" (dset nkIcp (s2b "b") (VList [VStr a; VStr b])) = Ok s /\ len a = 40 /\ len b = 4 /\ nkRead true (d_raw s) = Ok (s', []) /\ dget (d_sad s') (s2b "b") = Some (VList [VStr (a ++ b)]).
Proof. exact c88_list_refuted. Qed.
Print Assumptions C88_list_refuted.

Theorem C88_many_seals_refuted : exists s, nkMake "ixn" (nkIxn (repeat (VMap [(s2b "d", VStr (dg "C"))]) 373)) = Ok s /\ nkRead true (d_raw s) = Err DeserializeError /\
  isOk (nkRead true (nkRaw "ixn" (nkIxn (repeat (VMap [(s2b "d", VStr (dg "C"))]) 372)))) = true.
Proof. exact c88_many_seals_refuted. Qed.
Print Assumptions C88_many_seals_refuted.

(** A date and time with microseconds and offset comes back from its primitive, from the front of any stream. *)
Theorem C89_date_round_trip_partial : forall s, isDate s -> exists q, daterText s = Ok q /\ b64text q /\ len q mod 4 = 0 /\ forall rest, daterStrip (q ++ rest) = Ok (s, rest).
Proof. exact c89_date_round_trip_partial. Qed.
Print Assumptions C89_date_round_trip_partial.

(** A route with its slashes comes back from its primitive, from the front of any stream. *)
Theorem C89_route_round_trip_partial : forall s q, isRoute s -> patherText s = Ok q -> b64text q /\ len q mod 4 = 0 /\ forall rest, patherStrip (q ++ rest) = Ok (s, rest).
Proof. exact c89_route_round_trip_partial. Qed.
Print Assumptions C89_route_round_trip_partial.

(** What follows a date in its text is cut off, and a route with hyphens and no slashes comes back with slashes. *)
Theorem C89_date_refuted : exists q, daterText (s2b "2026-11-15T20:00:00.000000+00:00") = Ok q /\ daterText (s2b "2026-11-15T20:00:00.000000+00:00, or later") = Ok q.
Proof. exact c89_date_refuted. Qed.
Print Assumptions C89_date_refuted.

Theorem C89_route_refuted : exists q, patherText (s2b "log-out") = Ok q /\ patherText (s2b "log/out") = Ok q /\ patherStrip q = Ok (s2b "log/out", []).
Proof. exact c89_route_refuted. Qed.
Print Assumptions C89_route_refuted.

Example C89_example : isDate (s2b "2026-11-15T20:00:00.000000+00:00") /\ isRoute (s2b "/end/role/add") /\ isRoute (s2b "/a-b/c d") /\ isRoute (s2b "A") /\
  patherText (s2b "/end/role/add") = Ok (s2b "6AAEAAA-end-role-add") /\ isOk (patherText (s2b "/a-b/c d")) = true /\ isOk (patherText (s2b "A")) = true /\ patherText (s2b "a//b") = Err InvalidValueError.
Proof.
  split; [apply dateB_ok; vm_compute; reflexivity|]. split; [apply routeB_ok; vm_compute; reflexivity|]. split; [apply routeB_ok; vm_compute; reflexivity|]. split; [apply routeB_ok; vm_compute; reflexivity|].
  split; [vm_compute; reflexivity|]. split; [vm_compute; reflexivity|]. split; vm_compute; reflexivity.
Qed.

(** Reading any octets as the body of a native message ends: no loop takes more rounds than there are octets in its frame. *)
Theorem C90_reading_ends : forall p g raw, nativeLoads p g raw <> Err OverflowError.
Proof. exact c90_reading_ends. Qed.
Print Assumptions C90_reading_ends.

Example C90_example : readAll (sealStrip [(s2b "d", PDig)]) 1 (dg "A" ++ dg "B") = Err OverflowError /\ isOk (readFrame (sealStrip [(s2b "d", PDig)]) (dg "A" ++ dg "B")) = true /\
  nativeLoads (2, 0) (Some (2, 0)) (ntake 100 (nkRaw "ixn" (nkIxn []))) = Err ShortageError /\ isOk (nativeLoads (2, 0) (Some (2, 0)) (nkRaw "ixn" (nkIxn []))) = true.
Proof. split; [vm_compute; reflexivity|]. split; [vm_compute; reflexivity|]. split; vm_compute; reflexivity. Qed.

(** The binary form of a native message is three quarters of its text, converts back to the text, and is read back as the same message
    when there is nothing behind it and it is not stripped from its stream. *)
Theorem C91_binary_partial : forall digest odumps adumps aloads k args sd s,
  serderMake digest odumps (cdumps adumps) k args sd = Ok s -> d_proto s = s2b "KERI" -> d_kind s = s2b "CESR" -> wellFormed (d_sad s) ->
  exists q, decodeB64 (d_raw s) = Ok q /\ octets q /\ encodeB64 q = d_raw s /\ 4 * len q = 3 * len (d_raw s) /\ nativeOfRaw digest odumps adumps aloads k false q = Ok (s, q).
Proof. exact c91_binary_partial. Qed.
Print Assumptions C91_binary_partial.

(** Stripped from its stream it is not read: alone it is refused, and in front of another message the other message is returned in its place and stays
    in the stream. *)
Theorem C91_stripped_refuted : isOk (nkRead false (nkBin "ixn" (nkIxn []))) = true /\ isOk (nkRead true (nkBin "ixn" (nkIxn []))) = false.
Proof. exact c91_stripped_refuted. Qed.
Print Assumptions C91_stripped_refuted.

Theorem C91_stream_refuted : exists s, let other := nkIxn [VMap [(s2b "d", VStr (dg "C"))]] in nkMake "ixn" other = Ok s /\
  nkRead true (nkBin "ixn" (nkIxn []) ++ nkBin "ixn" other) = Ok (s, nkBin "ixn" other) /\ isOk (nkRead false (nkBin "ixn" (nkIxn []) ++ nkBin "ixn" other)) = false.
Proof. exact c91_stream_refuted. Qed.
Print Assumptions C91_stream_refuted.

Example C91_example : exists s, nkMake "icp" nkIcp = Ok s /\ wellFormed (d_sad s) /\ nkRead false (nkBin "icp" nkIcp) = Ok (s, nkBin "icp" nkIcp) /\ len (nkBin "icp" nkIcp) = 393.
Proof. eexists. split; [vm_compute; reflexivity|]. split; [apply wfB_ok; vm_compute; reflexivity|]. split; vm_compute; reflexivity. Qed.
