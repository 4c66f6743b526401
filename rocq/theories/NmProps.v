(** native field maps *)
From Verif Require Import Prelude B64Model B64Proofs MatterModel MatterProofs MatterInv MatterSpec MatterThms SubsModel SubsProofs SubsThms CtrModel CtrProofs CtrThms VerModel ThModel ThProofs JsonModel JsonProofs SerModel SerSpec SerProofs SerInv SerThms CpModel CpSpec CpProofs NmModel NmSpec NmProofs NmProofs2 NmProofs3 NmProofs4 NmThms.
Open Scope N_scope.

(** Every int comes back from its primitive, in text and from the front of any stream. *)
Theorem C81_int_round_trip : forall pyfloat z m t, decimer_of_dec pyfloat (DInt z) = Ok m ->
  dnsOf m = Ok (jint z) /\ decimal pyfloat m = Ok (DInt z) /\ exists q, infil m = Ok q /\ matter_strip (q ++ t) = Ok (m, t).
Proof. exact c81_int_round_trip. Qed.
Print Assumptions C81_int_round_trip.

(** An int is refused only when its text is too long for the codes. *)
Theorem C81_int_refused : forall pyfloat z e, decimer_of_dec pyfloat (DInt z) = Err e -> sizeErr e.
Proof. exact c81_int_refused. Qed.
Print Assumptions C81_int_refused.

(** So does a float whose repr has no plus sign. *)
Theorem C81_float_round_trip_partial : forall pyfloat r m t, floatText pyfloat r -> decimer_of_dec pyfloat (DFloat r) = Ok m ->
  dnsOf m = Ok r /\ decimal pyfloat m = Ok (DFloat r) /\ exists q, infil m = Ok q /\ matter_strip (q ++ t) = Ok (m, t).
Proof. exact c81_float_round_trip_partial. Qed.
Print Assumptions C81_float_round_trip_partial.

(** A float of 1e16 or more does not: 1e16 has repr "1e+16" and is the same primitive as 1e-16. *)
Theorem C81_large_float_refuted : forall pyfloat, pyfloat (s2b "1e+16") = Some (s2b "1e+16") -> pyfloat (s2b "1e-16") = Some (s2b "1e-16") ->
  exists m, decimer_of_dec pyfloat (DFloat (s2b "1e+16")) = Ok m /\ decimer_of_dec pyfloat (DFloat (s2b "1e-16")) = Ok m /\ decimal pyfloat m = Ok (DFloat (s2b "1e-16")).
Proof. exact c81_large_float_refuted. Qed.
Print Assumptions C81_large_float_refuted.

Example C81_example : floatText nmFloat (s2b "-12.5") /\ (exists m, decimer_of_dec nmFloat (DFloat (s2b "-12.5")) = Ok m /\ infil m = Ok (s2b "6HACAAA-12p5")) /\
  (exists m, decimer_of_dec nmFloat (DInt (-340)) = Ok m /\ infil m = Ok (s2b "4HAB-340") /\ decimal nmFloat m = Ok (DInt (-340))).
Proof.
  split; [split; [|split; vm_compute; reflexivity]|split; eexists; (split; [vm_compute; reflexivity|])].
  - unfold s2b. cbn. repeat (apply Forall_cons; [vm_compute; tauto || (left; split; vm_compute; discriminate)|]). apply Forall_nil.
  - vm_compute; reflexivity.
  - split; vm_compute; reflexivity.
Qed.

(** What is written for a field map is Base64 text in whole groups of four, and is read back as the same map from the front of any stream. *)
Theorem C82_round_trip_partial : forall strict m q t, plainMap m -> exhale strict [] m = Ok q ->
  b64text q /\ len q mod 4 = 0 /\ mapperRead strict (q ++ t) = Ok m.
Proof. exact c82_round_trip_partial. Qed.
Print Assumptions C82_round_trip_partial.

(** A field map whose labels are names is refused only for the size of what is in it. *)
Theorem C82_refused_partial : forall strict m e, plainMap m -> legal strict (VMap m) -> exhale strict [] m = Err e -> sizeErr e.
Proof. exact c82_refused_partial. Qed.
Print Assumptions C82_refused_partial.

(** The text "MA+/" is taken for the primitive "MA-_" and comes back as that text. *)
Theorem C82_base64_text_refuted : exists q, exhale true [] [(s2b "x", VStr (s2b "MA+/"))] = Ok q /\ mapperRead true q = Ok [(s2b "x", VStr (s2b "MA-_"))].
Proof. exact c82_base64_text_refuted. Qed.
Print Assumptions C82_base64_text_refuted.

Example C82_example : plainMap nmMap /\ legal true (VMap nmMap) /\ exists q, exhale true [] nmMap = Ok q /\ len q = 180 /\ mapperRead true (q ++ s2b "-AAB") = Ok nmMap.
Proof.
  split; [apply plainB_ok; vm_compute; reflexivity|]. split; [|eexists; split; [vm_compute; reflexivity|split; vm_compute; reflexivity]].
  assert (N : forall l : bytes, last l 0 <> 10 -> forall r, l <> r ++ [10]) by (intros l L r ->; apply L; rewrite last_last; reflexivity).
  cbn [legal fold_right nmMap fst snd]. repeat (split; [first [exact Logic.I|split; [vm_compute; reflexivity|apply N; vm_compute; discriminate]|idtac]|]); try exact Logic.I.
Qed.

(** Different field maps are written differently. *)
Theorem C83_injective_partial : forall strict a b q, plainMap a -> plainMap b -> exhale strict [] a = Ok q -> exhale strict [] b = Ok q -> a = b.
Proof. exact c83_injective_partial. Qed.
Print Assumptions C83_injective_partial.

(** Two verified native maps with the same said are the same map, or exhibit a collision. *)
Theorem C83_said_binds_partial : forall digest strict L dflt a b q, digest_ok digest -> plainMap a -> plainMap b ->
  mapperVerify digest exhale strict [(L, dflt)] a = Ok tt -> mapperVerify digest exhale strict [(L, dflt)] b = Ok tt ->
  dget a L = Some (VStr q) -> dget b L = Some (VStr q) -> a = b \/ collision digest.
Proof. exact c83_said_binds_partial. Qed.
Print Assumptions C83_said_binds_partial.

(** Without that restriction, different maps share their serialization and their said: {"d":said,"x":"MA+/"} and {"d":said,"x":"MA-_"}. *)
Theorem C83_same_said_refuted : forall digest, digest_ok digest -> exists q, let m x := [(s2b "d", VStr q); (s2b "x", VStr (s2b x))] in
  mapperVerify digest exhale true SaidsD (m "MA+/"%string) = Ok tt /\ mapperVerify digest exhale true SaidsD (m "MA-_"%string) = Ok tt /\
  exhale true [] (m "MA+/"%string) = exhale true [] (m "MA-_"%string).
Proof. exact c83_same_said_refuted. Qed.
Print Assumptions C83_same_said_refuted.

(** The said does not commit to the octets read: other octets are read as the same map, whose said then verifies.
    Here a text written with a longer code than needed, and a field given twice of which the last counts. *)
Theorem C83_octets_refuted : exists m q a b, mapperVerify toyDigest exhale true SaidsD m = Ok tt /\ exhale true [] m = Ok q /\
  a <> q /\ mapperRead true a = Ok m /\ b <> q /\ mapperRead true b = Ok m.
Proof. exact c83_octets_refuted. Qed.
Print Assumptions C83_octets_refuted.

Example C83_example : exists m m' s, mapperMake toyDigest exhale true SaidsD ((s2b "d", VStr []) :: nmMap) = Ok (m, s) /\ mapperVerify toyDigest exhale true SaidsD m = Ok tt /\ plainMap m /\
  mapperMake toyDigest exhale true SaidsD [(s2b "d", VStr []); (s2b "x", VInt 1)] = Ok (m', s) /\ plainMap m' /\ saidOf SaidsD m <> saidOf SaidsD m'.
Proof.
  do 3 eexists. split; [vm_compute; reflexivity|]. split; [vm_compute; reflexivity|]. split; [apply plainB_ok; vm_compute; reflexivity|]. split; [vm_compute; reflexivity|]. split; [apply plainB_ok; vm_compute; reflexivity|]. vm_compute. discriminate.
Qed.

(** The binary form of a native field map is three quarters of its text, converts back to the text, and is read back as the same map from the front of any stream. *)
Theorem C84_binary_partial : forall strict m q t, plainMap m -> exhale strict [] m = Ok q ->
  exists b, qb2 q = Ok b /\ octets b /\ encodeB64 b = q /\ 4 * len b = 3 * len q /\ mapperReadB strict (b ++ t) = Ok m.
Proof. exact c84_binary_partial. Qed.
Print Assumptions C84_binary_partial.

(** The text "1AAF!!!!" is taken for a primitive and written as it is: the map comes back from its text but its binary form is not its text. *)
Theorem C84_text_not_base64_refuted : exists q, let m := [(s2b "x", VStr (s2b "1AAF!!!!"))] in exhale true [] m = Ok q /\ ~ b64text q /\ mapperRead true q = Ok m /\
  match qb2 q with Ok b => encodeB64 b <> q | Err _ => True end.
Proof. exact c84_text_not_base64_refuted. Qed.
Print Assumptions C84_text_not_base64_refuted.

Example C84_example : exists q b, exhale true [] nmMap = Ok q /\ qb2 q = Ok b /\ len b = 135 /\ mapperReadB true (b ++ [1; 2; 3]) = Ok nmMap.
Proof. do 2 eexists. split; [vm_compute; reflexivity|]. split; [vm_compute; reflexivity|]. split; vm_compute; reflexivity. Qed.

(** Reading any octets ends: the calls made are at most about twice the octets, whatever they are, so that a larger bound changes nothing, and the bound is never reached. *)
Theorem C85_reading_ends : forall strict s, mapperRead strict s <> Err OverflowError /\ (octets s -> mapperReadB strict s <> Err OverflowError) /\
  forall n, (2 * List.length s + 1 <= n)%nat -> inhaleN n strict s = inhale strict s.
Proof. exact c85_reading_ends. Qed.
Print Assumptions C85_reading_ends.

(** Nested groups may count more than there is: the list below counts 50 quadlets and has none. *)
Theorem C85_nested_count_refuted : exists q, exhale true [] [(s2b "x", VList [])] = Ok q /\ mapperRead true q = Ok [(s2b "x", VList [])] /\
  q <> s2b "-IAC0J_x-JAy" /\ mapperRead true (s2b "-IAC0J_x-JAy") = Ok [(s2b "x", VList [])].
Proof. exact c85_nested_count_refuted. Qed.
Print Assumptions C85_nested_count_refuted.

Example C85_example : inhaleN 6 true (s2b "-IAF0J_x-JAD-JAC-JAB-JAA") = Err OverflowError /\ mapperRead true (s2b "-IAF0J_x-JAD-JAC-JAB-JAA") = Ok [(s2b "x", VList [VList [VList [VList []]]])] /\
  mapperRead true (s2b "-IAC0J_x-AAB") = Err DeserializeError /\ mapperRead true (s2b "-IAC0J_x") = Err DeserializeError.
Proof. split; [vm_compute; reflexivity|]. split; [vm_compute; reflexivity|]. split; vm_compute; reflexivity. Qed.
