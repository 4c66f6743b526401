(** Properties of version strings and stream starts *)
From Verif Require Import Prelude B64Model B64Proofs MatterModel MatterProofs SubsModel SubsProofs CtrModel CtrProofs CtrThms VerModel VerThms.
Open Scope N_scope.

(** C09.  Every expressible combination of values has a version string, which reads back as
    these values whatever follows it. *)
Theorem C09_round_trip : forall sm, fits sm -> exists vs, vs_of sm = Ok vs /\ (len vs = 17 \/ len vs = 19) /\
  forall rest, deversify (vs ++ rest) = Ok sm.
Proof. exact c09_round_trip. Qed.
Print Assumptions C09_round_trip.

(** C09.  What is recognised as a version string is exactly the version string of the values
    reported. *)
Theorem C09_canonical : forall s sm, deversify s = Ok sm -> fits sm /\ exists vs rest, s = vs ++ rest /\ vs_of sm = Ok vs.
Proof. exact c09_canonical. Qed.
Print Assumptions C09_canonical.

(** C09.  A version string made from any values, also from values that do not fit its fields,
    is never read as other values. *)
Theorem C09_never_misread : forall proto pvrsn kind size gvrsn vs sm, versify proto pvrsn kind size gvrsn = Ok vs -> deversify vs = Ok sm ->
  s_proto sm = proto /\ s_pvrsn sm = pvrsn /\ s_kind sm = kind /\ s_size sm = size /\
  s_gvrsn sm = (if fst pvrsn <? 2 then None else match gvrsn with Some g => Some g | None => Some pvrsn end).
Proof. exact c09_never_misread. Qed.
Print Assumptions C09_never_misread.

(** C09.  smell finds the version string of a message: behind at most 8 bytes without capital
    letters, which is how every JSON, CBOR and MGPK map whose first field is v starts. *)
Theorem C09_smell : forall sm pre vs post, fits sm -> vs_of sm = Ok vs -> Forall (fun x => upper x = false) pre -> len pre <= 8 ->
  27 <= len (pre ++ vs ++ post) -> smell (pre ++ vs ++ post) = Ok sm.
Proof. exact c09_smell. Qed.
Print Assumptions C09_smell.

(** C09.  What smell reports is a version string at offset at most 8. *)
Theorem C09_smell_sound : forall raw sm, smell raw = Ok sm -> fits sm /\ exists pre vs post, raw = pre ++ vs ++ post /\ len pre <= 8 /\ vs_of sm = Ok vs.
Proof. exact c09_smell_sound. Qed.
Print Assumptions C09_smell_sound.

(** C09.  The answer of smell does not change when more bytes arrive. *)
Theorem C09_smell_stable : forall raw more, smell raw <> Err ShortageError -> smell (raw ++ more) = smell raw.
Proof. exact c09_smell_stable. Qed.
Print Assumptions C09_smell_stable.

Example C09_example : let sm := {| s_proto := s2b "KERI"; s_pvrsn := (2, 0); s_kind := s2b "JSON"; s_size := 300; s_gvrsn := Some (2, 1) |} in
  fits sm /\ vs_of sm = Ok (s2b "KERICAACABJSONAAEs.") /\ deversify (s2b "KERICAACABJSONAAEs.") = Ok sm /\ smell ([123; 34; 118; 34; 58; 34] ++ s2b "KERICAACABJSONAAEs." ++ s2b "more") = Ok sm /\
  versify (s2b "KERI") (1, 0) (s2b "CBOR") 300 None = Ok (s2b "KERI10CBOR00012c_").
Proof.
  split; [|vm_compute; auto]. vm_compute. split; [auto|]. right. split; [auto|]. split; [reflexivity|]. split; [reflexivity|]. split; [auto|]. exists 1. vm_compute. auto.
Qed.

(** C48.  Every first byte has a cold start status, and sniff depends on nothing else. *)
Theorem C48_sniff_total : forall x rest, x < 256 -> exists s, sniff (x :: rest) = Ok s /\ forall rest', sniff (x :: rest') = Ok s.
Proof. exact c48_sniff_total. Qed.
Print Assumptions C48_sniff_total.

(** C48.  Message starts: a JSON object, a MGPK map of up to 15 or more pairs, a CBOR map. *)
Theorem C48_messages : forall x rest, x = 123 \/ 128 <= x <= 143 \/ x = 222 \/ x = 223 \/ 160 <= x <= 191 -> sniff (x :: rest) = Ok Cmsg.
Proof. exact c48_messages. Qed.
Print Assumptions C48_messages.

(** C48.  The start of every count code is told apart in text and binary form. *)
Theorem C48_counters : forall v code count c, counter_of v code count = Ok c ->
  exists q b, cinfil c = Ok q /\ cbinfil c = Ok b /\ forall rest, sniff (q ++ rest) = Ok Ctxt /\ sniff (b ++ rest) = Ok Cbny.
Proof. exact c48_counters. Qed.
Print Assumptions C48_counters.

Example C48_example : sniff (s2b "-KAB") = Ok Ctxt /\ sniff [248; 160; 1] = Ok Cbny /\ sniff (s2b "{") = Ok Cmsg.
Proof. vm_compute. auto. Qed.
