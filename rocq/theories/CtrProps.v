(** Count codes *)
From Verif Require Import Prelude B64Model B64Proofs MatterModel MatterProofs MatterInv MatterBinInv QualProofs IdxModel IdxProofs CtrModel CtrProofs CtrThms.

(** C39.  The text of an accepted counter, in front of any stream, reads back as the same counter
    (code, count, name, version) with the given count and leaves exactly that stream. *)
Theorem C39_text_round_trip : forall v code count c, counter_of v code count = Ok c ->
  c_count c = count /\ c_vrsn c = v /\
  exists q, cinfil c = Ok q /\ b64text q /\ len q mod 4 = 0 /\ forall t, counter_strip v (q ++ t) = Ok (c, t).
Proof. exact c39_text_round_trip. Qed.
Print Assumptions C39_text_round_trip.

(** C39.  The same in the binary domain, and both domains are conversions of each other. *)
Theorem C39_binary_round_trip : forall v code count c, counter_of v code count = Ok c ->
  exists q b, cinfil c = Ok q /\ cbinfil c = Ok b /\ octets b /\ decodeB64 q = Ok b /\ encodeB64 b = q
   /\ forall t, counter_bstrip v (b ++ t) = Ok (c, t).
Proof. exact c39_binary_round_trip. Qed.
Print Assumptions C39_binary_round_trip.

(** C39.  A text that is read as a counter is the text of that counter: the reading is canonical. *)
Theorem C39_canonical : forall v s c, cexfil v s = Ok c ->
  exists q t, cinfil c = Ok q /\ s = q ++ t.
Proof. exact c39_canonical. Qed.
Print Assumptions C39_canonical.

(** C39.  In version 2, for every small group code -x and every count: up to 4095 the counter keeps
    the small code, up to 64^5-1 it takes the big code --x, above that it is refused. *)
Theorem C39_promotion : forall x count, In [45; x] (map fst CSizes_2_0) ->
  (count < 4096 -> exists c, counter_of (mkV 2 0) [45; x] count = Ok c /\ c_code c = [45; x]) /\
  (4096 <= count < 64 ^ 5 -> exists c, counter_of (mkV 2 0) [45; x] count = Ok c /\ c_code c = [45; 45; x]) /\
  (64 ^ 5 <= count -> counter_of (mkV 2 0) [45; x] count = Err InvalidVarIndexError).
Proof. exact c39_promotion. Qed.
Print Assumptions C39_promotion.

(** C39.  In every version and for every code, an accepted count fits the characters of the code the
    counter ends up with, and that code is either the requested one or its big form. *)
Theorem C39_code_of_counter : forall v code count c, counter_of v code count = Ok c ->
  (exists sz, csize c = Ok sz /\ count < 64 ^ css sz /\ len (c_code c) = chs sz) /\
  exists hard, (code = hard \/ exists codes sizes, ctables v = Ok (codes, sizes) /\ dget codes code = Some hard) /\
   (c_code c = hard \/ (4096 <= count /\ c_code c = [45; 45; nth 1 hard 0])).
Proof. exact c39_code_of_counter. Qed.
Print Assumptions C39_code_of_counter.

(** C39 refuted as to the error: in version 1, code -A has no big form, and a count of 4096
    escapes as a KeyError instead of being refused as an invalid count. *)
Theorem C39_v1_promotion_refuted : exists code count, dget CSizes_1_0 code <> None /\
  counter_of (mkV 1 0) code count = Err KeyError.
Proof. exact c39_v1_promotion_refuted. Qed.
Print Assumptions C39_v1_promotion_refuted.

Example C39_example : exists c q, counter_of (mkV 2 0) (s2b "AttachmentGroup") 4097 = Ok c /\ cinfil c = Ok q
  /\ q = s2b "--CAABAB" /\ counter_strip (mkV 2 0) (q ++ s2b "0AAA") = Ok (c, s2b "0AAA").
Proof. eexists. eexists. split; [vm_compute; reflexivity|]. split; [vm_compute; reflexivity|]. split; vm_compute; reflexivity. Qed.

(** C42.  An enclosed text stream starts with a counter whose byte count is exactly the length of
    the enclosed stream, which follows it unchanged, before any further stream. *)
Theorem C42_enclose_frames : forall v code s e, enclose v code s = Ok e ->
  exists c, (forall t, counter_strip v (e ++ t) = Ok (c, s ++ t)) /\ byteCount_txt c = len s /\ ntake (byteCount_txt c) (s) = s.
Proof. exact c42_enclose_frames. Qed.
Print Assumptions C42_enclose_frames.

(** C42.  The same in the binary domain. *)
Theorem C42_benclose_frames : forall v code s e, benclose v code s = Ok e ->
  exists c, (forall t, counter_bstrip v (e ++ t) = Ok (c, s ++ t)) /\ byteCount_bny c = len s.
Proof. exact c42_benclose_frames. Qed.
Print Assumptions C42_benclose_frames.

(** C42.  A version 2 enclosure exists for every aligned stream shorter than 4*64^5 and every small group code. *)
Theorem C42_enclose_total : forall x s, In [45; x] (map fst CSizes_2_0) -> len s mod 4 = 0 -> len s < 4 * 64 ^ 5 ->
  exists e, enclose (mkV 2 0) [45; x] s = Ok e.
Proof. exact c42_enclose_total. Qed.
Print Assumptions C42_enclose_total.

(** C42.  Enclosing refuses a stream that is not aligned on 24 bits. *)
Theorem C42_unaligned : forall v code s, (len s mod 4 <> 0 -> enclose v code s = Err ValueError)
  /\ (len s mod 3 <> 0 -> benclose v code s = Err ValueError).
Proof. exact c42_unaligned. Qed.
Print Assumptions C42_unaligned.

Example C42_example : enclose (mkV 2 0) (s2b "-C") (s2b "-KAB-LAC") = Ok (s2b "-CAC-KAB-LAC").
Proof. vm_compute. reflexivity. Qed.

(** C43.  Version to Base64 and back, for every version in range; out of range is refused. *)
Theorem C43_ver_round_trip : forall major minor, major < 64 -> minor < 4096 ->
  exists b, verToB64 major minor = Ok b /\ len b = 3 /\ b64text b /\ b64ToVer b = Ok (mkV major minor).
Proof. exact c43_ver_round_trip. Qed.
Print Assumptions C43_ver_round_trip.

(** C43.  A version that does not fit its three characters is refused, so any version text made reads
    back as the version it was made of. *)
Theorem C43_ver_exact : forall major minor b, verToB64 major minor = Ok b ->
  major < 64 /\ minor < 4096 /\ b64ToVer b = Ok (mkV major minor).
Proof. exact c43_ver_exact. Qed.
Print Assumptions C43_ver_exact.

(** C43.  The genus-version counter of a supported version carries that version and reads back. *)
Theorem C43_genus_version : forall v, (exists t, ctables v = Ok t) ->
  exists g c, makeGVC v = Ok g /\ (forall t, counter_strip v (g ++ t) = Ok (c, t)) /\ c_code c = s2b "-_AAA" /\
   b64ToVer (intToB64 (c_count c) 3) = Ok v.
Proof. exact c43_genus_version. Qed.
Print Assumptions C43_genus_version.

Example C43_example : makeGVC (mkV 2 0) = Ok (s2b "-_AAACAA").
Proof. vm_compute. reflexivity. Qed.
