(** Indexed signatures *)
From Verif Require Import Prelude B64Model B64Proofs MatterModel MatterProofs MatterInv MatterBinInv QualProofs IdxModel IdxProofs IdxInv ThModel IdxThms.

(** C05.  A signature built from code, raw, index and (when given) ondex has exactly these, and
    its text, in front of any stream, reads back as the same signature and leaves exactly that stream. *)
Theorem C05_text_round_trip : forall raw code index ondex x, octets raw ->
  siger_of_raw raw code index ondex = Ok x ->
  i_code x = code /\ i_index x = index /\ (forall o, ondex = Some o -> i_ondex x = Some o) /\ i_raw x = ntake (len (i_raw x)) raw
  /\ exists q, iinfil x = Ok q /\ b64text q /\ forall t, siger_strip (q ++ t) = Ok (x, t).
Proof. exact c05_text_round_trip. Qed.
Print Assumptions C05_text_round_trip.

(** C05.  The same in the binary domain. *)
Theorem C05_binary_round_trip : forall raw code index ondex x, octets raw ->
  siger_of_raw raw code index ondex = Ok x ->
  exists b, ibinfil x = Ok b /\ octets b /\ forall t, siger_bstrip (b ++ t) = Ok (x, t).
Proof. exact c05_binary_round_trip. Qed.
Print Assumptions C05_binary_round_trip.

(** C05.  Text and binary forms are Base64 conversions of each other. *)
Theorem C05_domains_agree : forall raw code index ondex x q b, octets raw ->
  siger_of_raw raw code index ondex = Ok x -> iinfil x = Ok q -> ibinfil x = Ok b ->
  decodeB64 q = Ok b /\ encodeB64 b = q /\ 4 * len b = 3 * len q.
Proof. exact c05_domains_agree. Qed.
Print Assumptions C05_domains_agree.

(** C05.  Different signatures never have the same text, nor is one the start of the other. *)
Theorem C05_text_prefix_free : forall raw code index ondex x raw' code' index' ondex' x' q q' t,
  octets raw -> octets raw' ->
  siger_of_raw raw code index ondex = Ok x -> siger_of_raw raw' code' index' ondex' = Ok x' ->
  iinfil x = Ok q -> iinfil x' = Ok q' -> q' = q ++ t -> x' = x /\ t = [].
Proof. exact c05_text_prefix_free. Qed.
Print Assumptions C05_text_prefix_free.

(** C05.  Reading is strict: a Base64 text taken off a stream as a signature is exactly that signature's
    own text, so no two texts read as the same signature.  In particular, the ondex characters of a
    current-key-only signature must be zero. *)
Theorem C05_text_canonical : forall s x t a, siger_strip s = Ok (x, t) -> s = a ++ t -> b64text a ->
  iinfil x = Ok a.
Proof. exact c05_text_canonical. Qed.
Print Assumptions C05_text_canonical.

(** C05.  Every signature code accepts every raw of its size with every index that fits: for the
    codes of current-key-only signatures without ondex, for the others with ondex equal to index. *)
Theorem C05_accepts : forall code sz raw index, In code IdxSigDex -> dget ISizes code = Some sz ->
  index < 64 ^ (xss sz - xos sz) -> (exists f, xfs sz = Some f /\ 4 * len raw = 3 * (f - (xhs sz + xss sz))) ->
  exists x, siger_of_raw raw code index None = Ok x /\ i_raw x = raw.
Proof. exact c05_accepts. Qed.
Print Assumptions C05_accepts.

(** C05.  An index or ondex that does not fit its characters is refused, never truncated. *)
Theorem C05_no_truncation : forall code sz raw index ondex, dget ISizes code = Some sz ->
  (64 ^ (xss sz - xos sz) <= index \/ exists o, ondex = Some o /\ (xos sz <> 0 /\ 64 ^ xos sz <= o)) ->
  indexer_of_raw raw code index ondex = Err InvalidVarIndexError.
Proof. exact c05_no_truncation. Qed.
Print Assumptions C05_no_truncation.

(** C05 refuted for the whole size table: a signature accepted under the table's code 1z has no
    text form, and one accepted under 0z reads back with another ondex. *)
Theorem C05_test_codes_refuted :
  (exists raw x, indexer_of_raw raw (s2b "1z") 0 None = Ok x /\ iinfil x = Err InvalidCodeSizeError)
  /\ (exists raw x q y, indexer_of_raw raw (s2b "0z") 1 None = Ok x /\ iinfil x = Ok q /\ iexfil q = Ok y
      /\ i_ondex x = None /\ i_ondex y = Some 1).
Proof. exact c05_test_codes_refuted. Qed.
Print Assumptions C05_test_codes_refuted.

Example C05_example : exists x q, siger_of_raw (map N.of_nat (seq 0 64)) (s2b "2A") 5 (Some 9) = Ok x
  /\ iinfil x = Ok q /\ q = s2b "2AAFAJAAAQIDBAUGBwgJCgsMDQ4PEBESExQVFhcYGRobHB0eHyAhIiMkJSYnKCkqKywtLi8wMTIzNDU2Nzg5Ojs8PT4_"
  /\ siger_strip (q ++ s2b "-A") = Ok (x, s2b "-A").
Proof. eexists. eexists. split; [vm_compute; reflexivity|]. split; [vm_compute; reflexivity|]. split; vm_compute; reflexivity. Qed.

Theorem C10_double_count_refuted :
  exists a b x y, siger_strip a = Ok (x, []) /\ siger_strip b = Ok (y, []) /\
  exists (vrfy : N -> bytes -> bytes -> bool) vs,
    (forall s m, vrfy 11 s m = false) /\
    validateSigs N vrfy (s2b "msg") [mkSiger a (i_index x) (i_raw x); mkSiger b (i_index y) (i_raw y)] [10; 11] (TNum 2) = Ok (vs, true).
Proof. exact c10_double_count_refuted. Qed.
Print Assumptions C10_double_count_refuted.
