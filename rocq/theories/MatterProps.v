(** Properties C01-C04 and C41: qualified primitives (class Matter). *)
From Verif Require Import Prelude B64Model B64Proofs MatterModel MatterProofs MatterInv MatterBinInv MatterSpec MatterThms.

(** Every built primitive encodes to text of exactly its declared size, and that
    text followed by anything reads back as the same primitive, consuming exactly
    its own characters. *)
Theorem C01_text_round_trip : forall m tail, built m ->
  exists q, infil m = Ok q /\ fullSize m = Ok (len q) /\
            exfil (q ++ tail) = Ok m /\ matter_strip (q ++ tail) = Ok (m, tail).
Proof. exact c01_text_round_trip. Qed.
Print Assumptions C01_text_round_trip.

(** The constructor keeps what it was given: the raw value is the requested prefix
    of the given octets; fixed size codes are kept; variable size codes only change
    their size selector and are re-coded with the lead size and quadlet count of
    the raw value. *)
Theorem C01_constructor_content : forall raw code soft rize m, octets raw ->
  matter_of_raw raw code soft rize = Ok m ->
  exists sz, dget Sizes code = Some sz /\
  match fs sz with
  | Some f => m_code m = code /\ m_soft m = ntake (ss sz - xs sz) soft
              /\ m_raw m = ntake ((f - (hs sz + ss sz)) * 3 / 4 - ls sz) raw
              /\ len (m_raw m) = (f - (hs sz + ss sz)) * 3 / 4 - ls sz
  | None =>
      let n := match rize with Some r => if r =? 0 then len raw else r | None => len raw end in
      m_raw m = ntake n raw /\ len (m_raw m) = n
      /\ last (m_code m) 0 = last code 0
      /\ exists sz', dget Sizes (m_code m) = Some sz' /\ fs sz' = None
           /\ val (m_soft m) * 3 = n + ls sz'
  end.
Proof. exact c01_constructor_content. Qed.
Print Assumptions C01_constructor_content.

(** The text has the CESR layout: code characters, zero pad, raw right aligned. *)
Theorem C01_text_layout : forall m, built m ->
  exists sz q, dget Sizes (m_code m) = Some sz /\ infil m = Ok q /\
    layout (m_code m ++ repeat 95 (N.to_nat (xs sz)) ++ m_soft m) (m_raw m) q.
Proof. exact c01_text_layout. Qed.
Print Assumptions C01_text_layout.

(** ** C02 *)
Theorem C02_binary_round_trip : forall m tail, built m ->
  exists q b, infil m = Ok q /\ binfil m = Ok b /\ decodeB64 q = Ok b /\ encodeB64 b = q
    /\ len q * 3 = len b * 4
    /\ bexfil (b ++ tail) = Ok m /\ matter_bstrip (b ++ tail) = Ok (m, tail).
Proof. exact c02_binary_round_trip. Qed.
Print Assumptions C02_binary_round_trip.

(** Binary domain: full canonicality. *)
Theorem C03_binary_canonical : forall q m, octets q -> bexfil q = Ok m ->
  exists f, fullSize m = Ok f /\ f * 3 / 4 <= len q /\ binfil m = Ok (ntake (f * 3 / 4) q).
Proof. exact c03_binary_canonical. Qed.
Print Assumptions C03_binary_canonical.

(** Text domain: canonical whenever the consumed characters are in the URL safe
    alphabet (the missing part is refuted below). *)
Theorem C03_text_canonical_partial : forall q m f, exfil q = Ok m -> fullSize m = Ok f ->
  b64text (ntake f q) -> f <= len q /\ infil m = Ok (ntake f q).
Proof. exact c03_text_canonical_partial. Qed.
Print Assumptions C03_text_canonical_partial.

(** In general an accepted text differs from the canonical one at most by '+' for
    '-' and '/' for '_' in the material, and by arbitrary soft characters of a
    fixed size special code. *)
Theorem C03_text_accepted_shape : forall q m, exfil q = Ok m ->
  exists sz, dget Sizes (m_code m) = Some sz /\
    ntake (hs sz + ss sz) q = m_code m ++ repeat 95 (N.to_nat (xs sz)) ++ m_soft m /\
    len (m_soft m) + xs sz = ss sz /\
    exists rest canon, ntake (fsize m sz) q = ntake (hs sz + ss sz) q ++ rest /\
      map urlize rest = canon /\ b64text canon /\ val canon = int_from_bytes (m_raw m).
Proof. exact c03_text_accepted_shape. Qed.
Print Assumptions C03_text_accepted_shape.

(** Two texts over the alphabet that decode to the same primitive are equal. *)
Theorem C03_text_injective_partial : forall q1 q2 m, exfil q1 = Ok m -> exfil q2 = Ok m ->
  b64text q1 -> b64text q2 -> forall f, fullSize m = Ok f -> ntake f q1 = ntake f q2.
Proof. exact c03_text_injective_partial. Qed.
Print Assumptions C03_text_injective_partial.

(** Full statement refuted: '0H' (Short... 4 octet) material with '+' instead of '-'. *)
Theorem C03_text_canonical_refuted :
  exists q1 q2 m, q1 <> q2 /\ len q1 = len q2 /\ exfil q1 = Ok m /\ exfil q2 = Ok m.
Proof. exact c03_text_canonical_refuted. Qed.
Print Assumptions C03_text_canonical_refuted.

(** Full statement refuted: the soft part of a fixed size special code is not
    checked, so a non Base64 soft is accepted and has no binary form. *)
Theorem C03_soft_unchecked_refuted :
  exists m, exfil (s2b "0K!!") = Ok m /\ infil m = Ok (s2b "0K!!") /\ binfil m = Err KeyError.
Proof. exact c03_soft_unchecked_refuted. Qed.
Print Assumptions C03_soft_unchecked_refuted.

(** Concatenation commutes with conversion between the domains, and both
    concatenations parse back to exactly the sequence. *)
Theorem C04_composability : forall ms, Forall built ms ->
  exists qs bs, Forall2 (fun m q => infil m = Ok q) ms qs /\ Forall2 (fun m b => binfil m = Ok b) ms bs
    /\ decodeB64 (List.concat qs) = Ok (List.concat bs) /\ encodeB64 (List.concat bs) = List.concat qs
    /\ parse_stream (List.length ms) (List.concat qs) = Ok ms
    /\ bparse_stream (List.length ms) (List.concat bs) = Ok ms.
Proof. exact c04_composability. Qed.
Print Assumptions C04_composability.

(** A proper prefix of a primitive's text is never read as a primitive; and it is
    reported as a shortage as soon as the whole code is present. *)
Theorem C41_truncation_partial : forall m q n, built m -> infil m = Ok q -> n < len q ->
  exists sz, dget Sizes (m_code m) = Some sz /\
  (exists e, exfil (ntake n q) = Err e) /\
  (n < hs sz \/ hs sz + ss sz <= n /\ 0 < ss sz \/ xs sz = 0 /\ fs sz <> None ->
     exfil (ntake n q) = Err ShortageError).
Proof. exact c41_truncation_partial. Qed.
Print Assumptions C41_truncation_partial.

Theorem C41_truncation_refuted :
  (exists m q, built m /\ infil m = Ok q /\ exfil (ntake 2 q) = Err ValueError) /\
  (exists m q, built m /\ infil m = Ok q /\ exfil (ntake 2 q) = Err UnexpectedCodeError).
Proof. exact c41_truncation_refuted. Qed.
Print Assumptions C41_truncation_refuted.

(** A digest, a variable length byte string with two lead octets and a one
    character tag are all buildable. *)
Example C01_ex_built : built ex_matter /\ built (mkMatter (s2b "5B") (s2b "AC") [1;2;3;4;5])
  /\ built (mkMatter (s2b "0J") (s2b "X") []).
Proof.
  split; [|split].
  - apply (built_raw ex_digest (s2b "E") [] None); [|vm_compute; reflexivity]. unfold ex_digest; cbn. repeat constructor.
  - apply (built_raw [1;2;3;4;5] (s2b "4B") [] None); [|vm_compute; reflexivity]. repeat constructor.
  - eapply (built_soft (s2b "0J") (s2b "X")); vm_compute; reflexivity.
Qed.

Example C01_ex_text : infil (mkMatter (s2b "5B") (s2b "AC") [1;2;3;4;5]) = Ok (s2b "5BACAAECAwQF")
  /\ exfil (s2b "5BACAAECAwQF-AAB") = Ok (mkMatter (s2b "5B") (s2b "AC") [1;2;3;4;5]).
Proof. split; vm_compute; reflexivity. Qed.
