(** Property C07: Base64 integers and code conversions. *)
From Verif Require Import Prelude B64Model B64Proofs MatterProofs B64Thms.

Theorem C07_int_round_trip : forall i l, 0 < l -> b64ToInt (intToB64 i l) = Ok i.
Proof. exact c07_int_round_trip. Qed.
Print Assumptions C07_int_round_trip.

Theorem C07_int_text_length : forall i l, 0 < l ->
  i < 64 ^ len (intToB64 i l) /\
  (len (intToB64 i l) = l \/ l < len (intToB64 i l) /\ 64 ^ (len (intToB64 i l) - 1) <= i).
Proof. exact c07_int_text_length. Qed.
Print Assumptions C07_int_text_length.

Theorem C07_text_round_trip : forall s, Reb64 s = true -> s <> [] ->
  exists i, b64ToInt s = Ok i /\ intToB64 i (len s) = s /\ i < 64 ^ len s.
Proof. exact c07_text_round_trip. Qed.
Print Assumptions C07_text_round_trip.

Theorem C07_rejects_other_text : forall s, Reb64 s = false \/ s = [] -> exists e, b64ToInt s = Err e.
Proof. exact c07_rejects_other_text. Qed.
Print Assumptions C07_rejects_other_text.

Theorem C07_code_prefix_round_trip : forall s b t l, Reb64 s = true -> s <> [] -> codeB64ToB2 s = Ok b -> l <= len s ->
  codeB2ToB64 (b ++ t) l = Ok (ntake l s).
Proof. exact c07_code_prefix_round_trip. Qed.
Print Assumptions C07_code_prefix_round_trip.

Theorem C07_code_binary_value : forall s, Reb64 s = true -> s <> [] -> exists b, codeB64ToB2 s = Ok b /\ octets b
  /\ len b = (len s * 3 + 3) / 4
  /\ int_from_bytes b = val s * 4 ^ (len s mod 4).
Proof. exact c07_code_binary_value. Qed.
Print Assumptions C07_code_binary_value.

Theorem C07_nab_agrees : forall s b t l, Reb64 s = true -> s <> [] -> codeB64ToB2 s = Ok b -> 0 < l <= len s ->
  nabSextets (b ++ t) l = codeB64ToB2 (ntake l s).
Proof. exact c07_nab_agrees. Qed.
Print Assumptions C07_nab_agrees.

Theorem C07_zero_length_refuted : exists i, b64ToInt (intToB64 i 0) <> Ok i.
Proof. exact c07_zero_length_refuted. Qed.
Print Assumptions C07_zero_length_refuted.

Example C07_ex_int : intToB64 4096 2 = s2b "BAA" /\ b64ToInt (s2b "BAA") = Ok 4096.
Proof. split; vm_compute; reflexivity. Qed.

Example C07_ex_code : codeB64ToB2 (s2b "-AB") = Ok [248; 0; 64] /\ Reb64 (s2b "-AB") = true
  /\ codeB2ToB64 [248; 0; 64; 7] 3 = Ok (s2b "-AB") /\ nabSextets [248; 0; 64; 7] 1 = Ok [248].
Proof. repeat split; vm_compute; reflexivity. Qed.
