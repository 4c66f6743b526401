(** Properties C06 and C08: ordinal numbers, tags and Base64 text. *)
From Verif Require Import Prelude Lex B64Model B64Proofs MatterModel MatterProofs MatterInv MatterBinInv MatterSpec MatterThms SubsModel SubsProofs SubsThms.

(** A whole number below 256^17 has a qualified form holding exactly that number;
    its text (followed by anything), its binary and its hexadecimal form all give
    back the same Number. *)
Theorem C06_number_round_trip : forall n, n < 256 ^ 17 ->
  exists m q b, number_of_num n None = Ok m /\ built m /\ num m = n
    /\ infil m = Ok q /\ binfil m = Ok b
    /\ (forall tail, number_of_qb64 (q ++ tail) = Ok m)
    /\ (forall tail, number_of_qb2 (b ++ tail) = Ok m)
    /\ number_of_numh (numh m) = Ok m.
Proof. exact c06_number_round_trip. Qed.
Print Assumptions C06_number_round_trip.

(** Larger numbers are rejected; with an explicit code, so is every number that
    does not fit its raw size, and every other one is stored exactly. *)
Theorem C06_number_range : forall n,
  (256 ^ 17 <= n -> number_of_num n None = Err InvalidValueError) /\
  forall c, In c NumDex -> exists sz k, dget Sizes c = Some sz /\ rawSize sz = Ok k /\
    (256 ^ k <= n -> number_of_num n (Some c) = Err InvalidValueError) /\
    (n < 256 ^ k -> exists m, number_of_num n (Some c) = Ok m /\ m_code m = c /\ num m = n).
Proof. exact c06_number_range. Qed.
Print Assumptions C06_number_range.

(** The code chosen has the shortest text among all number codes that can hold
    the value. *)
Theorem C06_number_smallest : forall n m c m' f f', number_of_num n None = Ok m ->
  In c NumDex -> number_of_num n (Some c) = Ok m' -> fullSize m = Ok f -> fullSize m' = Ok f' -> f <= f'.
Proof. exact c06_number_smallest. Qed.
Print Assumptions C06_number_smallest.

(** Number.huge is the 24 character form shared with Seqner, and gives back the
    number; out of range numbers are rejected. *)
Theorem C06_huge_round_trip : forall m tail,
  (num m <= MaxON -> exists q s, huge m = Ok q /\ len q = 24 /\ seqner_of_sn (num m) = Ok s /\ infil s = Ok q
       /\ seqner_of_qb64 (q ++ tail) = Ok s /\ num s = num m) /\
  (MaxON < num m -> huge m = Err InvalidValueError /\ seqner_of_sn (num m) = Err ValidationError /\ onkey m = Err InvalidValueError).
Proof. exact c06_huge_round_trip. Qed.
Print Assumptions C06_huge_round_trip.

(** The fixed width hexadecimal form used in database keys sorts as the numbers. *)
Theorem C06_onkey_sorts : forall m1 m2, num m1 <= MaxON -> num m2 <= MaxON ->
  exists k1 k2, onkey m1 = Ok k1 /\ onkey m2 = Ok k2 /\ len k1 = 32 /\ len k2 = 32
    /\ (blt k1 k2 <-> num m1 < num m2) /\ (k1 = k2 <-> num m1 = num m2)
    /\ hexint k1 = Ok (num m1).
Proof. exact c06_onkey_sorts. Qed.
Print Assumptions C06_onkey_sorts.

(** The 24 character Base64 form does not sort as the numbers (the Base64 alphabet
    is not in ASCII order), although its documentation says it is made for
    lexicographic keys. *)
Theorem C06_huge_sorts_refuted : exists m1 m2 q1 q2, num m1 < num m2 /\ huge m1 = Ok q1 /\ huge m2 = Ok q2 /\ blt q2 q1.
Proof. exact c06_huge_sorts_refuted. Qed.
Print Assumptions C06_huge_sorts_refuted.

Example C06_ex : exists m, number_of_num 70000 None = Ok m /\ numh m = s2b "11170" /\ infil m = Ok (s2b "RAAAARFw").
Proof. eexists. split; [|split]; vm_compute; reflexivity. Qed.

(** ** Tags *)
Theorem C08_tag_round_trip : forall t tail, Reb64 t = true -> 1 <= len t <= 11 ->
  exists m q, tagger_of_tag t = Ok m /\ built m /\ tag m = t /\ infil m = Ok q
    /\ tagger_of_qb64 (q ++ tail) = Ok m.
Proof. exact c08_tag_round_trip. Qed.
Print Assumptions C08_tag_round_trip.

Theorem C08_tag_rejects : forall t, Reb64 t = false \/ len t = 0 \/ 11 < len t -> exists e, tagger_of_tag t = Err e.
Proof. exact c08_tag_rejects. Qed.
Print Assumptions C08_tag_rejects.

(** Every Base64 safe string (that fits the largest size code) survives encoding
    as a Bexter, through text, with the default escaping. *)
Theorem C08_bext_round_trip : forall s tail, Reb64 s = true -> len s < 4 * (64 ^ 4 - 1) ->
  exists m q, bexter_of_bext s true = Ok m /\ built m /\ infil m = Ok q /\ bexter_of_qb64 (q ++ tail) = Ok m
    /\ bext m true = Ok s.
Proof. exact c08_bext_round_trip. Qed.
Print Assumptions C08_bext_round_trip.

(** Without escaping the round trip holds except for strings whose length is a
    multiple of four and that start with 'A'. *)
Theorem C08_bext_unescaped_partial : forall s tail, Reb64 s = true -> len s < 4 * (64 ^ 4 - 1) ->
  ~ (hd_error s = Some 65 /\ len s mod 4 = 0) ->
  exists m q, bexter_of_bext s false = Ok m /\ built m /\ infil m = Ok q /\ bexter_of_qb64 (q ++ tail) = Ok m
    /\ bext m false = Ok s.
Proof. exact c08_bext_unescaped_partial. Qed.
Print Assumptions C08_bext_unescaped_partial.

Theorem C08_bext_unescaped_refuted : exists s m s', Reb64 s = true /\ bexter_of_bext s false = Ok m /\ bext m false = Ok s' /\ s <> s'.
Proof. exact c08_bext_unescaped_refuted. Qed.
Print Assumptions C08_bext_unescaped_refuted.

Theorem C08_bext_rejects : forall s b, Reb64 s = false -> bexter_of_bext s b = Err ValueError.
Proof. exact c08_bext_rejects. Qed.
Print Assumptions C08_bext_rejects.

Example C08_ex_bext : exists m, bexter_of_bext (s2b "A12") true = Ok m /\ infil m = Ok (s2b "4AAB-A12") /\ bext m true = Ok (s2b "A12").
Proof. eexists. split; [|split]; vm_compute; reflexivity. Qed.

Example C08_ex_tag : exists m, tagger_of_tag (s2b "icp") = Ok m /\ infil m = Ok (s2b "Xicp").
Proof. eexists. split; vm_compute; reflexivity. Qed.
