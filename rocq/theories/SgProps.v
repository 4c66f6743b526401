(** Properties of the Signature header and of the check of signed requests. *)
From Verif Require Import Prelude ThModel JsonModel SgModel SgSpec SgProofs SgThms.
From Coq Require Import Lia.
Open Scope N_scope.

(** For all signages whose names are different, texts plain and signatures readable: the header is made, and
    the reader gets the same signages, with the signatures under their names. *)
Theorem C111_round_trip_partial : forall siger cigar gs os, gs <> [] -> Forall2 (arrives siger cigar) gs os ->
  exists h, signature gs = Ok h /\ designature siger cigar h = Ok os.
Proof. exact c111_round_trip_partial. Qed.
Print Assumptions C111_round_trip_partial.

(** Headers that a server has merged with a comma are read as the signages of both, for all texts; the merged
    header raises if one of them does. *)
Theorem C111_merge : forall siger cigar a b,
  designature siger cigar (a ++ 44 :: b) = match designature siger cigar a, designature siger cigar b with Ok x, Ok y => Ok (x ++ y) | Err e, _ => Err e | _, Err e => Err e end.
Proof. exact c111_merge. Qed.
Print Assumptions C111_merge.

Theorem C111_kinds : forall gs h g ms, signature gs = Ok h -> In g gs -> markers g = MList ms ->
  exists ind, (forall b, indexed g = Some b -> b = ind) /\ forall m, In m ms -> if ind : bool then exists q i, m = Sg q i else exists q k, m = Cg q (Some k).
Proof. exact c111_kinds. Qed.
Print Assumptions C111_kinds.

(** Two signatures with the same index end up as one. *)
Theorem C111_same_refuted : ~ (forall siger cigar ms h os, (forall m, In m ms -> exists q i, m = Sg q i /\ plain q /\ siger q = Ok m) ->
  signature [mkG (MList ms) (Some true) None None None None] = Ok h -> designature siger cigar h = Ok os -> forall m, In m ms -> exists o d k, In o os /\ markers o = MDict d /\ In (k, m) d).
Proof. exact c111_same_refuted. Qed.
Print Assumptions C111_same_refuted.

(** A text is written as it is: a signer with a quote and a semicolon in it brings a signature along that the
    signage does not have. *)
Theorem C111_text_refuted : ~ (forall siger cigar sr h os, signature [mkG (MList []) (Some true) (Some sr) None None None] = Ok h -> designature siger cigar h = Ok os ->
  forall o d, In o os -> markers o = MDict d -> d = []).
Proof. exact c111_text_refuted. Qed.
Print Assumptions C111_text_refuted.

(** A header of no signages can be made, and not read. *)
Theorem C111_empty_refuted : ~ (forall siger cigar gs h, signature gs = Ok h -> (forall g, In g gs -> exists o, arrives siger cigar g o) -> exists os, designature siger cigar h = Ok os).
Proof. exact c111_empty_refuted. Qed.
Print Assumptions C111_empty_refuted.

(** Whatever the header and the state: if a request goes on, then the controller is known and for each of its
    current keys the first group of the header carries, under the number of the key, a text that is a
    signature and that this key verifies over the request. *)
Theorem C112_signed : forall siger cigar vfy kevers pre sig ser, process_request siger cigar vfy kevers pre sig ser = Goes ->
  exists hdr keys, sig = Some hdr /\ dget kevers pre = Some keys /\
  forall i key, nth_error keys i = Some key -> exists v m, carries hdr (decstr (N.of_nat i)) v /\ (siger v = Ok m \/ cigar v = Ok m) /\ vfy key (chars m) ser = true.
Proof. exact c112_signed. Qed.
Print Assumptions C112_signed.

(** A request goes on if the header is made with signatures by all current keys, in their order. *)
Theorem C112_goes_partial : forall siger cigar vfy kevers pre keys ms ser sr od dg,
  dget kevers pre = Some keys -> keys <> [] -> List.length ms = List.length keys ->
  (forall i key m, nth_error keys i = Some key -> nth_error ms i = Some m -> exists q, m = Sg q (N.of_nat i) /\ plain q /\ siger q = Ok m /\ vfy key q ser = true) ->
  (forall v, In (Some v) [sr; od; dg] -> plain v) ->
  exists h, signature [mkG (MList ms) None sr od dg None] = Ok h /\ process_request siger cigar vfy kevers pre (Some h) ser = Goes.
Proof. exact c112_goes_partial. Qed.
Print Assumptions C112_goes_partial.

(** The signing threshold of the controller does not matter: signatures by fewer than all keys, that reach it,
    are refused. *)
Theorem C112_threshold_refuted : ~ (forall siger cigar vfy kevers pre keys ms ser (threshold : nat), dget kevers pre = Some keys -> (0 < threshold <= List.length keys)%nat -> List.length ms = threshold ->
  NoDup ms -> (forall m, In m ms -> exists q i key, m = Sg q (N.of_nat i) /\ nth_error keys i = Some key /\ plain q /\ siger q = Ok m /\ vfy key q ser = true) ->
  exists h, signature [mkG (MList ms) None None None None None] = Ok h /\ process_request siger cigar vfy kevers pre (Some h) ser = Goes).
Proof. exact c112_threshold_refuted. Qed.
Print Assumptions C112_threshold_refuted.

(** A request without signature, or with a header that cannot be read, is not refused but raises. *)
Theorem C112_raises_refuted : ~ (forall siger cigar vfy kevers pre sig ser, process_request siger cigar vfy kevers pre sig ser = Goes \/ process_request siger cigar vfy kevers pre sig ser = Unauthorized).
Proof. exact c112_raises_refuted. Qed.
Print Assumptions C112_raises_refuted.
