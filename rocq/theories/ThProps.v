(** Signing thresholds and signature counting *)
From Verif Require Import Prelude B64Model B64Proofs MatterModel MatterProofs MatterSpec MatterThms SubsModel SubsProofs SubsThms ThModel ThSpec ThProofs ThThms.
From Coq Require Import Permutation.

(** C13.  With the default number of faults F = (n-1)/3 the ample threshold can be met by the
    witnesses that remain when F are faulty, and any two sets of witnesses that meet it share
    a witness that is not faulty. *)
Theorem C13_default_quorum : forall (W : list N) weak, NoDup W -> W <> [] ->
  exists m, ample (len W) None weak = Ok m /\ 1 <= m <= len W /\
  forall Bad, NoDup Bad -> incl Bad W -> len Bad <= (len W - 1) / 3 ->
    m <= len W - len Bad /\
    forall A B, NoDup A -> NoDup B -> incl A W -> incl B W -> m <= len A -> m <= len B ->
      exists x, In x A /\ In x B /\ ~ In x Bad.
Proof. exact c13_default_quorum. Qed.
Print Assumptions C13_default_quorum.

(** C13.  For a given number of faults f the call succeeds exactly when n > 3 f (or there are no
    witnesses), and then the same two facts hold for f. *)
Theorem C13_given_quorum : forall (W : list N) f weak, NoDup W -> W <> [] ->
  (3 * f < len W <-> exists m, ample (len W) (Some f) weak = Ok m) /\
  (forall m, ample (len W) (Some f) weak = Ok m -> 1 <= m <= len W /\
   forall Bad, NoDup Bad -> incl Bad W -> len Bad <= f ->
    m <= len W - len Bad /\
    forall A B, NoDup A -> NoDup B -> incl A W -> incl B W -> m <= len A -> m <= len B ->
      exists x, In x A /\ In x B /\ ~ In x Bad).
Proof. exact c13_given_quorum. Qed.
Print Assumptions C13_given_quorum.

(** C13.  No witnesses: the threshold is zero. *)
Theorem C13_no_witness : forall f weak, ample 0 f weak = Ok 0.
Proof. exact c13_no_witness. Qed.
Print Assumptions C13_no_witness.

(** Nine witnesses: threshold 6; f = 3 is refused. *)
Example C13_example : ample 9 None true = Ok 6 /\ ample 9 (Some 2) true = Ok 6 /\ ample 9 (Some 2) false = Ok 7
  /\ ample 9 (Some 3) true = Err ValueError /\ ample 10 (Some 3) true = Ok 7.
Proof. vm_compute. auto. Qed.

(** C11.  A numeric threshold is satisfied exactly when it is positive and at least that many
    signer indices are given. *)
Theorem C11_numeric : forall n is, satisfy (TNum n) is = true <-> 0 < n <= len is.
Proof. exact c11_numeric. Qed.
Print Assumptions C11_numeric.

(** C11.  A weighted threshold is satisfied by a set of signers exactly when in every clause
    the weights of the signers reach one, where a nested group of weights counts as its outer
    weight if its own signers' weights reach one. *)
Theorem C11_weighted : forall th is, threshold (TWt th) -> is <> [] -> Forall (fun i => i < thsize (TWt th)) is ->
  (satisfy (TWt th) is = true <-> holds is th).
Proof. exact c11_weighted. Qed.
Print Assumptions C11_weighted.

(** C11.  Nobody satisfies nothing: without signers no threshold is satisfied. *)
Theorem C11_empty : forall t, satisfy t [] = false.
Proof. exact c11_empty. Qed.
Print Assumptions C11_empty.

(** C11.  Adding further signers whose index is covered by the threshold never turns a
    satisfied threshold into an unsatisfied one. *)
Theorem C11_monotone : forall t is1 is2, threshold t -> NoDup is1 -> incl is1 is2 ->
  Forall (fun i => i < thsize t) is2 -> satisfy t is1 = true -> satisfy t is2 = true.
Proof. exact c11_monotone. Qed.
Print Assumptions C11_monotone.

(** C11.  A weighted threshold depends only on the set of signers: order and repetition do not
    matter. *)
Theorem C11_set_only : forall th is1 is2, threshold (TWt th) -> (forall i, In i is1 <-> In i is2) ->
  satisfy (TWt th) is1 = satisfy (TWt th) is2.
Proof. exact c11_set_only. Qed.
Print Assumptions C11_set_only.

(** C11.  Every weighted threshold can be met: all its signers together satisfy it. *)
Theorem C11_satisfiable : forall th, threshold (TWt th) ->
  satisfy (TWt th) (map N.of_nat (seq 0 (N.to_nat (thsize (TWt th))))) = true.
Proof. exact c11_satisfiable. Qed.
Print Assumptions C11_satisfiable.

(** C11.  The claim fails for signers beyond the weights: with three keys and the weights 1/2, 1/2
    the verified signatures of keys 0 and 1 satisfy the threshold and adding the verified
    signature of key 2 makes it unsatisfied. *)
Theorem C11_monotone_refuted : exists t keys sigs extra vs vs',
  processSith (SList [IElem (SW (s2b "1/2")); IElem (SW (s2b "1/2"))]) = Ok t /\
  validateSigs N (fun _ _ _ => true) (s2b "msg") sigs keys t = Ok (vs, true) /\
  validateSigs N (fun _ _ _ => true) (s2b "msg") (sigs ++ [extra]) keys t = Ok (vs', false).
Proof. exact c11_monotone_refuted. Qed.
Print Assumptions C11_monotone_refuted.

Example C11_example : exists th, processSith (SList [IClause [SW (s2b "1/2"); SN (s2b "1/2") [s2b "1"; s2b "1"]]; IClause [SW (s2b "1"); SW (s2b "1")]]) = Ok (TWt th)
  /\ threshold (TWt th) /\ satisfy (TWt th) [4; 0; 2; 2] = true /\ holds [4; 0; 2; 2] th /\ satisfy (TWt th) [0; 1; 2] = false.
Proof.
  exists [[EW (1 # 2); EN (1 # 2) [1 # 1; 1 # 1]%Q]; [EW (1 # 1); EW (1 # 1)]]. split; [vm_compute; reflexivity|].
  assert (T : threshold (TWt [[EW (1 # 2); EN (1 # 2) [1 # 1; 1 # 1]%Q]; [EW (1 # 1); EW (1 # 1)]])).
  { apply (th_sith (SList [IClause [SW (s2b "1/2"); SN (s2b "1/2") [s2b "1"; s2b "1"]]; IClause [SW (s2b "1"); SW (s2b "1")]])). vm_compute. reflexivity. }
  split; [exact T|]. split; [vm_compute; reflexivity|]. split; [|vm_compute; reflexivity].
  apply C11_weighted; [exact T|discriminate|repeat constructor|vm_compute; reflexivity].
Qed.

(** C12.  The key-event encoding (limen) of any threshold reads back as the same threshold. *)
Theorem C12_limen_round_trip : forall t, threshold t ->
  exists q, limenOf t = Ok q /\ forall tail, processLimen (q ++ tail) = Ok t.
Proof. exact c12_limen_round_trip. Qed.
Print Assumptions C12_limen_round_trip.

(** C12.  The human readable form (sith) of any threshold reads back as the same threshold. *)
Theorem C12_sith_round_trip : forall t, threshold t -> processSith (sithOf t) = Ok t.
Proof. exact c12_sith_round_trip. Qed.
Print Assumptions C12_sith_round_trip.

(** C12.  A threshold given directly as numbers is kept as given. *)
Theorem C12_thold_kept : forall t t', processThold t = Ok t' -> t' = t.
Proof. exact c12_thold_kept. Qed.
Print Assumptions C12_thold_kept.

(** C12.  Not so for weights above one, which only the direct form accepts: the threshold 3/2 is
    written as 1. *)
Theorem C12_out_of_range_refuted : exists th t q t', processThold (TWt th) = Ok t /\ limenOf t = Ok q /\ processLimen q = Ok t' /\ t' <> t.
Proof. exact c12_out_of_range_refuted. Qed.
Print Assumptions C12_out_of_range_refuted.

Example C12_example : exists t q, processSith (SList [IClause [SW (s2b "2/4"); SN (s2b "1/2") [s2b "1"; s2b "1"]]; IClause [SW (s2b "1"); SW (s2b "1")]]) = Ok t
  /\ limenOf t = Ok q /\ processLimen q = Ok t
  /\ sithOf t = SList [IClause [SW (s2b "1/2"); SN (s2b "1/2") [s2b "1"; s2b "1"]]; IClause [SW (s2b "1"); SW (s2b "1")]].
Proof. eexists. eexists. split; [vm_compute; reflexivity|]. split; [vm_compute; reflexivity|]. split; vm_compute; reflexivity. Qed.

(** C10.  Whatever verifySigs reports, each reported index is that of a provided signature which
    verifies with the key at that index over exactly the given bytes. *)
Theorem C10_verified : forall key vrfy raw sigers (verfers : list key) vs is,
  verifySigs key vrfy raw sigers verfers = (vs, is) ->
  incl vs sigers /\ is = map sg_index vs /\ NoDup (map sg_qb64 vs) /\
  (forall i, In i is -> exists s k, In s sigers /\ sg_index s = i /\ nth_error verfers (N.to_nat i) = Some k /\ vrfy k (sg_raw s) raw = true).
Proof. exact c10_verified. Qed.
Print Assumptions C10_verified.

(** C10.  The signatures validation hands back (and which the log stores) are all provided ones, without
    repeats, each verifying over exactly the given bytes with the key at its index; there is at least one;
    and the verdict is the threshold's on exactly their indices. *)
Theorem C10_returned : forall key vrfy raw sigers (verfers : list key) th vs b,
  validateSigs key vrfy raw sigers verfers th = Ok (vs, b) ->
  vs <> [] /\ NoDup (map sg_qb64 vs) /\
  (forall s, In s vs -> In s sigers /\ exists k, nth_error verfers (N.to_nat (sg_index s)) = Some k /\ vrfy k (sg_raw s) raw = true) /\
  b = satisfy th (map sg_index vs).
Proof. exact c10_returned. Qed.
Print Assumptions C10_returned.

(** C10.  A weighted threshold reported as met is met by distinct key positions, each with a
    verified signature. *)
Theorem C10_weighted_distinct : forall key vrfy raw sigers (verfers : list key) th vs, threshold (TWt th) ->
  validateSigs key vrfy raw sigers verfers (TWt th) = Ok (vs, true) ->
  exists S, NoDup S /\ holds S th /\
   forall i, In i S -> exists s k, In s sigers /\ sg_index s = i /\ nth_error verfers (N.to_nat i) = Some k /\ vrfy k (sg_raw s) raw = true.
Proof. exact c10_weighted_distinct. Qed.
Print Assumptions C10_weighted_distinct.

(** C10.  A numeric threshold n reported as met is met by n distinct key positions, each with a
    verified signature, provided no two attached signatures carry the same index.
    Missing: without that proviso (see C10_double_count_refuted). *)
Theorem C10_numeric_distinct_partial : forall key vrfy raw sigers (verfers : list key) n vs,
  (forall s s', In s sigers -> In s' sigers -> sg_index s = sg_index s' -> sg_qb64 s = sg_qb64 s') ->
  validateSigs key vrfy raw sigers verfers (TNum n) = Ok (vs, true) ->
  exists S, NoDup S /\ 0 < n <= len S /\
   forall i, In i S -> exists s k, In s sigers /\ sg_index s = i /\ nth_error verfers (N.to_nat i) = Some k /\ vrfy k (sg_raw s) raw = true.
Proof. exact c10_numeric_distinct_partial. Qed.
Print Assumptions C10_numeric_distinct_partial.

(** C10.  Nothing is accepted without a verified signature. *)
Theorem C10_none_verified : forall key vrfy raw sigers (verfers : list key) t,
  (forall s k, In s sigers -> nth_error verfers (N.to_nat (sg_index s)) = Some k -> vrfy k (sg_raw s) raw = false) ->
  validateSigs key vrfy raw sigers verfers t = Err ValidationError.
Proof. exact c10_none_verified. Qed.
Print Assumptions C10_none_verified.

Example C10_example :
  validateSigs N (fun k s _ => k =? hd 0 s) (s2b "msg") [mkSiger (s2b "x") 2 [12]; mkSiger (s2b "y") 0 [10]; mkSiger (s2b "z") 1 [99]; mkSiger (s2b "y") 0 [10]] [10; 11; 12] (TNum 2)
   = Ok ([mkSiger (s2b "x") 2 [12]; mkSiger (s2b "y") 0 [10]], true).
Proof. vm_compute. reflexivity. Qed.
