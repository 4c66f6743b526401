(** Field maps with graduated and selective disclosure *)
From Verif Require Import Prelude B64Model B64Proofs MatterModel SubsModel VerModel ThModel JsonModel JsonProofs SerModel SerSpec SerProofs SerInv SerThms CpModel CpSpec CpProofs CpRoll CpAgg CpCompact CpThms.
Open Scope N_scope.

(** However much of a nested field map is disclosed, compacting it yields the same compact map, and so the same said: replacing any of the nested
    maps that have a said by that said changes nothing. *)
Theorem C67_same_compact_form : forall digest dumpm L dflt, digest_ok digest -> forall n strict m m3 s w y, wfv (VMap m) -> dotless L (VMap m) ->
  compactor digest dumpm n strict [(L, dflt)] m = Some (Ok (m3, s)) -> redactsMap digest dumpm L dflt w m ->
  mapperMake digest dumpm strict [(L, dflt)] w = Ok y -> exists n', compactor digest dumpm n' strict [(L, dflt)] w = Some (Ok (m3, s)).
Proof. exact c67_same_compact_form. Qed.
Print Assumptions C67_same_compact_form.

(** In JSON no serialization fails, so that every redaction compacts to the same said. *)
Theorem C67_same_compact_form_json : forall digest, digest_ok digest -> forall n m m3 s w, wfv (VMap m) -> dotless (s2b "d") (VMap m) ->
  compactor digest jsonDump n true SaidsD m = Some (Ok (m3, s)) -> redactsMap digest jsonDump (s2b "d") (s2b "E") w m ->
  exists n', compactor digest jsonDump n' true SaidsD w = Some (Ok (m3, s)).
Proof. exact c67_same_compact_form_json. Qed.
Print Assumptions C67_same_compact_form_json.

(** The compact form is a map whose said verifies. *)
Theorem C67_compact_verifies : forall digest dumpm L dflt, digest_ok digest -> forall n strict m m3 s, wfv (VMap m) -> dotless L (VMap m) -> dget m L <> None ->
  compactor digest dumpm n strict [(L, dflt)] m = Some (Ok (m3, s)) -> mapperVerify digest dumpm true [(L, dflt)] m3 = Ok tt.
Proof. exact c67_compact_verifies. Qed.
Print Assumptions C67_compact_verifies.

(** The compact form is the bottom-up replacement of nested maps by their saids. *)
Theorem C67_compact_form : forall digest dumpm L dflt, digest_ok digest -> forall n strict m m3 s, wfv (VMap m) -> dotless L (VMap m) -> dget m L <> None ->
  compactor digest dumpm n strict [(L, dflt)] m = Some (Ok (m3, s)) -> rollTop digest dumpm L (topCode L dflt m) (dset m L (VStr [])) = Ok m3.
Proof. exact c67_compact_form. Qed.
Print Assumptions C67_compact_form.

(** Compacting ends: the loop takes at most one round for each map with a said field, provided no label above such a map has a dot in it. *)
Theorem C68_ends_partial : forall digest dumpm L dflt, digest_ok digest -> forall n strict m, wfv (VMap m) -> dotless L (VMap m) -> (saidCount L (VMap m) < n)%nat ->
  exists r, compactor digest dumpm n strict [(L, dflt)] m = Some r.
Proof. exact c68_ends_partial. Qed.
Print Assumptions C68_ends_partial.

(** With a dot in such a label it never ends: {"d":"","a.b":{"d":""}} in JSON, whatever the digest algorithm. *)
Theorem C68_dotted_label_refuted : forall digest, digest_ok digest -> forall n, compactor digest jsonDump n true SaidsD [(s2b "d", VStr []); (s2b "a.b", VMap [(s2b "d", VStr [])])] = None.
Proof. exact c68_dotted_label_refuted. Qed.
Print Assumptions C68_dotted_label_refuted.

(** Two field maps whose compact forms have the same said say the same wherever both disclose something, or exhibit a collision. *)
Theorem C69_said_binds : forall digest dumpm L dflt, digest_ok digest -> injDump dumpm -> forall n1 n2 st1 st2 a b ma mb sa sb q,
  wfv (VMap a) -> wfv (VMap b) -> dotless L (VMap a) -> dotless L (VMap b) -> dget a L <> None -> dget b L <> None ->
  compactor digest dumpm n1 st1 [(L, dflt)] a = Some (Ok (ma, sa)) -> compactor digest dumpm n2 st2 [(L, dflt)] b = Some (Ok (mb, sb)) ->
  dget ma L = Some (VStr q) -> dget mb L = Some (VStr q) -> (agreeMap digest dumpm L dflt a b /\ ma = mb) \/ collision digest.
Proof. exact c69_said_binds. Qed.
Print Assumptions C69_said_binds.

(** JSON is such a serialization. *)
Theorem C69_json : injDump jsonDump /\ injDumpl jsonDumpl.
Proof. exact c69_json. Qed.
Print Assumptions C69_json.

(** Two verified maps with the same said are the same map, or exhibit a collision. *)
Theorem C69_mapper_binds : forall digest dumpm L dflt, digest_ok digest -> injDump dumpm -> forall a b q,
  mapperVerify digest dumpm true [(L, dflt)] a = Ok tt -> mapperVerify digest dumpm true [(L, dflt)] b = Ok tt ->
  dget a L = Some (VStr q) -> dget b L = Some (VStr q) -> a = b \/ collision digest.
Proof. exact c69_mapper_binds. Qed.
Print Assumptions C69_mapper_binds.

(** A map made with its said verifies. *)
Theorem C69_made_verifies : forall digest dumpm L dflt, digest_ok digest -> forall strict m m' s', dget m L <> None ->
  mapperMake digest dumpm strict [(L, dflt)] m = Ok (m', s') -> mapperVerify digest dumpm strict [(L, dflt)] m' = Ok tt.
Proof. exact c69_made_verifies. Qed.
Print Assumptions C69_made_verifies.

Example C67_disclosure_example : exists m3, compactor toyDigest jsonDump 9 true SaidsD (cpFull "one") = Some (Ok (m3, SaidsD)) /\ redactsMap toyDigest jsonDump (s2b "d") (s2b "E") (cpPart "one") (cpFull "one") /\
  cpPart "one" <> cpFull "one" /\ compactor toyDigest jsonDump 9 true SaidsD (cpPart "one") = Some (Ok (m3, SaidsD)) /\ dotless (s2b "d") (VMap (cpFull "one")) /\ wfv (VMap (cpFull "one")) /\
  keysOf m3 = keysOf (cpFull "one") /\ cpSaid (cpFull "one") <> cpSaid (cpFull "two") /\ cpSaid (cpFull "one") <> VNull.
Proof.
  eexists. split; [vm_compute; reflexivity|]. split.
  { unfold redactsMap. constructor; [split; [reflexivity|cbn; reflexivity]|]. constructor; [|constructor; [split; [reflexivity|cbn; apply rd_same]|constructor]]. split; [reflexivity|]. cbn [fst snd]. change (beq (s2b "a") (s2b "d")) with false. cbv iota.
    apply rd_map. constructor; [split; [reflexivity|apply rd_same]|]. constructor; [|constructor; [split; [reflexivity|apply rd_same]|constructor]]. split; [reflexivity|]. cbn [snd]. unfold cpText.
    assert (E : exists q, roll toyDigest jsonDump (s2b "d") (s2b "E") (cpInner "one") = Ok (VStr q)) by (eexists; vm_compute; reflexivity). destruct E as (q & E). rewrite E. apply rd_hide. exact E. }
  split; [vm_compute; congruence|]. split; [vm_compute; reflexivity|]. split; [vm_compute; firstorder lia|]. split; [apply wfvB_ok; reflexivity|]. split; [reflexivity|]. split; vm_compute; congruence.
Qed.

(** Whatever elements of an aggregate are selected, what is disclosed shows those elements and the saids of the others, and verifies
    against the aggregate, provided the elements that are maps have a said field. *)
Theorem C70_disclosure_verifies_partial : forall digest dumpm dumpl L dflt, digest_ok digest -> forall code l l', saidedElems L l -> l <> [] ->
  aggorMake digest dumpm dumpl code [(L, dflt)] l = Ok l' -> forall indices,
  exists d, disclose digest dumpm [(L, dflt)] l' indices = Ok d /\ discloses L l' indices d /\
    ((exists r, dumpl d = Ok r) -> aggorVerify digest dumpm dumpl code [(L, dflt)] d = Ok tt /\ verifyDisclosure digest dumpm dumpl code [(L, dflt)] d = Ok true).
Proof. exact c70_disclosure_verifies_partial. Qed.
Print Assumptions C70_disclosure_verifies_partial.

(** An element that is a map without a said field is accepted in an aggregate; hiding it discloses null, which does not verify. *)
Theorem C70_unsaided_element_refuted : forall digest, digest_ok digest -> exists q, let e := VMap [(s2b "x", VInt 1)] in
  aggorMake digest jsonDump jsonDumpl (s2b "E") SaidsD [VStr []; e] = Ok [VStr q; e] /\
  disclose digest jsonDump SaidsD [VStr q; e] [0%Z] = Ok [VStr q; VNull] /\ verifyDisclosure digest jsonDump jsonDumpl (s2b "E") SaidsD [VStr q; VNull] = Ok false.
Proof. exact c70_unsaided_element_refuted. Qed.
Print Assumptions C70_unsaided_element_refuted.

(** Elements are disclosed only if the said of every element, disclosed or not, verifies. *)
Theorem C70_disclose_verified : forall digest dumpm saids l indices d, disclose digest dumpm saids l indices = Ok d ->
  Forall (fun e => match e with VMap m => mapperVerify digest dumpm true saids m = Ok tt | VStr t => exists q, digText t = Ok q | _ => False end) l.
Proof. exact c70_disclose_verified. Qed.
Print Assumptions C70_disclose_verified.

(** Verifying the disclosure of an empty aggregate raises instead of answering. *)
Theorem C70_empty_disclosure_refuted : forall digest dumpm code saids, verifyDisclosure digest dumpm jsonDumpl code saids [] = Err IndexError.
Proof. exact c70_empty_disclosure_refuted. Qed.
Print Assumptions C70_empty_disclosure_refuted.

(** Two verified aggregates or disclosures with the same aggregate said are the same element by element as far as both disclose them, or
    exhibit a collision, provided the elements that are maps have a said field. *)
Theorem C71_aggregate_binds_partial : forall digest dumpm dumpl L dflt, digest_ok digest -> injDump dumpm -> injDumpl dumpl -> forall code a l1 l2, saidedElems L l1 -> saidedElems L l2 ->
  aggorVerify digest dumpm dumpl code [(L, dflt)] (VStr a :: l1) = Ok tt -> aggorVerify digest dumpm dumpl code [(L, dflt)] (VStr a :: l2) = Ok tt ->
  Forall2 (sameElem L) l1 l2 \/ collision digest.
Proof. exact c71_aggregate_binds_partial. Qed.
Print Assumptions C71_aggregate_binds_partial.

(** Elements without a said field are not bound: two verified aggregates with the same said and different elements, whatever the digest algorithm. *)
Theorem C71_unsaided_element_refuted : forall digest, digest_ok digest -> exists q, let l x := [VStr q; VMap [(s2b "x", VInt x)]] in
  aggorVerify digest jsonDump jsonDumpl (s2b "E") SaidsD (l 1%Z) = Ok tt /\ aggorVerify digest jsonDump jsonDumpl (s2b "E") SaidsD (l 2%Z) = Ok tt.
Proof. exact c71_unsaided_element_refuted. Qed.
Print Assumptions C71_unsaided_element_refuted.

Example C70_aggregate_example : exists q a b sa sb, aggorMake toyDigest jsonDump jsonDumpl (s2b "E") SaidsD [VStr []; cpInner "one"; cpInner "two"] = Ok [VStr q; a; b] /\
  elemSaid (s2b "d") a = Some sa /\ elemSaid (s2b "d") b = Some sb /\ sa <> sb /\ disclose toyDigest jsonDump SaidsD [VStr q; a; b] [2%Z] = Ok [VStr q; sa; b] /\
  verifyDisclosure toyDigest jsonDump jsonDumpl (s2b "E") SaidsD [VStr q; sa; b] = Ok true /\ verifyDisclosure toyDigest jsonDump jsonDumpl (s2b "E") SaidsD [VStr q; sb; b] = Ok false /\
  saidedElems (s2b "d") [VStr []; cpInner "one"; cpInner "two"].
Proof.
  do 5 eexists. split; [vm_compute; reflexivity|]. split; [vm_compute; reflexivity|]. split; [vm_compute; reflexivity|]. split; [congruence|]. split; [vm_compute; reflexivity|]. split; [vm_compute; reflexivity|]. split; [vm_compute; reflexivity|].
  unfold saidedElems. constructor; [exact Logic.I|]. constructor; [left; reflexivity|]. constructor; [left; reflexivity|constructor].
Qed.

Example C71_aggregate_example : exists q a b sa, let l1 := [a; b] in let l2 := [sa; b] in aggorMake toyDigest jsonDump jsonDumpl (s2b "E") SaidsD [VStr []; cpInner "one"; cpInner "two"] = Ok [VStr q; a; b] /\
  saidedElems (s2b "d") l1 /\ saidedElems (s2b "d") l2 /\ aggorVerify toyDigest jsonDump jsonDumpl (s2b "E") SaidsD (VStr q :: l1) = Ok tt /\ aggorVerify toyDigest jsonDump jsonDumpl (s2b "E") SaidsD (VStr q :: l2) = Ok tt /\ l1 <> l2.
Proof.
  do 3 eexists. eexists (match aggorMake toyDigest jsonDump jsonDumpl (s2b "E") SaidsD [VStr []; cpInner "one"; cpInner "two"] with Ok [_; VMap ((_, s) :: _); _] => s | _ => VNull end). cbv zeta. split; [vm_compute; reflexivity|].
  split; [constructor; [left; reflexivity|constructor; [left; reflexivity|constructor]]|]. split; [vm_compute; constructor; [exact Logic.I|constructor; [left; reflexivity|constructor]]|].
  split; [vm_compute; reflexivity|]. split; [vm_compute; reflexivity|]. vm_compute. congruence.
Qed.

(** the same said from two different degrees of disclosure, and a different said from different content *)
Example C69_example : exists q, cpSaid (cpFull "one") = VStr q /\ cpSaid (cpPart "one") = VStr q /\ cpSaid (cpFull "two") <> VStr q.
Proof. eexists. split; [vm_compute; reflexivity|]. split; [vm_compute; reflexivity|]. vm_compute. congruence. Qed.

Example C68_example : saidCount (s2b "d") (VMap (cpFull "one")) = 4%nat /\ compactor toyDigest jsonDump 1 true SaidsD (cpFull "one") = None /\ exists r, compactor toyDigest jsonDump 5 true SaidsD (cpFull "one") = Some (Ok r).
Proof. split; [reflexivity|]. split; [vm_compute; reflexivity|]. eexists. vm_compute. reflexivity. Qed.
