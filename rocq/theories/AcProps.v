(** ACDC messages *)
From Verif Require Import Prelude B64Model B64Proofs MatterModel SubsModel VerModel VerThms ThModel JsonModel JsonProofs SerModel SerSpec SerProofs SerInv SerThms CpModel CpSpec CpProofs CpRoll CpAgg CpCompact CpThms AcModel AcSpec AcProofs AcBind AcRedact AcThms.
Open Scope N_scope.

(** The said of an accepted credential (version 2) is the digest of its most compact form, in which every section with a said of its own is
    replaced by that said. *)
Theorem C72_said_of_compact_form : forall digest odumps cdumps loads nmap olist, digest_ok digest -> library odumps loads -> forall n raw s t cd,
  acdcOfRaw digest odumps cdumps loads nmap olist n raw = Some (Ok s) -> d_kind s <> KindCesr -> dotless (s2b "d") (VMap (d_sad s)) -> disclosable s ->
  dget (d_sad s) (s2b "d") = Some (VStr t) -> digestCode (VStr t) = Some cd ->
  exists c ser size vs, compactMessage digest (mapDump odumps nmap (d_kind s)) (listDump olist (d_kind s)) (d_sad s) c /\
    dget c (s2b "v") = Some (VStr vs) /\ versify (d_proto s) (d_pvrsn s) (d_kind s) size (d_gvrsn s) = Ok vs /\
    mapDump odumps nmap (d_kind s) true [] c = Ok ser /\ isDigestOf digest cd ser t.
Proof. exact c72_said_of_compact_form. Qed.
Print Assumptions C72_said_of_compact_form.

(** Whatever is hidden in the sections of an accepted JSON credential, what remains is accepted with the same said, once the size in its
    version string is adapted. *)
Theorem C72_redaction_accepted_partial : forall digest odumps cdumps loads nmap olist, digest_ok digest -> library odumps loads -> forall n raw s t cd w m vs,
  acdcOfRaw digest odumps cdumps loads nmap olist n raw = Some (Ok s) -> d_kind s = s2b "JSON" -> dotless (s2b "d") (VMap (d_sad s)) -> disclosable s ->
  dget (d_sad s) (s2b "d") = Some (VStr t) -> digestCode (VStr t) = Some cd ->
  messageRedacts digest jsonDump jsonDumpl w (d_sad s) -> w = (s2b "v", VStr vs) :: m -> wfv (VMap w) ->
  versify (d_proto s) (d_pvrsn s) (s2b "JSON") (len (json (VMap w))) (d_gvrsn s) = Ok vs -> len (json (VMap w)) < 64 ^ 4 ->
  exists n' s', (forall rest, acdcOfRaw digest odumps cdumps loads nmap olist n' (json (VMap w) ++ rest) = Some (Ok s')) /\ d_sad s' = w /\ d_raw s' = json (VMap w) /\ dget w (s2b "d") = Some (VStr t).
Proof. exact c72_redaction_accepted_partial. Qed.
Print Assumptions C72_redaction_accepted_partial.

(** A credential made in compact form and the same credential made in full have the same said. *)
Theorem C72_made_same_said : forall digest odumps cdumps nmap olist n n' args sd s s',
  acdcMake digest odumps cdumps nmap olist n args true sd = Some (Ok s) -> acdcMake digest odumps cdumps nmap olist n' args false sd = Some (Ok s') -> dget (d_sad s) (s2b "d") = dget (d_sad s') (s2b "d").
Proof. exact c72_made_same_said. Qed.
Print Assumptions C72_made_same_said.

(** Two accepted messages with the same said have the same fields and say the same in them, in the sections as far as both disclose
    something, or exhibit a collision.  Messages that are not credentials are the same. *)
Theorem C73_said_binds_partial : forall digest odumps cdumps loads nmap olist, digest_ok digest -> library odumps loads -> forall n1 n2 raw1 raw2 s1 s2 t cd,
  acdcOfRaw digest odumps cdumps loads nmap olist n1 raw1 = Some (Ok s1) -> acdcOfRaw digest odumps cdumps loads nmap olist n2 raw2 = Some (Ok s2) ->
  d_kind s1 = d_kind s2 -> d_kind s1 <> KindCesr -> injDump (mapDump odumps nmap (d_kind s1)) -> injDumpl (listDump olist (d_kind s1)) ->
  dotless (s2b "d") (VMap (d_sad s1)) -> dotless (s2b "d") (VMap (d_sad s2)) ->
  dget (d_sad s1) (s2b "d") = Some (VStr t) -> dget (d_sad s2) (s2b "d") = Some (VStr t) -> digestCode (VStr t) = Some cd ->
  (messageAgree digest (mapDump odumps nmap (d_kind s1)) (listDump olist (d_kind s1)) (d_sad s1) (d_sad s2) /\ (~ disclosable s1 -> d_sad s1 = d_sad s2)) \/ collision digest.
Proof. exact c73_said_binds_partial. Qed.
Print Assumptions C73_said_binds_partial.

(** The assumptions about the serialization hold for JSON. *)
Theorem C73_json : forall odumps nmap olist, injDump (mapDump odumps nmap (s2b "JSON")) /\ injDumpl (listDump olist (s2b "JSON")).
Proof. exact c73_json. Qed.
Print Assumptions C73_json.

(** The said shown in the section of an accepted section message is the said of the most compact form of that section. *)
Theorem C74_section_said_partial : forall digest odumps cdumps loads nmap olist, digest_ok digest -> library odumps loads -> forall n raw s t cd l m,
  acdcOfRaw digest odumps cdumps loads nmap olist n raw = Some (Ok s) -> d_kind s <> KindCesr -> dotless (s2b "d") (VMap (d_sad s)) -> sectionMessage s ->
  dget (d_sad s) (s2b "d") = Some (VStr t) -> digestCode (VStr t) = Some cd ->
  In l sections -> dget (d_sad s) l = Some (VMap m) -> saided l (VMap m) ->
  exists q, sectionSaid digest (mapDump odumps nmap (d_kind s)) (listDump olist (d_kind s)) l (VMap m) q /\ dget m (if beq l (s2b "s") then s2b "$id" else s2b "d") = Some (VStr q).
Proof. exact c74_section_said_partial. Qed.
Print Assumptions C74_section_said_partial.

Example C72_example : exists s s', acRead 9 (acRaw (acFull "one")) = Some (Ok s) /\ acRead 9 (acRaw (acHidden "one")) = Some (Ok s') /\ dget (d_sad s) (s2b "d") = dget (d_sad s') (s2b "d") /\ d_sad s = acFull "one" /\ d_sad s' = acHidden "one" /\
  (exists t, dget (d_sad s) (s2b "d") = Some (VStr t) /\ digestCode (VStr t) = Some (s2b "E")) /\ disclosable s /\ dotless (s2b "d") (VMap (d_sad s)) /\ d_kind s = s2b "JSON" /\ messageRedacts toyDigest jsonDump jsonDumpl (acHidden "one") (acFull "one").
Proof.
  eexists. eexists. split; [vm_compute; reflexivity|]. split; [vm_compute; reflexivity|]. split; [vm_compute; reflexivity|]. split; [vm_compute; reflexivity|]. split; [vm_compute; reflexivity|].
  split; [eexists; split; vm_compute; reflexivity|]. split; [split; [vm_compute; discriminate|vm_compute; left; reflexivity]|]. split; [vm_compute; firstorder lia|]. split; [reflexivity|].
  unfold messageRedacts. assert (Q1 : exists q, saidText toyDigest jsonDump (s2b "$id") (s2b "E") acSchema = Ok q) by (eexists; vm_compute; reflexivity). destruct Q1 as (q1 & Q1).
  assert (Q2 : exists q, roll toyDigest jsonDump (s2b "d") (s2b "E") (VMap acInner) = Ok (VStr q) /\ saidText toyDigest jsonDump (s2b "d") (s2b "E") acInner = Ok q) by (eexists; split; vm_compute; reflexivity). destruct Q2 as (q2 & Q2 & Q3).
  assert (EF : exists vs t, acFull "one" = [(s2b "v", VStr vs); (s2b "t", VStr (s2b "acm")); (s2b "d", VStr t); (s2b "i", VStr (akey "A")); (s2b "s", VMap acSchema); (s2b "a", VMap (acAttr "one" (VMap acInner)))]) by (do 2 eexists; vm_compute; reflexivity). destruct EF as (vs & t & EF).
  assert (EH : exists vs', acHidden "one" = [(s2b "v", VStr vs'); (s2b "t", VStr (s2b "acm")); (s2b "d", VStr t); (s2b "i", VStr (akey "A")); (s2b "s", VStr q1); (s2b "a", VMap (acAttr "one" (VStr q2)))]).
  { unfold acHidden, acSized, acSaid. rewrite EF, Q1, Q3. set (m := dset _ _ _). destruct (versify _ _ _ _ _); eexists; reflexivity. }
  destruct EH as (vs' & EH). rewrite EF, EH. constructor; [split; [reflexivity|left; reflexivity]|]. constructor; [split; [reflexivity|right; reflexivity]|]. constructor; [split; [reflexivity|right; reflexivity]|]. constructor; [split; [reflexivity|right; reflexivity]|]. constructor; [|constructor; [|constructor]].
  - split; [reflexivity|]. right. left. exists q1. split; [reflexivity|]. left. split; [reflexivity|exact Q1].
  - split; [reflexivity|]. right. right. split; [left; reflexivity|]. split; [discriminate|]. constructor; [split; reflexivity|]. constructor; [split; [reflexivity|apply rd_same]|]. constructor; [|constructor; [split; [reflexivity|apply rd_same]|constructor]]. split; [reflexivity|]. apply rd_hide. exact Q2.
Qed.

Example C73_example : exists s s' t, acRead 9 (acRaw (acFull "one")) = Some (Ok s) /\ acRead 9 (acRaw (acHidden "one")) = Some (Ok s') /\ dget (d_sad s) (s2b "d") = Some (VStr t) /\ dget (d_sad s') (s2b "d") = Some (VStr t) /\ d_raw s <> d_raw s' /\ d_kind s = d_kind s' /\
  dotless (s2b "d") (VMap (d_sad s)) /\ dotless (s2b "d") (VMap (d_sad s')) /\ digestCode (VStr t) = Some (s2b "E") /\ dget (acFull "two") (s2b "d") <> Some (VStr t).
Proof.
  do 3 eexists. split; [vm_compute; reflexivity|]. split; [vm_compute; reflexivity|]. split; [vm_compute; reflexivity|]. split; [vm_compute; reflexivity|]. split; [vm_compute; congruence|]. split; [reflexivity|]. split; [vm_compute; firstorder lia|]. split; [vm_compute; firstorder lia|]. split; [vm_compute; reflexivity|]. vm_compute. congruence.
Qed.

(** A section without a said of its own is part of the digested form as it is, so that hiding a nested map in it changes the said: the
    credential in full is accepted, with the nested map replaced by its said it is not. *)
Theorem C72_loose_section_refuted : exists s q, acRead 9 (acRaw acLoose) = Some (Ok s) /\ roll toyDigest jsonDump (s2b "d") (s2b "E") (VMap acInner) = Ok (VStr q) /\
  dget acLoose (s2b "a") = Some (VMap [(s2b "n", VMap acInner)]) /\ acLooseHidden = acSized (dset acLoose (s2b "a") (VMap [(s2b "n", VStr q)])) /\ acRead 9 (acRaw acLooseHidden) = Some (Err ValidationError).
Proof. exact c72_loose_section_refuted. Qed.
Print Assumptions C72_loose_section_refuted.

Theorem C73_unsaided_element_refuted : exists s1 s2 t c, acRead 9 (acRaw (acBag 1)) = Some (Ok s1) /\ acRead 9 (acRaw (acBag 2)) = Some (Ok s2) /\ dget (d_sad s1) (s2b "d") = Some (VStr t) /\ dget (d_sad s2) (s2b "d") = Some (VStr t) /\
  dget (d_sad s1) (s2b "A") <> dget (d_sad s2) (s2b "A") /\
  mostCompact toyDigest noDumps (fun _ _ _ _ => Err ValueError) (fun _ _ _ => Err ValueError) (fun _ _ => Err ValueError) 9 s1 (Some (s2b "acm")) (d_sad s1) = Some (Ok c) /\
  mostCompact toyDigest noDumps (fun _ _ _ _ => Err ValueError) (fun _ _ _ => Err ValueError) (fun _ _ => Err ValueError) 9 s2 (Some (s2b "acm")) (d_sad s2) = Some (Ok c).
Proof. exact c73_unsaided_element_refuted. Qed.
Print Assumptions C73_unsaided_element_refuted.

Theorem C74_credential_section_refuted : exists s m q q', acRead 9 (acRaw acBogus) = Some (Ok s) /\ dget (d_sad s) (s2b "a") = Some (VMap m) /\ dget m (s2b "d") = Some (VStr q) /\
  sectionSaid toyDigest jsonDump jsonDumpl (s2b "a") (VMap m) q' /\ q <> q'.
Proof. exact c74_credential_section_refuted. Qed.
Print Assumptions C74_credential_section_refuted.

Theorem C74_aggregate_message_refuted : exists s q es q', acRead 9 (acRaw acAgg) = Some (Ok s) /\ dget (d_sad s) (s2b "A") = Some (VList (VStr q :: es)) /\
  sectionSaid toyDigest jsonDump jsonDumpl (s2b "A") (VList (VStr q :: es)) q' /\ q <> q'.
Proof. exact c74_aggregate_message_refuted. Qed.
Print Assumptions C74_aggregate_message_refuted.

Example C74_example : exists s m t, acRead 9 (acRaw (acAtt "one")) = Some (Ok s) /\ sectionMessage s /\ dget (d_sad s) (s2b "a") = Some (VMap m) /\ saided (s2b "a") (VMap m) /\ dget (d_sad s) (s2b "d") = Some (VStr t) /\ digestCode (VStr t) = Some (s2b "E") /\ dotless (s2b "d") (VMap (d_sad s)) /\
  acMake "att" [(s2b "t", VStr (s2b "att")); (s2b "d", VStr []); (s2b "a", VMap (dset (acAttr "one" (VMap acInner)) (s2b "d") (VStr (acSaid (s2b "d") acInner))))] = [].
Proof.
  do 3 eexists. split; [vm_compute; reflexivity|]. split; [split; [vm_compute; discriminate|eexists; split; [vm_compute; reflexivity|right; left; reflexivity]]|]. split; [vm_compute; reflexivity|]. split; [right; split; [left; reflexivity|vm_compute; discriminate]|]. split; [vm_compute; reflexivity|]. split; [vm_compute; reflexivity|]. split; [vm_compute; firstorder lia|]. vm_compute. reflexivity.
Qed.
