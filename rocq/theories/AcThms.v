From Verif Require Import Prelude B64Model B64Proofs MatterModel SubsModel VerModel VerThms ThModel JsonModel JsonProofs SerModel SerSpec SerProofs SerInv SerThms CpModel CpSpec CpProofs CpRoll CpAgg CpCompact CpThms AcModel AcSpec AcProofs AcBind AcRedact.
Notation val := JsonModel.val.
Open Scope N_scope.
Ltac Zify.zify_post_hook ::= Z.div_mod_to_equations.

Lemma c72_said_of_compact_form : forall digest odumps cdumps loads nmap olist, digest_ok digest -> library odumps loads -> forall n raw s t cd,
  acdcOfRaw digest odumps cdumps loads nmap olist n raw = Some (Ok s) -> d_kind s <> KindCesr -> dotless (s2b "d") (VMap (d_sad s)) -> disclosable s ->
  dget (d_sad s) (s2b "d") = Some (VStr t) -> digestCode (VStr t) = Some cd ->
  exists c ser size vs, compactMessage digest (mapDump odumps nmap (d_kind s)) (listDump olist (d_kind s)) (d_sad s) c /\
    dget c (s2b "v") = Some (VStr vs) /\ versify (d_proto s) (d_pvrsn s) (d_kind s) size (d_gvrsn s) = Ok vs /\
    mapDump odumps nmap (d_kind s) true [] c = Ok ser /\ isDigestOf digest cd ser t.
Proof.
  intros digest odumps cdumps loads nmap olist Hd LIB n raw s t cd H NK DL DS GT DC. destruct (ofRaw_ok digest odumps cdumps loads nmap olist Hd LIB _ _ _ H NK) as (W & K & _ & V & ilk & t' & cd' & c & D & vs & A).
  destruct (ak_said _ _ _ _ _ _ _ _ _ _ _ _ _ A) as (G & C). rewrite GT in G. injection G as <-. apply digestCode_some in DC. destruct DC as (C' & DD). rewrite C in C'. injection C' as ->.
  apply (disclosable_ok _ _ (ak_ilk _ _ _ _ _ _ _ _ _ _ _ _ _ A)) in DS. destruct (compact_facts digest odumps cdumps loads nmap olist Hd _ _ _ _ _ _ _ _ A W DL NK DD DS) as (c0 & r & vs' & _ & _ & VS & EC & KC & GV & CM). destruct (acdc_digest _ _ _ _ _ _ _ _ _ _ _ _ _ A DD) as (RD & Q).
  exists c, D, (len r), vs'. split; [exact CM|]. split; [rewrite EC, dget_dset, beq_refl; reflexivity|]. split; [exact VS|]. split; [rewrite <- (dumps_map _ cdumps nmap s c true [] NK); exact RD|exact Q].
Qed.

Lemma c72_redaction_accepted_partial : forall digest odumps cdumps loads nmap olist, digest_ok digest -> library odumps loads -> forall n raw s t cd w m vs,
  acdcOfRaw digest odumps cdumps loads nmap olist n raw = Some (Ok s) -> d_kind s = s2b "JSON" -> dotless (s2b "d") (VMap (d_sad s)) -> disclosable s ->
  dget (d_sad s) (s2b "d") = Some (VStr t) -> digestCode (VStr t) = Some cd ->
  messageRedacts digest jsonDump jsonDumpl w (d_sad s) -> w = (s2b "v", VStr vs) :: m -> wfv (VMap w) ->
  versify (d_proto s) (d_pvrsn s) (s2b "JSON") (len (json (VMap w))) (d_gvrsn s) = Ok vs -> len (json (VMap w)) < 64 ^ 4 ->
  exists n' s', (forall rest, acdcOfRaw digest odumps cdumps loads nmap olist n' (json (VMap w) ++ rest) = Some (Ok s')) /\ d_sad s' = w /\ d_raw s' = json (VMap w) /\ dget w (s2b "d") = Some (VStr t).
Proof.
  intros digest odumps cdumps loads nmap olist Hd LIB n raw s t cd w m vs H KJ DL DS GT DC R EW WW VS SZ. assert (NK : d_kind s <> KindCesr) by (rewrite KJ; discriminate). destruct (ofRaw_ok digest odumps cdumps loads nmap olist Hd LIB _ _ _ H NK) as (W & K & _ & V & ilk & t' & cd' & c & D & vz & A).
  destruct (ak_said _ _ _ _ _ _ _ _ _ _ _ _ _ A) as (G & C). rewrite GT in G. injection G as <-. apply digestCode_some in DC. destruct DC as (C' & DD). rewrite C in C'. injection C' as ->.
  apply (disclosable_ok _ _ (ak_ilk _ _ _ _ _ _ _ _ _ _ _ _ _ A)) in DS. assert (GV : dget w (s2b "v") = Some (VStr vs)) by (rewrite EW; reflexivity).
  destruct (redaction digest odumps cdumps loads nmap olist Hd LIB _ _ _ _ _ _ _ _ _ _ A W DL KJ DD DS R GV VS SZ) as (n' & VN). exists n', (mkSerder (json (VMap w)) w (d_proto s) (d_pvrsn s) (d_gvrsn s) (s2b "JSON") (len (json (VMap w)))). split; [|split; [reflexivity|split; [reflexivity|]]].
  - intros rest. unfold acdcOfRaw. assert (M : m <> []).
    { intros ->. pose proof (f_equal (@List.length _) (f_equal keysOf EW)) as L. assert (KE : keysOf w = keysOf (d_sad s)) by (exact (forall2_keys' (fun k v u => if memB k sections then sectionRedacts digest jsonDump jsonDumpl k v u else k = s2b "v" \/ v = u) _ _ R)).
      rewrite KE in L. assert (I1 : In (s2b "v") (keysOf (d_sad s))) by (apply dget_keys; eexists; exact (ak_vs _ _ _ _ _ _ _ _ _ _ _ _ _ A)). assert (I2 : In (s2b "d") (keysOf (d_sad s))) by (apply dget_keys; eauto). destruct (keysOf (d_sad s)) as [|a [|b l]]; [destruct I1| |discriminate]. destruct I1 as [->|[]]. destruct I2 as [X|[]]. discriminate. }
    assert (F : fits (Build_smellage (d_proto s) (d_pvrsn s) (s2b "JSON") (len (json (VMap w))) (d_gvrsn s))).
    { destruct (ak_sm _ _ _ _ _ _ _ _ _ _ _ _ _ A) as (sm & DV & P1 & P2 & P3 & P4). destruct (c09_canonical _ _ DV) as (F0 & _). unfold compactable in DS. apply andb_true_iff in DS. destruct DS as [MJ _]. apply N.leb_le in MJ. unfold fits in *. cbn [s_proto s_pvrsn s_kind s_size s_gvrsn]. rewrite <- P2 in F0. destruct (d_pvrsn s) as [ma mi]. cbn [fst] in MJ. destruct F0 as (PI & [(X & _)|(X & Y & _ & _ & Z)]); [lia|]. split; [rewrite P1; exact PI|]. right. split; [exact X|]. split; [exact Y|]. split; [exact SZ|]. split; [left; reflexivity|]. rewrite P4. exact Z. }
    rewrite EW in WW, F, VS. rewrite EW at 1. rewrite (inhale_json odumps cdumps loads olist LIB vs m _ _ _ rest WW M F VS). cbn [obind]. rewrite <- EW, VN. reflexivity.
  - assert (GE : dget w (s2b "d") = dget (d_sad s) (s2b "d")).
    { destruct (get_forall2 (fun k v u => if memB k sections then sectionRedacts digest jsonDump jsonDumpl k v u else k = s2b "v" \/ v = u) _ _ R (s2b "d")) as [(-> & ->)|(v & u & -> & -> & [X|X])]; [reflexivity|discriminate|congruence]. }
    rewrite GE. exact GT.
Qed.

Lemma c72_made_same_said : forall digest odumps cdumps nmap olist n n' args sd s s',
  acdcMake digest odumps cdumps nmap olist n args true sd = Some (Ok s) -> acdcMake digest odumps cdumps nmap olist n' args false sd = Some (Ok s') -> dget (d_sad s) (s2b "d") = dget (d_sad s') (s2b "d").
Proof. exact made_same. Qed.

Lemma c73_said_binds_partial : forall digest odumps cdumps loads nmap olist, digest_ok digest -> library odumps loads -> forall n1 n2 raw1 raw2 s1 s2 t cd,
  acdcOfRaw digest odumps cdumps loads nmap olist n1 raw1 = Some (Ok s1) -> acdcOfRaw digest odumps cdumps loads nmap olist n2 raw2 = Some (Ok s2) ->
  d_kind s1 = d_kind s2 -> d_kind s1 <> KindCesr -> injDump (mapDump odumps nmap (d_kind s1)) -> injDumpl (listDump olist (d_kind s1)) ->
  dotless (s2b "d") (VMap (d_sad s1)) -> dotless (s2b "d") (VMap (d_sad s2)) ->
  dget (d_sad s1) (s2b "d") = Some (VStr t) -> dget (d_sad s2) (s2b "d") = Some (VStr t) -> digestCode (VStr t) = Some cd ->
  (messageAgree digest (mapDump odumps nmap (d_kind s1)) (listDump olist (d_kind s1)) (d_sad s1) (d_sad s2) /\ (~ disclosable s1 -> d_sad s1 = d_sad s2)) \/ collision digest.
Proof.
  intros digest odumps cdumps loads nmap olist Hd LIB n1 n2 raw1 raw2 s1 s2 t cd H1 H2 EK NK Hi Hl DL1 DL2 G1 G2 DC.
  destruct (ofRaw_ok digest odumps cdumps loads nmap olist Hd LIB _ _ _ H1 NK) as (W1 & _ & _ & _ & i1 & t1 & cd1 & c1 & D1 & v1 & A1). destruct (ofRaw_ok digest odumps cdumps loads nmap olist Hd LIB _ _ _ H2 ltac:(congruence)) as (W2 & _ & _ & _ & i2 & t2 & cd2 & c2 & D2 & v2 & A2).
  destruct (ak_said _ _ _ _ _ _ _ _ _ _ _ _ _ A1) as (X1 & C1). destruct (ak_said _ _ _ _ _ _ _ _ _ _ _ _ _ A2) as (X2 & C2). rewrite G1 in X1. injection X1 as <-. rewrite G2 in X2. injection X2 as <-. apply digestCode_some in DC. destruct DC as (C' & DD). rewrite C1 in C'. injection C' as ->.
  destruct (acdc_binds digest odumps cdumps loads nmap olist Hd _ _ _ _ _ _ _ _ _ _ _ _ _ _ _ A1 A2 W1 W2 DL1 DL2 EK NK Hi Hl DD) as [(X & Y)|X]; [left|right; exact X]. split; [exact X|]. intros ND. apply Y. destruct (compactable (d_pvrsn s1) i1) eqn:CB; [|reflexivity]. exfalso. apply ND. apply (disclosable_ok _ _ (ak_ilk _ _ _ _ _ _ _ _ _ _ _ _ _ A1)). exact CB.
Qed.
Lemma c73_json : forall odumps nmap olist, injDump (mapDump odumps nmap (s2b "JSON")) /\ injDumpl (listDump olist (s2b "JSON")).
Proof. intros odumps nmap olist. exact (conj jsonInj jsonInjl). Qed.

Lemma c74_section_said_partial : forall digest odumps cdumps loads nmap olist, digest_ok digest -> library odumps loads -> forall n raw s t cd l m,
  acdcOfRaw digest odumps cdumps loads nmap olist n raw = Some (Ok s) -> d_kind s <> KindCesr -> dotless (s2b "d") (VMap (d_sad s)) -> sectionMessage s ->
  dget (d_sad s) (s2b "d") = Some (VStr t) -> digestCode (VStr t) = Some cd ->
  In l sections -> dget (d_sad s) l = Some (VMap m) -> saided l (VMap m) ->
  exists q, sectionSaid digest (mapDump odumps nmap (d_kind s)) (listDump olist (d_kind s)) l (VMap m) q /\ dget m (if beq l (s2b "s") then s2b "$id" else s2b "d") = Some (VStr q).
Proof.
  intros digest odumps cdumps loads nmap olist Hd LIB n raw s t cd l m H NK DL SM GT DC I GL SD. destruct (ofRaw_ok digest odumps cdumps loads nmap olist Hd LIB _ _ _ H NK) as (W & K & _ & V & ilk & t' & cd' & c & D & vs & A).
  destruct (ak_said _ _ _ _ _ _ _ _ _ _ _ _ _ A) as (G & C). rewrite GT in G. injection G as <-. apply digestCode_some in DC. destruct DC as (C' & DD). rewrite C in C'. injection C' as ->.
  destruct (sectional_ok _ _ (ak_ilk _ _ _ _ _ _ _ _ _ _ _ _ _ A) SM) as (SO & CB). destruct (ak_most _ _ _ _ _ _ _ _ _ _ _ _ _ A DD) as (M & _). unfold mostCompact in M. rewrite CB, SO in M. apply obind_ok in M. destruct M as ([] & CS & _).
  assert (Nd : beq l (s2b "d") = false) by (apply beq_neq; intros ->; cbn in I; repeat (destruct I as [I|I]; [discriminate|]); exact I).
  apply (check_shown digest odumps nmap olist Hd n (d_kind s) l m NK (wfv_get _ _ _ W GL) (dotless_get _ _ _ _ DL GL) SD). eapply checks_spec; [exact CS|exact I|]. rewrite dget_dset, Nd. exact GL.
Qed.

(** ** concrete cases *)
Definition acRead (n : nat) (raw : bytes) : option (res serder) := acdcOfRaw toyDigest noDumps (fun _ _ _ _ => Err ValueError) refLoads (fun _ _ _ => Err ValueError) (fun _ _ => Err ValueError) n raw.
Definition acArgs (ilk : string) : mkargs := mkArgs (Some (s2b "ACDC")) (Some (2, 0)) None (Some (s2b "JSON")) (Some (s2b ilk)) [].
Definition acMake (ilk : string) (sd : sad) : sad :=
  match acdcMake toyDigest noDumps (fun _ _ _ _ => Err ValueError) (fun _ _ _ => Err ValueError) (fun _ _ => Err ValueError) 9 (acArgs ilk) false sd with Some (Ok s) => d_sad s | _ => [] end.
(** the size in the version string adapted *)
Definition acSized (m : sad) : sad := match versify (s2b "ACDC") (2, 0) (s2b "JSON") (len (json (VMap m))) (Some (2, 0)) with Ok vs => dset m (s2b "v") (VStr vs) | Err _ => m end.
Definition acRaw (m : sad) : bytes := json (VMap m).
Definition acSaid (L : bytes) (m : sad) : bytes := match saidText toyDigest jsonDump L (s2b "E") m with Ok q => q | Err _ => [] end.

(** a credential with a schema and an attribute section with a nested map *)
Definition acSchema : sad := [(s2b "$id", VStr []); (s2b "type", VStr (s2b "object"))].
Definition acAttr (x : string) (inner : val) : sad := [(s2b "d", VStr []); (s2b "i", VStr (akey "B")); (s2b "n", inner); (s2b "q", VStr (s2b x))].
Definition acInner : sad := [(s2b "d", VStr []); (s2b "x", VStr (s2b "secret"))].
Definition acFull (x : string) : sad := acMake "acm" [(s2b "t", VStr (s2b "acm")); (s2b "d", VStr []); (s2b "i", VStr (akey "A")); (s2b "s", VMap acSchema); (s2b "a", VMap (acAttr x (VMap acInner)))].
(** the schema and the nested map hidden *)
Definition acHidden (x : string) : sad := acSized (dset (dset (acFull x) (s2b "s") (VStr (acSaid (s2b "$id") acSchema))) (s2b "a") (VMap (acAttr x (VStr (acSaid (s2b "d") acInner))))).
(** a section without a said of its own, with a nested map that has one, in full and hidden *)
Definition acLoose : sad := acMake "acm" [(s2b "t", VStr (s2b "acm")); (s2b "d", VStr []); (s2b "i", VStr (akey "A")); (s2b "s", VStr []); (s2b "a", VMap [(s2b "n", VMap acInner)])].
Definition acLooseHidden : sad := acSized (dset acLoose (s2b "a") (VMap [(s2b "n", VStr (acSaid (s2b "d") acInner))])).




Lemma c72_loose_section_refuted : exists s q, acRead 9 (acRaw acLoose) = Some (Ok s) /\ roll toyDigest jsonDump (s2b "d") (s2b "E") (VMap acInner) = Ok (VStr q) /\
  dget acLoose (s2b "a") = Some (VMap [(s2b "n", VMap acInner)]) /\ acLooseHidden = acSized (dset acLoose (s2b "a") (VMap [(s2b "n", VStr q)])) /\ acRead 9 (acRaw acLooseHidden) = Some (Err ValidationError).
Proof. eexists. eexists. split; [vm_compute; reflexivity|]. split; [vm_compute; reflexivity|]. split; [vm_compute; reflexivity|]. split; [vm_compute; reflexivity|]. vm_compute. reflexivity. Qed.

(** Elements of an aggregate without a said are not bound: two accepted credentials with the same said and the same most compact form that
    differ in an element. *)
Definition acBag (x : Z) : sad := acMake "acm" [(s2b "t", VStr (s2b "acm")); (s2b "d", VStr []); (s2b "i", VStr (akey "A")); (s2b "s", VStr []); (s2b "A", VList [VStr []; VMap [(s2b "x", VInt x)]])].
Lemma c73_unsaided_element_refuted : exists s1 s2 t c, acRead 9 (acRaw (acBag 1)) = Some (Ok s1) /\ acRead 9 (acRaw (acBag 2)) = Some (Ok s2) /\ dget (d_sad s1) (s2b "d") = Some (VStr t) /\ dget (d_sad s2) (s2b "d") = Some (VStr t) /\
  dget (d_sad s1) (s2b "A") <> dget (d_sad s2) (s2b "A") /\
  mostCompact toyDigest noDumps (fun _ _ _ _ => Err ValueError) (fun _ _ _ => Err ValueError) (fun _ _ => Err ValueError) 9 s1 (Some (s2b "acm")) (d_sad s1) = Some (Ok c) /\
  mostCompact toyDigest noDumps (fun _ _ _ _ => Err ValueError) (fun _ _ _ => Err ValueError) (fun _ _ => Err ValueError) 9 s2 (Some (s2b "acm")) (d_sad s2) = Some (Ok c).
Proof. do 4 eexists. split; [vm_compute; reflexivity|]. split; [vm_compute; reflexivity|]. split; [vm_compute; reflexivity|]. split; [vm_compute; reflexivity|]. split; [vm_compute; congruence|]. split; vm_compute; reflexivity. Qed.

(** In a credential the said shown in a section is not compared with anything: one with any digest there is accepted. *)
Definition acBogus : sad := acSized (dset (acFull "one") (s2b "a") (VMap (dset (acAttr "one" (VMap acInner)) (s2b "d") (VStr (acSaid (s2b "d") acInner))))).
Lemma c74_credential_section_refuted : exists s m q q', acRead 9 (acRaw acBogus) = Some (Ok s) /\ dget (d_sad s) (s2b "a") = Some (VMap m) /\ dget m (s2b "d") = Some (VStr q) /\
  sectionSaid toyDigest jsonDump jsonDumpl (s2b "a") (VMap m) q' /\ q <> q'.
Proof.
  do 4 eexists. split; [vm_compute; reflexivity|]. split; [vm_compute; reflexivity|]. split; [vm_compute; reflexivity|].
  split; [right; split; [left; reflexivity|]; split; [vm_compute; discriminate|]; eexists; split; [vm_compute; reflexivity|vm_compute; reflexivity]|]. vm_compute. congruence.
Qed.
(** In an aggregate section message the aggregate's said is not compared either. *)
Definition acAgg : sad := acMake "agg" [(s2b "t", VStr (s2b "agg")); (s2b "d", VStr []); (s2b "A", VList [VStr (acSaid (s2b "d") acInner); VMap acInner])].
Lemma elemText_map digest dumpm m x q : dget m (s2b "d") = Some x -> saidText digest dumpm (s2b "d") (s2b "E") m = Ok q -> elemText digest dumpm (VMap m) (VStr q).
Proof. intros G S0. unfold elemText. rewrite G. eauto. Qed.
Lemma c74_aggregate_message_refuted : exists s q es q', acRead 9 (acRaw acAgg) = Some (Ok s) /\ dget (d_sad s) (s2b "A") = Some (VList (VStr q :: es)) /\
  sectionSaid toyDigest jsonDump jsonDumpl (s2b "A") (VList (VStr q :: es)) q' /\ q <> q'.
Proof.
  do 4 eexists. split; [vm_compute; reflexivity|]. split; [vm_compute; reflexivity|].
  split; [split; [reflexivity|]; do 2 eexists; split; [eapply Forall2_cons; [eapply elemText_map; vm_compute; reflexivity|apply Forall2_nil]|]; split; [vm_compute; reflexivity|split; [left; reflexivity|split; [|vm_compute; reflexivity]; vm_compute; reflexivity]]|]. vm_compute. congruence.
Qed.
(** an attribute section message *)
Definition acAtt (x : string) : sad := let a := acAttr x (VMap acInner) in acMake "att" [(s2b "t", VStr (s2b "att")); (s2b "d", VStr []); (s2b "a", VMap (dset a (s2b "d") (match mapSaid toyDigest noDumps (fun _ _ _ => Err ValueError) 9 (s2b "JSON") (s2b "a") a with Some (Ok q) => q | _ => VNull end)))].

