From Verif Require Import Prelude B64Model B64Proofs MatterModel MatterProofs MatterInv MatterSpec MatterThms SubsModel SubsProofs SubsThms CtrModel CtrProofs CtrThms VerModel ThModel ThProofs JsonModel JsonProofs SerModel SerSpec SerProofs SerInv SerThms CpModel CpSpec CpProofs NmModel NmSpec NmProofs NmProofs2 NmProofs3 NmProofs4.
Open Scope N_scope.
Ltac Zify.zify_post_hook ::= Z.div_mod_to_equations.

Lemma c81_int_round_trip : forall pyfloat z m t, decimer_of_dec pyfloat (DInt z) = Ok m ->
  dnsOf m = Ok (jint z) /\ decimal pyfloat m = Ok (DInt z) /\ exists q, infil m = Ok q /\ matter_strip (q ++ t) = Ok (m, t).
Proof.
  intros pf z m t H. destruct (decimer_int_ok _ _ _ H) as (B & D & E & _). split; [exact D|]. split; [exact E|]. destruct (built_infil m B) as (q & Q). exists q. split; [exact Q|apply (pr_strip _ _ (prim_of m q B Q))].
Qed.
Lemma c81_int_refused : forall pyfloat z e, decimer_of_dec pyfloat (DInt z) = Err e -> sizeErr e.
Proof. exact int_refused. Qed.
Lemma c81_float_round_trip_partial : forall pyfloat r m t, floatText pyfloat r -> decimer_of_dec pyfloat (DFloat r) = Ok m ->
  dnsOf m = Ok r /\ decimal pyfloat m = Ok (DFloat r) /\ exists q, infil m = Ok q /\ matter_strip (q ++ t) = Ok (m, t).
Proof.
  intros pf r m t F H. destruct (decimer_float_ok _ _ _ F H) as (B & D & E & _). split; [exact D|]. split; [exact E|]. destruct (built_infil m B) as (q & Q). exists q. split; [exact Q|apply (pr_strip _ _ (prim_of m q B Q))].
Qed.
Lemma c81_large_float_refuted : forall pyfloat, pyfloat (s2b "1e+16") = Some (s2b "1e+16") -> pyfloat (s2b "1e-16") = Some (s2b "1e-16") ->
  exists m, decimer_of_dec pyfloat (DFloat (s2b "1e+16")) = Ok m /\ decimer_of_dec pyfloat (DFloat (s2b "1e-16")) = Ok m /\ decimal pyfloat m = Ok (DFloat (s2b "1e-16")).
Proof.
  intros pf A B.
  assert (P1 : decParse pf (s2b "1e+16") = Ok (DFloat (s2b "1e+16"))) by (unfold decParse; replace (pyint (s2b "1e+16")) with (@None Z) by (vm_compute; reflexivity); rewrite A; reflexivity).
  assert (P2 : decParse pf (s2b "1e-16") = Ok (DFloat (s2b "1e-16"))) by (unfold decParse; replace (pyint (s2b "1e-16")) with (@None Z) by (vm_compute; reflexivity); rewrite B; reflexivity).
  exists (match matter_of_raw (match decRaw (s2b "1e-16") with Ok r => r | Err _ => [] end) (s2b "4H") [] None with Ok m => m | Err _ => mkMatter [] [] [] end).
  split; [unfold decimer_of_dec, decimer_of_dns; cbn [decText]; rewrite P1; cbn [bind decText]; vm_compute; reflexivity|].
  split; [unfold decimer_of_dec, decimer_of_dns; cbn [decText]; rewrite P2; cbn [bind decText]; vm_compute; reflexivity|].
  unfold decimal. match goal with |- bind ?x _ = _ => replace x with (Ok (s2b "1e-16")) by (vm_compute; reflexivity) end. exact P2.
Qed.
Definition nmFloat (s : bytes) : option bytes := if memB s [s2b "-12.5"; s2b "1e+16"; s2b "1e-16"] then Some s else None.


Lemma c82_round_trip_partial : forall strict m q t, plainMap m -> exhale strict [] m = Ok q ->
  b64text q /\ len q mod 4 = 0 /\ mapperRead strict (q ++ t) = Ok m.
Proof. exact map_round_trip. Qed.
Lemma c82_refused_partial : forall strict m e, plainMap m -> legal strict (VMap m) -> exhale strict [] m = Err e -> sizeErr e.
Proof. intros strict m e P L H. exact (exhale_sized strict m P L e H). Qed.
Lemma c82_base64_text_refuted : exists q, exhale true [] [(s2b "x", VStr (s2b "MA+/"))] = Ok q /\ mapperRead true q = Ok [(s2b "x", VStr (s2b "MA-_"))].
Proof. eexists. split; [vm_compute; reflexivity|vm_compute; reflexivity]. Qed.
Definition nmMap : sad := [(s2b "name", VStr (s2b "Sue Smith")); (s2b "ok", VBool true); (s2b "no", VNull); (s2b "n", VInt (-123456789)); (s2b "e", VStr []);
  (s2b "esc", VStr (s2b "1AAM")); (s2b "list", VList [VStr (s2b "a"); VList []; VMap [(s2b "k", VStr (s2b "AABC-_xyz0123"))]]);
  (s2b "aid", VStr (s2b "EBfdlu8R27Fbx-ehrqwImnK-8Cm79sqbAQ4MmvEAYqao"))].


Lemma c83_injective_partial : forall strict a b q, plainMap a -> plainMap b -> exhale strict [] a = Ok q -> exhale strict [] b = Ok q -> a = b.
Proof. intros strict a b q Pa Pb A B. destruct (map_round_trip strict a q [] Pa A) as (_ & _ & R). destruct (map_round_trip strict b q [] Pb B) as (_ & _ & R'). rewrite R in R'. apply ok_inj in R'. exact R'. Qed.
Lemma c83_said_binds_partial : forall digest strict L dflt a b q, digest_ok digest -> plainMap a -> plainMap b ->
  mapperVerify digest exhale strict [(L, dflt)] a = Ok tt -> mapperVerify digest exhale strict [(L, dflt)] b = Ok tt ->
  dget a L = Some (VStr q) -> dget b L = Some (VStr q) -> a = b \/ collision digest.
Proof. exact native_binds. Qed.
Lemma c83_same_said_refuted : forall digest, digest_ok digest -> exists q, let m x := [(s2b "d", VStr q); (s2b "x", VStr (s2b x))] in
  mapperVerify digest exhale true SaidsD (m "MA+/"%string) = Ok tt /\ mapperVerify digest exhale true SaidsD (m "MA-_"%string) = Ok tt /\
  exhale true [] (m "MA+/"%string) = exhale true [] (m "MA-_"%string).
Proof. exact native_same_said. Qed.
Lemma c83_octets_refuted : exists m q a b, mapperVerify toyDigest exhale true SaidsD m = Ok tt /\ exhale true [] m = Ok q /\
  a <> q /\ mapperRead true a = Ok m /\ b <> q /\ mapperRead true b = Ok m.
Proof.
  pose (m0 := [(s2b "d", VStr []); (s2b "x", VStr (s2b "abc"))]).
  assert (M : exists s q0, mapperMake toyDigest exhale true SaidsD m0 = Ok ([(s2b "d", VStr s); (s2b "x", VStr (s2b "abc"))], q0) /\
    exists d, exhale true [] [(s2b "d", VStr s); (s2b "x", VStr (s2b "abc"))] = Ok (s2b "-IAO0J_d" ++ s ++ s2b "0J_xXabc") /\ d = s /\
    mapperVerify toyDigest exhale true SaidsD [(s2b "d", VStr s); (s2b "x", VStr (s2b "abc"))] = Ok tt /\
    mapperRead true (s2b "-IAP0J_d" ++ s ++ s2b "0J_x4BABYWJj") = Ok [(s2b "d", VStr s); (s2b "x", VStr (s2b "abc"))] /\
    mapperRead true (s2b "-IAQ0J_d" ++ s ++ s2b "0J_xXxyz0J_xXabc") = Ok [(s2b "d", VStr s); (s2b "x", VStr (s2b "abc"))]).
  { do 2 eexists. split; [vm_compute; reflexivity|]. eexists. split; [vm_compute; reflexivity|]. split; [reflexivity|]. split; [vm_compute; reflexivity|]. split; vm_compute; reflexivity. }
  destruct M as (s & _ & _ & _ & X & _ & V & R1 & R2). eexists _, _, _, _. split; [exact V|]. split; [exact X|]. split; [|split; [exact R1|]; split; [|exact R2]]; intros H; vm_compute in H; discriminate.
Qed.


Lemma c84_binary_partial : forall strict m q t, plainMap m -> exhale strict [] m = Ok q ->
  exists b, qb2 q = Ok b /\ octets b /\ encodeB64 b = q /\ 4 * len b = 3 * len q /\ mapperReadB strict (b ++ t) = Ok m.
Proof. exact map_binary. Qed.
Lemma c84_text_not_base64_refuted : exists q, let m := [(s2b "x", VStr (s2b "1AAF!!!!"))] in exhale true [] m = Ok q /\ ~ b64text q /\ mapperRead true q = Ok m /\
  match qb2 q with Ok b => encodeB64 b <> q | Err _ => True end.
Proof.
  eexists. cbv zeta. split; [vm_compute; reflexivity|]. split; [|split; [vm_compute; reflexivity|vm_compute; try exact Logic.I; discriminate]].
  intros H. unfold b64text in H. rewrite Forall_forall in H. apply (H 33); [|reflexivity]. vm_compute. tauto.
Qed.


Lemma c85_reading_ends : forall strict s, mapperRead strict s <> Err OverflowError /\ (octets s -> mapperReadB strict s <> Err OverflowError) /\
  forall n, (2 * List.length s + 1 <= n)%nat -> inhaleN n strict s = inhale strict s.
Proof. intros strict s. split; [apply read_nov|]. split; [apply readB_nov|apply inhale_stable]. Qed.
Lemma c85_nested_count_refuted : exists q, exhale true [] [(s2b "x", VList [])] = Ok q /\ mapperRead true q = Ok [(s2b "x", VList [])] /\
  q <> s2b "-IAC0J_x-JAy" /\ mapperRead true (s2b "-IAC0J_x-JAy") = Ok [(s2b "x", VList [])].
Proof. eexists. split; [vm_compute; reflexivity|]. split; [vm_compute; reflexivity|]. split; [vm_compute; discriminate|vm_compute; reflexivity]. Qed.

