From Verif Require Import Prelude B64Model B64Proofs MatterModel SubsModel VerModel ThModel JsonModel JsonProofs SerModel SerSpec SerProofs SerInv SerThms CpModel CpSpec CpProofs CpRoll CpAgg CpCompact.
Open Scope N_scope.
Ltac Zify.zify_post_hook ::= Z.div_mod_to_equations.

Lemma c67_same_compact_form : forall digest dumpm L dflt, digest_ok digest -> forall n strict m m3 s w y, wfv (VMap m) -> dotless L (VMap m) ->
  compactor digest dumpm n strict [(L, dflt)] m = Some (Ok (m3, s)) -> redactsMap digest dumpm L dflt w m ->
  mapperMake digest dumpm strict [(L, dflt)] w = Ok y -> exists n', compactor digest dumpm n' strict [(L, dflt)] w = Some (Ok (m3, s)).
Proof. intros digest dumpm L dflt Hd. exact (compactor_redacts digest dumpm Hd L dflt). Qed.

Lemma c67_same_compact_form_json : forall digest, digest_ok digest -> forall n m m3 s w, wfv (VMap m) -> dotless (s2b "d") (VMap m) ->
  compactor digest jsonDump n true SaidsD m = Some (Ok (m3, s)) -> redactsMap digest jsonDump (s2b "d") (s2b "E") w m ->
  exists n', compactor digest jsonDump n' true SaidsD w = Some (Ok (m3, s)).
Proof.
  intros digest Hd n m m3 s w W D H R. assert (Y : exists y, mapperMake digest jsonDump true SaidsD w = Ok y).
  { pose proof (redactsMap_get _ _ _ _ _ _ R) as G. destruct (dget m (s2b "d")) as [x|] eqn:Gm.
    - destruct (compactor_said digest jsonDump Hd (s2b "d") (s2b "E") _ _ _ _ _ W D ltac:(congruence) H) as ((y & Y) & _).
      destruct y as [m' s']. destruct (make_inv digest jsonDump Hd (s2b "d") (s2b "E") true m m' s' ltac:(congruence) Y) as (x' & raw & q & E & _ & (I & _) & _). rewrite Gm in E. injection E as <-.
      destruct (make_json digest true (s2b "d") (s2b "E") w x Hd G I) as (q' & Q & _). eauto.
    - eexists. apply make_json_nosaid. exact G. }
  destruct Y as (y & Y). exact (compactor_redacts digest jsonDump Hd (s2b "d") (s2b "E") n true m m3 s w y W D H R Y).
Qed.

Lemma c67_compact_verifies : forall digest dumpm L dflt, digest_ok digest -> forall n strict m m3 s, wfv (VMap m) -> dotless L (VMap m) -> dget m L <> None ->
  compactor digest dumpm n strict [(L, dflt)] m = Some (Ok (m3, s)) -> mapperVerify digest dumpm true [(L, dflt)] m3 = Ok tt.
Proof. intros digest dumpm L dflt Hd. exact (compactor_verifies digest dumpm Hd L dflt). Qed.

Lemma c67_compact_form : forall digest dumpm L dflt, digest_ok digest -> forall n strict m m3 s, wfv (VMap m) -> dotless L (VMap m) -> dget m L <> None ->
  compactor digest dumpm n strict [(L, dflt)] m = Some (Ok (m3, s)) -> rollTop digest dumpm L (topCode L dflt m) (dset m L (VStr [])) = Ok m3.
Proof. intros digest dumpm L dflt Hd n strict m m3 s W D N H. exact (proj1 (proj2 (compactor_said digest dumpm Hd L dflt _ _ _ _ _ W D N H))). Qed.

Lemma c68_ends_partial : forall digest dumpm L dflt, digest_ok digest -> forall n strict m, wfv (VMap m) -> dotless L (VMap m) -> (saidCount L (VMap m) < n)%nat ->
  exists r, compactor digest dumpm n strict [(L, dflt)] m = Some r.
Proof. intros digest dumpm L dflt Hd. exact (compactor_ends digest dumpm Hd L dflt). Qed.

Lemma c68_dotted_label_refuted : forall digest, digest_ok digest -> forall n, compactor digest jsonDump n true SaidsD [(s2b "d", VStr []); (s2b "a.b", VMap [(s2b "d", VStr [])])] = None.
Proof. exact hang. Qed.

Lemma c69_said_binds : forall digest dumpm L dflt, digest_ok digest -> injDump dumpm -> forall n1 n2 st1 st2 a b ma mb sa sb q,
  wfv (VMap a) -> wfv (VMap b) -> dotless L (VMap a) -> dotless L (VMap b) -> dget a L <> None -> dget b L <> None ->
  compactor digest dumpm n1 st1 [(L, dflt)] a = Some (Ok (ma, sa)) -> compactor digest dumpm n2 st2 [(L, dflt)] b = Some (Ok (mb, sb)) ->
  dget ma L = Some (VStr q) -> dget mb L = Some (VStr q) -> (agreeMap digest dumpm L dflt a b /\ ma = mb) \/ collision digest.
Proof. intros digest dumpm L dflt Hd Hi. exact (compactor_binds digest dumpm Hd L dflt Hi). Qed.
Lemma c69_json : injDump jsonDump /\ injDumpl jsonDumpl.
Proof. exact (conj jsonInj jsonInjl). Qed.
Lemma c69_mapper_binds : forall digest dumpm L dflt, digest_ok digest -> injDump dumpm -> forall a b q,
  mapperVerify digest dumpm true [(L, dflt)] a = Ok tt -> mapperVerify digest dumpm true [(L, dflt)] b = Ok tt ->
  dget a L = Some (VStr q) -> dget b L = Some (VStr q) -> a = b \/ collision digest.
Proof. intros digest dumpm L dflt Hd Hi. exact (mapper_inj digest dumpm Hd L dflt Hi). Qed.
Lemma c69_made_verifies : forall digest dumpm L dflt, digest_ok digest -> forall strict m m' s', dget m L <> None ->
  mapperMake digest dumpm strict [(L, dflt)] m = Ok (m', s') -> mapperVerify digest dumpm strict [(L, dflt)] m' = Ok tt.
Proof. intros digest dumpm L dflt Hd strict m m' s' N H. exact (proj1 (make_verify digest dumpm Hd L dflt strict m m' s' N H)). Qed.

(** a map with two levels of nested maps, and the same map with the lower ones as saids *)
Definition cpInner (x : string) : val := VMap [(s2b "d", VStr []); (s2b "x", VStr (s2b x))].
Definition cpFull (x : string) : sad := [(s2b "d", VStr []); (s2b "a", VMap [(s2b "d", VStr []); (s2b "b", cpInner x); (s2b "q.r", VInt 1)]); (s2b "p", VMap [(s2b "c", cpInner "two")])].
Definition cpText (v : val) : val := match roll toyDigest jsonDump (s2b "d") (s2b "E") v with Ok x => x | Err _ => VNull end.
Definition cpPart (x : string) : sad := [(s2b "d", VStr []); (s2b "a", VMap [(s2b "d", VStr []); (s2b "b", cpText (cpInner x)); (s2b "q.r", VInt 1)]); (s2b "p", VMap [(s2b "c", cpInner "two")])].
Definition cpSaid (m : sad) : val := match compactor toyDigest jsonDump 9 true SaidsD m with Some (Ok (m3, _)) => saidOf SaidsD m3 | _ => VNull end.



Lemma c70_disclosure_verifies_partial : forall digest dumpm dumpl L dflt, digest_ok digest -> forall code l l', saidedElems L l -> l <> [] ->
  aggorMake digest dumpm dumpl code [(L, dflt)] l = Ok l' -> forall indices,
  exists d, disclose digest dumpm [(L, dflt)] l' indices = Ok d /\ discloses L l' indices d /\
    ((exists r, dumpl d = Ok r) -> aggorVerify digest dumpm dumpl code [(L, dflt)] d = Ok tt /\ verifyDisclosure digest dumpm dumpl code [(L, dflt)] d = Ok true).
Proof. intros digest dumpm dumpl L dflt Hd. exact (disclosure digest dumpm Hd L dflt dumpl). Qed.

Lemma c70_unsaided_element_refuted : forall digest, digest_ok digest -> exists q, let e := VMap [(s2b "x", VInt 1)] in
  aggorMake digest jsonDump jsonDumpl (s2b "E") SaidsD [VStr []; e] = Ok [VStr q; e] /\
  disclose digest jsonDump SaidsD [VStr q; e] [0%Z] = Ok [VStr q; VNull] /\ verifyDisclosure digest jsonDump jsonDumpl (s2b "E") SaidsD [VStr q; VNull] = Ok false.
Proof. intros digest Hd. destruct (null_elements digest Hd) as (q & _ & H). exists q. destruct (H _ (or_introl eq_refl)) as (A & _ & B & C). exact (conj A (conj B C)). Qed.

Lemma c70_disclose_verified : forall digest dumpm saids l indices d, disclose digest dumpm saids l indices = Ok d ->
  Forall (fun e => match e with VMap m => mapperVerify digest dumpm true saids m = Ok tt | VStr t => exists q, digText t = Ok q | _ => False end) l.
Proof.
  intros digest dumpm saids l indices d H. unfold disclose in H. apply bind_ok in H. destruct H as (a & H & _). revert a H.
  induction l as [|e l IH]; intros a H; [constructor|]. cbn [atoms] in H. apply bind_ok in H. destruct H as (x & H1 & H). apply bind_ok in H. destruct H as (rs & H2 & _).
  constructor; [|exact (IH _ H2)]. destruct e; try discriminate.
  - destruct (digText s) as [q|]; [exists q; reflexivity|discriminate].
  - destruct (mapperVerify digest dumpm true saids m) as [[]|]; [reflexivity|discriminate].
Qed.

Lemma c70_empty_disclosure_refuted : forall digest dumpm code saids, verifyDisclosure digest dumpm jsonDumpl code saids [] = Err IndexError.
Proof. reflexivity. Qed.

Lemma c71_aggregate_binds_partial : forall digest dumpm dumpl L dflt, digest_ok digest -> injDump dumpm -> injDumpl dumpl -> forall code a l1 l2, saidedElems L l1 -> saidedElems L l2 ->
  aggorVerify digest dumpm dumpl code [(L, dflt)] (VStr a :: l1) = Ok tt -> aggorVerify digest dumpm dumpl code [(L, dflt)] (VStr a :: l2) = Ok tt ->
  Forall2 (sameElem L) l1 l2 \/ collision digest.
Proof. intros digest dumpm dumpl L dflt Hd Hi Hl. exact (agg_binding digest dumpm Hd L dflt dumpl Hi Hl). Qed.

Lemma c71_unsaided_element_refuted : forall digest, digest_ok digest -> exists q, let l x := [VStr q; VMap [(s2b "x", VInt x)]] in
  aggorVerify digest jsonDump jsonDumpl (s2b "E") SaidsD (l 1%Z) = Ok tt /\ aggorVerify digest jsonDump jsonDumpl (s2b "E") SaidsD (l 2%Z) = Ok tt.
Proof. intros digest Hd. destruct (null_elements digest Hd) as (q & _ & H). exists q. exact (conj (proj1 (proj2 (H _ (or_introl eq_refl)))) (proj1 (proj2 (H _ (or_intror eq_refl))))). Qed.





