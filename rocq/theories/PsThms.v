(** Messages from a stream. *)
From Verif Require Import Prelude B64Model MatterModel IdxModel VerModel CtrModel KelModel PsModel PsSpec PsProofs PsTerm PsGroup.
Open Scope N_scope.
Ltac Zify.zify_post_hook ::= Z.div_mod_to_equations.

Lemma c38_chunks_partial : forall Ser sload nload kcheck n v cs fs es p,
  let start := fresh Ser sload nload kcheck n false (mkP v []) in
  Forall2 (fun f e => delimited v f /\ alone Ser sload nload kcheck n false v f e) fs es ->
  begun Ser sload nload kcheck n v p -> List.concat cs = List.concat fs ++ p ->
  (exists x, session Ser sload nload kcheck n false start cs es x) /\
  (forall es' x, session Ser sload nload kcheck n false start cs es' x -> es' = es).
Proof. intros Ser sload nload kcheck n v cs fs es p start. exact (chunks Ser sload nload kcheck n v cs fs es p). Qed.

Lemma c38_framed_partial : forall Ser sload nload kcheck n framed v fss es,
  let start := fresh Ser sload nload kcheck n framed (mkP v []) in
  Forall2 (fun f e => delimited v f /\ alone Ser sload nload kcheck n framed v f e) (List.concat fss) es ->
  (exists x, session Ser sload nload kcheck n framed start (map (@List.concat N) fss) es x) /\
  (forall es' x, session Ser sload nload kcheck n framed start (map (@List.concat N) fss) es' x -> es' = es).
Proof. intros Ser sload nload kcheck n framed v fss es start. exact (whole_chunks Ser sload nload kcheck framed n v fss es). Qed.

(** *** Concrete streams: any JSON text with a version string is a message *)
Definition xLoad (sm : smellage) (b : bytes) : res bytes := if len b =? 0 then Err DeserializeError else Ok b.
Definition xNative (f : bool) (c : counter) (b : bytes) : res bytes := Ok b.
Definition xCheck (k : klas) (m : matter) : res unit := Ok tt.
Definition xV : CtrModel.versionage := CtrModel.mkV 1 0.
Definition xBody (s : string) : bytes := s2b "{""v"":""KERI10JSON00002d_"",""t"":""ixn"",""d"":""" ++ s2b s ++ s2b """}".
Definition xSig (c : string) : bytes := s2b c ++ repeat 65 86.
Definition xIdx : indexer := mkIdx (s2b "A") 0 (Some 0) (repeat 0 64).
Definition xMsg (s : string) : bytes := xBody s ++ s2b "-VAX" ++ (s2b "-AAB" ++ xSig "AA").
Definition xGot (s : string) : exts bytes := mkE bytes (xBody s) [(Fsigers, ISig xIdx)] [].
Definition xStart (framed : bool) : gen bytes := fresh bytes xLoad xNative xCheck 5 framed (mkP xV []).
Definition xSession (framed : bool) (cs : list bytes) (es : list (exts bytes)) : Prop :=
  exists x, session bytes xLoad xNative xCheck 5 framed (xStart framed) cs es x.
Ltac xrun := unfold xSession; apply (run_session bytes xLoad xNative xCheck 5 _ 6); vm_compute; reflexivity.





Lemma c38_framed_split_refuted : exists a b e,
  delimited xV (a ++ b) /\ xSession true [a ++ b] [e] /\ xSession true [a; b] [].
Proof.
  exists (ntake 100 (xMsg "one")), (ndrop 100 (xMsg "one")), (xGot "one"). split; [|split; xrun].
  replace (ntake 100 (xMsg "one") ++ ndrop 100 (xMsg "one")) with (xMsg "one") by (vm_compute; reflexivity).
  unfold xMsg. apply (delimited_attached xV _ (s2b "-AAB" ++ xSig "AA")).
  - split; [vm_compute; reflexivity|eexists; split; vm_compute; reflexivity].
  - left. vm_compute. reflexivity.
Qed.

Lemma c38_bare_groups_refuted : exists a b e e',
  xSession false [a ++ b] [e] /\ xSession false [a; b] [e'] /\ listOf bytes Fsigers e = listOf bytes Fsigers e' /\
  listOf bytes Fwigers e <> [] /\ listOf bytes Fwigers e' = [].
Proof.
  exists (xBody "one" ++ s2b "-AAB" ++ xSig "AA"), (s2b "-BAB" ++ xSig "AA").
  eexists. eexists. split; [xrun|]. split; [xrun|]. split; [vm_compute; reflexivity|]. split; [vm_compute; discriminate|vm_compute; reflexivity].
Qed.

Lemma c38_bare_message_refuted : exists b e,
  sizedBody b /\ xSession true [b ++ b] [e] /\ xSession true [b; b] [].
Proof.
  exists (xBody "one"). eexists. split; [split; [vm_compute; reflexivity|eexists; split; vm_compute; reflexivity]|]. split; xrun.
Qed.

(** *** Errors *)
Lemma c57_flush_refuted : exists bad good e,
  xSession true [good] [e] /\ xSession true [bad ++ good] [] /\ xSession true [bad; good] [e].
Proof.
  exists (s2b "{""v"":""KERI10JSON000000_"",""t"":""ixn"",""d"":""bad""}"), (xMsg "one"), (xGot "one"). split; [xrun|]. split; xrun.
Qed.
Lemma c57_enclosed_refuted : exists bad good e, delimited xV bad /\
  xSession true [good] [e] /\ xSession true [bad ++ good] [] /\ xSession true [bad; good] [e].
Proof.
  exists (xBody "bad" ++ s2b "-VAX" ++ (s2b "-AAB" ++ xSig "!A")), (xMsg "one"), (xGot "one"). split.
  - apply (delimited_attached xV _ (s2b "-AAB" ++ xSig "!A")).
    + split; [vm_compute; reflexivity|eexists; split; vm_compute; reflexivity].
    + left. vm_compute. reflexivity.
  - split; [xrun|]. split; xrun.
Qed.

Lemma c57_recovers_partial : forall Ser sload nload kcheck n v b fs es,
  let start := fresh Ser sload nload kcheck n true (mkP v []) in
  (forall sm x, sload sm [] = Ok x -> False) -> (forall sm b, sload sm b = Err TopLevelStreamError -> False) ->
  len b < N.of_nat n ->
  Forall2 (fun f e => delimited v f /\ alone Ser sload nload kcheck n true v f e) fs es ->
  exists es0 s, session Ser sload nload kcheck n true start [b] es0 (fresh Ser sload nload kcheck n true s) /\ len (pb s) <= len b /\
    (s = mkP v [] -> exists x, session Ser sload nload kcheck n true start [b; List.concat fs] (es0 ++ es) x).
Proof.
  intros Ser sload nload kcheck n v b fs es start He Ht Ln F.
  destruct (turn_ok Ser sload nload kcheck He Ht n n (g0 true) (mkP v b)) as (es0 & s & T & L); [reflexivity|unfold weight; cbn; lia|unfold weight; cbn; lia|].
  exists es0, s. cbn [pb] in L.
  assert (S1 : forall bs es' y, session Ser sload nload kcheck n true (fresh Ser sload nload kcheck n true s) bs es' y -> session Ser sload nload kcheck n true start (b :: bs) (es0 ++ es') y).
  { intros bs es' y S'. apply (session_cons Ser sload nload kcheck n true _ _ _ n _ _ (fresh Ser sload nload kcheck n true s)); [exact T|exact S']. }
  split; [|split; [exact L|]].
  - rewrite <- (app_nil_r es0). apply S1. constructor.
  - intros ->. destruct (whole_chunks Ser sload nload kcheck true n v [fs] es) as [[x X] _]; [cbn [List.concat]; rewrite app_nil_r; exact F|].
    exists x. apply S1. exact X.
Qed.


Lemma c57_group_partial : forall Ser sload nload kcheck n v content g,
  (forall sm x, sload sm [] = Ok x -> False) -> (forall sm b, sload sm b = Err TopLevelStreamError -> False) ->
  enclosed v "GenericGroup" content g -> len g < N.of_nat n ->
  exists es0, forall fs es,
    Forall2 (fun f e => delimited v f /\ alone Ser sload nload kcheck n true v f e) fs es -> len (List.concat fs) < N.of_nat n ->
    exists m, parseF Ser sload nload kcheck n true m (mkP v (g ++ List.concat fs)) = Some (es0 ++ es, mkP v []).
Proof. intros Ser sload nload kcheck n v content g He Ht. exact (after_group Ser sload nload kcheck He Ht n v content g). Qed.
Definition xBody4 (s : string) : bytes := s2b "{""v"":""KERI10JSON000030_"",""t"":""ixn"",""d"":""" ++ s2b s ++ s2b """}".
Definition xEnc (name : string) (c : bytes) : bytes := match enclose xV (s2b name) c with Ok g => g | Err _ => [] end.
Definition xMsg4 (s sig : string) : bytes :=
  xEnc "BodyWithAttachmentGroup" (xEnc "NonNativeBodyGroup" (s2b "4BAQ" ++ encodeB64 (xBody4 s)) ++ s2b "-AAB" ++ xSig sig).
Definition xGot4 (s : string) : exts bytes := mkE bytes (xBody4 s) [(Fsigers, ISig xIdx)] [].
Definition xIn : bytes := xMsg4 "inside" "AA" ++ xMsg4 "broken" "!A".
Definition xGroup : bytes := xEnc "GenericGroup" xIn.


Lemma c38_bare_before_group_partial : forall Ser sload nload kcheck n v b x content g,
  (forall sm x, sload sm [] = Ok x -> False) -> (forall sm b, sload sm b = Err TopLevelStreamError -> False) ->
  sizedBody b -> reap Ser sload v b = Ok (x, []) -> enclosed v "GenericGroup" content g -> len b + len g < N.of_nat n ->
  exists es0, forall fs es,
    Forall2 (fun f e => delimited v f /\ alone Ser sload nload kcheck n true v f e) fs es -> len (List.concat fs) < N.of_nat n ->
    exists m, parseF Ser sload nload kcheck n true m (mkP v (b ++ g ++ List.concat fs)) = Some (mkE Ser x [] [] :: es0 ++ es, mkP v []).
Proof. intros Ser sload nload kcheck n v b x content g He Ht. exact (bare_then_group Ser sload nload kcheck He Ht n v b x content g). Qed.


Lemma c38_after_group_refuted : exists c g a b e e',
  enclosed xV "GenericGroup" c g /\ delimited xV (a ++ b) /\
  xSession false [a; b] [e] /\ xSession false [g ++ a ++ b] [e'; e] /\ xSession false [g ++ a; b] [e'].
Proof.
  exists (xMsg4 "inside" "AA"), (xEnc "GenericGroup" (xMsg4 "inside" "AA")), (ntake 100 (xMsg "two")), (ndrop 100 (xMsg "two")), (xGot "two"), (xGot4 "inside").
  split; [left; vm_compute; reflexivity|]. split.
  { replace (ntake 100 (xMsg "two") ++ ndrop 100 (xMsg "two")) with (xMsg "two") by (vm_compute; reflexivity).
    unfold xMsg. apply (delimited_attached xV _ (s2b "-AAB" ++ xSig "AA")).
    - split; [vm_compute; reflexivity|eexists; split; vm_compute; reflexivity].
    - left. vm_compute. reflexivity. }
  split; [xrun|]. split; xrun.
Qed.

(** *** Termination *)
Lemma c56_ends_partial : forall Ser sload nload kcheck n v b,
  (forall sm x, sload sm [] = Ok x -> False) -> (forall sm b, sload sm b = Err TopLevelStreamError -> False) ->
  (List.length b < n)%nat ->
  (exists m es v', parseF Ser sload nload kcheck n true m (mkP v b) = Some (es, mkP v' [])) \/
  (exists s, reaches Ser sload nload kcheck n true (mkP v b) s /\ pb s <> [] /\ brokenCounter (pv s) (pb s)).
Proof.
  intros Ser sload nload kcheck n v b He Ht Ln.
  destruct (parse_ends Ser sload nload kcheck He Ht n n (mkP v b)) as [H|H]; [cbn [pb]; unfold len; lia|cbn [pb]; unfold len; lia| |right; exact H].
  left. cbn [pb] in H. destruct (H (List.length b + 2)%nat (le_n _)) as (es & v' & P). exists (List.length b + 2)%nat, es, v'. exact P.
Qed.

Lemma c56_broken_counter_refuted : forall Ser sload nload kcheck n s s',
  reaches Ser sload nload kcheck n true s s' -> pb s' <> [] -> brokenCounter (pv s') (pb s') ->
  forall m, parseF Ser sload nload kcheck n true m s = None.
Proof.
  intros Ser sload nload kcheck n s s' R Nb B. apply (parse_reaches_none Ser sload nload kcheck n s s' R). apply parse_broken; assumption.
Qed.
Lemma c56_loops_refuted : forall n m, parseF bytes xLoad xNative xCheck n true m (mkP xV (s2b "-A!!")) = None.
Proof.
  intros n. apply (parse_broken bytes xLoad xNative xCheck n); [discriminate|]. exists KeyError. split; [reflexivity|]. left. split; vm_compute; reflexivity.
Qed.

