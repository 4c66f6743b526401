(** Messages from a stream. *)
From Verif Require Import Prelude B64Model MatterModel IdxModel VerModel CtrModel KelModel PsModel PsSpec PsProofs PsTerm PsGroup PsThms.
Open Scope N_scope.

(** Messages that announce where they end (a sized body with an attachment group, or body and
    attachments in one group, in text or binary) come out of an unframed stream whole, once each and
    in order, however the stream is cut into chunks; the beginning of a further message that has
    already arrived neither disturbs them nor comes out early.
    The full property is for every message and for framed streams too; see the refutations. *)
Theorem C38_chunks_partial : forall Ser sload nload kcheck n v cs fs es p,
  let start := fresh Ser sload nload kcheck n false (mkP v []) in
  Forall2 (fun f e => delimited v f /\ alone Ser sload nload kcheck n false v f e) fs es ->
  begun Ser sload nload kcheck n v p -> List.concat cs = List.concat fs ++ p ->
  (exists x, session Ser sload nload kcheck n false start cs es x) /\
  (forall es' x, session Ser sload nload kcheck n false start cs es' x -> es' = es).
Proof. exact c38_chunks_partial. Qed.
Print Assumptions C38_chunks_partial.

(** A parser of framed streams, the default, does so when no message is cut: every chunk consists of
    whole messages. *)
Theorem C38_framed_partial : forall Ser sload nload kcheck n framed v fss es,
  let start := fresh Ser sload nload kcheck n framed (mkP v []) in
  Forall2 (fun f e => delimited v f /\ alone Ser sload nload kcheck n framed v f e) (List.concat fss) es ->
  (exists x, session Ser sload nload kcheck n framed start (map (@List.concat N) fss) es x) /\
  (forall es' x, session Ser sload nload kcheck n framed start (map (@List.concat N) fss) es' x -> es' = es).
Proof. exact c38_framed_partial. Qed.
Print Assumptions C38_framed_partial.

Example C38_chunks_example :
  Forall2 (fun f e => delimited xV f /\ alone bytes xLoad xNative xCheck 5 false xV f e) [xMsg "one"; xMsg "two"] [xGot "one"; xGot "two"]
  /\ begun bytes xLoad xNative xCheck 5 xV (ntake 60 (xMsg "six"))
  /\ xSession false [ntake 7 (xMsg "one"); ndrop 7 (xMsg "one") ++ ntake 47 (xMsg "two"); []; ndrop 47 (xMsg "two") ++ ntake 60 (xMsg "six")] [xGot "one"; xGot "two"].
Proof.
  assert (D : forall s, In s ["one"; "two"; "six"]%string -> delimited xV (xMsg s) /\ alone bytes xLoad xNative xCheck 5 false xV (xMsg s) (xGot s)).
  { intros s J. split.
    - unfold xMsg. apply (delimited_attached xV _ (s2b "-AAB" ++ xSig "AA")).
      + cbn [In] in J. destruct J as [<-|[<-|[<-|[]]]]; (split; [vm_compute; reflexivity|eexists; split; vm_compute; reflexivity]).
      + left. vm_compute. reflexivity.
    - apply alone_intro. cbn [In] in J. destruct J as [<-|[<-|[<-|[]]]]; vm_compute; reflexivity. }
  split; [constructor; [apply D; cbn; auto|constructor; [apply D; cbn; auto|constructor]]|]. split.
  - right. exists (xMsg "six"), (xGot "six"), (ndrop 60 (xMsg "six")). destruct (D "six"%string) as [D1 D2]; [cbn; auto|].
    split; [exact D1|]. split; [exact D2|]. split; [vm_compute; reflexivity|vm_compute; discriminate].
  - xrun.
Qed.

Example C38_framed_example :
  Forall2 (fun f e => delimited xV f /\ alone bytes xLoad xNative xCheck 5 true xV f e) (List.concat [[xMsg "one"]; [xMsg "two"; xMsg "six"]]) [xGot "one"; xGot "two"; xGot "six"]
  /\ xSession true [xMsg "one"; xMsg "two" ++ xMsg "six"] [xGot "one"; xGot "two"; xGot "six"].
Proof.
  assert (D : forall s, In s ["one"; "two"; "six"]%string -> delimited xV (xMsg s) /\ alone bytes xLoad xNative xCheck 5 true xV (xMsg s) (xGot s)).
  { intros s J. split.
    - unfold xMsg. apply (delimited_attached xV _ (s2b "-AAB" ++ xSig "AA")).
      + cbn [In] in J. destruct J as [<-|[<-|[<-|[]]]]; (split; [vm_compute; reflexivity|eexists; split; vm_compute; reflexivity]).
      + left. vm_compute. reflexivity.
    - apply alone_intro. cbn [In] in J. destruct J as [<-|[<-|[<-|[]]]]; vm_compute; reflexivity. }
  split; [|xrun]. cbn [List.concat app]. constructor; [apply D; cbn; auto|constructor; [apply D; cbn; auto|constructor; [apply D; cbn; auto|constructor]]].
Qed.

(** The default parser, which the TCP servers and clients use, loses a message that arrives in two
    pieces. *)
Theorem C38_framed_split_refuted : exists a b e,
  delimited xV (a ++ b) /\ xSession true [a ++ b] [e] /\ xSession true [a; b] [].
Proof. exact c38_framed_split_refuted. Qed.
Print Assumptions C38_framed_split_refuted.

(** An unframed stream cut between two attachment groups that no outer group encloses gives the
    message without the second. *)
Theorem C38_bare_groups_refuted : exists a b e e',
  xSession false [a ++ b] [e] /\ xSession false [a; b] [e'] /\ listOf bytes Fsigers e = listOf bytes Fsigers e' /\
  listOf bytes Fwigers e <> [] /\ listOf bytes Fwigers e' = [].
Proof. exact c38_bare_groups_refuted. Qed.
Print Assumptions C38_bare_groups_refuted.

(** A message without attachments at the end of a framed stream is dropped, although it is complete. *)
Theorem C38_bare_message_refuted : exists b e,
  sizedBody b /\ xSession true [b ++ b] [e] /\ xSession true [b; b] [].
Proof. exact c38_bare_message_refuted. Qed.
Print Assumptions C38_bare_message_refuted.

(** A message whose body cannot be read takes the good messages after it in the same chunk with it. *)
Theorem C57_flush_refuted : exists bad good e,
  xSession true [good] [e] /\ xSession true [bad ++ good] [] /\ xSession true [bad; good] [e].
Proof. exact c57_flush_refuted. Qed.
Print Assumptions C57_flush_refuted.

(** So does a message with an unreadable signature inside an attachment group, although the group
    says where the message ends. *)
Theorem C57_enclosed_refuted : exists bad good e, delimited xV bad /\
  xSession true [good] [e] /\ xSession true [bad ++ good] [] /\ xSession true [bad; good] [e].
Proof. exact c57_enclosed_refuted. Qed.
Print Assumptions C57_enclosed_refuted.

(** Whatever arrives in one chunk at a parser of framed streams, the parser works its way through it
    and then waits between two messages; whole messages that arrive next come out, if nothing is left
    over and the version has not been changed.  The full property also asks that nothing is lost
    within the chunk, and that nothing can be left over. *)
Theorem C57_recovers_partial : forall Ser sload nload kcheck n v b fs es,
  let start := fresh Ser sload nload kcheck n true (mkP v []) in
  (forall sm x, sload sm [] = Ok x -> False) -> (forall sm b, sload sm b = Err TopLevelStreamError -> False) ->
  len b < N.of_nat n ->
  Forall2 (fun f e => delimited v f /\ alone Ser sload nload kcheck n true v f e) fs es ->
  exists es0 s, session Ser sload nload kcheck n true start [b] es0 (fresh Ser sload nload kcheck n true s) /\ len (pb s) <= len b /\
    (s = mkP v [] -> exists x, session Ser sload nload kcheck n true start [b; List.concat fs] (es0 ++ es) x).
Proof. exact c57_recovers_partial. Qed.
Print Assumptions C57_recovers_partial.

Example C57_recovers_example :
  (forall sm x, xLoad sm [] = Ok x -> False) /\ (forall sm b, xLoad sm b = Err TopLevelStreamError -> False) /\
  xSession true [s2b "{""v"":""KERI10JSON000000_"",""t"":""ixn"",""d"":""bad""}"; xMsg "one" ++ xMsg "two"] [xGot "one"; xGot "two"].
Proof.
  split; [discriminate|]. split; [intros sm b; unfold xLoad; destruct (len b =? 0); discriminate|]. xrun.
Qed.

(** An error inside a group of messages costs at most the rest of that group.  Whatever a group says it
    contains, the messages that come out of it do not depend on what follows it, and the whole
    messages that follow it in the same buffer all come out, at the version the parser had before.
    The full property also asks this for messages that are not in a group; see the refutations. *)
Theorem C57_group_partial : forall Ser sload nload kcheck n v content g,
  (forall sm x, sload sm [] = Ok x -> False) -> (forall sm b, sload sm b = Err TopLevelStreamError -> False) ->
  enclosed v "GenericGroup" content g -> len g < N.of_nat n ->
  exists es0, forall fs es,
    Forall2 (fun f e => delimited v f /\ alone Ser sload nload kcheck n true v f e) fs es -> len (List.concat fs) < N.of_nat n ->
    exists m, parseF Ser sload nload kcheck n true m (mkP v (g ++ List.concat fs)) = Some (es0 ++ es, mkP v []).
Proof. exact c57_group_partial. Qed.
Print Assumptions C57_group_partial.

Example C57_group_example :
  enclosed xV "GenericGroup" xIn xGroup /\
  option_map fst (parseF bytes xLoad xNative xCheck 900 true 9 (mkP xV (xGroup ++ xMsg "two"))) = Some [xGot4 "inside"; xGot "two"].
Proof. split; [left; vm_compute; reflexivity|vm_compute; reflexivity]. Qed.

(** A message without attachments is complete when a group follows it, and both come out. *)
Theorem C38_bare_before_group_partial : forall Ser sload nload kcheck n v b x content g,
  (forall sm x, sload sm [] = Ok x -> False) -> (forall sm b, sload sm b = Err TopLevelStreamError -> False) ->
  sizedBody b -> reap Ser sload v b = Ok (x, []) -> enclosed v "GenericGroup" content g -> len b + len g < N.of_nat n ->
  exists es0, forall fs es,
    Forall2 (fun f e => delimited v f /\ alone Ser sload nload kcheck n true v f e) fs es -> len (List.concat fs) < N.of_nat n ->
    exists m, parseF Ser sload nload kcheck n true m (mkP v (b ++ g ++ List.concat fs)) = Some (mkE Ser x [] [] :: es0 ++ es, mkP v []).
Proof. exact c38_bare_before_group_partial. Qed.
Print Assumptions C38_bare_before_group_partial.

Example C38_bare_before_group_example : sizedBody (xBody "six") /\ reap bytes xLoad xV (xBody "six") = Ok (xBody "six", []) /\
  option_map fst (parseF bytes xLoad xNative xCheck 900 true 9 (mkP xV (xBody "six" ++ xGroup ++ xMsg "two"))) = Some [mkE bytes (xBody "six") [] []; xGot4 "inside"; xGot "two"].
Proof. split; [split; [vm_compute; reflexivity|eexists; split; vm_compute; reflexivity]|]. split; vm_compute; reflexivity. Qed.

(** After a group of messages an unframed stream is read as if it were framed: a message cut in two is lost. *)
Theorem C38_after_group_refuted : exists c g a b e e',
  enclosed xV "GenericGroup" c g /\ delimited xV (a ++ b) /\
  xSession false [a; b] [e] /\ xSession false [g ++ a ++ b] [e'; e] /\ xSession false [g ++ a; b] [e'].
Proof. exact c38_after_group_refuted. Qed.
Print Assumptions C38_after_group_refuted.

(** On every buffer parse comes to an end and leaves the buffer empty, unless it comes to a place
    where reading a counter fails with an exception that is no ExtractionError.  (The fuel [n] bounds
    nesting; one more than the number of bytes is enough.)  The full property is for every buffer. *)
Theorem C56_ends_partial : forall Ser sload nload kcheck n v b,
  (forall sm x, sload sm [] = Ok x -> False) -> (forall sm b, sload sm b = Err TopLevelStreamError -> False) ->
  (List.length b < n)%nat ->
  (exists m es v', parseF Ser sload nload kcheck n true m (mkP v b) = Some (es, mkP v' [])) \/
  (exists s, reaches Ser sload nload kcheck n true (mkP v b) s /\ pb s <> [] /\ brokenCounter (pv s) (pb s)).
Proof. exact c56_ends_partial. Qed.
Print Assumptions C56_ends_partial.

Example C56_ends_example : exists v', parseF bytes xLoad xNative xCheck 400 true 20 (mkP xV (xMsg "one" ++ xMsg "two" ++ s2b "{garbage")) = Some ([xGot "one"; xGot "two"], mkP v' []).
Proof. eexists. vm_compute. reflexivity. Qed.

(** From such a place it never gets away. *)
Theorem C56_broken_counter_refuted : forall Ser sload nload kcheck n s s',
  reaches Ser sload nload kcheck n true s s' -> pb s' <> [] -> brokenCounter (pv s') (pb s') ->
  forall m, parseF Ser sload nload kcheck n true m s = None.
Proof. exact c56_broken_counter_refuted. Qed.
Print Assumptions C56_broken_counter_refuted.

(** Such a place is an attachment counter with a character outside the Base64 alphabet. *)
Theorem C56_loops_refuted : forall n m, parseF bytes xLoad xNative xCheck n true m (mkP xV (s2b "-A!!")) = None.
Proof. exact c56_loops_refuted. Qed.
Print Assumptions C56_loops_refuted.

Example C56_broken_counter_example : exists s, reaches bytes xLoad xNative xCheck 5 true (mkP xV (xMsg "one" ++ s2b "-A!!")) s /\ pb s = s2b "-A!!" /\ brokenCounter (pv s) (pb s).
Proof.
  exists (mkP xV (s2b "-A!!")). split; [|split; [reflexivity|exists KeyError; split; [reflexivity|left; split; vm_compute; reflexivity]]].
  assert (R1 : resume (groupStep bytes xLoad xNative xCheck 5 (g0 true)) (mkP xV (xMsg "one" ++ s2b "-A!!")) = Done (Ok (GNext bytes (g0 true) (Some (xGot "one")))) (mkP xV (s2b "-A!!"))) by (vm_compute; reflexivity).
  assert (R2 : resume (groupStep bytes xLoad xNative xCheck 5 (g0 true)) (mkP xV (s2b "-A!!")) = Done (Err KeyError) (mkP xV (s2b "-A!!"))) by (vm_compute; reflexivity).
  apply (reaches_turn bytes xLoad xNative xCheck 5 true _ 2 [xGot "one"] (mkP xV (s2b "-A!!"))); [vm_compute; discriminate| |apply reaches_here].
  unfold fresh. cbn [turn fst snd]. rewrite R1. cbn [turn fst snd]. rewrite R2. reflexivity.
Qed.
