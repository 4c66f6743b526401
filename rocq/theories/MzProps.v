(** Messages with their attachments, written and read *)
From Verif Require Import Prelude B64Model MatterModel MatterSpec IdxModel SubsModel VerModel CtrModel KelModel PsModel PsSpec PsProofs PsThms MzModel MzSpec MzProofs MzProofs2 MzThms.
Open Scope N_scope.

(** Every message that messagize writes, with any signatures, receipts, bonds and nested messages, framed
    or in groups, with a genus version counter or not, is read back by the parser as exactly that message
    with exactly those attachments.  With a genus version counter the parser may stand at any version; a
    framed message needs a parser of framed streams.
    Missing: CESR native bodies, and the attachments that the refutations are about. *)
Theorem C55_round_trip_partial : forall Ser sload nload kcheck raw sv x a ts bs framed nested gv genusify m v,
  accepting kcheck -> v = V1 \/ v = V2 -> sentAt gv sv (nested || negb (isnil bs)) = v ->
  octets raw -> bodyOf Ser sload v raw x -> auth_ok kcheck v a -> writtens Ser sload kcheck ts bs ->
  messagize raw sv false a bs framed nested gv genusify = Ok m ->
  exists n0 es e, gotTrees Ser ts es /\ got Ser v x a es e /\
   forall n fr v0, (n0 <= n)%nat -> (framed = true -> nested = false -> bs = [] -> fr = true) ->
    v0 = v \/ genusify = true /\ (v0 = V1 \/ v0 = V2) -> delivers Ser sload nload kcheck n fr v0 v m e.
Proof. exact c55_round_trip_partial. Qed.
Print Assumptions C55_round_trip_partial.

(** Any sequence of such messages, sent over a stream that is cut anywhere, arrives as that sequence. *)
Theorem C55_stream_partial : forall Ser sload nload kcheck v ts bs,
  accepting kcheck -> v = V1 \/ v = V2 -> Forall2 (posted Ser sload kcheck v) ts bs ->
  exists n0, forall n, (n0 <= n)%nat -> exists es, Forall2 (gotAt Ser v) ts es /\
   let start := fresh Ser sload nload kcheck n false (mkP v []) in
   forall cs, List.concat cs = List.concat bs ->
    (exists x, session Ser sload nload kcheck n false start cs es x) /\
    (forall es' x, session Ser sload nload kcheck n false start cs es' x -> es' = es).
Proof. exact c55_stream_partial. Qed.
Print Assumptions C55_stream_partial.

Example C55_round_trip_example :
  accepting xCheck /\ posted bytes xLoad xCheck V1 yT1 yMsg1 /\ posted bytes xLoad xCheck V2 yT2 yMsg2.
Proof.
  split; [split; reflexivity|]. split.
  - exists V1, [], false, false, V1. split; [apply octets_dec; vm_compute; reflexivity|]. split; [bo|]. split; [exact yAuth1_ok|]. split; [constructor|]. split; [auto|]. split; vm_compute; reflexivity.
  - exists V2, [yMid; yLeaf], false, false, V2. split; [apply octets_dec; vm_compute; reflexivity|]. split; [bo|]. split; [exact yAuth2_ok|]. split.
    + constructor; [|constructor; [exact yLeaf_ok|constructor]].
      apply (written_node _ _ _ _ V2 _ _ _ [yLeaf] true V2); [apply octets_dec; vm_compute; reflexivity|vm_compute; reflexivity|exact yAuth2_ok|constructor; [exact yLeaf_ok|constructor]|vm_compute; reflexivity|vm_compute; reflexivity].
    + split; [auto|]. split; vm_compute; reflexivity.
Qed.

Example C55_genus_example : exists m, messagize yRaw1 V1 false yAuth1 [] true false V1 true = Ok m.
Proof. eexists. vm_compute. reflexivity. Qed.

Theorem C55_many_signatures_refuted : exists m, messagize yRaw2 V2 false yMany [] false false V2 false = Ok m /\ yLost false V2 m /\
  Forall sig_ok (repeat (ySig 0) 187).
Proof. exact c55_many_signatures_refuted. Qed.
Print Assumptions C55_many_signatures_refuted.

Theorem C55_bonds_refuted : forall c ms, In (c, ms) [(SealLast, [yMat "E" 32]); (SealDigest, [yMat "E" 32]); (SealRoot, [yMat "E" 32]); (SealBack, [yMat "B" 32; yMat "E" 32])] ->
  exists m, messagize yRaw2 V2 false (yBond c ms) [] false false V2 false = Ok m /\ yLost false V2 m.
Proof. exact c55_bonds_refuted. Qed.
Print Assumptions C55_bonds_refuted.

(** In version 1 a SealLast bond passes the test for bonds of version 1 and then fails, as the
    table has no such code. *)
Theorem C55_last_v1_refuted : v1clan SealLast = true /\ exists e, messagize yRaw1 V1 false (yBond SealLast [yMat "E" 32]) [] false false V1 false = Err e.
Proof. exact c55_last_v1_refuted. Qed.
Print Assumptions C55_last_v1_refuted.
