(** Reply messages and best available data *)
From Verif Require Import Prelude SubsModel JsonModel JsonProofs ThModel RpModel RpSpec RpProofs RpFair RpLive RpThms.
Open Scope N_scope.

(** C52.  Whatever is delivered, with whatever attachments, in whatever order, under whatever key event
    logs and with escrow sweeps anywhere between: every recorded role authorization, location and watched
    identifier is what some delivered reply with a matching said says, and that reply was signed by the
    identifier it speaks for: by a nontransferable identifier on the delivered message, or by signatures
    meeting the threshold of one of the identifier's establishment events. *)
Theorem C52_authentic : forall e l d k, hist e l d -> isKsn k = false ->
  (dget (ans d) k = None /\ dget (vals d) k = None) \/
  exists r aid v, dget (ans d) k = Some (q_said r) /\ dget (vals d) k = Some v /\ says e r aid k v /\ saidOk e r = true /\
    (exists kv cs gs, In (Msg kv r cs gs) l) /\
    ((exists kv cs gs, In (Msg kv r cs gs) l /\ signedSingle e r aid cs) \/
     (exists a sn dig, In a l /\ signedState e (viewOf a) r aid sn dig)).
Proof. exact c52_authentic. Qed.
Print Assumptions C52_authentic.

(** C52.  A sweep of the escrow is a sequence of rounds, so the theorems on histories cover sweeps. *)
Theorem C52_sweep : forall e kv now l d, hist e l d ->
  exists l', hist e (l' ++ l) (processEscrowReply e kv now d) /\ Forall (fun a => exists route said, a = Item kv now route said) l'.
Proof. exact c52_sweep. Qed.
Print Assumptions C52_sweep.

(** C52.  One delivery changes a record only if it returns normally, the reply says exactly the new
    value for that record, and a signature by the identifier is on it that is newer than what is stored
    of the recorded reply. *)
Theorem C52_one_delivery : forall e kv r cs gs d d' x k, processReply e kv r cs gs d = (d', x) -> isKsn k = false ->
  dget (ans d') k <> dget (ans d) k \/ dget (vals d') k <> dget (vals d) k ->
  x = Ok tt /\ saidOk e r = true /\ exists aid v, says e r aid k v /\ dget (ans d') k = Some (q_said r) /\ dget (vals d') k = Some v /\
    ((signedSingle e r aid cs /\
      forall s y, dget (ans d) k = Some s -> s <> q_said r -> dget (sdts d) s = Some y -> y < q_dt r) \/
     (exists g, In g gs /\ g_pre g = aid /\ signedState e kv r aid (g_sn g) (g_dig g) /\
      forall s t0 ts, dget (ans d) k = Some s -> s <> q_said r -> fetchTsgs (tsgs d) s None = t0 :: ts ->
        t_sn t0 < g_sn g \/ (t_sn t0 = g_sn g /\ forall y, dget (sdts d) s = Some y -> y < q_dt r))).
Proof. exact c52_one_delivery. Qed.
Print Assumptions C52_one_delivery.

(** C52.  A reply by a nontransferable identifier, signed by it and dated after the recorded one, is
    recorded. *)
Theorem C52_newer_single_recorded : forall e kv r aid k v cs d, says e r aid k v -> saidOk e r = true -> signedSingle e r aid cs ->
  (memB aid (owns e) = true -> lax e = true \/ local e = true) ->
  (forall s x, dget (ans d) k = Some s -> dget (sdts d) s = Some x -> x < q_dt r) ->
  exists d', processReply e kv r cs [] d = (d', Ok tt) /\ dget (ans d') k = Some (q_said r) /\ dget (vals d') k = Some v.
Proof. exact c52_newer_single_recorded. Qed.
Print Assumptions C52_newer_single_recorded.

(** C52.  A reply whose attached signatures all verify under the event of the identifier at the group's
    sequence number and meet its threshold is recorded, when it is new to the receiver and that event is
    later than the one that signed the recorded reply, or the same with a later date. *)
Theorem C52_newer_state_recorded : forall e kv r aid k v g ev d, says e r aid k v -> saidOk e r = true ->
  (memB aid (owns e) = true -> lax e = true \/ local e = true) ->
  g_pre g = aid -> at_sn kv aid (g_sn g) = Some ev -> e_said ev = g_dig g ->
  g_sigs g <> [] -> NoDup (map sg_qb64 (g_sigs g)) -> thsize (e_th ev) <= len (e_keys ev) -> satisfy (e_th ev) (map sg_index (g_sigs g)) = true ->
  (forall s, In s (g_sigs g) -> exists k, nth_error (e_keys ev) (N.to_nat (sg_index s)) = Some k /\ vrfy e k (sg_raw s) (q_raw r) = true) ->
  fetchTsgs (tsgs d) (q_said r) None = [] ->
  (forall s t0 ts, dget (ans d) k = Some s -> fetchTsgs (tsgs d) s None = t0 :: ts ->
     t_sn t0 < g_sn g \/ (t_sn t0 = g_sn g /\ forall x, dget (sdts d) s = Some x -> x < q_dt r)) ->
  exists d', processReply e kv r [] [g] d = (d', Ok tt) /\ dget (ans d') k = Some (q_said r) /\ dget (vals d') k = Some v.
Proof. exact c52_newer_state_recorded. Qed.
Print Assumptions C52_newer_state_recorded.

(** C34.  No rollback, in histories where each reply is signed under one key state of a transferable
    signer, saids identify replies, and no sweep drops a recorded reply: once a record is set by a reply,
    it is only ever replaced by a reply later in the order of best available data (later key state, or the
    same key state and a later date).
    Missing: arbitrary histories; there the code can be rolled back, see the refutations below. *)
Theorem C34_no_rollback_partial : forall e w, unique w -> forall d1 d2 k s1, fair e w rdb0 d1 -> fair e w d1 d2 ->
  isKsn k = false -> dget (ans d1) k = Some s1 ->
  exists s2, dget (ans d2) k = Some s2 /\
    (s2 = s1 \/ exists r1 r2 aid v1 v2, msgs w r1 /\ msgs w r2 /\ q_said r1 = s1 /\ q_said r2 = s2 /\
       says e r1 aid k v1 /\ says e r2 aid k v2 /\ later (rank e w aid r1) (rank e w aid r2)).
Proof. exact c34_no_rollback_partial. Qed.
Print Assumptions C34_no_rollback_partial.

(** C52.  A key state notice is recorded only if signed by the identifier of its route, which is the
    controller, one of its witnesses in the notice, or a configured watcher (or the receiver is lax), if
    it is not below the receiver's key state and does not contradict the receiver's copy of the event. *)
Theorem C52_key_state_notice : forall e kv r cs gs d d' x k, processReply e kv r cs gs d = (d', x) -> isKsn k = true ->
  dget (ans d') k <> dget (ans d) k \/ dget (vals d') k <> dget (vals d) k ->
  x = Ok tt /\ exists aid q, saidOk e r = true /\ findRoute (q_route r) = Some (HKsn aid) /\ q_ksr r = Some q /\
    (k = key tagKsn [ks_i q; aid] /\ dget (ans d') k = Some (ks_d q) \/ k = key tagKsn [ks_d q] /\ dget (vals d') k = Some (ks_rec q)) /\
    (signedSingle e r aid cs \/ exists sn dig, signedState e kv r aid sn dig) /\
    (forall ev, at_sn kv (ks_i q) (ks_s q) = Some ev -> e_said ev = ks_d q) /\
    (forall n, cur_sn kv (ks_i q) = Some n -> n <= ks_s q) /\
    (lax e = true \/ aid = ks_i q \/ In aid (ks_b q) \/ In aid (wats e)).
Proof. exact c52_key_state_notice. Qed.
Print Assumptions C52_key_state_notice.

Example C52_example : let a := role "T" "r1" 10 true in let b := role "T" "r2" 20 false in
  let d := runs xenv [Msg xkv a [] [by0 a]; Msg xkv b [] [by0 b]; Msg xkv a [] [by0 a]] in
  dget (ans d) (kRole "T") = Some (s2b "r2") /\ dget (vals d) (kRole "T") = Some (flag false)
  /\ snd (processReply xenv xkv a [] [by0 a] d) = Err UnverifiedReplyError.
Proof. cbv zeta. split; [vm_compute; reflexivity|]. split; vm_compute; reflexivity. Qed.

Example C34_no_rollback_example : unique xw /\
  exists d, fair xenv xw rdb0 d /\ dget (ans d) (kRole "T") = Some (s2b "r2") /\ dget (sdts d) (s2b "r2") = Some 20.
Proof.
  assert (FM : forall r, msgs xw r -> fairMsg xenv xw r [] [by0 r]).
  { intros r M. split; [exact M|]. split; [intros cg []|]. intros g [<-|[]]. split; [cbn; intros [X|[]]; discriminate|]. split.
    - intros s I. destruct M as [-> | ->]; cbn [by0 g_sigs] in I; destruct I as [<-|[<-|[]]]; vm_compute; reflexivity.
    - intros _. split; reflexivity. }
  split.
  - split.
    + intros a b [-> | ->] [-> | ->] E; try reflexivity; discriminate.
    + intros a b k _ [-> | ->] E; discriminate.
  - eexists. split; [|split].
    + apply f_msg with (kv := xkv); [|apply FM; left; reflexivity].
      apply f_msg with (kv := xkv); [|apply FM; right; reflexivity].
      apply f_msg with (kv := xkv); [|apply FM; left; reflexivity]. apply f_refl.
    + vm_compute. reflexivity.
    + vm_compute. reflexivity.
Qed.

(** C34 refuted.  A location reply first received with too few signatures and completed by a second
    delivery stays in the escrow; sweeps find it stale against itself, and an hour after its date a sweep
    drops it, although it is the recorded one.  Replaying the older reply then rolls the record back.  All
    signatures are genuine and under one key state. *)
Theorem C34_rollback_after_timeout_refuted : exists r1 r2,
  rolledBack xenv [Msg xkv r2 [] [by0 r2]; Msg xkv r2 [] [half0 r2]; Msg xkv r1 [] [by0 r1]]
    [Msg xkv r1 [] [by0 r1]; Item xkv (20 + timeoutRPE + 1) (s2b "/loc/scheme") (q_said r2); Item xkv 30 (s2b "/loc/scheme") (q_said r2)]
    (kLoc "T") r1 r2.
Proof. exact c34_rollback_after_timeout_refuted. Qed.
Print Assumptions C34_rollback_after_timeout_refuted.

(** C34 refuted.  Anyone can put a recorded reply into the escrow, by sending it with a group that names an
    unknown sequence number; the sweep an hour later drops it. *)
Theorem C34_rollback_by_stranger_refuted : exists r1 r2,
  let junk := mkG (s2b "T") 7 (s2b "E7") [mkSiger (s2b "x") 0 (s2b "x")] in
  rolledBack xenv [Msg xkv r2 [] [by0 r2]; Msg xkv r1 [] [by0 r1]]
    [Msg xkv r1 [] [by0 r1]; Item xkv (20 + timeoutRPE + 1) (s2b "/end/role") (q_said r2); Msg xkv r2 [] [junk]]
    (kRole "T") r1 r2.
Proof. exact c34_rollback_by_stranger_refuted. Qed.
Print Assumptions C34_rollback_by_stranger_refuted.

(** C34 refuted.  The old reply of a nontransferable identifier, presented with its signature as an indexed
    signature of the inception event, is not compared with the recorded one. *)
Theorem C34_rollback_single_as_group_refuted : exists r1 r2,
  rolledBack xenv [Msg xkv r2 [mkCig (s2b "b") (s2b "b" ++ q_raw r2)] []; Msg xkv r1 [mkCig (s2b "b") (s2b "b" ++ q_raw r1)] []]
    [Msg xkv r1 [] [mkG (s2b "b") 0 (s2b "Eb") [mkSiger (s2b "x") 0 (s2b "b" ++ q_raw r1)]]]
    (kRole "b") r1 r2.
Proof. exact c34_rollback_single_as_group_refuted. Qed.
Print Assumptions C34_rollback_single_as_group_refuted.

(** C34 refuted.  A new reply with one good and one bad group is refused after what is stored of the
    recorded reply was deleted. *)
Theorem C34_rollback_bad_group_refuted : exists r1 r2 r3,
  rolledBack xenv [Msg xkv r2 [] [by0 r2]; Msg xkv r1 [] [by0 r1]]
    [Msg xkv r1 [] [by0 r1]; Msg xkv r3 [] [by0 r3; mkG (s2b "T") 1 (s2b "junk") []]]
    (kRole "T") r1 r2.
Proof. exact c34_rollback_bad_group_refuted. Qed.
Print Assumptions C34_rollback_bad_group_refuted.

(** C34 refuted.  The same happens without any bad group, when the new reply was escrowed with signatures of
    the old keys and is then signed with the new ones: the deletion of the old signatures fails
    (ValueError) after what is stored of the recorded reply was deleted. *)
Theorem C34_rollback_trim_refuted : exists r1 r2 r3,
  rolledBack xenv [Msg xkv r2 [] [by0 r2]; Msg xkv r1 [] [by0 r1]]
    [Msg xkv r1 [] [by0 r1]; Msg xkv r3 [] [by1 r3]; Msg xkv r3 [] [half0 r3]]
    (kRole "T") r1 r2
  /\ snd (processReply xenv xkv r3 [] [by1 r3] (runs xenv [Msg xkv r3 [] [half0 r3]; Msg xkv r2 [] [by0 r2]])) = Err ValueError.
Proof. exact c34_rollback_trim_refuted. Qed.
Print Assumptions C34_rollback_trim_refuted.

(** C34 refuted.  A location reply signed again by newer keys removes its own stored signatures. *)
Theorem C34_rollback_resigned_refuted : exists r1 r2,
  rolledBack xenv [Msg xkv r2 [] [by0 r2]; Msg xkv r1 [] [by0 r1]]
    [Msg xkv r1 [] [by0 r1]; Msg xkv r2 [] [by1 r2]]
    (kLoc "T") r1 r2.
Proof. exact c34_rollback_resigned_refuted. Qed.
Print Assumptions C34_rollback_resigned_refuted.

(** C34 refuted.  A reply recorded under the current keys, sent again signed by superseded keys, opens its
    record to later dated replies of the superseded keys, which are refused before that. *)
Theorem C34_superseded_keys_refuted : exists r2 r3,
  let d1 := runs xenv [Msg xkv r2 [] [by1 r2]] in
  let d2 := runs xenv [Msg xkv r3 [] [by0 r3]; Msg xkv r2 [] [by0 r2]; Msg xkv r2 [] [by1 r2]] in
  dget (ans d1) (kRole "T") = Some (q_said r2) /\ snd (processReply xenv xkv r3 [] [by0 r3] d1) = Err UnverifiedReplyError /\
  dget (ans d2) (kRole "T") = Some (q_said r3).
Proof. exact c34_superseded_keys_refuted. Qed.
Print Assumptions C34_superseded_keys_refuted.

Theorem C34_key_state_rollback_refuted : exists n1 n2 k1 k2, q_dt n1 < q_dt n2 /\ q_ksr n1 = Some k1 /\ q_ksr n2 = Some k2 /\
  ks_i k1 = ks_i k2 /\ ks_s k1 < ks_s k2 /\
  let cg r := mkCig (s2b "b") (s2b "b" ++ q_raw r) in let at_ := key tagKsn [ks_i k1; s2b "b"] in
  dget (ans (runs xenv [Msg xkv n2 [cg n2] []; Msg xkv n1 [cg n1] []])) at_ = Some (ks_d k2) /\
  dget (ans (runs xenv [Msg xkv n1 [cg n1] []; Msg xkv n2 [cg n2] []; Msg xkv n1 [cg n1] []])) at_ = Some (ks_d k1).
Proof. exact c34_key_state_rollback_refuted. Qed.
Print Assumptions C34_key_state_rollback_refuted.
