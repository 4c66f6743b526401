(** Properties of the completion of group and delegated events. *)
From Verif Require Import Prelude CoModel CoSpec CoProofs CoProofs2 CoProofs3 CoProofs4 CoProofs5 CoThms.
From Coq Require Import Lia.
Open Scope N_scope.

(** After any history: if the Counselor calls an event with a digest complete, then it was started for that
    digest, some event with that number was accepted, and in an earlier pass either the event of the digest
    had as many receipts of different witnesses as the key state of the group had witnesses, or the local
    member had the first key and the delegator had sealed the last event of the group. *)
Theorem C108_complete_partial : forall proxy ops pre sn dig, complete (run proxy ops) pre sn (Some dig) = Ok true ->
  In (Start pre sn dig) ops /\ (exists said, accepted ops pre sn said) /\ exists a b, ops = a ++ Process :: b /\ finished a pre sn dig.
Proof. exact c108_complete_partial. Qed.
Print Assumptions C108_complete_partial.

(** An event once called complete stays so, whatever happens. *)
Theorem C108_stays : forall proxy ops more pre sn dig, complete (run proxy ops) pre sn (Some dig) = Ok true -> complete (run proxy (ops ++ more)) pre sn (Some dig) = Ok true.
Proof. exact c108_stays. Qed.
Print Assumptions C108_stays.

(** The digest need not be the one of an event of the group: with no witnesses, a start for a digest is called
    complete as soon as another event with that number is accepted. *)
Theorem C108_superseded_refuted : ~ (forall proxy ops pre sn dig, complete (run proxy ops) pre sn (Some dig) = Ok true -> accepted ops pre sn dig).
Proof. exact c108_superseded_refuted. Qed.
Print Assumptions C108_superseded_refuted.

(** Nor need it have the receipts of its own witnesses: if a later event drops them, the count is that of the
    later key state. *)
Theorem C108_witnesses_refuted : ~ (forall proxy ops pre sn dig k, complete (run proxy ops) pre sn (Some dig) = Ok true -> In (Accept pre k) ops -> k_sn k = sn -> k_said k = dig -> k_wits k <> [] ->
  exists i, In (Wig pre dig i) ops).
Proof. exact c108_witnesses_refuted. Qed.
Print Assumptions C108_witnesses_refuted.

(** After any history: if the Anchorer calls an event complete, then this event was accepted, its delegator
    has sealed exactly this event, and in an earlier pass it had as many receipts of different witnesses as
    the key state had witnesses. *)
Theorem C109_anchored : forall proxy ops pre sn said, sComplete (run proxy ops) pre sn (Some said) = Ok true ->
  accepted ops pre sn said /\
  (exists k del, In (Accept pre k) ops /\ k_del k = Some del /\ sealed ops del pre (sn, said)) /\
  exists a b k, ops = a ++ SProcess :: b /\ current a pre k /\ receipted a pre said k.
Proof. exact c109_anchored. Qed.
Print Assumptions C109_anchored.

(** A member who has started an event of a group, of which the own signature and all receipts are there:
    after a pass, as many answers of the witnesses as there are messages for them, and one more pass, the event
    is complete; whatever happened before, and whatever else is in the escrows, if no pass raises. *)
Theorem C110_group_partial : forall proxy ops pre sn dig key keys wits k n, alone ops pre sn dig key keys wits -> In (Start pre sn dig) ops -> accepted ops pre sn dig ->
  current ops pre k -> receipted ops pre dig k ->
  (List.length (msgs (me (run proxy (ops ++ [Process])))) <= n)%nat -> calm proxy (ops ++ Process :: repeat Serve n ++ [Process]) ->
  complete (run proxy (ops ++ Process :: repeat Serve n ++ [Process])) pre sn (Some dig) = Ok true.
Proof. exact c110_group_partial. Qed.
Print Assumptions C110_group_partial.

(** Of the members who start an event, the one with the least index sends it to the witnesses: if every
    signature that a member has is of some member that has started it too, then in the first pass after
    acceptance some member queues the event for the witnesses. *)
Theorem C110_elected_partial : forall proxy pre sn dig keys wits (ms : list (N * bytes * list op)), ms <> [] ->
  (forall i key ops, In (i, key, ops) ms ->
     alone ops pre sn dig key keys wits /\ calm proxy (ops ++ [Process]) /\ (forall a b, ops = a ++ Process :: b -> ~ accepted a pre sn dig) /\
     In (Start pre sn dig) ops /\ accepted ops pre sn dig /\ nth_error keys (N.to_nat i) = Some key /\ In (Sig pre dig i) ops /\
     forall j, In (Sig pre dig j) ops -> exists key' ops', In (j, key', ops') ms) ->
  exists i key ops, In (i, key, ops) ms /\ In (pre, sn) (msgs (me (run proxy (ops ++ [Process])))).
Proof. exact c110_elected_partial. Qed.
Print Assumptions C110_elected_partial.

(** It need not be one only: members that have seen different signatures may both be elected. *)
Theorem C110_twice_refuted : ~ (forall proxy pre sn dig k opsA opsB keyA keyB, keyA <> keyB -> ownKey opsA pre keyA -> ownKey opsB pre keyB ->
  current opsA pre k -> current opsB pre k -> In (Start pre sn dig) opsA -> In (Start pre sn dig) opsB -> calm proxy opsA -> calm proxy opsB ->
  In (pre, sn) (msgs (me (run proxy opsA))) -> In (pre, sn) (msgs (me (run proxy opsB))) -> False).
Proof. exact c110_twice_refuted. Qed.
Print Assumptions C110_twice_refuted.

(** Starting a second event of a group before the first one is accepted loses the second: it is never called
    complete, whatever happens, unless it is started again. *)
Theorem C110_second_refuted : exists ops pre sn dig, In (Start pre sn dig) ops /\ calm false ops /\
  forall proxy more, (forall g, ~ In (Start pre sn g) more) -> complete (run proxy (ops ++ more)) pre sn (Some dig) = Ok false.
Proof. exact c110_second_refuted. Qed.
Print Assumptions C110_second_refuted.

(** A delegated group event whose delegator is not known yet raises, and is lost, too. *)
Theorem C110_delegator_refuted : exists ops pre sn dig, In (Start pre sn dig) ops /\ accepted ops pre sn dig /\
  forall proxy more, (forall g, ~ In (Start pre sn g) more) -> complete (run proxy (ops ++ more)) pre sn (Some dig) = Ok false.
Proof. exact c110_delegator_refuted. Qed.
Print Assumptions C110_delegator_refuted.

(** After a crash, the member with the first key waits forever for an answer that only a message of the time
    before would bring; even with all receipts there. *)
Theorem C110_crash_refuted : exists ops pre sn dig key k, In (Start pre sn dig) ops /\ current ops pre k /\ receipted ops pre dig k /\ k_sn k = sn /\ k_said k = dig /\ ownKey ops pre key /\
  forall proxy more, (forall g, ~ In (Start pre sn g) more) -> (forall h, In (Own pre h) more -> h_key h = key) ->
    (forall k', In (Accept pre k') more -> k_wits k' <> [] /\ exists r, k_keys k' = key :: r) -> complete (run proxy (ops ++ more)) pre sn (Some dig) = Ok false.
Proof. exact c110_crash_refuted. Qed.
Print Assumptions C110_crash_refuted.

(** One delegation of an identifier without witnesses and without a proxy stops all others: from then on no
    delegation of any identifier is called complete. *)
Theorem C110_proxy_refuted : exists ops, forall more, (forall k, In (Accept ME k) more -> k_wits k = []) -> (forall d i, ~ In (Wig ME d i) more) -> (forall h, In (Own ME h) more -> h_group h = false) ->
  forall pre sn, sComplete (run false (ops ++ more)) pre sn None = Ok false.
Proof. exact c110_proxy_refuted. Qed.
Print Assumptions C110_proxy_refuted.
