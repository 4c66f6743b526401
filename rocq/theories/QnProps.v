(** Properties of queries and the waiting for their answers. *)
From Verif Require Import Prelude QnModel QnSpec QnProofs QnThms.
From Coq Require Import Lia.
Open Scope N_scope.

(** C141.  Waiting for a number ends exactly at the first turn at which the log reaches it. *)
Theorem C141_seqno : forall sn wits es, doneBy (seqRun sn wits es) = true <-> exists e, In e es /\ reaches sn e.
Proof. exact c141_seqno. Qed.
Print Assumptions C141_seqno.

Example C141_seqno_example : doneBy (seqRun 3 false [ev (Some 1) []; ev (Some 2) []]) = false /\ reaches 3 (ev (Some 4) []) /\
  seqRun 3 false [ev (Some 1) []; ev (Some 2) []; ev (Some 4) []] = (mkInq false true, true).
Proof. split; [reflexivity|]. split; [exists 4; split; [reflexivity|lia]|reflexivity]. Qed.

(** C141.  Waiting for a seal ends exactly when a sealing event of the known identifier is found. *)
Theorem C141_anchor : forall es, doneBy (ancRun es) = true <-> exists e, In e es /\ kn e <> None /\ anc e = true.
Proof. exact c141_anchor. Qed.
Print Assumptions C141_anchor.

Example C141_anchor_example : ancRun [ev None []; ev (Some 0) []; mkEnv (Some 1) true true []] = (mkInq false true, true).
Proof. reflexivity. Qed.

(** C141.  Waiting for the key state ends only when a notice of the identifier came and the log reached its number.  Partial: the
    digest of the notice. *)
Theorem C141_notice_partial : forall strict pre es, n_st (notRun strict pre es) = Fin ->
  exists n d e1 e2, In e1 es /\ In (Notice pre n d) (cues e1) /\ In e2 es /\ reaches n e2.
Proof. exact c141_notice_partial. Qed.
Print Assumptions C141_notice_partial.

(** C141.  Cues for others, and notices of other identifiers, stay in the deck while it waits. *)
Theorem C141_cues : forall strict pre es e c, n_st (notRun strict pre es) = Going -> In e es -> In c (cues e) -> ours pre c = false ->
  In c (n_deck (notRun strict pre es)).
Proof. exact c141_cues. Qed.
Print Assumptions C141_cues.

Example C141_notice_example : let es := [ev (Some 1) [Other 5]; ev (Some 1) [Notice 8 9 0; Notice 7 2 0]; ev (Some 1) []; ev (Some 1) []; ev (Some 1) []] in
  n_st (notRun true 7 es) = Going /\ n_logs (notRun true 7 es) = [(2, mkInq false true)] /\ ours 7 (Other 5) = false /\ ours 7 (Notice 8 9 0) = false /\
  n_st (notRun true 7 (es ++ [ev (Some 2) []])) = Fin /\ n_deck (notRun true 7 (es ++ [ev (Some 2) []])) = [Other 5; Notice 8 9 0].
Proof. repeat (split; [reflexivity|]). reflexivity. Qed.

(** C141, refuted for the digest: a notice of another event at a number the log has reached ends the waiting as one of the same
    event does. *)
Theorem C141_digest_refuted : (forall strict pre es e m n d, n_st (notRun strict pre es) = Going -> n_deck (notRun strict pre es) = [] ->
    kn e = Some m -> n <= m -> cues e = [Notice pre n d] -> n_st (notRun strict pre (es ++ [e])) = Fin) /\
  n_st (notRun true 7 [ev (Some 3) [Notice 7 3 1]]) = Fin /\ n_st (notRun true 7 [ev (Some 3) [Notice 7 3 2]]) = Fin.
Proof. exact c141_digest_refuted. Qed.
Print Assumptions C141_digest_refuted.

(** C141, refuted for a second notice ahead of the log, if removing a doer that was removed raises: the waiting ends with the
    exception though the log may still come. *)
Theorem C141_second_refuted : (forall pre es e m n d l, n_st (notRun true pre es) = Going -> n_q (notRun true pre es) = None -> kn e = Some m -> m < n ->
    n_deck (notRun true pre es) ++ cues e = Notice pre n d :: l -> n_st (notRun true pre (es ++ [e])) = Err) /\
  n_st (notRun true 7 [ev (Some 1) [Notice 7 2 0]; ev (Some 1) [Notice 7 2 0]; ev (Some 2) []]) = Err /\
  n_st (notRun false 7 [ev (Some 1) [Notice 7 2 0]; ev (Some 1) [Notice 7 2 0]; ev (Some 2) []]) = Fin.
Proof. exact c141_second_refuted. Qed.
Print Assumptions C141_second_refuted.

(** C142.  The query for a number goes out at the first turn at which the identifier is known and behind, if witnesses were given
    or there is an endpoint at that turn; else it never does. *)
Theorem C142_seqno_partial : (forall sn wits es1 e es2, Forall unknown es1 -> behind sn e -> sentBy (seqRun sn wits (es1 ++ e :: es2)) = (wits || can e)%bool) /\
  forall sn wits es, sentBy (seqRun sn wits es) = true -> exists es1 e es2, es = es1 ++ e :: es2 /\ Forall unknown es1 /\ behind sn e /\ (wits || can e)%bool = true.
Proof. exact c142_seqno_partial. Qed.
Print Assumptions C142_seqno_partial.

Example C142_seqno_example : Forall unknown [ev None []; ev None []] /\ behind 3 (ev (Some 1) []).
Proof. split; [repeat (apply Forall_cons; [reflexivity|]); apply Forall_nil|]. exists 1. split; [reflexivity|lia]. Qed.

(** C142, refuted for identifiers that are not known yet: even with witnesses to ask the query is never sent, and the waiting
    goes on until the log comes from elsewhere. *)
Theorem C142_unknown_refuted : (forall sn wits es, Forall unknown es -> seqRun sn wits es = (inq0, false)) /\ (forall es, Forall unknown es -> ancRun es = (inq0, false)) /\
  forall n, sentBy (seqRun 0 true (repeat (ev None []) n)) = false.
Proof. exact c142_unknown_refuted. Qed.
Print Assumptions C142_unknown_refuted.

(** C142, refuted for an endpoint that is not known yet: the query is dropped and never sent, though endpoint and identifier are
    known later; the same for a key state asked of an identifier that is not known at the first turn. *)
Theorem C142_dropped_refuted : (forall sn es1 e es2, Forall unknown es1 -> behind sn e -> can e = false -> sentBy (seqRun sn false (es1 ++ e :: es2)) = false) /\
  (forall strict pre e es, (unknown e \/ (can e = false /\ cues e = [])) -> n_sent (notRun strict pre (e :: es)) = false) /\
  (forall n, sentBy (seqRun 3 false (mkEnv (Some 1) false false [] :: repeat (ev (Some 1) []) n)) = false) /\
  (forall n, n_sent (notRun true 7 (ev None [] :: repeat (ev (Some 1) []) n)) = false) /\
  n_sent (notRun true 7 [ev (Some 1) []]) = true.
Proof. exact c142_dropped_refuted. Qed.
Print Assumptions C142_dropped_refuted.

(** C141.  Waiting for the key state does end: when the notice is reached in the deck, which takes one turn for each cue before
    it, if the log has its number; and, once the log was asked for and no further notice waits, when the log has all numbers asked
    for. *)
Theorem C141_ends : (forall strict pre es l1 n d l2 es' e, n_st (notRun strict pre es) = Going -> n_deck (notRun strict pre es) = l1 ++ Notice pre n d :: l2 ->
    Forall (fun c => ours pre c = false) l1 -> List.length es' = List.length l1 -> Forall (fun x => kn x <> None) es' -> reaches n e ->
    n_st (notRun strict pre (es ++ es' ++ [e])) = Fin) /\
  (forall strict pre es e, n_st (notRun strict pre es) = Going -> n_q (notRun strict pre es) = None ->
    Forall (fun c => ours pre c = false) (n_deck (notRun strict pre es) ++ cues e) -> Forall (fun x => reaches (fst x) e) (n_logs (notRun strict pre es)) ->
    n_st (notRun strict pre (es ++ [e])) = Fin).
Proof. exact c141_ends. Qed.
Print Assumptions C141_ends.

Example C141_ends_example : let es := [ev None [Other 5; Notice 8 9 0; Notice 7 2 0]] in
  n_st (notRun true 7 es) = Going /\ n_deck (notRun true 7 es) = [Other 5; Notice 8 9 0] ++ Notice 7 2 0 :: [] /\
  Forall (fun c => ours 7 c = false) [Other 5; Notice 8 9 0] /\ reaches 2 (ev (Some 2) []) /\
  n_st (notRun true 7 (es ++ [ev (Some 0) []; ev (Some 1) []] ++ [ev (Some 2) []])) = Fin /\
  let es := es ++ [ev (Some 0) []; ev (Some 1) []; ev (Some 1) []] in n_st (notRun true 7 es) = Going /\ n_q (notRun true 7 es) = None /\
    n_deck (notRun true 7 es) ++ [] = [Other 5; Notice 8 9 0].
Proof.
  split; [reflexivity|]. split; [reflexivity|]. split; [repeat (apply Forall_cons; [reflexivity|]); apply Forall_nil|].
  split; [exists 2; split; [reflexivity|lia]|]. repeat (split; [reflexivity|]). reflexivity.
Qed.
