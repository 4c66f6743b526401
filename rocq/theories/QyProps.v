(** Properties of queries. *)
From Verif Require Import Prelude B64Model MatterModel SubsModel ThModel ThSpec KelModel KelSpec KelProofs KelInv KelThms OoSpec OoProofs OoThms ClModel ClSpec ClProofs ClProofs3 ClThms QyModel QySpec QyProofs QyProofs2 QyProofs3 QyThms.
From Coq Require Import Lia.
Open Scope N_scope.

(** In every history, each answer is to a query that was sent, goes to who sent it, and was made in a state in which
    what the query asked for was there.  A log is the whole log from the number asked for, and the delegator's log; a
    key state is that of the identifier; a mailbox stream has the topics asked for. *)
Theorem C123_answers : forall E H cf L ops c, world H -> Forall (real_qop H) ops -> In c (n_cues (qrun E cf L ops node0)) ->
  exists ops1 o ops2 p q pre src k, ops = ops1 ++ o :: ops2 /\ asked (ops1 ++ [o]) p q /\
    let dx := n_db (qrun E cf L ops1 node0) in
    ready dx q /\ answers c q p /\ q_i q = Some pre /\ q_src q = Some src /\ keyState dx pre = Some k /\
    match q_route q with
    | Logs => exists own more, c = CReplay q pre src (own ++ more) p /\ is_log dx pre (fromOf q) own /\
        match k_delpre k with None => more = [] | Some dp => is_log dx dp 0 more end
    | Ksn => exists st, c = CReply q src st p /\ s_i st = pre /\ s_s st = k_sn k /\ s_d st = e_said (k_evt k) /\
        s_k st = k_keys k /\ s_n st = k_ndigs k /\ s_bt st = k_toad k /\ s_b st = k_wits k /\ s_di st = k_delpre k
    | Mbx => exists t, c = CStream q pre src t /\ q_topics q = Some t
    | OtherRoute => False
    end.
Proof. exact c123_answers. Qed.
Print Assumptions C123_answers.

(** Whose name is on a query is not known: the signatures are passed on and escrowed, but nothing is verified, so any
    others, and none at all, get the same answer. *)
Theorem C123_unsigned_refuted : forall E cf L n v2 now p sg sg' cg q,
  n_cues (qstep E cf L n (Ask v2 now (Some (p, sg)) cg q)) = n_cues (qstep E cf L n (Ask v2 now (Some (p, sg')) cg q)).
Proof. exact c123_unsigned_refuted. Qed.
Print Assumptions C123_unsigned_refuted.

(** A signed query that asks for the whole log, a key state or a stream: in any history in which its said was not used
    by its querier before, it is answered by the pass at which what it asks for is there, if that comes within the
    time limit, whatever else happens in between. *)
Theorem C124_prompt_partial : forall E H cf L ops1 v2 t p sg cg q ops2 now, world H -> sane H -> complete q -> sg <> [] ->
  let ops := ops1 ++ [Ask v2 t (Some (p, sg)) cg q] ++ ops2 in
  Forall (real_qop H) ops -> (forall q', asked ops1 p q' -> q_said q' <> q_said q) ->
  (forall a b pre, ops = a ++ b -> q_i q = Some pre -> boss_known (n_db (qrun E cf L a node0)) pre) ->
  passes_by (t + L) ops2 -> now <= t + L -> ready (n_db (qrun E cf L ops node0)) q ->
  exists c, In c (n_cues (qrun E cf L (ops ++ [QPass now]) node0)) /\ answers c q p.
Proof. exact c124_prompt_partial. Qed.
Print Assumptions C124_prompt_partial.

(** At any time within the limit the query has been answered or waits. *)
Theorem C124_waits_partial : forall E H cf L ops1 v2 t p sg cg q ops2, world H -> sane H -> complete q -> sg <> [] ->
  let ops := ops1 ++ [Ask v2 t (Some (p, sg)) cg q] ++ ops2 in
  Forall (real_qop H) ops -> (forall q', asked ops1 p q' -> q_said q' <> q_said q) ->
  (forall a b pre, ops = a ++ b -> q_i q = Some pre -> boss_known (n_db (qrun E cf L a node0)) pre) ->
  passes_by (t + L) ops2 ->
  (exists c, In c (n_cues (qrun E cf L ops node0)) /\ answers c q p) \/ waiting (qrun E cf L ops node0) p q.
Proof. exact c124_waits_partial. Qed.
Print Assumptions C124_waits_partial.

(** Answered queries go: after a pass in a state in which it can be answered, a query does not wait, so it is not
    answered by each pass again. *)
Theorem C124_done_partial : forall E H cf L ops p q now, world H -> sane H -> complete q -> Forall (real_qop H) ops ->
  (forall q', asked ops p q' -> q_said q' = q_said q -> q' = q) ->
  let n := qrun E cf L ops node0 in
  (forall pre, q_i q = Some pre -> boss_known (n_db n) pre) -> ready (n_db n) q ->
  ~ waiting (qrun E cf L (ops ++ [QPass now]) node0) p q.
Proof. exact c124_done_partial. Qed.
Print Assumptions C124_done_partial.

(** What a pass leaves in the escrow has not waited longer than the limit, by the date recorded for it. *)
Theorem C124_expires : forall E cf L ops now p d d', let n := qrun E cf L (ops ++ [QPass now]) node0 in
  In (p, d, d') (qnfs (n_q n)) -> exists dt, qdts (n_q n) p d = Some dt /\ now <= dt + L.
Proof. exact c124_expires. Qed.
Print Assumptions C124_expires.

(** Queries signed only with keys of non transferable identifiers do nothing at all in version 1: the parser reads a
    key that is not there and drops the message. *)
Theorem C124_nontrans_refuted : forall E cf L n now cg q, qstep E cf L n (Ask false now None cg q) = n.
Proof. exact c124_nontrans_refuted. Qed.
Print Assumptions C124_nontrans_refuted.

(** In version 2 they are answered at once or not at all: the escrow has no name for their querier. *)
Theorem C124_nontrans_early_refuted : exists E H cf L ops1 t p q ops2 now, world H /\ sane H /\ complete q /\
  let ops := ops1 ++ [Ask true t None [p] q] ++ ops2 in
  Forall (real_qop H) ops /\ passes_by (t + L) ops2 /\ now <= t + L /\ ready (n_db (qrun E cf L ops node0)) q /\
  n_cues (qrun E cf L (ops ++ [QPass now]) node0) = [] /\
  n_cues (qrun E cf L (ops ++ [Ask true t None [p] q]) node0) <> [].
Proof. exact c124_nontrans_early_refuted. Qed.
Print Assumptions C124_nontrans_early_refuted.

(** A query for a log from a number that is not reached yet is neither answered nor kept. *)
Theorem C124_beyond_refuted : exists E H cf L ops1 t p sg q ops2 now, world H /\ sane H /\ sg <> [] /\
  let ops := ops1 ++ [Ask false t (Some (p, sg)) [] q] ++ ops2 in
  Forall (real_qop H) ops /\ passes_by (t + L) ops2 /\ now <= t + L /\
  (exists pre e, q_i q = Some pre /\ q_route q = Logs /\ accepted (n_db (qrun E cf L ops node0)) pre e /\ e_sn e = fromOf q) /\
  n_cues (qrun E cf L (ops ++ [QPass now]) node0) = [].
Proof. exact c124_beyond_refuted. Qed.
Print Assumptions C124_beyond_refuted.

Theorem C124_receipts_refuted : exists E H cf L ops t p sg q pre e now, world H /\ sane H /\ complete q /\ sg <> [] /\ Forall (real_qop H) ops /\ now <= t + L /\
  q_i q = Some pre /\ q_route q = Logs /\ q_s q = Some (Some (e_sn e)) /\ accepted (n_db (qrun E cf L ops node0)) pre e /\ receipted (n_db (qrun E cf L ops node0)) e /\
  n_cues (qrun E cf L (ops ++ [Ask false t (Some (p, sg)) [] q; QPass now]) node0) = [].
Proof. exact c124_receipts_refuted. Qed.
Print Assumptions C124_receipts_refuted.

(** The date of a query that is sent again is that of the first time: once it has expired, sending the same query
    again does not help, it is dropped by the next pass. *)
Theorem C124_again_refuted : exists E H cf L ops1 t p sg q ops2 now, world H /\ sane H /\ complete q /\ sg <> [] /\
  let ops := ops1 ++ [Ask false t (Some (p, sg)) [] q] ++ ops2 in
  Forall (real_qop H) ops /\ passes_by (t + L) ops2 /\ now <= t + L /\ ready (n_db (qrun E cf L ops node0)) q /\
  n_cues (qrun E cf L (ops ++ [QPass now]) node0) = [] /\ ~ waiting (qrun E cf L (ops ++ [QPass now]) node0) p q.
Proof. exact c124_again_refuted. Qed.
Print Assumptions C124_again_refuted.

(** Who gets the whole log of an identifier without a delegator, and does not know the identifier, ends up with the
    key state and logs that the answering node had, by verifying the messages of the answer in order. *)
Theorem C125_verifies_partial : forall E H cf cf' L ops q p pre src ms, world H -> sane H -> Forall (real_qop H) ops ->
  In (CReplay q pre src ms p) (n_cues (qrun E cf L ops node0)) -> fromOf q = 0 ->
  exists ops1 o ops2, ops = ops1 ++ o :: ops2 /\ asked (ops1 ++ [o]) p q /\ q_i q = Some pre /\
    let dx := n_db (qrun E cf L ops1 node0) in
    keyState dx pre <> None /\
    (undelegated dx pre -> texts_differ dx pre -> bystander cf dx pre -> bystander cf' dx pre ->
     forall dy ms', reachable E H cf' dy -> unknown dy pre -> Forall2 arrives ms ms' -> agree pre (run E cf' (map Deliver ms') dy) dx).
Proof. exact c125_verifies_partial. Qed.
Print Assumptions C125_verifies_partial.

(** Who has the first part of the log already and asks for the rest from there on gets what is missing. *)
Theorem C125_resume_partial : forall E H cf cf' L ops q p pre src ms, world H -> sane H -> Forall (real_qop H) ops ->
  In (CReplay q pre src ms p) (n_cues (qrun E cf L ops node0)) ->
  exists ops1 o ops2, ops = ops1 ++ o :: ops2 /\ asked (ops1 ++ [o]) p q /\ q_i q = Some pre /\
    let dx := n_db (qrun E cf L ops1 node0) in
    keyState dx pre <> None /\
    (undelegated dx pre -> texts_differ dx pre -> bystander cf dx pre -> bystander cf' dx pre ->
     forall opsa opsb dy ms', ops1 = opsa ++ opsb -> reachable E H cf' dy -> agree pre dy (n_db (qrun E cf L opsa node0)) ->
       fromOf q = len (fels (fst dy) pre) -> Forall2 arrives ms ms' -> agree pre (run E cf' (map Deliver ms') dy) dx).
Proof. exact c125_resume_partial. Qed.
Print Assumptions C125_resume_partial.

Theorem C125_nested_refuted : exists E H cf L ops t p sg q pre src ms n, world H /\ sane H /\ Forall (real_qop H) ops /\ complete q /\ ready (n_db (qrun E cf L ops node0)) q /\
  In (CReplay q pre src ms p) (n_cues (qrun E cf L (ops ++ [Ask false t (Some (p, sg)) [] q]) node0)) /\
  fels (fst (n_db (qrun E cf L ops node0))) pre <> [] /\
  forall ms', ms' = map (received false false true t) ms \/ ms' = map (received false false true t) (rev ms) ->
    fels (fst (run E cf (map Deliver ms' ++ [Escrows n; Escrows n; Escrows n]) db0)) pre = [].
Proof. exact c125_nested_refuted. Qed.
Print Assumptions C125_nested_refuted.

Theorem C125_boss_refuted : exists E H cf L ops t p sg q now, world H /\ sane H /\ Forall (real_qop H) ops /\ complete q /\ sg <> [] /\ now <= t + L /\
  ready (n_db (qrun E cf L ops node0)) q /\
  n_cues (qrun E cf L (ops ++ [Ask false t (Some (p, sg)) [] q; QPass now]) node0) = [] /\
  ~ waiting (qrun E cf L (ops ++ [Ask false t (Some (p, sg)) [] q; QPass now]) node0) p q.
Proof. exact c125_boss_refuted. Qed.
Print Assumptions C125_boss_refuted.
