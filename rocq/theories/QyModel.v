(** Model of the queries for key event logs and key states: core/eventing.py Kevery.processQuery
    (5543-5660), escrowQueryNotFoundEvent (5766-5788) and processQueryNotFound (6994-7094), and how
    core/parsing.py hands queries over (1446-1485), on top of the key event processing of KelModel
    and the replay of logs of ClModel. *)
From Verif Require Import Prelude B64Model MatterModel SubsModel ThModel KelModel ClModel.
Open Scope N_scope.

(** A query message: its said, route and the fields of its block q.  An absent field is None; a
    number that is not hexadecimal is [Some None].  [q_a] is the seal that an anchoring event is to
    have; an empty one counts as absent (5580). *)
Inductive qroute := Logs | Ksn | Mbx | OtherRoute.
Record query := mkQuery {
  q_said : N; q_route : qroute; q_i : option N; q_src : option N; q_a : option seal;
  q_s : option (option N); q_fn : option (option N); q_topics : option N }.

(** What is pushed on the cues: the answer to a query for a log, the answer to one for a key state
    (the reply is made of the key state), the mailbox stream, and the notice of a wrong route. *)
Inductive cue :=
| CReplay (q : query) (pre src : N) (msgs : list clone) (dest : N)
| CReply (q : query) (src : N) (st : ksr) (dest : N)
| CStream (q : query) (pre src topics : N)
| CInvalid (q : query).

(** The sub-databases that hold escrowed queries, by querier and said: dtss, sigs, evts and rcts
    (shared with key events, whose saids are taken to be others), and qnfs. *)
Record qst := mkQst {
  qnfs : etab; qdts : amap N; qsigs : amap (list siger); qevts : amap query; qrcts : amap (list N) }.
Definition qst0 : qst := mkQst [] (fun _ _ => None) (fun _ _ => None) (fun _ _ => None) (fun _ _ => None).

(** eventing.py:5766-5788 escrowQueryNotFoundEvent; AttributeError when there is no querier (5776) *)
Definition escrowQuery (now : N) (source : option N) (q : query) (sg : list siger) (cg : list N) (s : qst)
    : qst * res unit :=
  match source with
  | None => (s, Err AttributeError)
  | Some p =>
      let d := q_said q in
      (mkQst (etab_add (p, d, d) (qnfs s)) (aput (qdts s) p d now)
         (aset (qsigs s) p d (Some (addSigs (olist (qsigs s p d)) sg))) (aput (qevts s) p d q)
         (aset (qrcts s) p d (Some (addNs (olist (qrcts s p d)) cg))), Ok tt)
  end.

(** basing.py:2125-2147 getEvtPreIter: all events of a log, superseded ones included *)
Definition allEvts (x : aux) (p : N) (l : list (list N)) : list evt :=
  flat_map (fun s => match evts x p s with Some e => [e] | None => [] end) (List.concat l).

(** basing.py:1933-1963 fetchAllSealingEventByEventSeal; a seal that is not of an event is never found *)
Definition seal_eqb (i s d : N) (b : seal) : bool :=
  match b with SealEvt i' s' d' => (i =? i') && (s =? s') && (d =? d') | SealOther _ => false end.
Definition fetchAllSealing (d : acc) (x : aux) (p : N) (a : seal) : bool :=
  match a with
  | SealOther _ => false
  | SealEvt i s dg =>
      existsb (fun e => existsb (seal_eqb i s dg) (e_seals e) && fullyWitnessed d x e) (allEvts x p (kels d p))
  end.

Definition field {A} (o : option A) : res A := match o with Some a => Ok a | None => Err KeyError end.
(** int(qry["s"], 16) *)
Definition num (o : option (option N)) : res (option N) :=
  match o with None => Ok None | Some (Some n) => Ok (Some n) | Some None => Err ValueError end.

(** The part of processQuery that decides whether the query can be answered now: the result is the
    cue, if any; QueryNotFoundError stands for the branches that escrow.
    eventing.py:5565-5610 logs, 5612-5636 ksn, 5638-5651 mbx *)
Definition answer (dx : db) (q : query) (dest : N) : res (option cue) :=
  let '(d, x) := dx in
  match q_route q with
  | Logs =>
      pre <- field (q_i q) ;; src <- field (q_src q) ;; sn <- num (q_s q) ;; fn <- num (q_fn q) ;;
      match kget d x pre with
      | None => Err QueryNotFoundError
      | Some k =>
          _ <- match q_a q with
               | Some a => if fetchAllSealing d x pre a then Ok tt else Err QueryNotFoundError
               | None => match sn with
                         | Some sn => if (k_sn k <? sn) || negb (fullyWitnessed d x (k_evt k)) then Err QueryNotFoundError else Ok tt
                         | None => Ok tt
                         end
               end ;;
          let own := clonePre dx pre (match fn with Some n => n | None => 0 end) in
          msgs <- match k_delpre k with
                  | None => Ok own
                  | Some dp => match kget d x dp with
                               | None => Err KeyError
                               | Some _ => Ok (own ++ clonePre dx dp 0)
                               end
                  end ;;
          Ok (if isnil msgs then None else Some (CReplay q pre src msgs dest))
      end
  | Ksn =>
      pre <- field (q_i q) ;; src <- field (q_src q) ;;
      match kget d x pre with
      | None => Err QueryNotFoundError
      | Some k =>
          if len (getWigs x pre (e_said (k_evt k))) <? k_toad k then Err QueryNotFoundError else
          st <- kstate k ;; Ok (Some (CReply q src st dest))
      end
  | Mbx =>
      pre <- field (q_i q) ;; src <- field (q_src q) ;; topics <- field (q_topics q) ;;
      match kget d x pre with
      | None => Err QueryNotFoundError
      | Some _ => Ok (Some (CStream q pre src topics))
      end
  | OtherRoute => Err ValidationError
  end.

(** eventing.py:5543-5660 processQuery: the querier (5557-5560), the answer, or the escrow and
    QueryNotFoundError; the cue for a wrong route comes before its exception (5655) *)
Definition ocue (o : option cue) : list cue := match o with Some c => [c] | None => [] end.
Definition processQuery (now : N) (dx : db) (source : option N) (sg : list siger) (cg : list N) (q : query) (s : qst)
    : qst * list cue * res unit :=
  match (match source, cg with None, c :: _ => Some c | _, _ => source end) with
  | None => (s, [], Err AttributeError)
  | Some dest =>
      match answer dx q dest with
      | Ok o => (s, ocue o, Ok tt)
      | Err QueryNotFoundError =>
          match escrowQuery now source q sg cg s with
          | (s, Ok _) => (s, [], Err QueryNotFoundError)
          | (s, Err e) => (s, [], Err e)
          end
      | Err e => (s, match q_route q with OtherRoute => [CInvalid q] | _ => [] end, Err e)
      end
  end.

(** parsing.py:1446-1485 for messages of version 1, eventing.py:4746-4775 for version 2 ([v2]; KRAM has
    let the query pass or is off): the querier and its signatures are those of the last group of
    signatures of the latest keys ([lsg]), if any; nothing is verified here.  In version 1 the key
    "source" is read (1456) but is no field of MsgParseDom (41-66), hence KeyError without such a
    group.  Routes of credential queries go to Tevery and are not modelled, so other routes are
    refused; a version 2 query with plain controller signatures (4754) is not modelled.  The result has the
    exception the parser gets, if any. *)
Definition receive (v2 : bool) (now : N) (dx : db) (lsg : option (N * list siger)) (cg : list N) (q : query) (s : qst)
    : qst * list cue * res unit :=
  let '(source, sg) := match lsg with Some (p, sg) => (Some p, sg) | None => (None, []) end in
  if match source with None => negb v2 | Some _ => false end then (s, [], Err KeyError) else
  match source, cg, q_route q with
  | None, [], _ => (s, [], Err ValidationError)
  | _, _, OtherRoute => (s, [], Err ValidationError)
  | _, _, _ =>
      match processQuery now dx source sg cg q s with
      | (s, cs, Err AttributeError) => (s, cs, Err ValidationError)
      | (s, cs, Err QueryNotFoundError) => (s, cs, if v2 then Err QueryNotFoundError else Ok tt)
      | r => r
      end
  end.

(** eventing.py:7022-7089: one row of the escrow.  [limit] is TimeoutQNF (300, and 30 in
    indirecting.py:853). *)
Definition remRow (r : N * N * N) (s : qst) : qst := mkQst (etab_rem r (qnfs s)) (qdts s) (qsigs s) (qevts s) (qrcts s).
Definition unescrowQ1 (limit now : N) (dx : db) (r : N * N * N) (sc : qst * list cue) : qst * list cue :=
  let '(p, _, d) := r in
  let '(s, cs) := sc in
  match qdts s p d, qevts s p d, olist (qsigs s p d) with
  | Some dt, Some q, g :: sg =>
      if limit <? now - dt then (remRow r s, cs) else
      match processQuery now dx (Some p) (g :: sg) (olist (qrcts s p d)) q s with
      | (s, cs', Ok _) => (remRow r s, cs ++ cs')
      | (s, cs', Err QueryNotFoundError) => (s, cs ++ cs')
      | (s, cs', Err _) => (remRow r s, cs ++ cs')
      end
  | _, _, _ => (remRow r s, cs)
  end.
(** eventing.py:6994-7094 processQueryNotFound: the iteration reads a snapshot and is done once (7092) *)
Definition unescrowQ (limit now : N) (dx : db) (s : qst) : qst * list cue :=
  fold_left (fun sc r => unescrowQ1 limit now dx r sc) (qnfs s) (s, []).

(** ** Executions: key event operations, queries that arrive, and passes over escrowed queries.  The
    cues are read by others, so they are collected here in order. *)
Inductive qop :=
| Kel (o : op)
| Ask (v2 : bool) (now : N) (lsg : option (N * list siger)) (cg : list N) (q : query)
| QPass (now : N).
Record node := mkNode { n_db : db; n_q : qst; n_cues : list cue }.
Definition node0 : node := mkNode db0 qst0 [].
Definition qstep (E : env) (cf : conf) (limit : N) (n : node) (o : qop) : node :=
  match o with
  | Kel o => mkNode (step E cf o (n_db n)) (n_q n) (n_cues n)
  | Ask v2 now lsg cg q =>
      let '(s, cs, _) := receive v2 now (n_db n) lsg cg q (n_q n) in mkNode (n_db n) s (n_cues n ++ cs)
  | QPass now =>
      let '(s, cs) := unescrowQ limit now (n_db n) (n_q n) in mkNode (n_db n) s (n_cues n ++ cs)
  end.
Definition qrun (E : env) (cf : conf) (limit : N) (ops : list qop) (n : node) : node :=
  fold_left (qstep E cf limit) ops n.
