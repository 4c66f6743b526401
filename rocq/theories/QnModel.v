(** Waiting for the answers to queries: SeqNoQuerier, AnchorQuerier, LogQuerier and KeyStateNoticer of app/querying.py, and
    the sending of their one query by WitnessInquisitor.msgDo, app/agenting.py:472-551.
    Each is a doer that gets one turn after the other; what it finds at a turn is an environment: the number of the last
    accepted event of the identifier, if any, whether a sealing event is found, whether there is an endpoint to ask, the cues
    that arrived since the last turn.
    Simplifications: a query handed to a messenger counts as sent; the first turn of a generator, which does nothing, is left
    out; the source identifier is a local one; doers within a doer run once a turn (hio DoDoer, which is not in the
    repository), and removing a doer twice raises or not, a parameter. *)
From Verif Require Import Prelude.
Open Scope N_scope.

(** A cue: a saved key state notice of identifier, number and digest, or another. *)
Inductive cue := Notice (i s d : N) | Other (c : N).
Record env := mkEnv { kn : option N; anc : bool; can : bool; cues : list cue }.

(** WitnessInquisitor: whether its one message waits, whether it was sent. *)
Record inq := mkInq { i_msg : bool; i_sent : bool }.
Definition inq0 : inq := mkInq true false.
(** app/agenting.py:488-551, one turn: the message is taken; without witnesses given, an unknown identifier or one without
    endpoint or location only logs an error (506-529) *)
Definition inqTurn (wits : bool) (e : env) (q : inq) : inq :=
  if i_msg q then
    mkInq false (i_sent q || (wits || (match kn e with Some _ => can e | None => false end)))
  else q.

(** app/querying.py:129-144 SeqNoQuerier.recur *)
Definition seqTurn (sn : N) (wits : bool) (s : inq * bool) (e : env) : inq * bool :=
  let '(q, done) := s in
  if done then s else
  match kn e with
  | None => (q, false)
  | Some m => if sn <=? m then (q, true) else (inqTurn wits e q, false)
  end.
Definition seqRun (sn : N) (wits : bool) (es : list env) : inq * bool := fold_left (seqTurn sn wits) es (inq0, false).

(** app/querying.py:165-179 AnchorQuerier.recur *)
Definition ancTurn (s : inq * bool) (e : env) : inq * bool :=
  let '(q, done) := s in
  if done then s else
  match kn e with
  | None => (q, false)
  | Some _ => if anc e then (q, true) else (inqTurn false e q, false)
  end.
Definition ancRun (es : list env) : inq * bool := fold_left ancTurn es (inq0, false).

(** app/querying.py:91-103 LogQuerier.recur, [None] when it is done; its identifier is known (44-47), and stays so *)
Definition logTurn (e : env) (x : N * inq) : option (N * inq) :=
  match kn e with
  | Some m => if fst x <=? m then None else Some (fst x, inqTurn false e (snd x))
  | None => Some x
  end.

Inductive status := Going | Fin | Err.
(** KeyStateNoticer: the deck of cues, its inquisitor or none when removed, whether that one sent, the log queriers. *)
Record noticer := mkNot { n_deck : list cue; n_q : option inq; n_sent : bool; n_logs : list (N * inq); n_st : status }.
Definition noticer0 : noticer := mkNot [] (Some inq0) false [] Going.

(** hio DoDoer.recur: one turn for each doer inside; done when none is left *)
Definition subs (e : env) (s : noticer) : noticer :=
  let q := option_map (inqTurn false e) (n_q s) in
  let logs := flat_map (fun x => match logTurn e x with Some y => [y] | None => [] end) (n_logs s) in
  mkNot (n_deck s) q (n_sent s || match q with Some q => i_sent q | None => false end) logs
        (match q, logs with None, [] => Fin | _, _ => Going end).

(** app/querying.py:43-71 KeyStateNoticer.recur; [strict]: removing a doer that is not there raises *)
Definition notTurn (strict : bool) (pre : N) (s : noticer) (e : env) : noticer :=
  match n_st s with
  | Going =>
      let deck := n_deck s ++ cues e in
      match kn e with
      | None => subs e (mkNot deck (n_q s) (n_sent s) (n_logs s) Going)
      | Some m =>
          match deck with
          | [] => subs e (mkNot [] (n_q s) (n_sent s) (n_logs s) Going)
          | Notice i n d :: deck' =>
              if i =? pre then
                if m <? n then
                  match n_q s, strict with
                  | None, true => mkNot deck' None (n_sent s) (n_logs s ++ [(n, inq0)]) Err
                  | _, _ => subs e (mkNot deck' None (n_sent s) (n_logs s ++ [(n, inq0)]) Going)
                  end
                else mkNot deck' (n_q s) (n_sent s) (n_logs s) Fin
              else subs e (mkNot (deck' ++ [Notice i n d]) (n_q s) (n_sent s) (n_logs s) Going)
          | c :: deck' => subs e (mkNot (deck' ++ [c]) (n_q s) (n_sent s) (n_logs s) Going)
          end
      end
  | _ => s
  end.
Definition notRun (strict : bool) (pre : N) (es : list env) : noticer := fold_left (notTurn strict pre) es noticer0.
