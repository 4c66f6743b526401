(** Mailboxes: app/storing.py Mailboxer (18-140), app/indirecting.py MailboxIterable (1001-1035),
    Poller.eventDo (760-842), MailboxDirector.processPollIter (648-660), app/forwarding.py
    ForwardHandler.handle (533-560), core/eventing.py Kevery.processQuery on route mbx (5543-5560,
    5627-5645) and core/parsing.py on query messages (1446-1467).

    Simplifications, common to the whole file.
    - The two sub-databases are those of DbModel, with the separator of OnSuber.  Digests are the
      parameter [dig].  A topic key is not empty.
    - Server and client take turns in any order ([op]); a turn is what happens between two yields of
      the code.  Time is dropped: the server's stream does not time out (TimeoutMBX is 30000000 s), and
      the client may give up a connection at any moment rather than after 30 s.  The first answer of
      the stream, that sets only the retry time, is dropped, and so is the retry time on the client.
    - The query and its way into the stream (HttpEnd, QryRpyMailboxIterable) are one turn.
    - hio's EventSource, that reads the answer, is not in /repo: [sse] follows the event stream
      format it implements.  Each answer of the stream ends a block, so answers are read one by one. *)
From Verif Require Import Prelude Lex SubsModel DbModel NmModel.
Open Scope N_scope.

(** str(n) for a number; helper *)
Definition decstr (n : N) : bytes := map (fun d => 48 + d) (to_digits 10 (ndigits (N.size_nat n) 10 n) n).
(** int(s): digits only, Python also takes signs, blanks and underscores; helper *)
Definition decint (s : bytes) : res N :=
  if isnil s || negb (forallb (fun c => (48 <=? c) && (c <=? 57)) s) then Err ValueError
  else Ok (of_digits 10 (map (fun c => c - 48) s)).

Section Mb.
(** Diger(ser=msg, code=Blake3_256).qb64b *)
Variable dig : bytes -> bytes.

(** storing.py:48-57 Mailboxer.reopen: .tpcs and .msgs *)
Record mbx := mkMbx { tpcs : store; msgs : store }.

(** storing.py:59-65 Mailboxer.delTopic *)
Definition delTopic (key : bytes) (on : N) (mb : mbx) : mbx * bool :=
  let '(t, b) := remOn 46 key on (tpcs mb) in (mkMbx t (msgs mb), b).
(** storing.py:67-78 Mailboxer.appendToTopic: calls append with a keyword it does not have *)
Definition appendToTopic (topic val : bytes) (mb : mbx) : res (mbx * N) := Err TypeError.
(** storing.py:113-117, the first half of storeMsg: a transaction of its own *)
Definition storeIndex (topic msg : bytes) (mb : mbx) : res mbx :=
  '(t, _) <- appendOnVal 46 topic (dig msg) (tpcs mb) ;; Ok (mkMbx t (msgs mb)).
(** storing.py:118, the second half of storeMsg *)
Definition storeBody (msg : bytes) (mb : mbx) : mbx * bool :=
  let '(m, b) := put true (dig msg) msg (msgs mb) in (mkMbx (tpcs mb) m, b).
(** storing.py:100-118 Mailboxer.storeMsg *)
Definition storeMsg (topic msg : bytes) (mb : mbx) : res (mbx * bool) :=
  mb <- storeIndex topic msg mb ;; Ok (storeBody msg mb).

(** storing.py:138-140, and 94-96 of getTopicMsgs: the messages of index entries *)
Fixpoint fetch (m : store) (l : list (N * bytes)) : res (list (N * bytes)) :=
  match l with
  | [] => Ok []
  | (on, d) :: l' =>
      match get d m with
      | None => fetch m l'
      | Some v => s <- decode v ;; r <- fetch m l' ;; Ok (if isnil s then r else (on, s) :: r)
      end
  end.
(** storing.py:121-140 Mailboxer.cloneTopicIter *)
Definition cloneTopic (topic : bytes) (fn : N) (mb : mbx) : res (list (N * bytes)) :=
  l <- getOnAll 46 topic fn (tpcs mb) ;; fetch (msgs mb) l.
(** storing.py:81-97 Mailboxer.getTopicMsgs *)
Definition getTopicMsgs (topic : bytes) (fn : N) (mb : mbx) : res (list bytes) :=
  l <- cloneTopic topic fn mb ;; Ok (map snd l).

(** forwarding.py:533-560 ForwardHandler.handle: [receiver] and [topic] are the modifiers of the
    message, [parts] the embedded messages with their attachments *)
Definition handle (receiver topic : bytes) (parts : list bytes) (mb : mbx) : res mbx :=
  let resource := receiver ++ 47 :: topic in
  let pevt := List.concat parts in
  if isnil pevt then Ok mb else '(mb, _) <- storeMsg resource pevt mb ;; Ok mb.

(** ** The server's stream *)
(** one event of the stream: topic, ordinal, message *)
Record sent := mkSent { sTopic : bytes; sFn : N; sMsg : bytes }.
(** indirecting.py:1018-1031 MailboxIterable.__next__, what is read and the indices afterwards *)
Fixpoint iterNext (mb : mbx) (pre : bytes) (topics : list (bytes * N)) : res (list (bytes * N) * list sent) :=
  match topics with
  | [] => Ok ([], [])
  | (topic, idx) :: r =>
      l <- cloneTopic (pre ++ topic) idx mb ;;
      '(r, out) <- iterNext mb pre r ;;
      Ok ((topic, idx + len l) :: r, map (fun e => mkSent topic (fst e) (snd e)) l ++ out)
  end.
(** indirecting.py:1024-1027, how an event is written, with the stream's retry time of 5000 *)
Definition frame (e : sent) : bytes :=
  s2b "id: " ++ decstr (sFn e) ++ 10 :: s2b "event: " ++ sTopic e ++ 10 :: s2b "retry: 5000" ++ 10 :: s2b "data: " ++ sMsg e ++ [10; 10].
Definition render (l : list sent) : bytes := List.concat (map frame l).

(** ** hio's EventSource *)
Record event := mkEv { eId : bytes; eName : bytes; eData : bytes }.
(** the complete lines of a text, [cur] being the part of the line already read, backwards *)
Fixpoint lines (cur s : bytes) : list bytes :=
  match s with
  | [] => []
  | x :: r =>
      if x =? 10 then rev cur :: lines [] r
      else if x =? 13 then match r with y :: r' => if y =? 10 then rev cur :: lines [] r' else rev cur :: lines [] r | [] => [rev cur] end
      else lines (x :: cur) r
  end.
(** field and value of a line *)
Fixpoint partition (s : bytes) : bytes * bytes :=
  match s with [] => ([], []) | x :: r => if x =? 58 then ([], r) else let '(a, b) := partition r in (x :: a, b) end.
Definition unblank (s : bytes) : bytes := match s with 32 :: r => r | _ => s end.
Fixpoint joinLines (l : list bytes) : bytes :=
  match l with [] => [] | [x] => x | x :: r => x ++ 10 :: joinLines r end.
(** last id, name and data of the block being read *)
Record block := mkBlock { bId : bytes; bName : bytes; bData : list bytes }.
Definition readLine (b : block) (line : bytes) : block * list event :=
  if isnil line then (mkBlock (bId b) [] [], if isnil (bData b) then [] else [mkEv (bId b) (bName b) (joinLines (bData b))])
  else
    let '(field, v) := partition line in
    let v := unblank v in
    if beq field (s2b "id") then (mkBlock v (bName b) (bData b), [])
    else if beq field (s2b "event") then (mkBlock (bId b) v (bData b), [])
    else if beq field (s2b "data") then (mkBlock (bId b) (bName b) (bData b ++ [v]), [])
    else (b, []).
Fixpoint readLines (b : block) (l : list bytes) : list event :=
  match l with [] => [] | x :: r => let '(b, o) := readLine b x in o ++ readLines b r end.
Definition sse (s : bytes) : list event := readLines (mkBlock [] [] []) (lines [] s).

(** ** The client *)
(** dict lookup and store; helpers *)
Definition curOf (t : bytes) (c : list (bytes * N)) : option N :=
  match find (fun e => beq (fst e) t) c with Some (_, n) => Some n | None => None end.
Fixpoint curSet (t : bytes) (n : N) (c : list (bytes * N)) : list (bytes * N) :=
  match c with [] => [(t, n)] | e :: r => if beq (fst e) t then (t, n) :: r else e :: curSet t n r end.
(** indirecting.py:786-792 Poller.eventDo, the indices asked for *)
Definition ask (topics : list bytes) (c : list (bytes * N)) : list (bytes * N) :=
  map (fun t => (t, match curOf t c with Some n => n + 1 | None => 0 end)) topics.

(** State of a mailbox server, of the poller of one identifier [pre] at this server, and of its
    director.  [s_cur] is db.tops at (pre, witness): witrec is read from it at the start, and
    changed and pinned without a yield in between.  [s_conn] is the connection: the server's stream
    (None once it has failed) and client.events.  [s_pend] is the event whose message has been
    queued and whose number is still to be pinned.  [s_log], the events whose messages were queued
    since ever, is not in the code. *)
Record sys := mkSys {
  s_mb : mbx; s_cur : list (bytes * N); s_conn : option (option (list (bytes * N)) * list event);
  s_pend : option event; s_queue : list bytes; s_taken : list bytes; s_log : list event }.
Inductive op :=
| Store (key msg : bytes)      (* the server stores a message *)
| StoreHalf (key msg : bytes)  (* the server dies between the two halves of storeMsg *)
| Del (key : bytes) (on : N)   (* the server removes an index entry *)
| SrvDown                      (* the server ends or loses its streams *)
| Connect | Next | Recv | Pin
| Drop                         (* the client gives up the connection *)
| Take                         (* the director hands what is queued to the parser *)
| Crash.                       (* the client dies and starts again *)

Variables (pre : bytes) (topics : list bytes).

Definition withMb (s : sys) (mb : mbx) : sys := mkSys mb (s_cur s) (s_conn s) (s_pend s) (s_queue s) (s_taken s) (s_log s).
Definition withConn (s : sys) c : sys := mkSys (s_mb s) (s_cur s) c (s_pend s) (s_queue s) (s_taken s) (s_log s).
(** indirecting.py:777-779, 588-660: what a start finds *)
Definition crash (s : sys) : sys := mkSys (s_mb s) (s_cur s) None None [] (s_taken s) (s_log s).

Definition step (s : sys) (o : op) : sys :=
  match o with
  | Store k m => match storeMsg k m (s_mb s) with Ok (mb, _) => withMb s mb | Err _ => s end
  | StoreHalf k m => match storeIndex k m (s_mb s) with Ok mb => withMb s mb | Err _ => s end
  | Del k on => withMb s (fst (delTopic k on (s_mb s)))
  | SrvDown => match s_conn s with Some (_, fl) => withConn s (Some (None, fl)) | None => s end
  (* indirecting.py:772-808 *)
  | Connect => match s_conn s, s_pend s with None, None => withConn s (Some (Some (ask topics (s_cur s)), [])) | _, _ => s end
  (* 1018-1033; what the stream raises ends it *)
  | Next =>
      match s_conn s with
      | Some (Some tp, fl) =>
          match iterNext (s_mb s) pre tp with
          | Ok (tp, out) => withConn s (Some (Some tp, fl ++ sse (render out)))
          | Err _ => withConn s (Some (None, fl))
          end
      | _ => s
      end
  (* 818-833 *)
  | Recv =>
      match s_conn s, s_pend s with
      | Some (sv, e :: fl), None =>
          if isnil (eId e) || isnil (eData e) || isnil (eName e) then withConn s (Some (sv, fl))
          else mkSys (s_mb s) (s_cur s) (Some (sv, fl)) (Some e) (s_queue s ++ [eData e]) (s_taken s) (s_log s ++ [e])
      | _, _ => s
      end
  (* 835-837; what int raises ends the poller *)
  | Pin =>
      match s_pend s with
      | Some e =>
          match decint (eId e) with
          | Ok n => mkSys (s_mb s) (curSet (eName e) n (s_cur s)) (s_conn s) None (s_queue s) (s_taken s) (s_log s)
          | Err _ => crash s
          end
      | None => s
      end
  (* 813-816 *)
  | Drop => match s_pend s with None => withConn s None | Some _ => s end
  (* 648-660, 612-614 *)
  | Take => mkSys (s_mb s) (s_cur s) (s_conn s) (s_pend s) [] (s_taken s ++ s_queue s) (s_log s)
  | Crash => crash s
  end.
Definition run (ops : list op) (s : sys) : sys := fold_left step ops s.
Definition sys0 : sys := mkSys (mkMbx [] []) [] None None [] [] [].

End Mb.

(** ** Queries *)
(** parsing.py:1446-1459 and eventing.py:5543-5560, 5627-5645: a query message on route mbx with the
    last of its attached groups [lsgs] (identifier and signatures) and its single signatures
    [cigars] (key and signature).  The answer is the stream the query leads to. *)
Definition processQueryMbx (known : bytes -> bool) (qpre : bytes) (qtopics : list (bytes * N))
  (lsgs : list (bytes * list (N * bytes))) (cigars : list (bytes * bytes)) : res (bytes * list (bytes * N)) :=
  raise_if (isnil lsgs && isnil cigars) ValidationError (
  raise_if (negb (known qpre)) QueryNotFoundError (
  Ok (qpre, qtopics))).
