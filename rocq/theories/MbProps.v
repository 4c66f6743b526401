(** Properties of mailboxes *)
From Verif Require Import Prelude Lex SubsModel SubsProofs DbModel DbSpec DbProofs DbRef NmModel MbModel MbSpec MbProofs MbProofs2 MbProofs3 MbProofs4 MbProofs5 MbThms.
From Coq Require Import Lia.
Open Scope N_scope.

(** Server and client take turns in any order, connections break anywhere, and either side loses its
    connections or the client dies at any moment.  The messages of a topic that reach the poller's
    queue are stored messages of this topic.  They arrive for the first time in the order in which
    they were stored, none left out, and only as many arrive again as there were crashes of the
    client. *)
Theorem C100_arrival_partial : forall dig pre topics K ops t, setting dig pre topics K ops -> Forall clean (allMail ops) -> In t topics ->
  exists ids n r, arrives ids n r /\ n <= len (mail (pre ++ t) ops) /\ r <= crashes ops /\
    Forall2 (fun i m => nth_error (mail (pre ++ t) ops) (N.to_nat i) = Some m) ids (got t (run dig pre topics ops sys0)).
Proof. exact c100_arrival_partial. Qed.
Print Assumptions C100_arrival_partial.

(** Without crashes of the client each message arrives once, in order. *)
Theorem C100_once_partial : forall dig pre topics K ops t, setting dig pre topics K ops -> Forall clean (allMail ops) -> In t topics -> crashes ops = 0 ->
  exists later, mail (pre ++ t) ops = got t (run dig pre topics ops sys0) ++ later.
Proof. exact c100_once_partial. Qed.
Print Assumptions C100_once_partial.

(** Whatever happened before, once the client connects, is served and reads what it gets, every
    message stored so far has arrived, under the same terms. *)
Theorem C100_progress_partial : forall dig pre topics K ops, setting dig pre topics K ops -> Forall clean (allMail ops) ->
  exists n, forall t, In t topics ->
    exists ids r, arrives ids (len (mail (pre ++ t) ops)) r /\ r <= crashes ops /\
      Forall2 (fun i m => nth_error (mail (pre ++ t) ops) (N.to_nat i) = Some m) ids (got t (run dig pre topics (ops ++ [Pin; Drop; Connect; Next] ++ drain n) sys0)).
Proof. exact c100_progress_partial. Qed.
Print Assumptions C100_progress_partial.

(** What a topic holds from a number on is read from the mailbox in order and with its numbers. *)
Theorem C100_read : forall dig pre topics K ops k fn, setting dig pre topics K ops -> Forall clean (mail k ops) -> K k -> fn <= MaxON ->
  cloneTopic k fn (s_mb (run dig pre topics ops sys0)) = Ok (filter (fun e => fn <=? fst e) (enum 0 (mail k ops))) /\
  getTopicMsgs k fn (s_mb (run dig pre topics ops sys0)) = Ok (skipn (N.to_nat fn) (mail k ops)).
Proof. exact c100_read. Qed.
Print Assumptions C100_read.

(** The events of a stream are read back as they were written, and of a stream cut at any byte a
    first part of them. *)
Theorem C100_wire : forall l cut, Forall (fun e => oneLine (sTopic e) /\ oneLine (sMsg e)) l ->
  sse (render l) = map (fun e => mkEv (decstr (sFn e)) (sTopic e) (sMsg e)) l /\
  exists n, sse (firstn cut (render l)) = map (fun e => mkEv (decstr (sFn e)) (sTopic e) (sMsg e)) (firstn n l).
Proof. exact c100_wire. Qed.
Print Assumptions C100_wire.

(** Not so when the server dies between the two halves of storing a message: the stream counts
    messages where it should count numbers, and without any crash of the client the message stored
    next arrives twice. *)
Theorem C100_half_refuted : exists dig pre topics ops t, In t topics /\ crashes ops = 0 /\ Forall clean (allMail ops) /\ apart dig (allMail ops) /\
  mail (pre ++ t) ops = [m2x] /\ got t (run dig pre topics ops sys0) = [m2x; m2x].
Proof. exact c100_half_refuted. Qed.
Print Assumptions C100_half_refuted.

Theorem C100_removed_refuted : forall ops, Forall noStore ops -> got rcx (run digx prex [rcx] (opsRx ++ ops) sys0) = [m1x] /\ ~ In m2x (s_taken (run digx prex [rcx] (opsRx ++ ops) sys0)).
Proof. exact c100_removed_refuted. Qed.
Print Assumptions C100_removed_refuted.

(** Nor of a message with an empty line in it: it arrives cut there. *)
Theorem C100_line_refuted : exists m, utf8 m = true /\ m <> [] /\ got rcx (run digx prex [rcx] [Store (prex ++ rcx) m; Connect; Next; Recv; Pin; Recv; Pin] sys0) = [s2b "ab"] /\ m = s2b "ab" ++ [10; 10] ++ s2b "cd".
Proof. exact c100_line_refuted. Qed.
Print Assumptions C100_line_refuted.

(** A message stored under another key does not change what is read of a key, now and after. *)
Theorem C101_isolation_partial : forall dig pre topics K ops ops' k k' m fn, setting dig pre topics K (ops ++ Store k' m :: ops') -> K k -> k <> k' -> fn <= MaxON ->
  cloneTopic k fn (s_mb (run dig pre topics (ops ++ Store k' m :: ops') sys0)) = cloneTopic k fn (s_mb (run dig pre topics (ops ++ ops') sys0)).
Proof. exact c101_isolation_partial. Qed.
Print Assumptions C101_isolation_partial.

(** But one message that is not text, on any of the topics asked for, ends every stream before its
    first answer: nothing arrives from then on, on no topic, whatever the two sides do. *)
Theorem C101_poison_refuted : forall dig pre topics K t0 bad ops1 ops2, setting dig pre topics K (ops1 ++ ops2) -> Forall isStore ops1 -> In (Store (pre ++ t0) bad) ops1 -> In t0 topics -> utf8 bad = false ->
  s_log (run dig pre topics (ops1 ++ ops2) sys0) = [] /\ s_taken (run dig pre topics (ops1 ++ ops2) sys0) = [].
Proof. exact c101_poison_refuted. Qed.
Print Assumptions C101_poison_refuted.

Theorem C101_topic_name_refuted :
  (exists mb', handle digx prex highx [m1x] mb3x = Ok mb' /\ forall m, storeMsg digx (prex ++ rcx) m mb' = Err ValueError) /\
  (exists mb', handle digx prex lowx [m1x] mb3x = Ok mb' /\ cloneTopic (prex ++ rcx) 0 mb' = Ok [(0, m1x)]) /\
  cloneTopic (prex ++ rcx) 0 mb3x = Ok [(0, m1x); (1, m2x); (2, m3x)].
Proof. exact c101_topic_name_refuted. Qed.
Print Assumptions C101_topic_name_refuted.

(** As long as the client does not die, what reached the queue has been or will be handed to the
    parser, once and in order. *)
Theorem C102_handed_partial : forall dig pre topics K ops, setting dig pre topics K ops -> Forall clean (allMail ops) -> crashes ops = 0 ->
  s_taken (run dig pre topics ops sys0) ++ s_queue (run dig pre topics ops sys0) = map eData (s_log (run dig pre topics ops sys0)) /\
  s_taken (run dig pre topics (ops ++ [Take]) sys0) = map eData (s_log (run dig pre topics ops sys0)).
Proof. exact c102_handed_partial. Qed.
Print Assumptions C102_handed_partial.

(** But the number of a message is noted before the message is handed over.  If the client dies in
    between, the message is never processed, whatever happens afterwards. *)
Theorem C102_crash_refuted : forall dig pre t m ops, t <> [] -> oneLine t -> clean m -> Forall noStore ops ->
  s_taken (run dig pre [t] ([Store (pre ++ t) m; Connect; Next; Recv; Pin; Crash] ++ ops) sys0) = [].
Proof. exact c102_crash_refuted. Qed.
Print Assumptions C102_crash_refuted.

(** Signatures of a query are asked for and not looked at: whoever asks, with any signatures, gets
    all messages of a mailbox at the number they choose. *)
Theorem C103_owner_refuted : forall dig pre topics K ops t known asker sigs, setting dig pre topics K ops -> Forall clean (mail (pre ++ t) ops) -> In t topics -> known pre = true ->
  exists who tp tp' out, processQueryMbx known pre [(t, 0)] [(asker, sigs)] [] = Ok (who, tp) /\ iterNext (s_mb (run dig pre topics ops sys0)) who tp = Ok (tp', out) /\ map sMsg out = mail (pre ++ t) ops.
Proof. exact c103_owner_refuted. Qed.
Print Assumptions C103_owner_refuted.
