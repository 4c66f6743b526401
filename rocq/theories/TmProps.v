(** Properties of messengers. *)
From Verif Require Import Prelude TmModel TmSpec TmProofs TmThms.
From Coq Require Import Lia.
Open Scope N_scope.

(** C147.  What a TCP messenger has sent is what it was given, in order, up to some point; with an empty queue, idle means that all was
    sent and that nothing is left, and is said whenever that is so.  Partial: messages in the queue. *)
Theorem C147_tcp_partial : forall q xs, let s := tcpRun q xs in
  (exists r, tcpGiven q xs = t_sent s ++ r) /\ (t_q s = [] -> (tcpIdle s = true <-> t_sent s = tcpGiven q xs)).
Proof. exact c147_tcp_partial. Qed.
Print Assumptions C147_tcp_partial.

Example C147_tcp_example : let s := tcpRun [1] [TTurn false; TPut 2; TTurn true; TTurn false; TTurn true] in t_q s = [] /\ tcpIdle s = true /\ t_sent s = [1; 2].
Proof. cbn. auto. Qed.

(** C147, refuted for messages in the queue of a TCP messenger: it says it is idle before its first turn, after every message, and
    whenever one is put while it rests, though they are not sent; who removes it then loses them. *)
Theorem C147_tcp_refuted : (forall q xs, let s := tcpRun q xs in t_cur s = None -> tcpIdle s = true /\ forall m, tcpIdle (tcpStep s (TPut m)) = true /\ t_sent (tcpStep s (TPut m)) <> tcpGiven q (xs ++ [TPut m])) /\
  tcpIdle (tcpRun [1] []) = true /\ tcpIdle (tcpRun [1; 2; 3] [TTurn false; TTurn true]) = true /\ t_sent (tcpRun [1; 2; 3] [TTurn false; TTurn true]) = [1].
Proof. exact c147_tcp_refuted. Qed.
Print Assumptions C147_tcp_refuted.

(** C147.  An HTTP messenger is idle if and only if its queue is empty and all requests of all messages given were answered. *)
Theorem C147_http : forall parts q xs, let s := httpRun parts q xs in
  httpIdle s = true <-> h_q s = [] /\ h_sent s = requests parts (httpGiven q xs).
Proof. exact c147_http. Qed.
Print Assumptions C147_http.

Example C147_http_example : httpIdle (httpRun (fun _ => 2%nat) [1] [HTurn true; HAnswer; HAnswer]) = true /\ httpIdle (httpRun (fun _ => 2%nat) [1] [HTurn true; HAnswer]) = false /\
  httpIdle (httpRun (fun _ => 2%nat) [1] []) = false.
Proof. cbn. auto. Qed.

(** C147.  A publisher whose cues nobody takes is idle if and only if all requests were worked off and all were of local
    identifiers.  Partial: requests of others. *)
Theorem C147_publisher_partial : forall xs, pubIdle (pubRun xs) = true <-> p_q (pubRun xs) = [] /\ Forall (fun x => snd x = true) (pubGiven xs).
Proof. exact c147_publisher_partial. Qed.
Print Assumptions C147_publisher_partial.

Example C147_publisher_example : pubIdle (pubRun [PPut 1 true; PPut 2 true; PWork; PWork]) = true /\ pubIdle (pubRun [PPut 1 true; PPut 2 true; PWork]) = false.
Proof. cbn. auto. Qed.

(** C147, refuted for a request of an identifier that is not local: the publisher is never idle again. *)
Theorem C147_publisher_refuted : forall xs m ys, pubIdle (pubRun (xs ++ PPut m false :: ys)) = false.
Proof. exact c147_publisher_refuted. Qed.
Print Assumptions C147_publisher_refuted.
