(** Messengers to witnesses and when they say they are idle, app/agenting.py:600-897.
    A messenger is a queue of messages and counts of what was posted and sent; a step is a message put in the queue by the user, a turn of the
    sending loop, or an event of the network.  Connecting, parsing of what comes back and HTTP headers are left out. *)
From Verif Require Import Prelude.
Open Scope N_scope.

(** TCPMessenger and TCPStreamMessenger: [t_cur] is the message handed to the client and not yet gone (agenting.py:734-740, 807-813). *)
Record tcp := mkTcp { t_q : list N; t_cur : option N; t_posted : nat; t_sent : list N }.
Definition tcp0 (q : list N) : tcp := mkTcp q None 0 [].
(** Put; Turn: a turn of receiptDo, with whether the buffer of the client is empty *)
Inductive tstep := TPut (m : N) | TTurn (empty : bool).
(** agenting.py:730-743, 803-816; what is handed to the client is in its buffer until a later turn *)
Definition tcpStep (s : tcp) (x : tstep) : tcp :=
  match x with
  | TPut m => mkTcp (t_q s ++ [m]) (t_cur s) (t_posted s) (t_sent s)
  | TTurn e =>
      match t_cur s with
      | Some m => if e then mkTcp (t_q s) None (t_posted s) (t_sent s ++ [m]) else s
      | None => match t_q s with
                | [] => s
                | m :: q => mkTcp q (Some m) (S (t_posted s)) (t_sent s)
                end
      end
  end.
(** agenting.py:750-751, 823-824 *)
Definition tcpIdle (s : tcp) : bool := Nat.eqb (List.length (t_sent s)) (t_posted s).

(** HTTPMessenger: [parts m] is the number of requests made of a message (streamCESRRequests); [h_out] those not answered yet. *)
Record http := mkHttp { h_q : list N; h_out : nat; h_posted : nat; h_sent : nat; h_done : list N }.
Definition http0 (q : list N) : http := mkHttp q 0 0 0 [].
(** Put; a turn of msgDo, with whether all requests made are on their way; an answer taken by responseDo *)
Inductive hstep := HPut (m : N) | HTurn (free : bool) | HAnswer.
(** agenting.py:867-893; h_done is no state of the code, it keeps the messages taken from the queue *)
Definition httpStep (parts : N -> nat) (s : http) (x : hstep) : http :=
  match x with
  | HPut m => mkHttp (h_q s ++ [m]) (h_out s) (h_posted s) (h_sent s) (h_done s)
  | HTurn free =>
      if free then
        match h_q s with
        | [] => s
        | m :: q => mkHttp q (h_out s + parts m) (h_posted s + parts m) (h_sent s) (h_done s ++ [m])
        end
      else s
  | HAnswer => match h_out s with O => s | S n => mkHttp (h_q s) n (h_posted s) (S (h_sent s)) (h_done s) end
  end.
(** agenting.py:896-897 *)
Definition httpIdle (s : http) : bool := Nat.eqb (List.length (h_q s)) 0 && Nat.eqb (h_posted s) (h_sent s).

(** WitnessPublisher: requests with whether their identifier is a local one; [p_cues] the cues nobody took. *)
Record pub := mkPub { p_q : list (N * bool); p_posted : nat; p_cues : list N }.
Definition pub0 : pub := mkPub [] 0 [].
(** Put; the whole work on the next request (its messengers become idle) *)
Inductive pstep := PPut (m : N) (local : bool) | PWork.
(** agenting.py:629-661 *)
Definition pubStep (s : pub) (x : pstep) : pub :=
  match x with
  | PPut m b => mkPub (p_q s ++ [(m, b)]) (p_posted s) (p_cues s)
  | PWork => match p_q s with
             | [] => s
             | (m, b) :: q => mkPub q (S (p_posted s)) (if b then p_cues s ++ [m] else p_cues s)
             end
  end.
(** agenting.py:678-680 *)
Definition pubIdle (s : pub) : bool := Nat.eqb (List.length (p_q s)) 0 && Nat.eqb (p_posted s) (List.length (p_cues s)).
