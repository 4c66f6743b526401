(** What the mailbox theorems talk about. *)
From Verif Require Import Prelude DbModel DbSpec SubsModel NmModel MbModel.
Open Scope N_scope.

(** messages stored under a key, in order *)
Definition mail (k : bytes) (ops : list op) : list bytes :=
  flat_map (fun o => match o with Store k' m => if beq k' k then [m] else [] | _ => [] end) ops.
(** all messages stored *)
Definition allMail (ops : list op) : list bytes :=
  flat_map (fun o => match o with Store _ m => [m] | _ => [] end) ops.

(** messages of a topic that ever reached the poller's queue, in order *)
Definition got (t : bytes) (s : sys) : list bytes := map eData (filter (fun e => beq (eName e) t) (s_log s)).

(** no line end *)
Definition oneLine (s : bytes) : Prop := ~ In 10 s /\ ~ In 13 s.
(** what the mailbox can carry: some text on one line *)
Definition clean (m : bytes) : Prop := m <> [] /\ utf8 m = true /\ oneLine m.

(** The operations neither remove messages nor die in the middle of storing one, and store under
    the keys [K]. *)
Definition plainOp (K : bytes -> Prop) (o : op) : Prop :=
  match o with Store k _ => K k | StoreHalf _ _ | Del _ _ => False | _ => True end.
Definition isStore (o : op) : Prop := match o with Store _ _ => True | _ => False end.
Definition noStore (o : op) : Prop := match o with Store _ _ | StoreHalf _ _ | Del _ _ => False | _ => True end.
Definition crashes (ops : list op) : N := len (filter (fun o => match o with Crash => true | _ => false end) ops).

(** [dig] tells the messages apart *)
Definition apart (dig : bytes -> bytes) (l : list bytes) : Prop :=
  forall m m', In m l -> In m' l -> dig m = dig m' -> m = m'.

(** [arrives ids n r]: the messages 0 .. n-1 arrived, each for the first time in turn, and r further
    arrivals repeated one of them *)
Inductive arrives : list N -> N -> N -> Prop :=
| ar_nil : arrives [] 0 0
| ar_new : forall l n r, arrives l n r -> arrives (l ++ [n]) (n + 1) r
| ar_again : forall l n r m, arrives l n r -> m < n -> arrives (l ++ [m]) n (r + 1).

(** what a mailbox, its topics and its keys are like *)
Record setting (dig : bytes -> bytes) (pre : bytes) (topics : list bytes) (K : bytes -> Prop) (ops : list op) : Prop := mkSetting {
  se_flat : flat 46 K;
  se_topics : NoDup topics;
  se_names : forall t, In t topics -> t <> [] /\ oneLine t /\ K (pre ++ t);
  se_ops : Forall (plainOp K) ops;
  se_apart : apart dig (allMail ops);
  se_size : len (allMail ops) <= MaxON }.

(** [n] events received and noted, one after the other *)
Definition drain (n : nat) : list op := List.concat (repeat [Recv; Pin] n).

(** the members of a list, numbered from [n] *)
Fixpoint enum {A} (n : N) (l : list A) : list (N * A) := match l with [] => [] | x :: r => (n, x) :: enum (n + 1) r end.

(** messages sent by a stream about one topic *)
Definition sentOf (t : bytes) (l : list sent) : list (N * bytes) :=
  map (fun e => (sFn e, sMsg e)) (filter (fun e => beq (sTopic e) t) l).
