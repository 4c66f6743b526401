(** Specification vocabulary for request authentication.  Deliveries, pruning rounds and
    configurations are the only things that happen to a receiver; who sealed or signed a message
    is said in terms of what was attached and of the sender's keys. *)
From Verif Require Import Prelude B64Model SubsModel ThModel JsonModel Lex RpModel KrModel.
Open Scope N_scope.

(** What happens to a receiver: a message with its attachments arrives at time [now] while the
    receiver knows the key event logs [v]; the pruner runs; cache types are (re)written. *)
Inductive kact :=
| Deliver (now : N) (v : kview) (m : kmsg) (a : katt)
| Prune (now : N)
| Config (t : list (bytes * ctyp)).

Definition kdo (env : kenv) (x : kact) (d : kdb) : kdb :=
  match x with
  | Deliver now v m a => fst (kramit env v now m a d)
  | Prune now => fst (prune now d)
  | Config t => setCtyp d t
  end.
Definition kruns (env : kenv) (l : list kact) (d : kdb) : kdb := fold_left (fun d x => kdo env x d) l d.
(** a receiver that has processed nothing *)
Definition kdb0 (t : list (bytes * ctyp)) : kdb := mkKdb t [] [] [] [] [].
(** the message is handed on for processing *)
Definition admits (env : kenv) (v : kview) (now : N) (m : kmsg) (a : katt) (d : kdb) : Prop :=
  snd (kramit env v now m a d) = Admit.

(** ** Authentication *)

(** a reference to the sender's own log is attached, and the event found there seals the message *)
Definition sealedBy (v : kview) (m : kmsg) (a : katt) : Prop :=
  exists sn dig seals, (In (sn, dig) (a_sscs a) \/ In (m_pre m, (sn, dig)) (a_ssts a))
    /\ evt v (m_pre m) sn = Some (dig, Some seals) /\ In (m_said m) seals.

(** the signature is attached for the sender with key state [k] *)
Definition attachedSig (m : kmsg) (k : kst) (a : katt) (s : siger) : Prop :=
  In s (a_sigers a)
  \/ (exists l, In (m_pre m, l) (a_lsgs a) /\ In s l)
  \/ (exists g, In g (a_tsgs a) /\ g_pre g = m_pre m /\ g_sn g = kv_sn k /\ g_dig g = kv_said k /\ In s (g_sigs g)).

(** the signature verifies on the message with the key at its index *)
Definition goodSig (env : kenv) (k : kst) (m : kmsg) (s : siger) : Prop :=
  exists key, nth_error (kv_keys k) (N.to_nat (sg_index s)) = Some key /\ kvrfy env key (sg_raw s) (m_raw m) = true.

(** a nontransferable sender signed the message with the key it is named after *)
Definition signedAsSelf (env : kenv) (m : kmsg) (a : katt) : Prop :=
  exists c, In c (a_cigars a) /\ c_key c = m_pre m /\ ktrans env (c_key c) = false
    /\ kvrfy env (c_key c) (c_raw c) (m_raw m) = true.

(** the current keys of the sender signed the message: the one key, or enough of several, with
    distinct signatures that arrived in deliveries [l] of this message *)
Definition signedByKeys (env : kenv) (l : list kact) (v : kview) (m : kmsg) : Prop :=
  exists k ss, kev v (m_pre m) = Some k /\ NoDup ss
    /\ (forall s, In s ss -> goodSig env k m s /\
          exists t v' a', In (Deliver t v' m a') l /\ kev v' (m_pre m) = Some k /\ attachedSig m k a' s)
    /\ (if len (kv_keys k) =? 1 then ss <> [] else satisfy (kv_th k) (map sg_index ss) = true).

(** ** Facts about the outside world used as hypotheses *)

(** identifiers and digests are written without dots *)
Definition clean (l : list kact) : Prop :=
  forall t v m a, In (Deliver t v m a) l -> ~ In 46 (m_pre m) /\ ~ In 46 (m_said m).
(** the digest of a message names one message *)
Definition oneMessage (l : list kact) : Prop :=
  forall t v m a t' v' m' a', In (Deliver t v m a) l -> In (Deliver t' v' m' a') l ->
    m_pre m = m_pre m' -> m_said m = m_said m' -> m = m'.
(** the number and digest of an event name one key state *)
Definition oneKeyState (l : list kact) : Prop :=
  forall t v m a t' v' m' a' k k', In (Deliver t v m a) l -> In (Deliver t' v' m' a') l -> m_pre m = m_pre m' ->
    kev v (m_pre m) = Some k -> kev v' (m_pre m) = Some k' -> kv_sn k = kv_sn k' -> kv_said k = kv_said k' -> k = k'.

(** ** Timeliness *)

(** at time [now] a message dated [mdt] is no older than the lag plus the drift and no newer than
    the drift; lags are in milliseconds, times in microseconds *)
Definition inWindow (d lag mdt now : N) : Prop := now <= mdt + (d + lag) * 1000 /\ mdt <= now + d * 1000.

Definition actTime (x : kact) : option N :=
  match x with Deliver t _ _ _ => Some t | Prune t => Some t | Config _ => None end.
(** the receiver's clock does not run backwards: each action's time is at least [t] and at least
    that of every action before it *)
Fixpoint clockFrom (t : N) (l : list kact) : Prop :=
  match l with
  | [] => True
  | x :: l' => match actTime x with Some t' => t <= t' /\ clockFrom t' l' | None => clockFrom t l' end
  end.
Definition noConfig (l : list kact) : Prop := forall t, ~ In (Config t) l.
Definition isDelivery (m : kmsg) (x : kact) : Prop := match x with Deliver _ _ m' _ => m' = m | _ => False end.
Definition neverDelivered (m : kmsg) (l : list kact) : Prop := forall x, In x l -> ~ isDelivery m x.
