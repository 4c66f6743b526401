(** What the key event log theorems talk about, without the processing code. *)
From Verif Require Import Prelude B64Model MatterModel SubsModel ThModel ThSpec KelModel.
Open Scope N_scope.

(** The universe of events: a said names at most one event (no digest collisions), and
    the thresholds of an event are the result of parsing a threshold expression. *)
Definition world (H : N -> option evt) : Prop :=
  forall s e, H s = Some e -> e_said e = s /\ threshold (e_kt e) /\ threshold (e_nt e).

(** Messages and operations whose events belong to the universe. *)
Definition real (H : N -> option evt) (e : evt) : Prop := H (e_said e) = Some e.
Definition real_op (H : N -> option evt) (o : op) : Prop :=
  match o with Deliver m => real H (m_evt m) | _ => True end.

(** States of the database after any sequence of message deliveries, escrow processing
    and restarts, starting from an empty database. *)
Definition reachable (E : env) (H : N -> option evt) (cf : conf) (dx : db) : Prop :=
  exists ops, Forall (real_op H) ops /\ dx = run E cf ops db0.

(** A key event log, newest event first: an inception at sn 0, then events of the same
    prefix, each naming the digest of the one before it and one sn above it. *)
Inductive log (H : N -> option evt) : list evt -> Prop :=
| log_icp : forall e, real H e -> isIncept (e_ilk e) = true -> e_sn e = 0 -> log H [e]
| log_next : forall e pe c, real H e -> log H (pe :: c) ->
    isIncept (e_ilk e) = false -> e_pre e = e_pre pe -> e_sn e = e_sn pe + 1 ->
    e_prior e = Some (e_said pe) -> log H (e :: pe :: c).

(** The establishment event in force after a log: its most recent one. *)
Definition est_of (c : list evt) : option evt := find (fun e => isEst (e_ilk e)) c.

(** Rules that the events of a log obey because of what its inception event says: an
    identifier with a non transferable prefix has no later event, establishment only
    identifiers have no interactions, delegated identifiers rotate with delegated
    rotations. *)
Definition delegator (icp : evt) : option N := match e_ilk icp with Dip => e_delpre icp | _ => None end.
Fixpoint lawful (E : env) (c : list evt) : Prop :=
  match c with
  | [] => True
  | e :: c' =>
      (c' <> [] ->
        transf E (e_pre e) = true /\
        (e_estOnly (last c' e) = true -> isEst (e_ilk e) = true) /\
        (delegator (last c' e) <> None -> e_ilk e = Drt \/ e_ilk e = Ixn)) /\
      lawful E c'
  end.

(** Signature [s] verifies under the key of [keys] it points to. *)
Definition verified (E : env) (keys : list N) (raw : bytes) (s : siger) : Prop :=
  exists ky, nth_error keys (N.to_nat (sg_index s)) = Some ky /\ vrfy E ky (sg_raw s) raw = true.

(** Among the signatures [sg] there are pairwise different ones, all verified with
    [keys], whose indices satisfy threshold [th]. *)
Definition signedBy (E : env) (keys : list N) (th : tholder) (raw : bytes) (sg : list siger) : Prop :=
  exists vs, incl vs sg /\ NoDup (map sg_qb64 vs) /\ Forall (verified E keys raw) vs /\
             satisfy th (map sg_index vs) = true.

(** Among the signatures [sg] there are pairwise different ones, all verified with [keys],
    each made by a key that the list [ndigs] commits to at the position the signature
    points to; these positions satisfy [nt]. *)
Definition exposedBy (E : env) (keys : list N) (raw : bytes) (ndigs : list N) (nt : tholder)
    (sg : list siger) : Prop :=
  exists vs os, incl vs sg /\ NoDup (map sg_qb64 vs) /\ Forall (verified E keys raw) vs /\
    Forall2 (fun s o => sg_ondex s = Some o /\
       exists dg ky, nth_error ndigs (N.to_nat o) = Some dg /\
                     nth_error keys (N.to_nat (sg_index s)) = Some ky /\ commits E dg ky = true) vs os /\
    satisfy nt os = true.

(** Processing message [m] in [dx] led to [dx'], and the event entered the first seen
    log of its prefix. *)
Definition enters (E : env) (cf : conf) (m : msg) (dx dx' : db) : Prop :=
  fst (processEvent E cf m dx) = dx' /\
  fels (fst dx') (e_pre (m_evt m)) <> fels (fst dx) (e_pre (m_evt m)).

(** Current key state of a prefix. *)
Definition keyState (dx : db) (p : N) : option kever := kget (fst dx) (snd dx) p.

(** The node is not a party to the event: it does not control the prefix, alone or in a
    group, and is none of its witnesses [wits]. *)
Definition outsider (cf : conf) (p : N) (wits : list N) : Prop :=
  ~ In p (c_prefixes cf) /\ ~ In p (c_groups cf) /\ (forall w, In w wits -> ~ In w (c_prefixes cf)).

Definition inbounds (toad : N) (wits : list N) : Prop :=
  match wits with [] => toad = 0 | _ => 1 <= toad <= len wits end.

(** Accepted events of a prefix, in first seen order, with their content. *)
Definition seen (dx : db) (p : N) : list (option evt) := map (evts (snd dx) p) (fels (fst dx) p).

(** No establishment event of [p] was superseded by a delegated rotation: no entry of
    the first seen log is a delegated rotation with the sn of an earlier establishment
    event. *)
Definition no_est_superseded (dx : db) (p : N) : Prop :=
  forall i j ei ej, (i < j)%nat ->
    nth_error (seen dx p) i = Some (Some ei) -> nth_error (seen dx p) j = Some (Some ej) ->
    isEst (e_ilk ei) = true -> e_ilk ej = Drt -> e_sn ei <> e_sn ej.

(** The next threshold of every event can be met by its list of next digests. *)
Definition sane (H : N -> option evt) : Prop :=
  forall s e, H s = Some e -> thsize (e_nt e) <= len (e_ndigs e).

(** The parts of the database that record accepted events and key states. *)
Definition same_acc (d d' : acc) : Prop :=
  (forall p, kels d' p = kels d p) /\ (forall p, fels d' p = fels d p) /\
  (forall p s, fons d' p s = fons d p s) /\ (forall p s, kwits d' p s = kwits d p s) /\
  (forall p, states d' p = states d p) /\ (forall p, kevers d' p = kevers d p).

(** Two Kevers that differ at most in having a cue deck and in the remembered protocol
    version. *)
Definition same_state (a b : kever) : Prop :=
  k_pre a = k_pre b /\ k_sn a = k_sn b /\ k_evt a = k_evt b /\ k_ilk a = k_ilk b /\
  k_tholder a = k_tholder b /\ k_keys a = k_keys b /\ k_ndigs a = k_ndigs b /\ k_nt a = k_nt b /\
  k_toad a = k_toad b /\ k_wits a = k_wits b /\ k_cuts a = k_cuts b /\ k_adds a = k_adds b /\
  k_estOnly a = k_estOnly b /\ k_dnd a = k_dnd b /\ k_lastS a = k_lastS b /\ k_lastD a = k_lastD b /\
  k_delpre a = k_delpre b /\ k_fn a = k_fn b /\ k_dts a = k_dts b.
