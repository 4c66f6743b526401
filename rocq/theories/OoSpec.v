(** What out of order delivery of a key event log means, without the processing code. *)
From Verif Require Import Prelude B64Model MatterModel SubsModel ThModel ThSpec KelModel KelSpec.
Open Scope N_scope.

(** Events of the log carried by a list of messages. *)
Definition saids (ms : list msg) : list N := map (fun m => e_said (m_evt m)) ms.

(** The signatures attached to a message are among those that exist: [R] reads the text of a
    signature, and a text names at most one signature. *)
Definition readable (R : bytes -> option siger) (m : msg) : Prop :=
  forall s, In s (m_sigers m ++ m_wigers m) -> R (sg_qb64 s) = Some s.
Definition readable_op (R : bytes -> option siger) (o : op) : Prop :=
  match o with Deliver m => readable R m | _ => True end.

(** A weighted threshold has one weight for each of [n] keys. *)
Definition covers (t : tholder) (n : N) : Prop :=
  match t with TNum _ => True | TWt _ => thsize t = n end.

(** [ms] is a complete log of the not delegated identifier [p], as messages with all their
    signatures and receipts: event number i has sn i, and a receiver [cf] with an empty database
    that gets the messages in this order accepts every one of them. *)
Record complete_log (E : env) (cf : conf) (p : N) (ms : list msg) : Prop := mkComplete {
  cl_pre : forall m, In m ms -> e_pre (m_evt m) = p;
  cl_sn : forall i m, nth_error ms i = Some m -> e_sn (m_evt m) = N.of_nat i;
  cl_ilk : forall m, In m ms -> In (e_ilk (m_evt m)) [Icp; Rot; Ixn];
  cl_cov : forall m, In m ms -> isEst (e_ilk (m_evt m)) = true ->
             covers (e_kt (m_evt m)) (len (e_keys (m_evt m))) /\
             covers (e_nt (m_evt m)) (len (e_ndigs (m_evt m)));
  cl_acc : fels (fst (run E cf (map Deliver ms) db0)) p = saids ms }.

(** The receiver is not a party to the log: it does not control [p], alone or in a group, and is
    none of the witnesses the events name. *)
Definition stranger (cf : conf) (p : N) (ms : list msg) : Prop :=
  ~ In p (c_prefixes cf) /\ ~ In p (c_groups cf) /\
  forall m w, In m ms -> In w (e_wits (m_evt m) ++ e_adds (m_evt m)) -> ~ In w (c_prefixes cf).

(** The controller of [p] signed nothing else: an event of [p] outside the log is not an
    inception, and of the signatures that exist (those that [R] can read) none on it is by a key
    that an event of the log declares, nor by a key that an event of the log commits to. *)
Definition no_other_version (E : env) (H : N -> option evt) (R : bytes -> option siger) (p : N) (ms : list msg) : Prop :=
  forall e, real H e -> e_pre e = p -> ~ In e (map m_evt ms) ->
    isIncept (e_ilk e) = false /\
    forall ky s m, In m ms -> R (sg_qb64 s) = Some s -> vrfy E ky (sg_raw s) (e_raw e) = true ->
      ~ In ky (e_keys (m_evt m)) /\ forall dg, In dg (e_ndigs (m_evt m)) -> commits E dg ky = false.

(** [m'] carries the event of [m], its signatures and receipts, and possibly further ones. *)
Definition copy_of (m m' : msg) : Prop :=
  m_evt m' = m_evt m /\ incl (m_sigers m) (m_sigers m') /\ incl (m_wigers m) (m_wigers m').

(** Every message of the log is among the deliveries, at least once with all its attachments. *)
Definition delivers (ops : list op) (ms : list msg) : Prop :=
  forall m, In m ms -> exists m', In (Deliver m') ops /\ copy_of m m'.

(** Operations happen within the time an event may wait in the out of order escrow. *)
Definition op_time (o : op) : option N :=
  match o with Deliver m => Some (m_now m) | Escrows t => Some t | Restart => None end.
Definition in_time (T : N) (o : op) : Prop :=
  match op_time o with Some t => T <= t <= T + 1200 | None => True end.

(** A key state without the date of the last acceptance and without what the Kever object
    remembers about how it was made (protocol version, cue deck). *)
Definition undated (k : kever) : kever :=
  mkKever 0 (k_pre k) (k_sn k) (k_evt k) (k_ilk k) (k_tholder k) (k_keys k) (k_ndigs k) (k_nt k)
    (k_toad k) (k_wits k) (k_cuts k) (k_adds k) (k_estOnly k) (k_dnd k) (k_lastS k) (k_lastD k)
    (k_delpre k) (k_fn k) 0 false.

(** Two databases agree on identifier [p]: same key state, same log, same first seen order. *)
Definition agree (p : N) (a b : db) : Prop :=
  option_map undated (keyState a p) = option_map undated (keyState b p) /\
  kels (fst a) p = kels (fst b) p /\ fels (fst a) p = fels (fst b) p.
