(** What the theorems about receipts talk about, without the processing code. *)
From Verif Require Import Prelude B64Model MatterModel SubsModel ThModel ThSpec KelModel KelSpec RcModel.
Open Scope N_scope.

(** Operations whose events belong to the universe of events. *)
Definition rreal (H : N -> option evt) (o : rop) : Prop :=
  match o with REvent m => real H (m_evt (em_msg m)) | _ => True end.
(** States after any sequence of events with attached receipts, receipt messages, escrow
    processing and restarts. *)
Definition rreachable (E : env) (H : N -> option evt) (rc : rconf) (s : rdb) : Prop :=
  exists ops, Forall (rreal H) ops /\ s = rrun E rc ops rdb0.

(** The event stored for a prefix and said, and the accepted events of a prefix. *)
Definition eventAt (s : rdb) (p d : N) : option evt := evts (snd (fst s)) p d.
Definition acceptedIn (s : rdb) (p d : N) : Prop := In d (fels (fst (fst s)) p).
(** Receipts on record for an event: by non transferable receiptors, by transferable ones,
    and signatures of its witnesses. *)
Definition receiptsOf (s : rdb) (p d : N) : list cigar := getRcts (snd s) p d.
Definition transReceiptsOf (s : rdb) (p d : N) : list (src * siger) := getVrcs (snd s) p d.
Definition witnessSigsOf (s : rdb) (p d : N) : list siger := getWigs (snd (fst s)) p d.

(** [c] is a signature on event [e] by the non transferable identifier it names. *)
Definition endorses (E : env) (e : evt) (c : cigar) : Prop :=
  transf E (cg_key c) = false /\ vrfy E (cg_key c) (cg_raw c) (e_raw e) = true.

(** [g] is a signature on event [e] by one of the keys of the accepted establishment event of
    the receiptor that [o] names. *)
Definition transEndorses (E : env) (s : rdb) (e : evt) (o : src) (g : siger) : Prop :=
  let '(sp, ssn, sd) := o in
  exists se, acceptedIn s sp sd /\ eventAt s sp sd = Some se /\ e_sn se = ssn /\
             verified E (e_keys se) (e_raw e) g.

(** A receipt message that names the event its sn stands for at the time it is processed:
    the last one of the log at that sn, if there is one. *)
Definition current (s : rdb) (m : rmsg) : Prop :=
  forall d, klast (kels (fst (fst s)) (rm_pre m)) (rm_sn m) = Some d -> d = rm_said m.
(** Executions all of whose receipt messages with transferable groups are current. *)
Inductive creachable (E : env) (H : N -> option evt) (rc : rconf) : rdb -> Prop :=
| cr_init : creachable E H rc rdb0
| cr_step : forall s o, creachable E H rc s -> rreal H o ->
    match o with RReceipt m => (rm_tsgs m = [] /\ rm_rsgs m = []) \/ current s m | _ => True end ->
    creachable E H rc (rstep E rc s o).

(** ** Receipts that arrive before their event *)
(** A receipt of [e] by a non transferable receiptor is on record: as such or, when the
    receiptor is a witness, as a witness signature. *)
Definition recorded (s : rdb) (e : evt) (c : cigar) : Prop :=
  In c (receiptsOf s (e_pre e) (e_said e)) \/
  exists g, In g (witnessSigsOf s (e_pre e) (e_said e)) /\ sg_raw g = cg_raw c.
(** No other event claims the same place in the log of the prefix. *)
Definition alone (H : N -> option evt) (e : evt) : Prop :=
  forall e', real H e' -> e_pre e' = e_pre e -> e_sn e' = e_sn e -> e' = e.
(** The prefix uses at most 64 witnesses over its life. *)
Definition fewWits (H : N -> option evt) (p : N) : Prop :=
  exists W, len W <= 64 /\ forall e, real H e -> e_pre e = p -> incl (e_wits e) W /\ incl (e_adds e) W.
(** [e] is an inception, or an event of a known prefix that does not change its witnesses. *)
Definition keepsWits (s : rdb) (e : evt) : Prop :=
  (isIncept (e_ilk e) = true /\ NoDup (e_wits e)) \/
  (isIncept (e_ilk e) = false /\ keyState (fst s) (e_pre e) <> None /\ e_cuts e = [] /\ e_adds e = []).
(** The date from which the hour of a receipt of [e] counts: the one already on record
    for the event, else that of the receipt. *)
Definition since (s : rdb) (e : evt) (now : N) : N :=
  match dtss (snd (fst s)) (e_pre e) (e_said e) with Some t => t | None => now end.
(** An operation not before [t], with no escrow processing after its hour, and no replay of
    [e] with an older date. *)
Definition inHour (t : N) (e : evt) (o : rop) : Prop :=
  match o with
  | REvent m => t <= m_now (em_msg m) /\
      (m_evt (em_msg m) = e -> forall dt, m_dater (em_msg m) = Some dt -> t <= dt)
  | REscrows now => t <= now <= t + 3600
  | _ => True
  end.
