(** Specification of transaction event logs: histories, anchoring and control of registries. *)
From Verif Require Import Prelude B64Model MatterModel SubsModel ThModel KelModel TlModel.
Open Scope N_scope.

(** what can happen to a receiver: an event with an anchor reference and backer signatures is
    delivered, the escrows are processed, the process restarts.  The key event logs known at the
    time are part of the first two. *)
Inductive tact :=
| TDeliver (v : kelview) (e : tev) (a : option (N * N)) (bs : list siger)
| TSweep (v : kelview)
| TRestart.
Definition tdo (E : tenv) (cf : tconf) (d : tdb) (x : tact) : tdb :=
  match x with
  | TDeliver v e a bs => fst (tprocess E cf v e a bs d)
  | TSweep v => tsweep E cf v d
  | TRestart => trestart d
  end.
Definition truns (E : tenv) (cf : tconf) (h : list tact) (d : tdb) : tdb := fold_left (tdo E cf) h d.

Definition delivered (h : list tact) (e : tev) : Prop := exists v a bs, In (TDeliver v e a bs) h.
Definition viewIn (h : list tact) (v : kelview) : Prop :=
  (exists e a bs, In (TDeliver v e a bs) h) \/ In (TSweep v) h.

(** the log of [ii] has an event whose only seal is the event seal of [e] *)
Definition anchored (v : kelview) (ii : N) (e : tev) : Prop :=
  exists k sd, v ii k = Some (sd, [SealEvt (t_pre e) (t_sn e) (t_said e)]).
Definition anchoredIn (h : list tact) (ii : N) (e : tev) : Prop := exists v, viewIn h v /\ anchored v ii e.
(** registry [regk] was incepted by [ii] *)
Definition controls (h : list tact) (regk ii : N) : Prop :=
  exists r, delivered h r /\ t_ilk r = Vcp /\ t_pre r = regk /\ t_ii r = ii /\ anchoredIn h ii r.

(** the registry an event names *)
Definition registryOf (e : tev) : N :=
  match t_ilk e with Iss | Rev => t_ri e | Bis | Brv => fst (t_ra e) | _ => t_pre e end.

(** at least [toad] distinct signatures by the backers [bk] *)
Definition wellBacked (E : tenv) (e : tev) (toad : N) (bk : list N) : Prop :=
  exists vs, NoDup (map sg_qb64 vs) /\ toad <= len vs /\
    forall s, In s vs -> exists b, nth_error bk (N.to_nat (sg_index s)) = Some b /\ tvrfy E b (sg_raw s) (t_raw e) = true.

(** no two events share identifier and said; registry inceptions are named by their said *)
Definition oneEvent (h : list tact) : Prop := forall e e', delivered h e -> delivered h e' ->
  t_pre e = t_pre e' -> t_said e = t_said e' -> e = e'.
Definition selfNamed (h : list tact) : Prop := forall e, delivered h e -> t_ilk e = Vcp -> t_pre e = t_said e.

(** the receiver takes events of this registry: it is its own exactly when events are its own, or
    it is lax *)
Definition allowed (cf : tconf) (regk : N) : Prop := c_lax cf = true \/ memN regk (c_regs cf) = c_tlocal cf.
(** the reference [a] points to an event of [ii] whose only seal is that of [e] *)
Definition sealedAt (v : kelview) (ii : N) (a : N * N) (e : tev) : Prop :=
  v ii (fst a) = Some (snd a, [SealEvt (t_pre e) (t_sn e) (t_said e)]).
(** a threshold that fits a list of backers *)
Definition fits (toad : N) (bk : list N) : Prop := match bk with [] => toad = 0 | _ => 1 <= toad /\ toad <= len bk end.
(** distinct signatures, all by backers *)
Definition signedBy (E : tenv) (e : tev) (bs : list siger) (bk : list N) : Prop :=
  NoDup (map sg_qb64 bs) /\
  forall s, In s bs -> exists b, nth_error bk (N.to_nat (sg_index s)) = Some b /\ tvrfy E b (sg_raw s) (t_raw e) = true.
