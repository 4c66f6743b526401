(** What queries and their answers mean, without the processing code. *)
From Verif Require Import Prelude B64Model MatterModel SubsModel ThModel ThSpec KelModel KelSpec OoSpec ClModel ClSpec QyModel.
Open Scope N_scope.

(** [p] has sent query [q] in the course of [ops]: it is named by the signature group of the query,
    or else by its first signature of a non transferable key. *)
Definition asked (ops : list qop) (p : N) (q : query) : Prop :=
  exists v2 now lsg cg, In (Ask v2 now lsg cg q) ops /\
    ((exists sg, lsg = Some (p, sg)) \/ (lsg = None /\ exists cg', cg = p :: cg')).

(** The key events of a history are those of the universe. *)
Definition real_qop (H : N -> option evt) (o : qop) : Prop := match o with Kel o => real_op H o | _ => True end.

(** [cs] are the accepted events of [p] from number [fn] on, all of them, in the order in which they
    were first seen, with the signatures that are recorded. *)
Definition is_log (dx : db) (p fn : N) (cs : list clone) : Prop :=
  len cs = len (fels (fst dx) p) - fn /\
  forall i s, nth_error (fels (fst dx) p) (N.to_nat fn + i) = Some s ->
    exists c, nth_error cs i = Some c /\ accepted dx p (cl_evt c) /\ e_said (cl_evt c) = s /\
      cl_sigers c = getSigs (snd dx) p s /\ cl_wigers c = getWigs (snd dx) p s /\ cl_seal c = aess (snd dx) p s /\ cl_fn c = fn + N.of_nat i.

(** As many receipts of witnesses are recorded for event [e] as its identifier now asks for. *)
Definition receipted (dx : db) (e : evt) : Prop :=
  exists k, keyState dx (e_pre e) = Some k /\ k_toad k <= len (getWigs (snd dx) (e_pre e) (e_said e)).

(** Some accepted event of [p], superseded or not, has seal [a] and its receipts. *)
Definition anchored (dx : db) (p : N) (a : seal) : Prop :=
  (exists i s d, a = SealEvt i s d) /\ exists e, accepted dx p e /\ In a (e_seals e) /\ receipted dx e.

(** What query [q] asks for is there: the identifier is known, the event with the seal it names is
    there, or, without a seal, the number it names is reached by an event with its receipts. *)
Definition ready (dx : db) (q : query) : Prop :=
  exists p k, q_i q = Some p /\ keyState dx p = Some k /\
    match q_route q with
    | Logs => match q_a q with
              | Some a => anchored dx p a
              | None => forall n, q_s q = Some (Some n) -> n <= k_sn k /\ receipted dx (k_evt k)
              end
    | Ksn => receipted dx (k_evt k)
    | Mbx => True
    | OtherRoute => False
    end.

(** The first seen number from which on a query asks for a log. *)
Definition fromOf (q : query) : N := match q_fn q with Some (Some n) => n | _ => 0 end.

(** A query that has all fields its route needs, in the right form, and asks for the whole log. *)
Definition complete (q : query) : Prop :=
  q_i q <> None /\ q_src q <> None /\ q_s q <> Some None /\ (q_fn q = None \/ q_fn q = Some (Some 0)) /\
  (q_route q = Mbx -> q_topics q <> None) /\ q_route q <> OtherRoute.

(** The delegator of [p], if it has one, is known. *)
Definition boss_known (dx : db) (p : N) : Prop :=
  forall k dp, keyState dx p = Some k -> k_delpre k = Some dp -> keyState dx dp <> None.

(** Cue [c] is an answer to query [q] for querier [p]. *)
Definition answers (c : cue) (q : query) (p : N) : Prop :=
  match c with
  | CReplay q' _ _ _ d => q' = q /\ d = p
  | CReply q' _ _ d => q' = q /\ d = p
  | CStream q' _ _ _ => q' = q
  | CInvalid _ => False
  end.

(** The passes of [ops] over the escrow happen no later than [t]. *)
Definition passes_by (t : N) (ops : list qop) : Prop := forall now, In (QPass now) ops -> now <= t.

(** Query [q] of [p] waits. *)
Definition waiting (n : node) (p : N) (q : query) : Prop := In (p, q_said q, q_said q) (qnfs (n_q n)).
