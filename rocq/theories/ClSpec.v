(** What the replay of a first seen log means, without the processing code. *)
From Verif Require Import Prelude B64Model MatterModel SubsModel ThModel ThSpec KelModel KelSpec OoSpec ClModel.
Open Scope N_scope.

(** [e] is an accepted event of [p] in database [dx]. *)
Definition accepted (dx : db) (p : N) (e : evt) : Prop :=
  In (e_said e) (fels (fst dx) p) /\ evts (snd dx) p (e_said e) = Some e.

(** The accepted events of [p] are not delegated, and their weighted thresholds have a weight for
    each key and each next digest. *)
Definition undelegated (dx : db) (p : N) : Prop :=
  forall e, accepted dx p e -> In (e_ilk e) [Icp; Rot; Ixn] /\
    (isEst (e_ilk e) = true -> covers (e_kt e) (len (e_keys e)) /\ covers (e_nt e) (len (e_ndigs e))).

(** Node [cf] is not a party to the log of [p]: it does not control [p], alone or in a group, and
    is none of the witnesses that accepted events name. *)
Definition bystander (cf : conf) (dx : db) (p : N) : Prop :=
  ~ In p (c_prefixes cf) /\ ~ In p (c_groups cf) /\
  forall e w, accepted dx p e -> In w (e_wits e ++ e_adds e) -> ~ In w (c_prefixes cf).

(** The texts of the recorded signatures of an event tell them apart. *)
Definition texts_differ (dx : db) (p : N) : Prop :=
  forall s g g', In s (fels (fst dx) p) ->
    In g (getSigs (snd dx) p s ++ getWigs (snd dx) p s) -> In g' (getSigs (snd dx) p s ++ getWigs (snd dx) p s) ->
    sg_qb64 g = sg_qb64 g' -> g = g'.

(** Message [m] is how a receiver sees cloned message [c]: at any time, from any source, in cloned
    mode or not. *)
Definition arrives (c : clone) (m : msg) : Prop :=
  exists cloned local eager now, m = received cloned local eager now c.

(** Nothing is known about [p]. *)
Definition unknown (dx : db) (p : N) : Prop := fels (fst dx) p = [] /\ keyState dx p = None /\ kels (fst dx) p = [].

(** The prefixes with a first seen log, each once. *)
Definition all_prefixes (dx : db) (ps : list N) : Prop :=
  NoDup ps /\ forall p, In p ps <-> fels (fst dx) p <> [].
