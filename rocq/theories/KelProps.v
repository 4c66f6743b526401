(** Key event logs *)
From Verif Require Import Prelude B64Model MatterModel SubsModel SubsThms ThModel ThSpec ThThms KelModel KelSpec KelProofs KelInv KelLaw KelThms.
Open Scope N_scope.

(** C14.  When an event enters the accepted log, verified signatures among those attached
    satisfy the event's own threshold (establishment event) or the threshold of the key
    state before it (interaction). *)
Theorem C14_accepted_signed : forall E cf m dx dx', enters E cf m dx dx' ->
  if isEst (e_ilk (m_evt m))
  then signedBy E (e_keys (m_evt m)) (e_kt (m_evt m)) (e_raw (m_evt m)) (m_sigers m)
  else exists k, keyState dx (e_pre (m_evt m)) = Some k /\
         signedBy E (k_keys k) (k_tholder k) (e_raw (m_evt m)) (m_sigers m).
Proof. exact c14_accepted_signed. Qed.
Print Assumptions C14_accepted_signed.

(** C14.  In every reachable state every accepted event ends a log of accepted events of
    its prefix, and its stored signatures satisfy the keys and threshold of the
    establishment event in force at it. *)
Theorem C14_log_signed : forall E H cf dx p s, world H -> reachable E H cf dx -> In s (fels (fst dx) p) ->
  exists e c ee, e_said e = s /\ e_pre e = p /\ log H (e :: c) /\ Forall (fun a => In (e_said a) (fels (fst dx) p)) c /\
    est_of (e :: c) = Some ee /\ signedBy E (e_keys ee) (e_kt ee) (e_raw e) (getSigs (snd dx) p s).
Proof. exact c14_log_signed. Qed.
Print Assumptions C14_log_signed.

Example C14_example : world (Hof evsA) /\ Forall (real_op (Hof evsA)) opsA /\ fels (fst dxA) 7 = [20; 21; 22; 23; 24].
Proof. split; [apply world_of; reflexivity|]. split; [unfold opsA; reals|]. vm_compute. reflexivity. Qed.

(** C15.  A rotation enters the log only if keys that the key state before it commits to
    satisfy that state's next threshold. *)
Theorem C15_exposed : forall E cf m dx dx', enters E cf m dx dx' -> isRot (e_ilk (m_evt m)) = true ->
  exists k, keyState dx (e_pre (m_evt m)) = Some k /\ k_ndigs k <> [] /\
    exposedBy E (e_keys (m_evt m)) (e_raw (m_evt m)) (k_ndigs k) (k_nt k) (m_sigers m).
Proof. exact c15_exposed. Qed.
Print Assumptions C15_exposed.

(** C15 on the log: every accepted rotation is signed by keys committed to by the
    establishment event before it in the log that it ends.  Partial: it is proved when
    next thresholds fit their digest lists and no establishment event has been superseded by
    a delegated rotation; see C15_superseding_refuted. *)
Theorem C15_log_exposed_partial : forall E H cf dx p s, world H -> sane H -> reachable E H cf dx -> no_est_superseded dx p ->
  In s (fels (fst dx) p) -> exists e c, e_said e = s /\ e_pre e = p /\ log H (e :: c) /\
    (isRot (e_ilk e) = true -> exists ee, est_of c = Some ee /\ e_ndigs ee <> [] /\
       exposedBy E (e_keys e) (e_raw e) (e_ndigs ee) (e_nt ee) (getSigs (snd dx) p s)).
Proof. exact c15_log_exposed_partial. Qed.
Print Assumptions C15_log_exposed_partial.

(** C16.  The key state of a prefix is that of its last event, which ends a log reaching
    back to an inception through prior digests, with sequence numbers going up by one. *)
Theorem C16_chain : forall E H cf dx p k, world H -> reachable E H cf dx -> keyState dx p = Some k ->
  exists c ee, log H (k_evt k :: c) /\ Forall (fun a => e_pre a = p /\ In (e_said a) (fels (fst dx) p)) (k_evt k :: c) /\
    k_pre k = p /\ k_sn k = e_sn (k_evt k) /\ k_ilk k = e_ilk (k_evt k) /\
    est_of (k_evt k :: c) = Some ee /\ k_keys k = e_keys ee /\ k_tholder k = e_kt ee /\ k_ndigs k = e_ndigs ee /\ k_nt k = e_nt ee /\
    k_toad k = e_bt ee /\ k_lastS k = e_sn ee /\ k_lastD k = e_said ee.
Proof. exact c16_chain. Qed.
Print Assumptions C16_chain.

Example C16_example : reachable E1 (Hof evsA) cf0 dxA /\
  exists k, keyState dxA 7 = Some k /\ k_evt k = A2r /\ k_lastD k = 23 /\ k_keys k = [2].
Proof.
  split; [exists opsA; split; [unfold opsA; reals|reflexivity]|].
  eexists. split; [vm_compute; reflexivity|]. vm_compute. auto.
Qed.

(** C44.  The log can be read back: at every sn up to the current one the last entry stored
    is the event of the log under the current state.  Partial: same conditions as
    C15_log_exposed_partial; see C44_readback_refuted. *)
Theorem C44_readback_partial : forall E H cf dx p k n, world H -> sane H -> reachable E H cf dx -> no_est_superseded dx p ->
  keyState dx p = Some k -> n <= k_sn k ->
  exists c a, log H (k_evt k :: c) /\ In a (k_evt k :: c) /\ e_sn a = n /\ klast (kels (fst dx) p) n = Some (e_said a).
Proof. exact c44_readback_partial. Qed.
Print Assumptions C44_readback_partial.

(** C17.  First seen entries are never removed, moved or overwritten, and the recorded
    events stay the same. *)
Theorem C17_append_only : forall E H cf dx ops p, world H -> reachable E H cf dx -> Forall (real_op H) ops ->
  exists l, fels (fst (run E cf ops dx)) p = fels (fst dx) p ++ l /\
            seen (run E cf ops dx) p = seen dx p ++ map (evts (snd (run E cf ops dx)) p) l.
Proof. exact c17_append_only. Qed.
Print Assumptions C17_append_only.

(** C17.  Every entry has an ordinal, and the ordinal recorded for an event is a position
    where the event stands. *)
Theorem C17_ordinals : forall E H cf dx p s, world H -> reachable E H cf dx ->
  (forall n, fons (fst dx) p s = Some n -> nth_error (fels (fst dx) p) (N.to_nat n) = Some s) /\
  (In s (fels (fst dx) p) -> exists n, fons (fst dx) p s = Some n).
Proof. exact c17_ordinals. Qed.
Print Assumptions C17_ordinals.

(** C45.  No event is first seen twice, so ordinals are unique.  Partial: same conditions
    as C15_log_exposed_partial; see C45_twice_refuted. *)
Theorem C45_once_partial : forall E H cf dx p, world H -> sane H -> reachable E H cf dx -> no_est_superseded dx p ->
  NoDup (fels (fst dx) p).
Proof. exact c45_once_partial. Qed.
Print Assumptions C45_once_partial.

(** C18.  How an event that is not an inception attaches: it extends the last event, or it
    is a rotation above the last establishment event that replaces interactions, or it is a
    delegated rotation not below the last establishment event.  In the last two cases it
    names the last event stored at the sn before it. *)
Theorem C18_attaches : forall E cf m dx dx', enters E cf m dx dx' -> isIncept (e_ilk (m_evt m)) = false ->
  exists k, keyState dx (e_pre (m_evt m)) = Some k /\
   ((e_sn (m_evt m) = k_sn k + 1 /\ e_prior (m_evt m) = Some (e_said (k_evt k))) \/
    ((e_ilk (m_evt m) = Rot /\ k_ilk k = Ixn /\ k_lastS k < e_sn (m_evt m) \/ e_ilk (m_evt m) = Drt /\ k_lastS k <= e_sn (m_evt m)) /\
     0 < e_sn (m_evt m) <= k_sn k /\
     exists s pe, klast (kels (fst dx) (e_pre (m_evt m))) (e_sn (m_evt m) - 1) = Some s /\
       evts (snd dx) (e_pre (m_evt m)) s = Some pe /\ e_prior (m_evt m) = Some (e_said pe))).
Proof. exact c18_attaches. Qed.
Print Assumptions C18_attaches.

(** C18.  Every event accepted after an establishment event has a higher sn, unless it is a
    delegated rotation at the same sn.  Partial: next thresholds fit their digest
    lists; see C18_superseded_refuted. *)
Theorem C18_first_seen_wins_partial : forall E H cf dx p i j ei ej, world H -> sane H -> reachable E H cf dx ->
  (i < j)%nat -> nth_error (seen dx p) i = Some (Some ei) -> nth_error (seen dx p) j = Some (Some ej) ->
  isEst (e_ilk ei) = true -> e_sn ei < e_sn ej \/ (e_ilk ej = Drt /\ e_sn ei = e_sn ej).
Proof. exact c18_first_seen_wins_partial. Qed.
Print Assumptions C18_first_seen_wins_partial.

Example C18_example : sane (Hof evsA) /\ seen dxA 7 = map Some [A0; A1; A2; A1r; A2r].
Proof. split; [apply sane_of; reflexivity|]. vm_compute. reflexivity. Qed.

(** C19.  In every key state the witnesses are pairwise different and the witness threshold
    is between 1 and their number (0 when there are none). *)
Theorem C19_wellformed : forall E H cf dx p k, world H -> reachable E H cf dx -> keyState dx p = Some k ->
  NoDup (k_wits k) /\ inbounds (k_toad k) (k_wits k).
Proof. exact c19_wellformed. Qed.
Print Assumptions C19_wellformed.

(** C19.  The witness list after an inception is the event's; after a rotation it is the one
    before without the cuts and with the adds at the end; cuts were witnesses, adds were
    not; interactions keep it.  Partial: rotations that extend the last event; see
    C19_recovery_refuted. *)
Theorem C19_delta_partial : forall E H cf m dx dx' k', world H -> reachable E H cf dx -> enters E cf m dx dx' ->
  keyState dx' (e_pre (m_evt m)) = Some k' ->
  match keyState dx (e_pre (m_evt m)) with
  | None => k_wits k' = e_wits (m_evt m)
  | Some k => if isRot (e_ilk (m_evt m))
      then k_sn k < e_sn (m_evt m) ->
        k_wits k' = filter (fun w => negb (memN w (e_cuts (m_evt m)))) (k_wits k) ++ e_adds (m_evt m) /\
        incl (e_cuts (m_evt m)) (k_wits k) /\ (forall w, In w (e_adds (m_evt m)) -> ~ In w (k_wits k)) /\
        NoDup (e_cuts (m_evt m)) /\ NoDup (e_adds (m_evt m))
      else k_wits k' = k_wits k
  end.
Proof. exact c19_delta_partial. Qed.
Print Assumptions C19_delta_partial.

(** C20.  An event enters at a node that is no party to it only with at least as many
    different witness signatures as the threshold, all verified with keys of the witness
    list.  Partial: signatures are counted by their text; when no two of them point to the
    same witness, as many different witnesses signed; see C20_distinct_refuted. *)
Theorem C20_witnessed_partial : forall E H cf m dx dx' k', world H -> reachable E H cf dx -> enters E cf m dx dx' ->
  keyState dx' (e_pre (m_evt m)) = Some k' -> outsider cf (e_pre (m_evt m)) (k_wits k') ->
  exists ws, incl ws (m_wigers m) /\ NoDup (map sg_qb64 ws) /\ Forall (verified E (k_wits k') (e_raw (m_evt m))) ws /\
    k_toad k' <= len ws /\
    (NoDup (map sg_index ws) -> NoDup (k_wits k') ->
       exists signers, NoDup signers /\ k_toad k' <= len signers /\
         forall w, In w signers -> In w (k_wits k') /\ exists s, In s (m_wigers m) /\ vrfy E w (sg_raw s) (e_raw (m_evt m)) = true).
Proof. exact c20_witnessed_partial. Qed.
Print Assumptions C20_witnessed_partial.

(** C21.  A delegated inception, or a delegated rotation of a delegated identifier, enters
    at a node that is no party to it only if the delegator is known, permits delegation, and
    an accepted event of the delegator has a seal with prefix, sn and said of the event.
    Partial: a delegated rotation of an identifier that is not delegated needs nothing, see
    C21_undelegated_refuted. *)
Theorem C21_sealed_partial : forall E H cf m dx dx' k', world H -> reachable E H cf dx -> enters E cf m dx dx' ->
  keyState dx' (e_pre (m_evt m)) = Some k' -> isDel (e_ilk (m_evt m)) = true -> k_delpre k' <> None ->
  outsider cf (e_pre (m_evt m)) (k_wits k') ->
  (forall k w, keyState dx (e_pre (m_evt m)) = Some k -> In w (k_wits k) -> ~ In w (c_prefixes cf)) ->
  exists dp dk de, k_delpre k' = Some dp /\ (e_ilk (m_evt m) = Dip -> e_delpre (m_evt m) = Some dp) /\
    keyState dx dp = Some dk /\ k_dnd dk = false /\
    In (e_said de) (fels (fst dx) dp) /\ e_pre de = dp /\ real H de /\
    In (SealEvt (e_pre (m_evt m)) (e_sn (m_evt m)) (e_said (m_evt m))) (e_seals de).
Proof. exact c21_sealed_partial. Qed.
Print Assumptions C21_sealed_partial.

(** C22.  When processing a message raises, accepted logs, ordinals, key state records and
    key states are as before.  Partial: next thresholds fit their digest lists; see
    C22_refuted. *)
Theorem C22_rejected_no_effect_partial : forall E H cf m dx dx' ex, world H -> sane H -> reachable E H cf dx -> real H (m_evt m) ->
  processEvent E cf m dx = (dx', Err ex) -> same_acc (fst dx) (fst dx') /\ (forall p, keyState dx' p = keyState dx p).
Proof. exact c22_rejected_no_effect_partial. Qed.
Print Assumptions C22_rejected_no_effect_partial.

(** C24.  Every log of accepted events obeys the rules set by its inception event: nothing
    follows a non transferable inception, no interaction follows an establishment only
    one, and after a delegated one rotations are delegated. *)
Theorem C24_lawful : forall E H cf dx p s, world H -> reachable E H cf dx -> In s (fels (fst dx) p) ->
  exists e c, e_said e = s /\ e_pre e = p /\ log H (e :: c) /\ lawful E (e :: c).
Proof. exact c24_lawful. Qed.
Print Assumptions C24_lawful.

(** C24.  Once an identifier has no next digests, or if its prefix is non transferable, its
    log never grows again.  Partial: next thresholds fit their digest lists. *)
Theorem C24_final_partial : forall E H cf dx p k ops, world H -> sane H -> reachable E H cf dx -> Forall (real_op H) ops ->
  keyState dx p = Some k -> k_ndigs k = [] \/ transf E p = false -> fels (fst (run E cf ops dx)) p = fels (fst dx) p.
Proof. exact c24_final_partial. Qed.
Print Assumptions C24_final_partial.

(** C25.  Processing an event again that was accepted before leaves accepted logs, ordinals
    and key states as they are.  Partial: not for delegated rotations, and under the
    conditions of C15_log_exposed_partial; see C25_drt_refuted. *)
Theorem C25_idempotent_partial : forall E H cf m dx dx' r, world H -> sane H -> reachable E H cf dx -> real H (m_evt m) ->
  no_est_superseded dx (e_pre (m_evt m)) -> In (e_said (m_evt m)) (fels (fst dx) (e_pre (m_evt m))) -> e_ilk (m_evt m) <> Drt ->
  processEvent E cf m dx = (dx', r) -> same_acc (fst dx) (fst dx').
Proof. exact c25_idempotent_partial. Qed.
Print Assumptions C25_idempotent_partial.

Example C25_example : In (e_said A1) (fels (fst dxA) 7) /\
  fels (fst (run E1 cf0 [dlv A1 [sign A1 1 0 None]; dlv A0 [sign A0 1 0 None]; dlv A1r [sign A1r 2 0 (Some 0)]] dxA)) 7 = fels (fst dxA) 7.
Proof. split; vm_compute; [auto|reflexivity]. Qed.

(** C26.  After a restart every key state read back from the database is the one held in
    memory before, up to the cue deck and the remembered protocol version.  Partial:
    next thresholds fit their digest lists; see C26_cues_refuted and C26_unpinned_refuted. *)
Theorem C26_reload_partial : forall E H cf dx p, world H -> sane H -> reachable E H cf dx ->
  match keyState dx p, keyState (restart dx) p with
  | Some k, Some k' => same_state k k'
  | None, None => True
  | _, _ => False
  end.
Proof. exact c26_reload_partial. Qed.
Print Assumptions C26_reload_partial.

(** C40.  Take a reachable state and any later one.  What the log held up to the last
    establishment event stays in the log, and accepted events that were off the log
    (superseded) never come back into it.  Partial: same conditions as
    C15_log_exposed_partial. *)
Theorem C40_no_resurrection_partial : forall E H cf dx ops p k k' c c', world H -> sane H -> reachable E H cf dx ->
  Forall (real_op H) ops -> no_est_superseded (run E cf ops dx) p ->
  keyState dx p = Some k -> keyState (run E cf ops dx) p = Some k' -> log H (k_evt k :: c) -> log H (k_evt k' :: c') ->
  (forall a, In a (k_evt k :: c) -> e_sn a <= k_lastS k -> In a (k_evt k' :: c')) /\
  (forall a, real H a -> In (e_said a) (fels (fst dx) p) -> ~ In a (k_evt k :: c) -> ~ In a (k_evt k' :: c')).
Proof. exact c40_no_resurrection_partial. Qed.
Print Assumptions C40_no_resurrection_partial.

Example C40_example : no_est_superseded dxA 7.
Proof.
  intros i j ei ej L A B IE DR. exfalso. revert B.
  replace (seen dxA 7) with (map Some [A0; A1; A2; A1r; A2r]) by (vm_compute; reflexivity).
  destruct j as [|[|[|[|[|j]]]]]; cbn [map nth_error]; intros B; try (injection B as <-; discriminate DR). destruct j; discriminate.
Qed.

(** The premises of C21 are met: the delegated inception and rotation are accepted. *)
Example C21_example : reachable E1 (Hof evsD) cf0 (run E1 cf0 opsD db0) /\ seen (run E1 cf0 opsD db0) 9 = map Some [D0; D1] /\
  (exists k, keyState (run E1 cf0 opsD db0) 9 = Some k /\ k_delpre k = Some 8 /\ outsider cf0 9 (k_wits k)).
Proof.
  split; [exists opsD; split; [unfold opsD; reals|reflexivity]|]. split; [vm_compute; reflexivity|].
  eexists. split; [vm_compute; reflexivity|]. split; [reflexivity|]. repeat split; cbn; auto.
Qed.

(** One key can meet a threshold of two: two different texts of a signature by the same
    key are both counted. *)
Theorem C14_distinct_refuted : exists E H cf m e, world H /\ real H e /\ m_evt m = e /\ e_kt e = TNum 2 /\ e_keys e = [1; 2] /\
  enters E cf m db0 (fst (processEvent E cf m db0)) /\ Forall (fun s => vrfy E 2 (sg_raw s) (e_raw e) = false) (m_sigers m).
Proof. exact c14_distinct_refuted. Qed.
Print Assumptions C14_distinct_refuted.

(** A delegated rotation that supersedes another one is checked against the next digests
    of the event it supersedes, not of the establishment event before it in its log. *)
Theorem C15_superseding_refuted : exists E H cf dx p k c pe, world H /\ sane H /\ reachable E H cf dx /\ keyState dx p = Some k /\
  log H (k_evt k :: c) /\ isRot (e_ilk (k_evt k)) = true /\ est_of c = Some pe /\
  forall key dg, In key (e_keys (k_evt k)) -> In dg (e_ndigs pe) -> commits E dg key = false.
Proof. exact c15_superseding_refuted. Qed.
Print Assumptions C15_superseding_refuted.

(** A delegated rotation can be superseded and then accepted a second time; then the last
    entry stored at its sn is not the event of the current key state. *)
Theorem C44_readback_refuted : exists E H cf dx p k, world H /\ sane H /\ reachable E H cf dx /\ keyState dx p = Some k /\
  klast (kels (fst dx) p) (k_sn k) <> Some (e_said (k_evt k)).
Proof. exact c44_readback_refuted. Qed.
Print Assumptions C44_readback_refuted.

(** The same event can get two first seen ordinals; the record keeps only the later one. *)
Theorem C45_twice_refuted : exists E H cf dx p s, world H /\ sane H /\ reachable E H cf dx /\
  nth_error (fels (fst dx) p) 1 = Some s /\ nth_error (fels (fst dx) p) 3 = Some s /\ fons (fst dx) p s = Some 3.
Proof. exact c45_twice_refuted. Qed.
Print Assumptions C45_twice_refuted.

Theorem C18_superseded_refuted : exists E H cf dx dx' m k, world H /\ sane H /\ reachable E H cf dx /\ real H (m_evt m) /\
  enters E cf m dx dx' /\ keyState dx (e_pre (m_evt m)) = Some k /\ k_delpre k = None /\
  e_ilk (k_evt k) = Rot /\ e_sn (k_evt k) = e_sn (m_evt m) /\ k_evt k <> m_evt m.
Proof. exact c18_superseded_refuted. Qed.
Print Assumptions C18_superseded_refuted.

(** The same history refutes C21 for delegated rotations in general. *)
Theorem C21_undelegated_refuted : exists E H cf dx dx' m, world H /\ sane H /\ reachable E H cf dx /\ real H (m_evt m) /\
  enters E cf m dx dx' /\ e_ilk (m_evt m) = Drt /\ outsider cf (e_pre (m_evt m)) [] /\
  forall p s de, In s (fels (fst dx) p) -> evts (snd dx) p s = Some de -> e_seals de = [].
Proof. exact c21_undelegated_refuted. Qed.
Print Assumptions C21_undelegated_refuted.

Theorem C22_refuted : exists E H cf dx dx' m ex, world H /\ reachable E H cf dx /\ real H (m_evt m) /\
  processEvent E cf m dx = (dx', Err ex) /\ fels (fst dx') (e_pre (m_evt m)) = fels (fst dx) (e_pre (m_evt m)) ++ [e_said (m_evt m)].
Proof. exact c22_refuted. Qed.
Print Assumptions C22_refuted.

(** After such a rotation the key state held in memory is lost by a restart, and an
    interaction signed with the old keys is accepted at the sn of the accepted rotation. *)
Theorem C26_unpinned_refuted : exists E H cf dx m k k' dx', world H /\ reachable E H cf dx /\ real H (m_evt m) /\
  keyState dx (e_pre (m_evt m)) = Some k /\ keyState (restart dx) (e_pre (m_evt m)) = Some k' /\ k_keys k <> k_keys k' /\
  enters E cf m (restart dx) dx' /\ e_ilk (m_evt m) = Ixn /\ e_sn (m_evt m) = k_sn k /\ isRot (k_ilk k) = true /\
  In (e_said (k_evt k)) (fels (fst dx) (e_pre (m_evt m))).
Proof. exact c26_unpinned_refuted. Qed.
Print Assumptions C26_unpinned_refuted.

Theorem C24_final_refuted : exists E H cf dx p k ops, world H /\ reachable E H cf dx /\ Forall (real_op H) ops /\
  keyState dx p = Some k /\ k_ndigs k = [] /\ fels (fst (run E cf ops dx)) p <> fels (fst dx) p.
Proof. exact c24_final_refuted. Qed.
Print Assumptions C24_final_refuted.

(** Delivering a superseded delegated rotation again, with another seal of its delegator,
    brings it back into the log. *)
Theorem C40_resurrection_refuted : exists E H cf dx ops p k k' c c' a, world H /\ sane H /\ reachable E H cf dx /\
  Forall (real_op H) ops /\ keyState dx p = Some k /\ keyState (run E cf ops dx) p = Some k' /\
  log H (k_evt k :: c) /\ log H (k_evt k' :: c') /\
  real H a /\ In (e_said a) (fels (fst dx) p) /\ ~ In a (k_evt k :: c) /\ In a (k_evt k' :: c').
Proof. exact c40_resurrection_refuted. Qed.
Print Assumptions C40_resurrection_refuted.

Theorem C19_recovery_refuted : exists E H cf dx dx' m k k', world H /\ sane H /\ reachable E H cf dx /\ real H (m_evt m) /\
  enters E cf m dx dx' /\ isRot (e_ilk (m_evt m)) = true /\ keyState dx (e_pre (m_evt m)) = Some k /\ keyState dx' (e_pre (m_evt m)) = Some k' /\
  k_evt k' = m_evt m /\ k_wits k = [50; 51] /\ e_cuts (m_evt m) = [50] /\ e_adds (m_evt m) = [52] /\ k_wits k' = [50; 51].
Proof. exact c19_recovery_refuted. Qed.
Print Assumptions C19_recovery_refuted.

(** The premises of C19_delta_partial and C20_witnessed_partial are met by the first of
    these events, with two witnesses and a threshold of one. *)
Example C19_example : enters E1 cf0 (msgT W0 [sign W0 1 0 None] [sign W0 51 1 None] None) db0 (run E1 cf0 (firstn 1 opsW) db0) /\
  (exists k, keyState (run E1 cf0 (firstn 1 opsW) db0) 7 = Some k /\ k_wits k = [50; 51] /\ k_toad k = 1 /\ outsider cf0 7 (k_wits k)).
Proof.
  split; [split; [reflexivity|vm_compute; discriminate]|]. eexists. split; [vm_compute; reflexivity|].
  split; [reflexivity|]. split; [reflexivity|]. repeat split; cbn; auto.
Qed.

(** One witness can meet a witness threshold of two. *)
Theorem C20_distinct_refuted : exists E H cf m e, world H /\ real H e /\ m_evt m = e /\ e_bt e = 2 /\ e_wits e = [50; 51] /\
  outsider cf (e_pre e) (e_wits e) /\
  enters E cf m db0 (fst (processEvent E cf m db0)) /\ Forall (fun s => vrfy E 51 (sg_raw s) (e_raw e) = false) (m_wigers m).
Proof. exact c20_distinct_refuted. Qed.
Print Assumptions C20_distinct_refuted.

(** Processing a delegated rotation again that was accepted before changes the key state
    and the first seen log. *)
Theorem C25_drt_refuted : exists E H cf dx dx' m k k', world H /\ sane H /\ reachable E H cf dx /\ real H (m_evt m) /\
  In (e_said (m_evt m)) (fels (fst dx) (e_pre (m_evt m))) /\ enters E cf m dx dx' /\
  keyState dx (e_pre (m_evt m)) = Some k /\ keyState dx' (e_pre (m_evt m)) = Some k' /\ k_keys k <> k_keys k'.
Proof. exact c25_drt_refuted. Qed.
Print Assumptions C25_drt_refuted.

Theorem C26_cues_refuted : exists E H cf pre late p s, world H /\ sane H /\ Forall (real_op H) (pre ++ late) /\
  In s (fels (fst (run E cf (pre ++ late) db0)) p) /\ ~ In s (fels (fst (run E cf (pre ++ [Restart] ++ late) db0)) p).
Proof. exact c26_cues_refuted. Qed.
Print Assumptions C26_cues_refuted.

(** Premises met by ordinary events. *)
Example C15_example : enters E1 cf0 (msgT A1r [sign A1r 2 0 (Some 0)] [] None) (run E1 cf0 (firstn 4 opsA) db0)
  (fst (processEvent E1 cf0 (msgT A1r [sign A1r 2 0 (Some 0)] [] None) (run E1 cf0 (firstn 4 opsA) db0))).
Proof. split; [reflexivity|vm_compute; discriminate]. Qed.

Example C22_example : snd (processEvent E1 cf0 (msgT A2r [sign A2r 1 0 None] [] None) (run E1 cf0 (firstn 6 opsA) db0)) = Err ValidationError /\
  snd (processEvent E1 cf0 (msgT A2 [sign A2 1 0 None] [] None) (run E1 cf0 (firstn 2 opsA) db0)) = Err OutOfOrderError.
Proof. split; vm_compute; reflexivity. Qed.

Example C24_example : world (Hof [A0; Z1]) /\ sane (Hof [A0; Z1]) /\ reachable E1 (Hof [A0; Z1]) cf0 (run E1 cf0 opsZ db0) /\
  exists k, keyState (run E1 cf0 opsZ db0) 7 = Some k /\ k_ndigs k = [] /\ k_evt k = Z1.
Proof.
  split; [apply world_of; reflexivity|]. split; [apply sane_of; reflexivity|].
  split; [exists opsZ; split; [unfold opsZ; reals|reflexivity]|]. eexists. split; [vm_compute; reflexivity|]. auto.
Qed.
