(** Transaction event logs *)
From Verif Require Import Prelude B64Model MatterModel SubsModel ThModel ThProofs KelModel TlModel TlSpec TlProofs TlInv TlBack TlLive TlThms.
Open Scope N_scope.

(** Every entry of every log is an event that was delivered, that names a registry, and that is
    sealed in the key event log of the identifier that incepted that registry. *)
Theorem C36_anchored : forall E cf h p sn g, telAt (truns E cf h tdb0) p sn = Some g ->
  exists e ii, delivered h e /\ t_pre e = p /\ t_sn e = sn /\ t_said e = g /\ controls h (registryOf e) ii /\ anchoredIn h ii e.
Proof. exact c36_anchored. Qed.
Print Assumptions C36_anchored.

Example C36_anchored_applies : telAt dOk 100 1 = Some 102 /\ telAt dOk 100 0 = Some 101 /\ telAt dOk 10 0 = Some 10.
Proof. vm_compute. repeat split. Qed.

(** Registries are named by their inception, so each has one controller. *)
Theorem C36_one_controller : forall h k ii ii', oneEvent h -> selfNamed h -> controls h k ii -> controls h k ii' -> ii = ii'.
Proof. exact c36_one_controller. Qed.
Print Assumptions C36_one_controller.

(** Logs have no gaps.  Entry 0 is an inception or issuance, later entries are not, and each
    revocation names the said of the entry before it. *)
Theorem C36_log_shape : forall E cf h p, let d := truns E cf h tdb0 in
  (forall sn, telAt d p (sn + 1) <> None -> telAt d p sn <> None)
  /\ (forall sn g, telAt d p sn = Some g -> exists e, delivered h e /\ t_pre e = p /\ t_sn e = sn /\ t_said e = g
        /\ (sn = 0 -> t_ilk e = Vcp \/ t_ilk e = Iss \/ t_ilk e = Bis)
        /\ (sn <> 0 -> t_ilk e = Vrt \/ (t_ilk e = Rev \/ t_ilk e = Brv) /\ telAt d p (sn - 1) = Some (t_prior e))).
Proof. exact c36_log_shape. Qed.
Print Assumptions C36_log_shape.

Example C36_log_shape_applies : telAt dOk 100 (0 + 1) <> None.
Proof. vm_compute. discriminate. Qed.

(** An entry is never changed or removed, whatever is delivered later. *)
Theorem C36_append_only : forall E cf h h' p sn g,
  telAt (truns E cf h tdb0) p sn = Some g -> telAt (truns E cf (h ++ h') tdb0) p sn = Some g.
Proof. exact c36_append_only. Qed.
Print Assumptions C36_append_only.

Theorem C36_stored : forall E cf h p sn g, telAt (truns E cf h tdb0) p sn = Some g ->
  exists e, tvts (truns E cf h tdb0) p g = Some e /\ delivered h e /\ t_pre e = p /\ t_said e = g.
Proof. exact c36_stored. Qed.
Print Assumptions C36_stored.

(** The status read off a log: revoked is final and issued cannot be undone. *)
Theorem C36_revoked_final : forall E cf h h' c, vcState (truns E cf h tdb0) c = Revoked -> vcState (truns E cf (h ++ h') tdb0) c = Revoked.
Proof. exact c36_revoked_final. Qed.
Print Assumptions C36_revoked_final.

Example C36_revoked_final_applies : vcState dOk 100 = Revoked /\ vcState (truns xE xCf (firstn 2 hOk) tdb0) 100 = Issued.
Proof. vm_compute. split; reflexivity. Qed.

Theorem C36_issued_once : forall E cf h h' c, vcState (truns E cf h tdb0) c = Issued ->
  exists g, telAt (truns E cf h tdb0) c 0 = Some g /\ telAt (truns E cf (h ++ h') tdb0) c 0 = Some g
    /\ vcState (truns E cf (h ++ h') tdb0) c <> NeverIssued.
Proof. exact c36_issued_once. Qed.
Print Assumptions C36_issued_once.

(** A credential that shows as revoked has an issuance and a revocation of it in its log, each
    sealed by the controller of the registry it names. *)
Theorem C36_revoked_meaning : forall E cf h c, vcState (truns E cf h tdb0) c = Revoked ->
  (forall e, delivered h e -> t_pre e = c -> t_ilk e <> Vcp) ->
  exists e r ii ri, delivered h e /\ t_pre e = c /\ t_sn e = 0 /\ (t_ilk e = Iss \/ t_ilk e = Bis) /\ controls h (registryOf e) ii /\ anchoredIn h ii e
    /\ delivered h r /\ t_pre r = c /\ t_sn r = 1 /\ (t_ilk r = Rev \/ t_ilk r = Brv) /\ t_prior r = t_said e /\ controls h (registryOf r) ri /\ anchoredIn h ri r.
Proof. exact c36_revoked_meaning. Qed.
Print Assumptions C36_revoked_meaning.

Example C36_revoked_meaning_applies : vcState dOk 100 = Revoked /\ forall e, delivered hOk e -> t_pre e = 100 -> t_ilk e <> Vcp.
Proof.
  split; [reflexivity|]. intros e (v & a & bs & J) P. unfold hOk in J. destruct J as [J|[J|[J|[]]]]; injection J as <- <- <- <-; cbn in *; congruence.
Qed.

(** Part of "only the issuer revokes": it holds when issuance and revocation name the same registry.
    Missing: that they do (see the refutation below). *)
Theorem C36_revoked_by_issuer_partial : forall E cf h c sn g g', oneEvent h -> selfNamed h ->
  telAt (truns E cf h tdb0) c 0 = Some g -> telAt (truns E cf h tdb0) c sn = Some g' ->
  (forall e e', delivered h e -> delivered h e' -> t_pre e = c -> t_pre e' = c -> registryOf e = registryOf e') ->
  exists e e' ii, delivered h e /\ delivered h e' /\ t_said e = g /\ t_said e' = g' /\ controls h (registryOf e) ii /\ anchoredIn h ii e /\ anchoredIn h ii e'.
Proof. exact c36_revoked_by_issuer_partial. Qed.
Print Assumptions C36_revoked_by_issuer_partial.

Example C36_revoked_by_issuer_applies : oneEvent hOk /\ selfNamed hOk /\ telAt dOk 100 0 = Some 101 /\ telAt dOk 100 1 = Some 102
  /\ forall e e', delivered hOk e -> delivered hOk e' -> t_pre e = 100 -> t_pre e' = 100 -> registryOf e = registryOf e'.
Proof.
  split; [apply hOk_one|]. split; [apply hOk_one|]. split; [reflexivity|]. split; [reflexivity|]. intros e e' (v & a & bs & J) (v' & a' & bs' & J') P G. unfold hOk in J, J'.
  destruct J as [J|[J|[J|[]]]]; injection J as <- <- <- <-; destruct J' as [J'|[J'|[J'|[]]]]; injection J' as <- <- <- <-; cbn in P, G; try reflexivity; discriminate.
Qed.

(** Part of "events of a registry with backers carry enough backer signatures": it holds for
    registry inceptions and for credential events that name the registry's inception.  Missing:
    credential events that name a registry rotation (see the refutations), registries that are
    their own backer, and that the signatures are of different backers. *)
Theorem C36_backed_partial : forall E cf h p sn g e, c_tlocal cf = false -> oneEvent h -> selfNamed h ->
  telAt (truns E cf h tdb0) p sn = Some g -> delivered h e -> t_pre e = p -> t_said e = g ->
  (t_ilk e = Vcp -> t_baks e <> [] -> ~ In p (t_baks e) -> wellBacked E e (t_toad e) (t_baks e))
  /\ (t_ilk e = Bis \/ t_ilk e = Brv -> forall r, delivered h r -> t_ilk r = Vcp -> t_ra e = (t_pre r, t_said r) ->
        t_baks r <> [] -> ~ In (t_pre r) (t_baks r) -> wellBacked E e (t_toad r) (t_baks r)).
Proof. exact c36_backed_partial. Qed.
Print Assumptions C36_backed_partial.

Example C36_backed_applies : oneEvent hBk /\ selfNamed hBk /\ telAt (truns xE xCf hBk tdb0) 100 0 = Some 101 /\ telAt (truns xE xCf hBk tdb0) 10 0 = Some 10
  /\ telAt (truns xE xCf [TDeliver vBk bVcp (at_ 1) [xsig 7 0 bVcp; xsig 9 1 bVcp]] tdb0) 10 0 = None.
Proof.
  split; [|split; [|vm_compute; repeat split]].
  - intros e e' (v & a & bs & J) (v' & a' & bs' & J') P G. unfold hBk in J, J'.
    destruct J as [J|[J|[]]]; injection J as <- <- <- <-; destruct J' as [J'|[J'|[]]]; injection J' as <- <- <- <-; cbn in P, G; try reflexivity; discriminate.
  - intros e (v & a & bs & J) K. unfold hBk in J. destruct J as [J|[J|[]]]; injection J as <- <- <- <-; cbn in *; congruence.
Qed.

(** An accepted registry rotation carries enough signatures of the backers it results in, unless
    there are none or the registry is one of them. *)
Theorem C36_rotation_backed : forall E cf v e a bs d d', tprocess E cf v e a bs d = (d', Ok tt) -> t_ilk e = Vrt ->
  exists tv tv', tget d (t_pre e) = Some tv /\ tget d' (t_pre e) = Some tv' /\ t_sn e = v_sn tv + 1 /\ t_prior e = v_said tv /\ anchored v (v_ii tv) e
    /\ v_ii tv' = v_ii tv /\ v_sn tv' = t_sn e /\ v_said tv' = t_said e
    /\ (v_baks tv' <> [] -> v_local tv = false -> ~ In (v_regk tv) (v_baks tv') -> wellBacked E e (v_toad tv') (v_baks tv')).
Proof. exact c36_rotation_backed. Qed.
Print Assumptions C36_rotation_backed.

Example C36_rotation_backed_applies :
  snd (tprocess xE xCf vBr bVrt (at_ 3) [xsig 9 1 bVrt; xsig 6 2 bVrt] (truns xE xCf [TDeliver vBr bVcp (at_ 1) [xsig 7 0 bVcp; xsig 9 2 bVcp]] tdb0)) = Ok tt.
Proof. vm_compute. reflexivity. Qed.

(** A registry known before a restart is known after it, with the same controller and kind. *)
Theorem C36_registry_survives_restart : forall E cf h k tv, tget (truns E cf h tdb0) k = Some tv ->
  exists tv', tget (truns E cf (h ++ [TRestart]) tdb0) k = Some tv' /\ v_ii tv' = v_ii tv /\ v_nob tv' = v_nob tv.
Proof. exact c36_registry_survives_restart. Qed.
Print Assumptions C36_registry_survives_restart.

Example C36_registry_survives_restart_applies : tget dOk 10 <> None.
Proof. vm_compute. discriminate. Qed.

(** ** Well formed events are accepted *)
Theorem C36_registry_opens : forall E cf v e a bs d, goodPre E (t_pre e) = true -> t_ilk e = Vcp -> t_sn e = 0 -> allowed cf (t_pre e) -> tget d (t_pre e) = None ->
  NoDup (t_baks e) -> (forall b, In b (t_baks e) -> goodBak E b = true) -> fits (t_toad e) (t_baks e) ->
  sealedAt v (t_ii e) a e -> signedBy E e bs (t_baks e) -> t_toad e <= len bs ->
  exists d' tv, tprocess E cf v e (Some a) bs d = (d', Ok tt) /\ tget d' (t_pre e) = Some tv /\ v_ii tv = t_ii e /\ v_nob tv = t_nob e /\ telAt d' (t_pre e) 0 <> None.
Proof. exact c36_registry_opens. Qed.
Print Assumptions C36_registry_opens.

Example C36_registry_opens_applies : sealedAt vBk 1 (1, 1001) bVcp /\ signedBy xE bVcp [xsig 7 0 bVcp; xsig 9 2 bVcp] (t_baks bVcp) /\ fits 2 (t_baks bVcp) /\ allowed xCf 10.
Proof.
  split; [reflexivity|]. split; [split|split].
  - cbn. repeat constructor; cbn; intros J; intuition discriminate.
  - intros s [<- |[<- |[]]]; eexists; split; reflexivity.
  - cbn. split; lia.
  - right. reflexivity.
Qed.

(** In a known registry without backers, the first sealed issuance of a credential is accepted, and
    so is the sealed revocation of an issued one. *)
Theorem C36_issue_accepted : forall E cf h v e a bs tv, let d := truns E cf h tdb0 in
  goodPre E (t_pre e) = true -> t_ilk e = Iss -> t_sn e = 0 -> allowed cf (t_ri e) -> tget d (t_ri e) = Some tv -> v_nob tv = true ->
  vcState d (t_pre e) = NeverIssued -> sealedAt v (v_ii tv) a e ->
  exists d', tprocess E cf v e (Some a) bs d = (d', Ok tt) /\ vcState d' (t_pre e) = Issued /\ telAt d' (t_pre e) 0 = Some (t_said e).
Proof. exact c36_issue_accepted. Qed.
Print Assumptions C36_issue_accepted.

Theorem C36_revoke_accepted : forall E cf h v e a bs tv, let d := truns E cf h tdb0 in
  goodPre E (t_pre e) = true -> t_ilk e = Rev -> t_sn e = 1 -> allowed cf (t_ri e) -> tget d (t_ri e) = Some tv -> v_nob tv = true ->
  vcState d (t_pre e) = Issued -> telAt d (t_pre e) 0 = Some (t_prior e) -> sealedAt v (v_ii tv) a e ->
  exists d', tprocess E cf v e (Some a) bs d = (d', Ok tt) /\ vcState d' (t_pre e) = Revoked /\ telAt d' (t_pre e) 1 = Some (t_said e).
Proof. exact c36_revoke_accepted. Qed.
Print Assumptions C36_revoke_accepted.

Example C36_revoke_accepted_applies :
  let d := truns xE xCf (firstn 2 hOk) tdb0 in let e := xrev 100 1 102 10 101 in
  tget d 10 = Some (mkTever 1 10 0 10 0 [] true false) /\ vcState d 100 = Issued /\ telAt d 100 0 = Some (t_prior e) /\ sealedAt vOk 1 (3, 1003) e /\ allowed xCf 10
  /\ vcState (truns xE xCf (firstn 1 hOk) tdb0) 100 = NeverIssued.
Proof. cbv zeta. split; [reflexivity|]. split; [reflexivity|]. split; [reflexivity|]. split; [reflexivity|]. split; [right; reflexivity|reflexivity]. Qed.

(** Part of "an event that arrives before its anchor is accepted once the anchor is known": here
    for issuances in registries without backers, when no other event waits.  Missing: other kinds
    and other waiting events (see the refutations). *)
Theorem C36_waits_for_anchor_partial : forall E cf h v0 v e a bs tv, let d := truns E cf h tdb0 in
  goodPre E (t_pre e) = true -> t_ilk e = Iss -> t_sn e = 0 -> allowed cf (t_ri e) -> tget d (t_ri e) = Some tv -> v_nob tv = true ->
  vcState d (t_pre e) = NeverIssued -> v0 (v_ii tv) (fst a) = None -> sealedAt v (v_ii tv) a e ->
  tvts d (t_pre e) (t_said e) = None -> ancs d (t_pre e) (t_said e) = None -> taes d = [] ->
  vcState (truns E cf (h ++ [TDeliver v0 e (Some a) bs]) tdb0) (t_pre e) = NeverIssued
  /\ telAt (truns E cf (h ++ [TDeliver v0 e (Some a) bs; TSweep v]) tdb0) (t_pre e) 0 = Some (t_said e).
Proof. exact c36_waits_for_anchor_partial. Qed.
Print Assumptions C36_waits_for_anchor_partial.

Example C36_waits_for_anchor_applies :
  let d := truns xE xCf (firstn 1 hOk) tdb0 in tvts d 100 101 = None /\ ancs d 100 101 = None /\ taes d = [] /\ sealv [(1, 1, xvcp 10 1)] 1 2 = None.
Proof. vm_compute. repeat split. Qed.

Theorem C36_foreign_revocation_refuted : exists E cf h c, oneEvent h /\ selfNamed h
  /\ (forall v, viewIn h v -> v = vF) /\ (forall k, 3 <= k -> vF 1 k = None)
  /\ vcState (truns E cf (firstn 3 h) tdb0) c = Issued /\ vcState (truns E cf h tdb0) c = Revoked
  /\ ~ (exists r, delivered h r /\ t_pre r = c /\ t_sn r = 1 /\ anchoredIn h 1 r).
Proof. exact c36_foreign_revocation_refuted. Qed.
Print Assumptions C36_foreign_revocation_refuted.

Theorem C36_foreign_issuance_refuted : exists E cf h v e a tv, let d := truns E cf h tdb0 in
  tget d (t_ri e) = Some tv /\ t_ilk e = Iss /\ sealedAt v (v_ii tv) a e
  /\ snd (tprocess E cf v e (Some a) [] d) = Err LikelyDuplicitousError /\ snd (tprocess E cf v e (Some a) [] (truns E cf (firstn 2 h) tdb0)) = Ok tt.
Proof. exact c36_foreign_issuance_refuted. Qed.
Print Assumptions C36_foreign_issuance_refuted.

Theorem C36_registry_log_polluted_refuted : exists E cf h k e, let d := truns E cf h tdb0 in
  controls h k 1 /\ telAt d k 1 = Some (t_said e) /\ tvts d k (t_said e) = Some e /\ registryOf e <> k.
Proof. exact c36_registry_log_polluted_refuted. Qed.
Print Assumptions C36_registry_log_polluted_refuted.

Theorem C36_revoked_twice_refuted : exists E cf h e v a, vcState (truns E cf h tdb0) (t_pre e) = Revoked /\ t_ilk e = Rev /\
  snd (tprocess E cf v e a [] (truns E cf h tdb0)) = Ok tt.
Proof. exact c36_revoked_twice_refuted. Qed.
Print Assumptions C36_revoked_twice_refuted.

Theorem C36_rotation_lost_refuted : exists E cf h v e e' a bs, let d := truns E cf h tdb0 in
  e <> e' /\ t_sn e = t_sn e' /\ telAt d (t_pre e) (t_sn e) = Some (t_said e)
  /\ snd (tprocess E cf v e' a bs d) = Err LikelyDuplicitousError
  /\ snd (tprocess E cf v e' a bs (trestart d)) = Ok tt
  /\ telAt (fst (tprocess E cf v e' a bs (trestart d))) (t_pre e) (t_sn e) = Some (t_said e)
  /\ option_map v_said (tget (fst (tprocess E cf v e' a bs (trestart d))) (t_pre e)) = Some (t_said e').
Proof. exact c36_rotation_lost_refuted. Qed.
Print Assumptions C36_rotation_lost_refuted.

Theorem C36_unaccepted_rotation_refuted : exists E cf h c, let d := truns E cf h tdb0 in
  vcState d c = Issued /\ tget d 10 = Some (mkTever 1 10 0 10 2 [7; 8; 9] false false) /\ telAt d 10 1 = None
  /\ exists e, telAt d c 0 = Some (t_said e) /\ tvts d c (t_said e) = Some e /\ fst (t_ra e) = 10
     /\ forall b, In b [7; 8; 9] -> forall v' a' bs s, In (TDeliver v' e a' bs) h -> In s bs -> tvrfy E b (sg_raw s) (t_raw e) = false.
Proof. exact c36_unaccepted_rotation_refuted. Qed.
Print Assumptions C36_unaccepted_rotation_refuted.

Theorem C36_no_signature_refuted : exists E cf h c, let d := truns E cf h tdb0 in
  vcState d c = Issued /\ tget d 10 = Some (mkTever 1 10 0 10 2 [7; 8; 9] false false)
  /\ forall v e a bs, In (TDeliver v e a bs) h -> t_pre e = c -> fst (t_ra e) = 10 /\ bs = [].
Proof. exact c36_no_signature_refuted. Qed.
Print Assumptions C36_no_signature_refuted.

Theorem C36_backer_counted_twice_refuted : exists E cf v e a bs, t_toad e = 2 /\ NoDup (t_baks e) /\
  snd (tprocess E cf v e a bs tdb0) = Ok tt /\ forall s, In s bs -> sg_index s = 0.
Proof. exact c36_backer_counted_twice_refuted. Qed.
Print Assumptions C36_backer_counted_twice_refuted.

(** An event that waits out of order is stored again at every sweep: the escrow doubles. *)
Theorem C36_escrow_doubles_refuted : exists E cf v e a, forall n,
  len (oots (truns E cf (TDeliver v e (Some a) [] :: repeat (TSweep v) n) tdb0)) = 2 ^ N.of_nat n.
Proof. exact c36_escrow_doubles_refuted. Qed.
Print Assumptions C36_escrow_doubles_refuted.

Theorem C36_waiting_event_dropped_refuted : exists E cf (h : list tact -> list tact) e' v a, 
  (forall f, exists l l', h f = l ++ f ++ l') /\ t_ri e' <> 10 /\
  vcState (truns E cf (h []) tdb0) 100 = Issued /\ vcState (truns E cf (h [TDeliver v e' a []]) tdb0) 100 = NeverIssued
  /\ oots (truns E cf (h [TDeliver v e' a []]) tdb0) = [].
Proof. exact c36_waiting_event_dropped_refuted. Qed.
Print Assumptions C36_waiting_event_dropped_refuted.

(** The anchor reference stored first stays: an event delivered first with a wrong reference waits
    for ever, though it was delivered again with the right one. *)
Theorem C36_wrong_anchor_kept_refuted : exists E cf v0 v e a a', sealedAt v 1 a' e /\
  let d := truns E cf [TDeliver v0 (xvcp 10 1) (at_ 1) []; TDeliver v0 e (Some a) []; TDeliver v0 e (Some a') []] tdb0 in
  vcState (truns E cf [TSweep v; TSweep v] d) (t_pre e) = NeverIssued /\ taes (truns E cf [TSweep v; TSweep v] d) <> [].
Proof. exact c36_wrong_anchor_kept_refuted. Qed.
Print Assumptions C36_wrong_anchor_kept_refuted.

(** A registry inception that lacks backer signatures is stored, but no sweep looks at it again. *)
Theorem C36_partially_backed_stuck_refuted : exists E cf v e a bs, let d := truns E cf [TDeliver v e a bs] tdb0 in
  twes d <> [] /\ forall n, truns E cf (repeat (TSweep v) n) d = d.
Proof. exact c36_partially_backed_stuck_refuted. Qed.
Print Assumptions C36_partially_backed_stuck_refuted.

Theorem C36_two_seals_refuted : exists E cf v e e' a, (exists said l, v 1 (fst a) = Some (said, l) /\ In (SealEvt (t_pre e) (t_sn e) (t_said e)) l /\ In (SealEvt (t_pre e') (t_sn e') (t_said e')) l)
  /\ snd (tprocess E cf v e (Some a) [] tdb0) = Err MissingAnchorError /\ snd (tprocess E cf v e' (Some a) [] tdb0) = Err MissingAnchorError.
Proof. exact c36_two_seals_refuted. Qed.
Print Assumptions C36_two_seals_refuted.
