(** Properties of notices of transaction states *)
From Verif Require Import Prelude SubsModel ThModel JsonModel RpModel RpSpec TsModel TsSpec TsProofs TsProofs2 TsThms.
From Coq Require Import Lia.
Open Scope N_scope.

(** In every history, a recorded state of a log by a source comes from a notice that was received, that has the right said, that the source has
    signed, and that says what the receiver's own log said at the time.  For credentials the source is the issuer of
    the registry, a backer or a watcher by the receiver's own records; for registries it is one by the records in the
    notice. *)
Theorem C120_recorded_partial : forall E es id aid d, current (B (run E es)) id aid = Some d ->
  exists e r n, In e es /\ received es r /\ saidOk (rv E) r = true /\ signed E (viewOf e) r aid /\ inLog (viewOf e) id d n /\
    ((vcSource E (viewOf e) r aid /\ saysVc E r id d n) \/ (regSource E (viewOf e) r aid /\ saysReg E r id d n)).
Proof. exact c120_recorded_partial. Qed.
Print Assumptions C120_recorded_partial.

(** But the notice about a registry names the issuer and the backers itself: a stranger that names itself is believed,
    although the receiver has the registry and knows its issuer and that it has no backers. *)
Theorem C120_source_refuted : ~ (forall E es id aid d, current (B (run E es)) id aid = Some d ->
  (forall r x, received es r -> asVc E r = Some x -> v_i x <> id) -> exists e, In e es /\ regTrusted E (viewOf e) id aid).
Proof. exact c120_source_refuted. Qed.
Print Assumptions C120_source_refuted.

(** While logs only grow, and no event of a registry is above its state, the recorded state of a registry by a source
    only moves on, whatever is received again; credential notices about a registry are left out. *)
Theorem C121_registry_partial : forall E es1 es2 id aid n, grows (es1 ++ es2) -> Forall (fun e => capped id (viewOf e)) (es1 ++ es2) ->
  (forall r x, received (es1 ++ es2) r -> asVc E r = Some x -> v_i x <> id) -> recordedAt es1 (run E es1) id aid n ->
  exists n', recordedAt (es1 ++ es2) (run E (es1 ++ es2)) id aid n' /\ n <= n'.
Proof. exact c121_registry_partial. Qed.
Print Assumptions C121_registry_partial.

(** A credential that was recorded as revoked is recorded as issued again when the old notice is received once more:
    the date of the recorded notice is looked for under the digest of the event, where there is none. *)
Theorem C121_credential_refuted : ~ (forall E es1 es2 id aid n, grows (es1 ++ es2) -> recordedAt es1 (run E es1) id aid n ->
  exists n', recordedAt (es1 ++ es2) (run E (es1 ++ es2)) id aid n' /\ n <= n').
Proof. exact c121_credential_refuted. Qed.
Print Assumptions C121_credential_refuted.

(** And the same for a registry, by a notice for credentials whose credential is the registry. *)
Theorem C121_route_refuted : ~ (forall E es1 es2 id aid n, grows (es1 ++ es2) -> Forall (fun e => capped id (viewOf e)) (es1 ++ es2) -> recordedAt es1 (run E es1) id aid n ->
  exists n', recordedAt (es1 ++ es2) (run E (es1 ++ es2)) id aid n' /\ n <= n').
Proof. exact c121_route_refuted. Qed.
Print Assumptions C121_route_refuted.

(** A notice with a couple of its nontransferable source, for which the receiver has all, is recorded when it comes. *)
Theorem C122_prompt_partial : forall E ds v s t r aid cg cs id d, saidOk (rv E) r = true -> onRoute E t r aid -> good E r aid cg -> In cg cs ->
  apart ds s -> ready E v (isReg t) r aid id d ->
  snd (deliver E v r cs [] s) = inl tt /\ current (B (fst (deliver E v r cs [] s))) id aid = Some d /\ dget (sns (B (fst (deliver E v r cs [] s)))) d = Some r /\
  In (Saved id d) (cues (fst (deliver E v r cs [] s))).
Proof. exact c122_prompt_partial. Qed.
Print Assumptions C122_prompt_partial.

(** One for which something is missing is put into the escrow with its signature, and but for one case there is a query
    for what is missing. *)
Theorem C122_escrowed_partial : forall E ds v s t r aid cg cs, saidOk (rv E) r = true -> onRoute E t r aid -> good E r aid cg -> In cg cs ->
  apart ds s -> proper s r -> lacks E v t r aid ->
  exists id, about E t r id /\ waiting (fst (deliver E v r cs [] s)) t id aid r cg /\
    (t <> CredMae -> ~ In (t, id, aid, q_said r) (nes (B s)) -> exists q, helps E v t r q /\ cues (fst (deliver E v r cs [] s)) = cues s ++ [q]).
Proof. exact c122_escrowed_partial. Qed.
Print Assumptions C122_escrowed_partial.

(** While something is missing the notice waits, for one hour from its date, and every pass gets through. *)
Theorem C122_waits_partial : forall E ds v now s t pre aid r cg, digests ds v -> apart ds s -> dotless E s -> plain s (q_said r) -> good E r aid cg -> onRoute E t r aid ->
  now - q_dt r <= 3600 * 1000000 -> waiting s t pre aid r cg -> lacks E v t r aid ->
  let s' := fst (pass E v now s) in snd (pass E v now s) = true /\ waiting s' t pre aid r cg /\ apart ds s' /\ dotless E s' /\ plain s' (q_said r).
Proof. exact c122_waits_partial. Qed.
Print Assumptions C122_waits_partial.

(** And once all is there the next pass records it and takes it out of the escrow. *)
Theorem C122_recorded_partial : forall E ds v now s t pre aid r cg id d, digests ds v -> apart ds s -> dotless E s -> plain s (q_said r) -> good E r aid cg -> onRoute E t r aid ->
  now - q_dt r <= 3600 * 1000000 -> waiting s t pre aid r cg -> ready E v (isReg t) r aid id d ->
  ~ In (t, pre, aid, q_said r) (nes (B (fst (pass E v now s)))) /\ exists new, cues (fst (pass E v now s)) = cues s ++ new /\ In (Saved id d) new.
Proof. exact c122_recorded_partial. Qed.
Print Assumptions C122_recorded_partial.

(** But the hour begins with the date that the notice has, not when it comes: an older one, that would be recorded if
    it came now, is dropped by the first pass. *)
Theorem C122_old_refuted : ~ (forall E ds v now s t pre aid r cg id d, digests ds v -> apart ds s -> dotless E s -> plain s (q_said r) -> good E r aid cg -> onRoute E t r aid ->
  waiting s t pre aid r cg -> ready E v (isReg t) r aid id d -> exists new, cues (fst (pass E v now s)) = cues s ++ new /\ In (Saved id d) new).
Proof. exact c122_old_refuted. Qed.
Print Assumptions C122_old_refuted.

(** And one notice stops them all: whoever sends one for a credential whose identifier has a dot, in a registry that is
    not known, signed or not, makes every pass raise from then on, and all other notices but those without registry
    wait for ever. *)
Theorem C122_dots_refuted : forall E v s r aid x cs gs, saidOk (rv E) r = true -> onRoute E CredMre r aid -> asVc E r = Some x -> In 46 (v_i x) -> tevers v (v_ri x) = None ->
  forall es, let s' := fold_left (step E) es (fst (deliver E v r cs gs s)) in
  (forall v' now, snd (pass E v' now s') = false) /\ forall t pre a d, t <> CredMre -> In (t, pre, a, d) (nes (B s)) -> In (t, pre, a, d) (nes (B s')).
Proof. exact c122_dots_refuted. Qed.
Print Assumptions C122_dots_refuted.

(** What is stored of a notice is never removed: without any signature, for an issuer that nobody knows, it stays. *)
Theorem C122_left_refuted : forall E v s r aid x, saidOk (rv E) r = true -> onRoute E RegMae r aid -> asReg E r = Some x -> knows v (r_ii x) = false ->
  forall es, dget (sns (B (fold_left (step E) es (fst (deliver E v r [] [] s))))) (q_said r) <> None.
Proof. exact c122_left_refuted. Qed.
Print Assumptions C122_left_refuted.

(** For a credential whose issuer is not known the query is for the source of the notice, not for the issuer. *)
Theorem C122_query_refuted : forall E ds v s r aid cg cs x u, saidOk (rv E) r = true -> onRoute E CredMae r aid -> good E r aid cg -> In cg cs -> apart ds s ->
  asVc E r = Some x -> tevers v (v_ri x) = Some u -> v_ra x <= tv_sn u -> knows v (tv_pre u) = false -> aid <> tv_pre u ->
  ~ In (CredMae, v_i x, aid, q_said r) (nes (B s)) -> cues (fst (deliver E v r cs [] s)) = cues s ++ [AskKel aid] /\ ~ helps E v CredMae r (AskKel aid).
Proof. exact c122_query_refuted. Qed.
Print Assumptions C122_query_refuted.
