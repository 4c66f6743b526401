(** replay of first seen logs *)
From Verif Require Import Prelude B64Model MatterModel SubsModel ThModel ThSpec ThThms KelModel KelSpec KelProofs KelInv KelThms OoSpec OoProofs OoProofs2 OoProofs3 OoProofs4 OoThms ClModel ClSpec ClProofs ClProofs2 ClProofs3 ClThms.
Open Scope N_scope.

(** Nothing is left out: the clone of a first seen log from a number on has one message for each row
    from that number on, in the same order, with that number, the recorded event and all that is
    recorded with it. *)
Theorem C95_all_cloned : forall E H cf dx p fn, world H -> reachable E H cf dx ->
  len (clonePre dx p fn) = len (fels (fst dx) p) - fn /\
  forall i s, nth_error (fels (fst dx) p) (N.to_nat fn + i) = Some s ->
    exists c, nth_error (clonePre dx p fn) i = Some c /\ accepted dx p (cl_evt c) /\ e_said (cl_evt c) = s /\ e_pre (cl_evt c) = p /\
      cl_fn c = fn + N.of_nat i /\ dtss (snd dx) p s = Some (cl_date c) /\ cl_sigers c = getSigs (snd dx) p s /\
      cl_wigers c = getWigs (snd dx) p s /\ cl_seal c = aess (snd dx) p s.
Proof. exact c95_all_cloned. Qed.
Print Assumptions C95_all_cloned.

(** Each cloned message carries enough signatures by the keys of the establishment event in force at
    its event, which is in the accepted log under it, to pass that threshold. *)
Theorem C95_signed : forall E H cf dx p fn c, world H -> reachable E H cf dx -> In c (clonePre dx p fn) ->
  exists l ee, log H (cl_evt c :: l) /\ Forall (fun e => accepted dx p e) (cl_evt c :: l) /\ est_of (cl_evt c :: l) = Some ee /\
    signedBy E (e_keys ee) (e_kt ee) (e_raw (cl_evt c)) (cl_sigers c).
Proof. exact c95_signed. Qed.
Print Assumptions C95_signed.

(** A receiver that knows nothing of an undelegated identifier and is given the clone of its first
    seen log ends with the log and the key state of the source, whether it is in cloned mode or not,
    and whatever rotations superseded whatever interactions.  Missing: delegated identifiers, and
    sources or receivers that are party to the log, where it is false (below). *)
Theorem C95_replay_partial : forall E H cf cf' dx dy p ms, world H -> sane H -> reachable E H cf dx ->
  undelegated dx p -> texts_differ dx p -> bystander cf dx p -> bystander cf' dx p ->
  reachable E H cf' dy -> unknown dy p -> Forall2 arrives (clonePre dx p 0) ms ->
  agree p (run E cf' (map Deliver ms) dy) dx.
Proof. exact c95_replay_partial. Qed.
Print Assumptions C95_replay_partial.

(** A receiver that has got the log as far as the source had it at some time catches up by the clone
    from the first number it has not got. *)
Theorem C95_resume_partial : forall E H cf cf' dx ops dx' dy p ms, world H -> sane H -> reachable E H cf dx ->
  Forall (real_op H) ops -> dx' = run E cf ops dx ->
  undelegated dx' p -> texts_differ dx' p -> bystander cf dx' p -> bystander cf' dx' p ->
  reachable E H cf' dy -> agree p dy dx -> Forall2 arrives (clonePre dx' p (len (fels (fst dx) p))) ms ->
  agree p (run E cf' (map Deliver ms) dy) dx'.
Proof. exact c95_resume_partial. Qed.
Print Assumptions C95_resume_partial.

(** With a receiver in cloned mode the dates at which the source first saw establishment events are
    those that the receiver records.  Missing: interactions, where it is false (below). *)
Theorem C95_dates_partial : forall E H cf cf' dx dy p ms e, world H -> sane H -> reachable E H cf dx ->
  undelegated dx p -> texts_differ dx p -> bystander cf dx p -> bystander cf' dx p ->
  reachable E H cf' dy -> unknown dy p ->
  Forall2 (fun c m => exists local eager now, m = received true local eager now c) (clonePre dx p 0) ms ->
  accepted dx p e -> isEst (e_ilk e) = true ->
  dtss (snd (run E cf' (map Deliver ms) dy)) p (e_said e) = dtss (snd dx) p (e_said e) /\ dtss (snd dx) p (e_said e) <> None.
Proof. exact c95_dates_partial. Qed.
Print Assumptions C95_dates_partial.

Example C95_replay_ex : world (Hof evsA) /\ sane (Hof evsA) /\ reachable E1 (Hof evsA) cf0 dxA /\ undelegated dxA 7 /\ texts_differ dxA 7 /\
  bystander cf0 dxA 7 /\ unknown db0 7 /\ Forall2 arrives (clonePre dxA 7 0) msA /\
  map (fun m => e_said (m_evt m)) msA = [20; 21; 22; 23; 24] /\ kels (fst (run E1 cf0 (map Deliver msA) db0)) 7 = [[20]; [21; 23]; [22; 24]].
Proof.
  split; [apply world_of; reflexivity|]. split; [apply sane_of; reflexivity|]. split; [exact reachA|].
  split; [apply undel_ok; vm_compute; reflexivity|]. split; [apply texts_ok; vm_compute; reflexivity|].
  split; [apply by_ok; vm_compute; reflexivity|]. split; [vm_compute; auto|]. split; [apply arrives_map|].
  split; vm_compute; reflexivity.
Qed.

Example C95_resume_ex : world (Hof evsL) /\ sane (Hof evsL) /\ reachable E1 (Hof evsL) cf0 dxL3 /\ undelegated dxL 7 /\ texts_differ dxL 7 /\
  bystander cf0 dxL 7 /\ len (fels (fst dxL3) 7) = 3 /\ Forall2 arrives (clonePre dxL 7 (len (fels (fst dxL3) 7))) msR /\
  map (fun m => e_said (m_evt m)) msR = [23; 24; 25] /\ fels (fst (run E1 cf0 (map Deliver msR) dxL3)) 7 = [20; 21; 22; 23; 24; 25].
Proof.
  split; [apply world_of; reflexivity|]. split; [apply sane_of; reflexivity|].
  split; [exists (map Deliver (firstn 3 msL)); split; [unfold msL, at_; cbn [firstn map]; reals|reflexivity]|].
  split; [apply undel_ok; vm_compute; reflexivity|]. split; [apply texts_ok; vm_compute; reflexivity|].
  split; [apply by_ok; vm_compute; reflexivity|]. split; [vm_compute; reflexivity|]. split; [apply arrives_map|].
  split; vm_compute; reflexivity.
Qed.

Example C95_all_cloned_ex : map (fun c => (cl_fn c, e_said (cl_evt c), len (cl_sigers c), len (cl_wigers c))) (clonePre dxL 7 2) = [(2, 22, 2, 2); (3, 23, 1, 2); (4, 24, 1, 2); (5, 25, 1, 2)].
Proof. vm_compute. reflexivity. Qed.

Theorem C95_delegated_refuted : exists E H cf dx ms p q n,
  world H /\ sane H /\ reachable E H cf dx /\ texts_differ dx p /\ texts_differ dx q /\ bystander cf dx p /\ bystander cf dx q /\ undelegated dx q /\
  Forall2 arrives (clonePre dx q 0 ++ clonePre dx p 0) ms /\
  fels (fst dx) p <> [] /\ fels (fst (run E cf (map Deliver ms ++ [Escrows n; Escrows n]) db0)) p = [].
Proof. exact c95_delegated_refuted. Qed.
Print Assumptions C95_delegated_refuted.

Theorem C95_party_refuted : exists E H cf cf' dx ms p,
  world H /\ sane H /\ reachable E H cf dx /\ texts_differ dx p /\ undelegated dx p /\ bystander cf' dx p /\
  Forall2 arrives (clonePre dx p 0) ms /\ fels (fst dx) p <> [] /\ fels (fst (run E cf' (map Deliver ms) db0)) p = [].
Proof. exact c95_party_refuted. Qed.
Print Assumptions C95_party_refuted.

Theorem C95_unverified_refuted : exists E H cf dx p c g,
  world H /\ sane H /\ reachable E H cf dx /\ In c (clonePre dx p 0) /\ In g (cl_sigers c) /\
  forall e ky, accepted dx p e -> In ky (e_keys e) -> vrfy E ky (sg_raw g) (e_raw (cl_evt c)) = false.
Proof. exact c95_unverified_refuted. Qed.
Print Assumptions C95_unverified_refuted.

(** In cloned mode the receiver takes the dates of the source over, but not for interactions. *)
Theorem C95_dates_refuted : exists E H cf dx ms p s t t',
  world H /\ sane H /\ reachable E H cf dx /\ undelegated dx p /\ texts_differ dx p /\ bystander cf dx p /\
  ms = map (received true false false t') (clonePre dx p 0) /\ In s (fels (fst dx) p) /\
  dtss (snd dx) p s = Some t /\ dtss (snd (run E cf (map Deliver ms) db0)) p s = Some t' /\ t <> t'.
Proof. exact c95_dates_refuted. Qed.
Print Assumptions C95_dates_refuted.

(** After a database has been cleaned, an undelegated identifier the node is not party to has the
    log and the key state it had before, whatever other identifiers the database has.  Missing:
    delegated identifiers and those of the node itself, where it is false (below), and the databases
    beside the key event logs. *)
Theorem C96_clean_partial : forall E H cf dx p now ps, world H -> sane H -> reachable E H cf dx -> all_prefixes dx ps ->
  undelegated dx p -> texts_differ dx p -> bystander cf dx p ->
  agree p (snd (clean E cf now ps dx)) dx.
Proof. exact c96_clean_partial. Qed.
Print Assumptions C96_clean_partial.

Example C96_clean_ex : reachable E1 (Hof evsL) cf0 dxU /\ all_prefixes dxU [7; 8] /\ undelegated dxU 7 /\ texts_differ dxU 7 /\ bystander cf0 dxU 7 /\
  fels (fst (snd (clean E1 cf0 90 [7; 8] dxU))) 7 = [20; 21; 22; 23; 24; 25].
Proof.
  split; [exact reachU|].
  split; [eapply (all_ok E1 evsL cf0); [apply world_of; reflexivity|exact reachU|nodups|vm_compute; reflexivity|reflexivity]|].
  split; [apply undel_ok; vm_compute; reflexivity|]. split; [apply texts_ok; vm_compute; reflexivity|].
  split; [apply by_ok; vm_compute; reflexivity|]. vm_compute. reflexivity.
Qed.

(** An identifier of the node itself whose last events lack receipts of its witnesses loses its log,
    while its key state is still reported and it is still a prefix of the node. *)
Theorem C96_own_refuted : exists E H cf dx p now ps,
  world H /\ sane H /\ reachable E H cf dx /\ all_prefixes dx ps /\ undelegated dx p /\ texts_differ dx p /\ In p (c_prefixes cf) /\
  fels (fst dx) p <> [] /\
  let '(cf', dx') := clean E cf now ps dx in
  fels (fst dx') p = [] /\ kels (fst dx') p = [] /\ option_map undated (keyState dx' p) = option_map undated (keyState dx p) /\ keyState dx' p <> None /\ In p (c_prefixes cf').
Proof. exact c96_own_refuted. Qed.
Print Assumptions C96_own_refuted.

Theorem C96_delegated_refuted : exists E H cf dx p q now,
  world H /\ sane H /\ reachable E H cf dx /\ all_prefixes dx [p; q] /\ bystander cf dx p /\ bystander cf dx q /\ texts_differ dx p /\ texts_differ dx q /\
  fels (fst dx) p <> [] /\ fels (fst (snd (clean E cf now [q; p] dx))) p = fels (fst dx) p /\ fels (fst (snd (clean E cf now [p; q] dx))) p = [].
Proof. exact c96_delegated_refuted. Qed.
Print Assumptions C96_delegated_refuted.

(** The dates at which events were first seen are replaced by the time of cleaning. *)
Theorem C96_dates_refuted : exists E H cf dx p now ps s t,
  world H /\ sane H /\ reachable E H cf dx /\ all_prefixes dx ps /\ undelegated dx p /\ texts_differ dx p /\ bystander cf dx p /\
  In s (fels (fst dx) p) /\ dtss (snd dx) p s = Some t /\ dtss (snd (snd (clean E cf now ps dx))) p s = Some now /\ t <> now.
Proof. exact c96_dates_refuted. Qed.
Print Assumptions C96_dates_refuted.
