(** Key store and key manager *)
From Verif Require Import Prelude B64Model B64Proofs MatterModel SubsModel SubsProofs ThModel JsonModel JsonProofs KsModel KsSpec KsProofs KsInv KsRun KsHab KsLedger KsSeal KsHeld KsCrash KsThms.
Open Scope N_scope.

(** Whatever calls were made before, and whichever of them raised or were cut short, a rotation of an identifier whose next keys are published
    returns as current keys the keys whose digests were published. *)
Theorem C32_rotation_chain : forall c, (forall cd sd tr, trans c (vk c cd sd tr) = tr) ->
  forall m L pre dc ds o t m' vs ds', hist c m L -> dget L pre = Some (dc, ds) -> rotates pre o ->
  exec c o m = (t, (m', Ok (Some (vs, ds')))) -> map (dig c dc) vs = ds.
Proof. exact c32_rotation_chain. Qed.
Print Assumptions C32_rotation_chain.

Example C32_rotation_chain_ex : hist cx mA LA /\ dget LA preA = Some (s2b "E", map (dig cx (s2b "E")) [key (s2b "011"); key (s2b "012")]) /\
  exists t m' ds, exec cx (ORotate preA (ra A1)) mA = (t, (m', Ok (Some ([key (s2b "011"); key (s2b "012")], ds)))).
Proof. split; [apply hist_A|]. split; [vm_compute; reflexivity|]. do 3 eexists. vm_compute. reflexivity. Qed.

(** As long as new keys do not collide with earlier ones, the private keys of the current and of the next keys of every identifier are held
    and can be used to sign. *)
Theorem C32_keys_held : forall c, (forall cd sd tr, trans c (vk c cd sd tr) = tr) ->
  forall m p, fhist c m -> inUse (ks m) p ->
  exists cd sd, signersOf c [p] m = ([], (m, Ok [((cd, sd), p)])) /\ vk c cd sd (trans c p) = p.
Proof. exact c32_keys_held. Qed.
Print Assumptions C32_keys_held.

Example C32_keys_held_ex : fhist cx mA1 /\ inUse (ks mA1) (key (s2b "011")) /\ inUse (ks mA1) (key (s2b "023")) /\ signersOf cx [key (s2b "000")] mA1 <> ([], (mA1, Err ValueError)) /\ dget (pris (ks mA1)) (key (s2b "023")) <> None.
Proof.
  split; [apply fhist_A1|]. split; [exists preA; eexists; split; [vm_compute; reflexivity|vm_compute; auto]|].
  split; [exists preA; eexists; split; [vm_compute; reflexivity|vm_compute; auto]|]. split; vm_compute; discriminate.
Qed.

(** The position of the keys of an identifier: its earlier key sets are those listed for the rotations so far, the first key index of the current
    set is the number of keys used before it, and that of the next set the number of keys used up to it. *)
Theorem C32_positions : forall c, (forall cd sd tr, trans c (vk c cd sd tr) = tr) ->
  forall m pre ps, fhist c m -> dget (sits (ks m)) pre = Some ps ->
  exists L, (forall i l, nth_error (L ++ [l_pubs (t_new ps); l_pubs (t_nxt ps)]) i = Some l -> dget (pubs (ks m)) (riKey pre (N.of_nat i)) = Some l) /\
    l_ridx (t_new ps) = len L /\ l_kidx (t_new ps) = keyCount L /\
    l_ridx (t_nxt ps) = len L + 1 /\ l_kidx (t_nxt ps) = keyCount (L ++ [l_pubs (t_new ps)]).
Proof. exact c32_positions. Qed.
Print Assumptions C32_positions.

Example C32_positions_ex : fhist cx mA1 /\ option_map (fun ps => (l_ridx (t_nxt ps), l_kidx (t_nxt ps), l_pubs (t_nxt ps))) (dget (sits (ks mA1)) preA) = Some (2, 3, [key (s2b "023")]).
Proof. split; [apply fhist_A1|vm_compute; reflexivity]. Qed.

(** The next keys made by a rotation with deterministic keys are derived at the positions that follow those of the published ones. *)
Theorem C32_next_position : forall c, (forall cd sd tr, trans c (vk c cd sd tr) = tr) ->
  forall m L pre a t m' vs ds pp ps, hist c m L -> exec c (ORotate pre a) m = (t, (m', Ok (Some (vs, ds)))) ->
  dget (prms (ks m)) pre = Some pp -> dget (sits (ks m)) pre = Some ps -> p_algo pp = Salty ->
  exists salt tier ks', ds = map (dig c (r_dcode a)) ks' /\ List.length ks' = List.length (r_ncodes a) /\
    forall i p, nth_error ks' i = Some p -> exists code, nth_error (r_ncodes a) i = Some code /\
      p = vk c code (stretch c salt (pathOf (p_stem pp) (p_pidx pp) (l_ridx (t_nxt ps) + 1) (l_kidx (t_nxt ps) + len (l_pubs (t_nxt ps)) + N.of_nat i)) tier (r_temp a) code) (r_transferable a).
Proof. exact c32_next_position. Qed.
Print Assumptions C32_next_position.

Example C32_next_position_ex : exists t m' ds, exec cx (ORotate preA (ra A2)) mA = (t, (m', Ok (Some ([key (s2b "011"); key (s2b "012")], ds)))) /\
  ds = map (dig cx (s2b "E")) [key (s2b "023"); key (s2b "024")] /\ option_map p_algo (dget (prms (ks mA)) preA) = Some Salty.
Proof. do 3 eexists. split; [vm_compute; reflexivity|]. split; vm_compute; reflexivity. Qed.

(** Two positions of one identifier, the later one not before the other in rotation nor in key index, have different derivation paths. *)
Theorem C32_path_injective : forall stem pidx r k r' k', r <= r' -> k <= k' -> pathOf stem pidx r k = pathOf stem pidx r' k' -> r = r' /\ k = k'.
Proof. exact c32_path_injective. Qed.
Print Assumptions C32_path_injective.

Example C32_path_injective_ex : pathOf (s2b "a") 0 1 17 = s2b "a111" /\ pathOf (s2b "a") 0 17 1 = s2b "a111".
Proof. split; vm_compute; reflexivity. Qed.

Theorem C32_path_collision_refuted : exists c, (forall cd sd tr, trans c (vk c cd sd tr) = tr) /\
  (forall salt p p' t te cd, stretch c salt p t te cd = stretch c salt p' t te cd -> p = p') /\
  exists m L pre dc d, hist c m L /\ dget L pre = Some (dc, [d]) /\
    forall a, snd (snd (exec c (ORotate pre a) m)) = Err ValueError.
Proof. exact c32_path_collision_refuted. Qed.
Print Assumptions C32_path_collision_refuted.

Example C32_path_collision_ex : pathOf (s2b "a") 0 17 17 = pathOf (s2b "a11") 1 1 1.
Proof. vm_compute. reflexivity. Qed.

Theorem C32_failed_rotate_refuted : exists c, (forall cd sd tr, trans c (vk c cd sd tr) = tr) /\
  exists m L pre dc d a t m' e, hist c m L /\ dget L pre = Some (dc, [d]) /\ exec c (OHabRotate pre a okv) m = (t, (m', Err e)) /\
    forall a' valid, (exists e', snd (snd (exec c (OHabRotate pre a' valid) m')) = Err e') /\ (exists e', snd (snd (exec c (ORotate pre a') m')) = Err e').
Proof. exact c32_failed_rotate_refuted. Qed.
Print Assumptions C32_failed_rotate_refuted.

Example C32_failed_rotate_ex : exists t m' x, exec cx (OHabRotate preA (ra A1) okv) mE = (t, (m', Ok x)).
Proof. do 3 eexists. vm_compute. reflexivity. Qed.

(** When the process is killed at any point of any call that uses the keys, and the manager is opened again with the right seed, it can
    still sign with every key that was current or next before the call. *)
Theorem C33_keys_survive_partial : forall c, (forall cd sd tr, trans c (vk c cd sd tr) = tr) ->
  forall m o d p seed aeid pidx algo salt tier rnd t m', fhist c m -> usesKeys o = true -> In d (ks m :: fst (exec c o m)) -> inUse (ks m) p ->
  (aeidOf (ks m) = [] -> aeid = [] /\ seed = []) ->
  setup c aeid pidx algo salt tier (mkMgr d None None seed rnd) = (t, (m', Ok tt)) ->
  exists cd sd, signersOf c [p] m' = ([], (m', Ok [((cd, sd), p)])) /\ vk c cd sd (trans c p) = p.
Proof. exact c33_keys_survive_partial. Qed.
Print Assumptions C33_keys_survive_partial.

Example C33_keys_survive_ex : len traceA = 3 /\ forall d, In d (ks mA :: traceA) -> exists t, setup cx [] 0 Salty (s2b "S") TierLow (mkMgr d None None [] 0) = (t, (back d [], Ok tt)).
Proof.
  split; [vm_compute; reflexivity|]. intros d Hd. vm_compute in Hd. decompose [or] Hd; subst; try contradiction; eexists; vm_compute; reflexivity.
Qed.

(** A call cut short at any point does not touch the position of any other identifier. *)
Theorem C33_other_identifiers : forall c m o d pre ps, dget (prms (ks m)) pre <> None -> dget (sits (ks m)) pre = Some ps -> elsewhere pre o ->
  In d (fst (exec c o m)) -> dget (prms d) pre <> None /\ dget (sits d) pre = Some ps.
Proof. exact c33_other_identifiers. Qed.
Print Assumptions C33_other_identifiers.

Example C33_other_identifiers_ex : elsewhere preA (oIncept (s2b "b") A1) /\ len (fst (exec cx (oIncept (s2b "b") A1) mA)) = 8 /\ option_map l_ridx (option_map t_nxt (dget (sits (ks mA)) preA)) = Some 1.
Proof. split; [exact Logic.I|]. split; vm_compute; reflexivity. Qed.

(** A process killed in a rotation after the position was advanced and before the new private keys were stored leaves an identifier that neither
    Manager.rotate nor Hab.rotate can ever rotate again. *)
Theorem C33_rotate_crash_refuted : exists c, (forall cd sd tr, trans c (vk c cd sd tr) = tr) /\
  exists m L pre dc ds a d t m', fhist c m /\ hist c m L /\ dget L pre = Some (dc, ds) /\ In d (fst (exec c (ORotate pre a) m)) /\
    setup c [] 0 Salty (s2b "S") TierLow (mkMgr d None None [] 0) = (t, (m', Ok tt)) /\
    forall a' valid, (exists e, snd (snd (exec c (ORotate pre a') m')) = Err e) /\ (exists e, snd (snd (exec c (OHabRotate pre a' valid) m')) = Err e).
Proof. exact c33_rotate_crash_refuted. Qed.
Print Assumptions C33_rotate_crash_refuted.

Example C33_rotate_crash_ex : exists t m' x, exec cx (ORotate preA (ra A1)) (back (ks mA) []) = (t, (m', Ok x)).
Proof. do 3 eexists. vm_compute. reflexivity. Qed.

(** A process killed in Hab.rotate after the manager advanced and before the event was made: the next Hab.rotate proposes keys whose digests
    are not those published. *)
Theorem C33_hab_crash_refuted : exists c, (forall cd sd tr, trans c (vk c cd sd tr) = tr) /\
  exists m L pre dc ds a d t m', fhist c m /\ hist c m L /\ dget L pre = Some (dc, ds) /\ In d (fst (exec c (OHabRotate pre a okv) m)) /\
    setup c [] 0 Salty (s2b "S") TierLow (mkMgr d None None [] 0) = (t, (m', Ok tt)) /\
    exists t2 m2 vs ds2, exec c (OHabRotate pre a okv) m' = (t2, (m2, Ok (Some (vs, ds2)))) /\ map (dig c dc) vs <> ds.
Proof. exact c33_hab_crash_refuted. Qed.
Print Assumptions C33_hab_crash_refuted.

Example C33_hab_crash_ex : exists t m' ds, exec cx (OHabRotate preA (ra A1) okv) mA = (t, (m', Ok (Some ([key (s2b "011"); key (s2b "012")], ds)))).
Proof. do 3 eexists. vm_compute. reflexivity. Qed.

Theorem C33_incept_crash_refuted : exists c, (forall cd sd tr, trans c (vk c cd sd tr) = tr) /\
  exists m a d t m', fhist c m /\ In d (fst (exec c (OIncept a) m)) /\ (exists t2 m2 x, exec c (OIncept a) m = (t2, (m2, Ok x))) /\
    setup c [] 0 Salty (s2b "S") TierLow (mkMgr d None None [] 0) = (t, (m', Ok tt)) /\
    exec c (OIncept a) m' = ([], (m', Err ValueError)).
Proof. exact c33_incept_crash_refuted. Qed.
Print Assumptions C33_incept_crash_refuted.

Example C33_incept_crash_ex : len (fst (exec cx (OIncept aB) mN)) = 8.
Proof. vm_compute. reflexivity. Qed.

(** A process killed while an identifier is moved to its final prefix leaves its keys under neither name. *)
Theorem C33_move_crash_refuted : exists c, (forall cd sd tr, trans c (vk c cd sd tr) = tr) /\
  exists m L old new dc ds d t m', fhist c m /\ hist c m L /\ dget L old = Some (dc, ds) /\ In d (fst (exec c (OMove old new) m)) /\
    setup c [] 0 Salty (s2b "S") TierLow (mkMgr d None None [] 0) = (t, (m', Ok tt)) /\
    forall a, snd (snd (exec c (ORotate old a) m')) = Err ValueError /\ snd (snd (exec c (ORotate new a) m')) = Err ValueError /\
              snd (snd (exec c (OMove old new) m')) = Err ValueError.
Proof. exact c33_move_crash_refuted. Qed.
Print Assumptions C33_move_crash_refuted.

Example C33_move_crash_ex : exists t m' t2 m2 x, exec cx (OMove preA (s2b "Enew")) mA = (t, (m', Ok None)) /\ exec cx (ORotate (s2b "Enew") (ra A1)) m' = (t2, (m2, Ok (Some x))) /\ fst x = [key (s2b "011"); key (s2b "012")].
Proof. do 5 eexists. split; [vm_compute; reflexivity|]. split; vm_compute; reflexivity. Qed.

(** In a store created with an authentication identifier every private key and every salt is sealed for it, whatever calls
    were made, whichever raised or were cut short, and however often the identifier was changed. *)
Theorem C50_at_rest : forall c m, chist c m -> aeidOf (ks m) <> [] -> sealedUnder (aeidOf (ks m)) (ks m) /\ seedOk c (aeidOf (ks m)) (m_seed m) = true.
Proof. exact c50_at_rest. Qed.
Print Assumptions C50_at_rest.

Example C50_at_rest_ex : chist cx mE /\ aeidOf (ks mE) = s2b "Bx" /\ len (pris (ks mE)) = 2.
Proof. split; [apply chist_E|]. split; vm_compute; reflexivity. Qed.

(** The same holds of every database a killed process can leave. *)
Theorem C50_crash_sealed : forall c m o d, chist c m -> aeidOf (ks m) <> [] -> usesKeys o = true -> In d (fst (exec c o m)) ->
  sealedUnder (aeidOf (ks m)) d /\ g_aeid d = g_aeid (ks m).
Proof. exact c50_crash_sealed. Qed.
Print Assumptions C50_crash_sealed.

Example C50_crash_sealed_ex : chist cx mE /\ len (fst (exec cx (ORotate preA (ra A2)) mE)) = 4.
Proof. split; [apply chist_E|vm_compute; reflexivity]. Qed.

(** Every private key of the store can be used by the manager, and gives the public key it is listed for. *)
Theorem C50_readable : forall c, (forall cd sd tr, trans c (vk c cd sd tr) = tr) -> forall m p v, chist c m -> dget (pris (ks m)) p = Some v ->
  exists cd sd, signersOf c [p] m = ([], (m, Ok [((cd, sd), p)])) /\ vk c cd sd (trans c p) = p.
Proof. exact c50_readable. Qed.
Print Assumptions C50_readable.

Example C50_readable_ex : exists v, chist cx mE /\ dget (pris (ks mE)) (key (s2b "011")) = Some v /\ signersOf cx [key (s2b "011")] mE = ([], (mE, Ok [((EdSeed, s2b "S/011"), key (s2b "011"))])).
Proof. eexists. split; [apply chist_E|]. split; vm_compute; reflexivity. Qed.

(** Changing the authentication identifier, or removing the encryption, keeps every private key. *)
Theorem C50_change_keeps : forall c, (forall cd sd tr, trans c (vk c cd sd tr) = tr) -> forall m aeid seed t m' p sg, chist c m ->
  aeidOf (ks m) <> [] -> aeid <> aeidOf (ks m) -> (aeid = [] -> seed = []) ->
  updateAeid c aeid seed m = (t, (m', Ok tt)) -> signersOf c [p] m = ([], (m, Ok [sg])) -> signersOf c [p] m' = ([], (m', Ok [sg])) /\ aeidOf (ks m') = aeid.
Proof. exact c50_change_keeps. Qed.
Print Assumptions C50_change_keeps.

Example C50_change_keeps_ex : chist cx mE2 /\ aeidOf (ks mE2) = s2b "By" /\ signersOf cx [key (s2b "011")] mE2 = ([], (mE2, Ok [((EdSeed, s2b "S/011"), key (s2b "011"))])).
Proof. split; [apply chist_E2|]. split; vm_compute; reflexivity. Qed.

(** Encryption added to a store that has keys leaves them in clear, and they can no longer be used. *)
Theorem C50_late_encryption_refuted : exists c, (forall cd sd tr, trans c (vk c cd sd tr) = tr) /\
  exists m aeid seed t m' p x, fhist c m /\ inUse (ks m) p /\ updateAeid c aeid seed m = (t, (m', Ok tt)) /\ aeidOf (ks m') = aeid /\ aeid <> [] /\
    seedOk c aeid seed = true /\ dget (pris (ks m')) p = Some (Plain x) /\ exists e, snd (snd (signersOf c [p] m')) = Err e.
Proof. exact c50_late_encryption_refuted. Qed.
Print Assumptions C50_late_encryption_refuted.

(** Ingesting keys into an encrypted store leaves the next private keys in clear, and rotation to them fails. *)
Theorem C50_ingest_refuted : exists c, (forall cd sd tr, trans c (vk c cd sd tr) = tr) /\
  exists m sec t m' pre p x, chist c m /\ aeidOf (ks m) <> [] /\ ingest c [[sec]] 0 [EdSeed] [] true false m = (t, (m', Ok pre)) /\
    dget (pris (ks m')) p = Some (Plain x) /\ forall a, exists e, snd (snd (exec c (ORotate pre a) m')) = Err e.
Proof. exact c50_ingest_refuted. Qed.
Print Assumptions C50_ingest_refuted.

(** A process killed while the authentication identifier is changed leaves a store whose keys the old seed does not open, and which does not
    accept the new seed: every opening raises. *)
Theorem C50_change_crash_refuted : exists c, (forall cd sd tr, trans c (vk c cd sd tr) = tr) /\
  exists m aeid seed d p, chist c m /\ inUse (ks m) p /\ aeid <> aeidOf (ks m) /\ seedOk c aeid seed = true /\ seedOk c (aeidOf (ks m)) (m_seed m) = true /\
    (exists t m', updateAeid c aeid seed m = (t, (m', Ok tt))) /\ In d (fst (updateAeid c aeid seed m)) /\
    (exists e, snd (restart c d seed aeid 0 0 Salty (s2b "S") TierLow) = Err e) /\
    snd (restart c d (m_seed m) (aeidOf (ks m)) 0 0 Salty (s2b "S") TierLow) = Ok tt /\
    exists e, snd (snd (signersOf c [p] (fst (restart c d (m_seed m) (aeidOf (ks m)) 0 0 Salty (s2b "S") TierLow)))) = Err e.
Proof. exact c50_change_crash_refuted. Qed.
Print Assumptions C50_change_crash_refuted.

(** A refused change of the authentication identifier is not undone in memory: keys made later are sealed for the identifier
    that was refused. *)
Theorem C50_refused_change_refuted : exists c, (forall cd sd tr, trans c (vk c cd sd tr) = tr) /\
  exists m aeid seed m1 a t2 m2 x p s, chist c m /\ aeid <> aeidOf (ks m) /\ seedOk c aeid seed = false /\ updateAeid c aeid seed m = ([], (m1, Err AuthError)) /\
    exec c (OIncept a) m1 = (t2, (m2, Ok x)) /\ inUse (ks m2) p /\ dget (pris (ks m2)) p = Some (Sealed aeid s) /\ aeidOf (ks m2) = aeidOf (ks m).
Proof. exact c50_refused_change_refuted. Qed.
Print Assumptions C50_refused_change_refuted.

(** A store created with a seed and without authentication identifier does not encrypt, and cannot read back any key it makes. *)
Theorem C50_seed_alone_refuted : exists c, (forall cd sd tr, trans c (vk c cd sd tr) = tr) /\
  exists seed t m t2 m2 x p, setup c [] 0 Salty (s2b "S") TierLow (mkMgr ks0 None None seed 0) = (t, (m, Ok tt)) /\
    exec c (OIncept (mkIargs [EdSeed] [EdSeed] (s2b "E") None (Some (s2b "S")) [] None true true false)) m = (t2, (m2, Ok x)) /\ inUse (ks m2) p /\ exists e, snd (snd (signersOf c [p] m2)) = Err e.
Proof. exact c50_seed_alone_refuted. Qed.
Print Assumptions C50_seed_alone_refuted.

Example C50_refuted_ex : exists t m', updateAeid cx (s2b "By") (s2b "y") mE = (t, (m', Ok tt)) /\ len t = 5.
Proof. do 2 eexists. split; vm_compute; reflexivity. Qed.

(** A Hab.rotate whose event is refused leaves the position of every identifier, their parameters and the private keys as they were. *)
Theorem C51_refused_restores : forall c, (forall cd sd tr, trans c (vk c cd sd tr) = tr) -> forall m L pre a valid t m', hist c m L ->
  exec c (OHabRotate pre a valid) m = (t, (m', Err ValidationError)) ->
  (forall q, dget (sits (ks m')) q = dget (sits (ks m)) q) /\ prms (ks m') = prms (ks m) /\ pres (ks m') = pres (ks m) /\
  (forall p v, dget (pris (ks m)) p = Some v -> dget (pris (ks m')) p = Some v).
Proof. exact c51_refused_restores. Qed.
Print Assumptions C51_refused_restores.

Example C51_refused_restores_ex : exists t, exec cx (OHabRotate preA (ra A1) nov) mA = (t, (mR, Err ValidationError)) /\ len t = 4.
Proof. eexists. split; vm_compute; reflexivity. Qed.

(** A later attempt proposes the same current keys and digests of the same next keys as the refused one, whatever next keys it asks for. *)
Theorem C51_retry_same_keys : forall c, (forall cd sd tr, trans c (vk c cd sd tr) = tr) -> forall m L pre a valid t m' a2 valid2 t2 m2 vs ds, hist c m L ->
  exec c (OHabRotate pre a valid) m = (t, (m', Err ValidationError)) ->
  exec c (OHabRotate pre a2 valid2) m' = (t2, (m2, Ok (Some (vs, ds)))) ->
  exists nexts, valid vs (map (dig c (r_dcode a)) nexts) = false /\ valid2 vs ds = true /\ ds = map (dig c (r_dcode a2)) nexts.
Proof. exact c51_retry_same_keys. Qed.
Print Assumptions C51_retry_same_keys.

Example C51_retry_same_keys_ex : exists t2 m2, exec cx (OHabRotate preA (ra A2) okv) mR = (t2, (m2, Ok (Some ([key (s2b "011"); key (s2b "012")], [dig cx (s2b "E") (key (s2b "023"))])))).
Proof. do 2 eexists. vm_compute. reflexivity. Qed.

(** So an attempt that asks for another number of next keys than a refused one does not get it. *)
Theorem C51_retry_count_refuted : exists c, (forall cd sd tr, trans c (vk c cd sd tr) = tr) /\ exists m L pre a a2 t m' t2 m2 vs ds, hist c m L /\
  exec c (OHabRotate pre a nov) m = (t, (m', Err ValidationError)) /\ exec c (OHabRotate pre a2 okv) m' = (t2, (m2, Ok (Some (vs, ds)))) /\
  List.length ds <> List.length (r_ncodes a2).
Proof. exact c51_retry_count_refuted. Qed.
Print Assumptions C51_retry_count_refuted.
