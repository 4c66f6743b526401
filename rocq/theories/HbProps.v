(** Event builders and habitats *)
From Verif Require Import Prelude B64Model MatterModel SubsModel ThModel ThSpec ThThms JsonModel KsModel KsSpec KsThms KelModel KelSpec KelProofs OoSpec OoProofs OoProofs2 HbModel HbSpec HbProofs HbProofs2 HbProofs3 HbProofs4 HbProofs5 HbProofs6 HbEx HbThms.
From Coq Require Import Lia.
Open Scope N_scope.

(** Whatever log a controller makes with incept, rotate and interact for one prefix, numbering its
    events and naming their predecessors as it should, and signs and has witnessed in full: anyone who
    has nothing of the prefix yet and gets the messages in order accepts all of them, and ends with the
    key state that the controller has in view. *)
Theorem C97_built_accepted : forall h cf pre v ms dx, coherent h -> builtLog h pre v ms -> stranger cf (nm h pre) ms -> unknown dx (nm h pre) ->
  exists k, keyState (run (he h) cf (map Deliver ms) dx) (nm h pre) = Some k /\ asViewed v k.
Proof. exact c97_built_accepted. Qed.
Print Assumptions C97_built_accepted.

(** The full claim, that rotate takes whatever cuts are among the witnesses, is false: it takes them
    only in the order of the witnesses. *)
Theorem C97_cut_order_refuted : exists h pre keys ndigs dig sn wits cuts cuts' e, coherent h /\ NoDup wits /\ incl cuts wits /\ Permutation.Permutation cuts cuts' /\
  rotateB h false pre keys dig sn ndigs wits (mkRotArgs None None None cuts [] []) = Ok e /\
  rotateB h false pre keys dig sn ndigs wits (mkRotArgs None None None cuts' [] []) = Err ValueError.
Proof. exact c97_cut_order_refuted. Qed.
Print Assumptions C97_cut_order_refuted.

(** After any history of a habitat, the current keys in the key store are the keys of its key state,
    and the next keys in the key store are those that its key state commits to. *)
Theorem C98_in_step_partial : forall h cf pre m dx, coherent h -> habhist h cf pre m dx -> inStep h pre m dx.
Proof. exact c98_in_step_partial. Qed.
Print Assumptions C98_in_step_partial.

(** An accepted inception starts at number 0 with the witnesses that were asked for, as many keys as
    were asked for, and commits to as many next keys as were asked for - by default as many as there are
    keys - or to none when the identifier is to be non-transferable. *)
Theorem C98_incepted : forall h cf pre m dx now g m' dx', coherent h -> fhist (hk h) m -> In (nm h pre) (c_prefixes cf) -> ~ In (nm h pre) (c_groups cf) ->
  unknown dx (nm h pre) -> habIncept h cf now g (m, dx) = ((m', dx'), Ok pre) -> keyState dx' (nm h pre) <> None ->
  freshKeys (ks m) (ks (fst (snd (KsModel.incept (hk h) (keyArgs g) m)))) ->
  exists k, keyState dx' (nm h pre) = Some k /\ k_sn k = 0 /\ len (k_keys k) = g_icount g /\
    (g_transferable g = true -> g_ncount g = None -> len (k_ndigs k) = g_icount g) /\
    (forall n, g_transferable g = true -> g_ncount g = Some n -> len (k_ndigs k) = n) /\
    (g_transferable g = false -> k_ndigs k = []) /\
    k_wits k = b_wits (g_args g) /\ k_estOnly k = b_estOnly (g_args g) /\ inStep h pre m' dx'.
Proof. exact c98_incepted. Qed.
Print Assumptions C98_incepted.

(** An interaction with any seals is accepted, unless the identifier is not transferable any more or
    takes establishment events only: then it raises and changes nothing. *)
Theorem C98_interact : forall h cf pre m dx k now data, coherent h -> habhist h cf pre m dx -> keyState dx (nm h pre) = Some k ->
  (k_ndigs k <> [] -> k_estOnly k = false -> exists dx' e sg k', habInteract h cf now pre data (m, dx) = ((m, dx'), Ok (e, sg)) /\
     keyState dx' (nm h pre) = Some k' /\ k_evt k' = e /\ k_sn k' = k_sn k + 1 /\ e_prior e = Some (e_said (k_evt k)) /\ e_seals e = data /\
     k_keys k' = k_keys k /\ k_ndigs k' = k_ndigs k /\ inStep h pre m dx') /\
  (k_ndigs k = [] \/ k_estOnly k = true -> habInteract h cf now pre data (m, dx) = ((m, dx), Err ValidationError)).
Proof. exact c98_interact. Qed.
Print Assumptions C98_interact.

(** A rotation with no arguments but seals is accepted whenever the next threshold can be met and the
    key manager makes as many new keys as there are next keys: the former next keys become the
    current ones. *)
Theorem C98_rotate : forall h cf pre m dx k now temp data m1, coherent h -> habhist h cf pre m dx -> keyState dx (nm h pre) = Some k ->
  k_ndigs k <> [] -> k_nt k <> TNum 0 -> covers (k_nt k) (len (k_ndigs k)) ->
  makesKeys h pre (len (k_ndigs k)) temp m m1 -> freshKeys (ks m) (ks m1) ->
  exists m' dx' e sg k' ps ps', habRotate h cf now pre None temp (mkRotArgs None None None [] [] data) (m, dx) = ((m', dx'), Ok (e, sg)) /\
    dget (sits (ks m)) pre = Some ps /\ dget (sits (ks m')) pre = Some ps' /\ keyState dx' (nm h pre) = Some k' /\
    k_evt k' = e /\ k_sn k' = k_sn k + 1 /\ e_prior e = Some (e_said (k_evt k)) /\ e_seals e = data /\
    l_pubs (t_new ps') = l_pubs (t_nxt ps) /\ len (l_pubs (t_nxt ps')) = len (k_ndigs k) /\ k_wits k' = k_wits k /\ k_toad k' = k_toad k /\ k_tholder k' = k_nt k /\ k_nt k' = k_nt k /\
    inStep h pre m' dx' /\ habhist h cf pre m' dx'.
Proof. exact c98_rotate. Qed.
Print Assumptions C98_rotate.

(** The full claim, for every argument of rotate, is false.  With weights for fewer keys than there
    are, Hab.rotate returns as if all was well: the key store has moved on and the log has not, and
    the next rotation raises. *)
Theorem C98_short_weights_refuted : exists h cf pre m dx k now a m' dx' msg, coherent h /\ habhist h cf pre m dx /\ keyState dx (nm h pre) = Some k /\
  habRotate h cf now pre None false a (m, dx) = ((m', dx'), Ok msg) /\ keyState dx' (nm h pre) = Some k /\ ~ inStep h pre m' dx' /\
  exists m2 dx2 x, habRotate h cf now pre None false (mkRotArgs None None None [] [] []) (m', dx') = ((m2, dx2), Err x) /\ keyState dx2 (nm h pre) = Some k /\ ~ inStep h pre m2 dx2.
Proof. exact c98_short_weights_refuted. Qed.
Print Assumptions C98_short_weights_refuted.

(** Likewise at inception: Hab.incept returns the prefix, and there is no key state. *)
Theorem C98_short_inception_refuted : exists h cf now g m dx m' dx' pre, coherent h /\ fhist (hk h) m /\ unknown dx (nm h pre) /\ In (nm h pre) (c_prefixes cf) /\
  habIncept h cf now g (m, dx) = ((m', dx'), Ok pre) /\ keyState dx' (nm h pre) = None.
Proof. exact c98_short_inception_refuted. Qed.
Print Assumptions C98_short_inception_refuted.

(** A next threshold of zero over next keys is accepted at inception, and no rotation ever is,
    with any arguments. *)
Theorem C98_zero_next_refuted : exists h cf pre m dx k, coherent h /\ habhist h cf pre m dx /\ keyState dx (nm h pre) = Some k /\ k_ndigs k <> [] /\
  forall now ncount temp a, exists x, snd (habRotate h cf now pre ncount temp a (m, dx)) = Err x /\ snd (fst (habRotate h cf now pre ncount temp a (m, dx))) = dx.
Proof. exact c98_zero_next_refuted. Qed.
Print Assumptions C98_zero_next_refuted.

(** A rotation that raises leaves the key state, the whole key event database, and the situation of the
    keys as they were. *)
Theorem C99_rotate_refused : forall h cf pre m dx now ncount temp a m' dx' x, coherent h -> habhist h cf pre m dx ->
  habRotate h cf now pre ncount temp a (m, dx) = ((m', dx'), Err x) -> weighsAll a dx (nm h pre) -> freshKeys (ks m) (ks m') ->
  dx' = dx /\ dget (sits (ks m')) pre = dget (sits (ks m)) pre /\ inStep h pre m' dx'.
Proof. exact c99_rotate_refused. Qed.
Print Assumptions C99_rotate_refused.

(** The full claim, that a call can be repeated after one that raised, is false: keys made for the
    refused rotation are used by the next one, so after a refused rotation with fewer next keys the
    plain rotation, which was possible before, raises. *)
Theorem C99_repeat_refuted : exists h cf pre m dx now n a m' dx' x, coherent h /\ habhist h cf pre m dx /\
  (exists r, snd (habRotate h cf now pre None false (mkRotArgs None None None [] [] []) (m, dx)) = Ok r) /\
  habRotate h cf now pre (Some n) false a (m, dx) = ((m', dx'), Err x) /\
  exists m2 dx2 x2, habRotate h cf now pre None false (mkRotArgs None None None [] [] []) (m', dx') = ((m2, dx2), Err x2) /\
    m2 = m' /\ dx2 = dx'.
Proof. exact c99_repeat_refuted. Qed.
Print Assumptions C99_repeat_refuted.

(** An inception that raises has used up the name: the corrected call, which was possible before,
    raises too. *)
Theorem C99_incept_repeat_refuted : exists h cf now g g' m dx m' dx' x, coherent h /\ fhist (hk h) m /\
  (exists r, snd (habIncept h cf now g' (m, dx)) = Ok r) /\
  habIncept h cf now g (m, dx) = ((m', dx'), Err x) /\ snd (habIncept h cf now g' (m', dx')) = Err ValueError.
Proof. exact c99_incept_repeat_refuted. Qed.
Print Assumptions C99_incept_repeat_refuted.
