(** Properties of the replay of first seen logs. *)
From Verif Require Import Prelude B64Model MatterModel SubsModel ThModel ThSpec ThThms KelModel KelSpec KelProofs KelInv KelThms OoSpec OoProofs OoProofs2 OoProofs3 OoProofs4 OoThms ClModel ClSpec ClProofs ClProofs2 ClProofs3.
Ltac Zify.zify_post_hook ::= Z.div_mod_to_equations.
Open Scope N_scope.

(** ** C95: replay of the log of one identifier *)

Lemma c95_all_cloned : forall E H cf dx p fn, world H -> reachable E H cf dx ->
  len (clonePre dx p fn) = len (fels (fst dx) p) - fn /\
  forall i s, nth_error (fels (fst dx) p) (N.to_nat fn + i) = Some s ->
    exists c, nth_error (clonePre dx p fn) i = Some c /\ accepted dx p (cl_evt c) /\ e_said (cl_evt c) = s /\ e_pre (cl_evt c) = p /\
      cl_fn c = fn + N.of_nat i /\ dtss (snd dx) p s = Some (cl_date c) /\ cl_sigers c = getSigs (snd dx) p s /\
      cl_wigers c = getWigs (snd dx) p s /\ cl_seal c = aess (snd dx) p s.
Proof.
  intros E H cf dx p fn W R. destruct (clonePre_all _ _ _ _ p fn W R) as [L N0]. split; [unfold len; rewrite L; lia|].
  intros i s NS. destruct (N0 i s NS) as (e & dt & A1 & A2 & A3 & A4 & A5 & A6).
  eexists. split; [exact A6|]. cbn [cl_evt cl_fn cl_date cl_sigers cl_wigers cl_seal]. subst s.
  split; [split; [exact (nth_error_In _ _ NS)|exact A1]|]. split; [reflexivity|]. split; [exact A4|]. split; [reflexivity|]. split; [exact A5|].
  split; [reflexivity|]. split; reflexivity.
Qed.

Lemma c95_signed : forall E H cf dx p fn c, world H -> reachable E H cf dx -> In c (clonePre dx p fn) ->
  exists l ee, log H (cl_evt c :: l) /\ Forall (fun e => accepted dx p e) (cl_evt c :: l) /\ est_of (cl_evt c :: l) = Some ee /\
    signedBy E (e_keys ee) (e_kt ee) (e_raw (cl_evt c)) (cl_sigers c).
Proof.
  intros E H cf dx p fn c W R IC. destruct (clonePre_all _ _ _ _ p fn W R) as [L N0]. destruct (reach_all _ _ _ _ W R) as (_ & I & _).
  apply In_nth_error in IC. destruct IC as (i & NI). pose proof (nth_error_len _ _ _ _ NI) as LI. rewrite L in LI.
  destruct (nth_error (fels (fst dx) p) (N.to_nat fn + i)) as [s|] eqn:NS; [|apply nth_error_None in NS; lia].
  destruct (N0 i s NS) as (e & dt & A1 & A2 & A3 & A4 & A5 & A6). rewrite NI in A6. injection A6 as ->. cbn [cl_evt cl_sigers].
  destruct (i_fe _ _ _ _ I _ _ (nth_error_In _ _ NS)) as (e' & l & ee & B1 & B2 & B3 & B4).
  pose proof (chain_hd _ _ _ _ _ _ B2) as (_ & _ & B5 & _). rewrite B1, A1 in B5. injection B5 as <-.
  destruct B2 as [B2 B6]. exists l, ee. split; [exact B2|]. split; [|split; assumption].
  rewrite Forall_forall in *. intros a IA. destruct (B6 a IA) as (_ & C1 & C2). split; assumption.
Qed.

Lemma c95_replay_partial : forall E H cf cf' dx dy p ms, world H -> sane H -> reachable E H cf dx ->
  undelegated dx p -> texts_differ dx p -> bystander cf dx p -> bystander cf' dx p ->
  reachable E H cf' dy -> unknown dy p -> Forall2 arrives (clonePre dx p 0) ms ->
  agree p (run E cf' (map Deliver ms) dy) dx.
Proof.
  intros E H cf cf' dx dy p ms W SN (ops & RO & RX) UN TD BY BY' RY (U1 & U2 & U3) F.
  assert (R0 : reachable E H cf db0) by (exists []; split; [constructor|reflexivity]).
  assert (AG : agree p dy db0) by (unfold agree; rewrite U1, U2, U3; split; [reflexivity|split; reflexivity]).
  exact (proj1 (replay_from E H cf cf' db0 dx p ops dy ms W SN R0 RO RX UN BY BY' TD (reach_sinv' _ _ _ _ W SN RY) AG F)).
Qed.

Lemma c95_resume_partial : forall E H cf cf' dx ops dx' dy p ms, world H -> sane H -> reachable E H cf dx ->
  Forall (real_op H) ops -> dx' = run E cf ops dx ->
  undelegated dx' p -> texts_differ dx' p -> bystander cf dx' p -> bystander cf' dx' p ->
  reachable E H cf' dy -> agree p dy dx -> Forall2 arrives (clonePre dx' p (len (fels (fst dx) p))) ms ->
  agree p (run E cf' (map Deliver ms) dy) dx'.
Proof.
  intros E H cf cf' dx ops dx' dy p ms W SN R RO RX UN TD BY BY' RY AG F.
  exact (proj1 (replay_from E H cf cf' dx dx' p ops dy ms W SN R RO RX UN BY BY' TD (reach_sinv' _ _ _ _ W SN RY) AG F)).
Qed.

Lemma c95_dates_partial : forall E H cf cf' dx dy p ms e, world H -> sane H -> reachable E H cf dx ->
  undelegated dx p -> texts_differ dx p -> bystander cf dx p -> bystander cf' dx p ->
  reachable E H cf' dy -> unknown dy p ->
  Forall2 (fun c m => exists local eager now, m = received true local eager now c) (clonePre dx p 0) ms ->
  accepted dx p e -> isEst (e_ilk e) = true ->
  dtss (snd (run E cf' (map Deliver ms) dy)) p (e_said e) = dtss (snd dx) p (e_said e) /\ dtss (snd dx) p (e_said e) <> None.
Proof.
  intros E H cf cf' dx dy p ms e W SN R UN TD BY BY' RY U F [AC EV] IE.
  assert (AR : Forall2 arrives (clonePre dx p 0) ms).
  { clear - F. induction F as [|c m cs ms (l & ea & now & ->) F IH]; constructor; [exists true, l, ea, now; reflexivity|exact IH]. }
  pose proof (c95_replay_partial E H cf cf' dx dy p ms W SN R UN TD BY BY' RY U AR) as (_ & _ & FE).
  pose proof (undel_nodup _ _ _ _ _ W SN R UN) as ND.
  destruct (clonePre_all _ _ _ _ p 0 W R) as [L N0]. cbn [N.to_nat Nat.add] in N0. rewrite Nat.sub_0_r in L.
  pose proof (Forall2_len _ _ _ _ _ F) as LM.
  assert (SM : map (fun m => e_said (m_evt m)) ms = fels (fst dx) p /\ Forall (fun m => e_pre (m_evt m) = p) ms).
  { assert (Z : Forall2 (fun s m => s = e_said (m_evt m) /\ e_pre (m_evt m) = p) (fels (fst dx) p) ms).
    { apply nth_Forall2; [congruence|]. intros i s m NS NM. destruct (N0 i s NS) as (e' & dt & A1 & A2 & A3 & A4 & A5 & A6).
      destruct (Forall2_nth _ _ _ _ _ F _ _ _ A6 NM) as (lo & ea & now & ->). cbn [received m_evt cl_evt]. auto. }
    clear - Z. induction Z as [|s m l ms [-> P] Z [IH1 IH2]]; cbn [map]; [split; constructor|]. rewrite IH1. split; [reflexivity|constructor; assumption]. }
  destruct SM as [SM PM]. destruct (In_nth_error _ _ AC) as (i & NI). destruct (N0 i _ NI) as (e' & dt & A1 & A2 & A3 & A4 & A5 & A6).
  rewrite EV in A1. injection A1 as <-. rewrite A5. split; [|discriminate].
  destruct (nth_error ms i) as [m|] eqn:NM; [|apply nth_error_None in NM; pose proof (nth_error_len _ _ _ _ NI); lia].
  destruct (Forall2_nth _ _ _ _ _ F _ _ _ A6 NM) as (lo & ea & now & MQ).
  replace (e_said e) with (e_said (m_evt m)) by (rewrite MQ; reflexivity).
  rewrite (run_dates E cf' p ms dy) with (m := m); auto.
  - rewrite MQ. reflexivity.
  - rewrite SM. exact ND.
  - rewrite FE. destruct U as (U1 & _). rewrite U1. cbn. rewrite <- SM, map_length. reflexivity.
  - eapply nth_error_In. exact NM.
  - rewrite MQ. exact IE.
Qed.

(** ** Checks for examples *)
Definition undel_b (dx : db) (p : N) : bool :=
  forallb (fun s => match evts (snd dx) p s with
    | Some e => match e_ilk e with Icp | Rot | Ixn => true | _ => false end &&
        match e_kt e, e_nt e with TNum _, TNum _ => true | _, _ => false end
    | None => true end) (fels (fst dx) p).
Lemma undel_ok : forall dx p, undel_b dx p = true -> undelegated dx p.
Proof.
  intros dx p F e [I V]. unfold undel_b in F. rewrite forallb_forall in F. specialize (F _ I). rewrite V in F. apply andb_true_iff in F. destruct F as [F1 F2].
  split; [destruct (e_ilk e); cbn; auto; discriminate|]. intros _. destruct (e_kt e); [|discriminate]. destruct (e_nt e); [|discriminate]. split; exact Logic.I.
Qed.
Definition by_b (cf : conf) (dx : db) (p : N) : bool :=
  negb (memN p (c_prefixes cf)) && negb (memN p (c_groups cf)) &&
  forallb (fun s => match evts (snd dx) p s with
    | Some e => forallb (fun w => negb (memN w (c_prefixes cf))) (e_wits e ++ e_adds e)
    | None => true end) (fels (fst dx) p).
Lemma by_ok : forall cf dx p, by_b cf dx p = true -> bystander cf dx p.
Proof.
  intros cf dx p F. apply andb_true_iff in F. destruct F as [F F3]. apply andb_true_iff in F. destruct F as [F1 F2].
  apply negb_true_iff in F1. apply negb_true_iff in F2.
  split; [rewrite <- memN_In; congruence|]. split; [rewrite <- memN_In; congruence|].
  intros e w [I V] IW C. rewrite forallb_forall in F3. specialize (F3 _ I). rewrite V in F3. rewrite forallb_forall in F3. specialize (F3 _ IW).
  apply memN_In in C. rewrite C in F3. discriminate.
Qed.
Fixpoint differ_b (l : list siger) : bool :=
  match l with
  | [] => true
  | g :: l => forallb (fun g' => negb (beq (sg_qb64 g) (sg_qb64 g'))) l && differ_b l
  end.
Lemma differ_ok : forall l, differ_b l = true -> forall g g', In g l -> In g' l -> sg_qb64 g = sg_qb64 g' -> g = g'.
Proof.
  induction l as [|a l IH]; intros D g g' I I' Q; [destruct I|]. cbn [differ_b] in D. apply andb_true_iff in D. destruct D as [D1 D2].
  rewrite forallb_forall in D1.
  destruct I as [<-|I], I' as [<-|I']; auto.
  - specialize (D1 _ I'). rewrite Q, beq_refl in D1. discriminate.
  - specialize (D1 _ I). rewrite Q, beq_refl in D1. discriminate.
Qed.
Lemma texts_ok : forall dx p, forallb (fun s => differ_b (getSigs (snd dx) p s ++ getWigs (snd dx) p s)) (fels (fst dx) p) = true -> texts_differ dx p.
Proof. intros dx p F s g g' I. rewrite forallb_forall in F. apply (differ_ok _ (F s I)). Qed.
Lemma arrives_map : forall c l e t cs, Forall2 arrives cs (map (received c l e t) cs).
Proof. intros c l e t cs. induction cs; cbn [map]; constructor; auto. exists c, l, e, t. reflexivity. Qed.

Lemma all_ok : forall E l cf dx ps, world (Hof l) -> reachable E (Hof l) cf dx -> NoDup ps ->
  forallb (fun p => match fels (fst dx) p with [] => false | _ => true end) ps = true -> forallb (fun e => memN (e_pre e) ps) l = true ->
  all_prefixes dx ps.
Proof.
  intros E l cf dx ps W R ND F1 F2. split; [exact ND|]. intros p. rewrite forallb_forall in F1, F2. split.
  - intros I Z. specialize (F1 _ I). cbv beta in F1. rewrite Z in F1. discriminate.
  - intros NE. destruct (reach_all _ _ _ _ W R) as (_ & I & _). destruct (fels (fst dx) p) as [|s r] eqn:F; [congruence|].
    destruct (in_log _ _ _ _ p s I) as (e & _ & SD & RE & PE); [rewrite F; left; reflexivity|].
    unfold real, Hof in RE. apply find_some in RE. destruct RE as [IE _]. apply F2 in IE. apply memN_In in IE. rewrite PE in IE. exact IE.
Qed.
Ltac nodups := repeat (constructor; [cbn; intuition discriminate|]); constructor.

(** The log of identifier 7 with a rotation that superseded two interactions, at its source; then with
    one more event. *)
Lemma reachA : reachable E1 (Hof evsA) cf0 dxA.
Proof. exists opsA. split; [reals|reflexivity]. Qed.
Definition msA : list msg := map (received true false false 77) (clonePre dxA 7 0).

(** The log of identifier 7 with witnesses, three of which must receipt; the receiver has the first
    three events. *)
Definition dxL3 : db := run E1 cf0 (map Deliver (firstn 3 msL)) db0.
Definition dxL : db := run E1 cf0 (map Deliver (skipn 3 msL)) dxL3.
Definition msR : list msg := map (received false true false 78) (clonePre dxL 7 3).



(** ** Where replay fails *)

(** Delegated identifiers: when a rotation of the delegator has superseded the interaction with the
    seal, the source keeps the delegated event and a new receiver never accepts it, even with the
    whole log of the delegator and passes over the escrows. *)
Definition Br := rot1 45 8 1 40 [6] [107].
Definition evsE := [B0; B1; Br; D0].
Definition opsE : list op := [dlv B0 [sign B0 5 0 None]; dlv B1 [sign B1 5 0 None]; Deliver (msgT D0 [sign D0 1 0 None] [] (Some (1, 41))); dlv Br [sign Br 6 0 (Some 0)]].
Definition dxE : db := run E1 cf0 opsE db0.
Lemma c95_delegated_refuted : exists E H cf dx ms p q n,
  world H /\ sane H /\ reachable E H cf dx /\ texts_differ dx p /\ texts_differ dx q /\ bystander cf dx p /\ bystander cf dx q /\ undelegated dx q /\
  Forall2 arrives (clonePre dx q 0 ++ clonePre dx p 0) ms /\
  fels (fst dx) p <> [] /\ fels (fst (run E cf (map Deliver ms ++ [Escrows n; Escrows n]) db0)) p = [].
Proof.
  exists E1, (Hof evsE), cf0, dxE, (map (received false false true 5) (clonePre dxE 8 0 ++ clonePre dxE 9 0)), 9, 8, 6.
  split; [apply world_of; reflexivity|]. split; [apply sane_of; reflexivity|].
  split; [exists opsE; split; [unfold opsE; reals|reflexivity]|].
  split; [apply texts_ok; vm_compute; reflexivity|]. split; [apply texts_ok; vm_compute; reflexivity|].
  split; [apply by_ok; vm_compute; reflexivity|]. split; [apply by_ok; vm_compute; reflexivity|].
  split; [apply undel_ok; vm_compute; reflexivity|].
  split; [apply arrives_map|]. split; vm_compute; [discriminate|reflexivity].
Qed.

(** A controller accepts its own event before its witnesses have receipted it: the clone of such a
    log is not accepted by others. *)
Definition cfW : conf := mkConf [7] [] (fun _ => None).
Definition dxW : db := run E1 cfW [Deliver (msgT W0 [sign W0 1 0 None] [] None)] db0.
Lemma c95_party_refuted : exists E H cf cf' dx ms p,
  world H /\ sane H /\ reachable E H cf dx /\ texts_differ dx p /\ undelegated dx p /\ bystander cf' dx p /\
  Forall2 arrives (clonePre dx p 0) ms /\ fels (fst dx) p <> [] /\ fels (fst (run E cf' (map Deliver ms) db0)) p = [].
Proof.
  exists E1, (Hof [W0; W1; W1r]), cfW, cf0, dxW, (map (received false false true 5) (clonePre dxW 7 0)), 7.
  split; [apply world_of; reflexivity|]. split; [apply sane_of; reflexivity|].
  split; [exists [Deliver (msgT W0 [sign W0 1 0 None] [] None)]; split; [reals|reflexivity]|].
  split; [apply texts_ok; vm_compute; reflexivity|]. split; [apply undel_ok; vm_compute; reflexivity|].
  split; [apply by_ok; vm_compute; reflexivity|].
  split; [apply arrives_map|]. split; vm_compute; [discriminate|reflexivity].
Qed.

(** Not every signature in a clone has been verified: one that came with an event that waited in
    escrow is kept and sent on although no key of the log verifies it. *)
Definition junk : siger := sign A1 99 0 None.
Definition dxJ : db := run E1 cf0 [dlv A1 [junk]; dlv A1 [sign A1 1 0 None]; dlv A0 [sign A0 1 0 None]; Escrows 1] db0.
Lemma c95_unverified_refuted : exists E H cf dx p c g,
  world H /\ sane H /\ reachable E H cf dx /\ In c (clonePre dx p 0) /\ In g (cl_sigers c) /\
  forall e ky, accepted dx p e -> In ky (e_keys e) -> vrfy E ky (sg_raw g) (e_raw (cl_evt c)) = false.
Proof.
  assert (X : exists c, In c (clonePre dxJ 7 0) /\ In junk (cl_sigers c) /\ cl_evt c = A1) by (eexists; split; [vm_compute; right; left; reflexivity|]; split; [vm_compute; auto|reflexivity]).
  destruct X as (c & X1 & X2 & X3). exists E1, (Hof evsA), cf0, dxJ, 7, c, junk.
  split; [apply world_of; reflexivity|]. split; [apply sane_of; reflexivity|].
  split; [exists [dlv A1 [junk]; dlv A1 [sign A1 1 0 None]; dlv A0 [sign A0 1 0 None]; Escrows 1]; split; [reals|reflexivity]|].
  split; [exact X1|]. split; [exact X2|]. rewrite X3. intros e ky [I V] K. clear X1 X2 X3.
  assert (Z : fels (fst dxJ) 7 = [20; 21]) by (vm_compute; reflexivity). rewrite Z in I. clear Z.
  destruct I as [I|[I|[]]]; rewrite <- I in V; vm_compute in V; injection V as <-; [|destruct K]. destruct K as [<-|[]]. vm_compute. reflexivity.
Qed.

Lemma c95_dates_refuted : exists E H cf dx ms p s t t',
  world H /\ sane H /\ reachable E H cf dx /\ undelegated dx p /\ texts_differ dx p /\ bystander cf dx p /\
  ms = map (received true false false t') (clonePre dx p 0) /\ In s (fels (fst dx) p) /\
  dtss (snd dx) p s = Some t /\ dtss (snd (run E cf (map Deliver ms) db0)) p s = Some t' /\ t <> t'.
Proof.
  exists E1, (Hof evsA), cf0, dxA, msA, 7, 24, 0, 77.
  split; [apply world_of; reflexivity|]. split; [apply sane_of; reflexivity|]. split; [exact reachA|].
  split; [apply undel_ok; vm_compute; reflexivity|]. split; [apply texts_ok; vm_compute; reflexivity|].
  split; [apply by_ok; vm_compute; reflexivity|]. split; [reflexivity|]. split; [vm_compute; tauto|].
  split; [vm_compute; reflexivity|]. split; [vm_compute; reflexivity|discriminate].
Qed.

(** ** C96: cleaning a database *)

Lemma c96_clean_partial : forall E H cf dx p now ps, world H -> sane H -> reachable E H cf dx -> all_prefixes dx ps ->
  undelegated dx p -> texts_differ dx p -> bystander cf dx p ->
  agree p (snd (clean E cf now ps dx)) dx.
Proof. intros. apply (clean_agree E H); assumption. Qed.

Definition dxU : db := run E1 cf0 [dlv LO [sign LO 5 0 None]] dxL.
Lemma reachU : reachable E1 (Hof evsL) cf0 dxU.
Proof.
  exists ((map Deliver (firstn 3 msL) ++ map Deliver (skipn 3 msL)) ++ [dlv LO [sign LO 5 0 None]]).
  split; [unfold msL, at_; cbn [map app firstn skipn]; reals|]. rewrite !run_app. reflexivity.
Qed.


Lemma c96_own_refuted : exists E H cf dx p now ps,
  world H /\ sane H /\ reachable E H cf dx /\ all_prefixes dx ps /\ undelegated dx p /\ texts_differ dx p /\ In p (c_prefixes cf) /\
  fels (fst dx) p <> [] /\
  let '(cf', dx') := clean E cf now ps dx in
  fels (fst dx') p = [] /\ kels (fst dx') p = [] /\ option_map undated (keyState dx' p) = option_map undated (keyState dx p) /\ keyState dx' p <> None /\ In p (c_prefixes cf').
Proof.
  exists E1, (Hof [W0; W1; W1r]), cfW, dxW, 7, 5, [7].
  split; [apply world_of; reflexivity|]. split; [apply sane_of; reflexivity|].
  split; [exists [Deliver (msgT W0 [sign W0 1 0 None] [] None)]; split; [reals|reflexivity]|].
  split; [eapply (all_ok E1 [W0; W1; W1r] cfW); [apply world_of; reflexivity|exists [Deliver (msgT W0 [sign W0 1 0 None] [] None)]; split; [reals|reflexivity]|nodups|vm_compute; reflexivity|reflexivity]|]. split; [apply undel_ok; vm_compute; reflexivity|]. split; [apply texts_ok; vm_compute; reflexivity|].
  split; [cbn; auto|]. split; [vm_compute; discriminate|].
  vm_compute. repeat split; auto; discriminate.
Qed.

(** A delegated identifier whose prefix comes before its delegator's loses its log and key state
    though nothing is missing: the events are processed once in the order of the prefixes. *)
Definition Dd := dipT 30 6 8 [1] [102].
Definition Bd := ixn1 41 8 1 40 [SealEvt 6 0 30].
Definition opsF : list op := [dlv B0 [sign B0 5 0 None]; dlv Bd [sign Bd 5 0 None]; Deliver (msgT Dd [sign Dd 1 0 None] [] (Some (1, 41)))].
Definition dxF : db := run E1 cf0 opsF db0.
Lemma c96_delegated_refuted : exists E H cf dx p q now,
  world H /\ sane H /\ reachable E H cf dx /\ all_prefixes dx [p; q] /\ bystander cf dx p /\ bystander cf dx q /\ texts_differ dx p /\ texts_differ dx q /\
  fels (fst dx) p <> [] /\ fels (fst (snd (clean E cf now [q; p] dx))) p = fels (fst dx) p /\ fels (fst (snd (clean E cf now [p; q] dx))) p = [].
Proof.
  exists E1, (Hof [B0; Bd; Dd]), cf0, dxF, 6, 8, 5.
  split; [apply world_of; reflexivity|]. split; [apply sane_of; reflexivity|].
  split; [exists opsF; split; [unfold opsF; reals|reflexivity]|].
  split; [eapply (all_ok E1 [B0; Bd; Dd] cf0); [apply world_of; reflexivity|exists opsF; split; [unfold opsF; reals|reflexivity]|nodups|vm_compute; reflexivity|reflexivity]|].
  split; [apply by_ok; vm_compute; reflexivity|]. split; [apply by_ok; vm_compute; reflexivity|].
  split; [apply texts_ok; vm_compute; reflexivity|]. split; [apply texts_ok; vm_compute; reflexivity|].
  split; [vm_compute; discriminate|]. split; vm_compute; reflexivity.
Qed.

Lemma c96_dates_refuted : exists E H cf dx p now ps s t,
  world H /\ sane H /\ reachable E H cf dx /\ all_prefixes dx ps /\ undelegated dx p /\ texts_differ dx p /\ bystander cf dx p /\
  In s (fels (fst dx) p) /\ dtss (snd dx) p s = Some t /\ dtss (snd (snd (clean E cf now ps dx))) p s = Some now /\ t <> now.
Proof.
  exists E1, (Hof evsA), cf0, dxA, 7, 77, [7], 20, 0.
  split; [apply world_of; reflexivity|]. split; [apply sane_of; reflexivity|]. split; [exact reachA|]. split; [eapply (all_ok E1 evsA cf0); [apply world_of; reflexivity|exact reachA|nodups|vm_compute; reflexivity|reflexivity]|].
  split; [apply undel_ok; vm_compute; reflexivity|]. split; [apply texts_ok; vm_compute; reflexivity|].
  split; [apply by_ok; vm_compute; reflexivity|]. split; [vm_compute; tauto|].
  split; [vm_compute; reflexivity|]. split; [vm_compute; reflexivity|discriminate].
Qed.
