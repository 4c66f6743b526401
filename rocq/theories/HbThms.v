(** Properties of event builders and habitats. *)
From Coq Require Import Lia.
From Verif Require Import Prelude B64Model MatterModel SubsModel ThModel ThSpec ThThms JsonModel KsModel KsSpec KsThms KelModel KelSpec KelProofs OoSpec OoProofs OoProofs2 HbModel HbSpec HbProofs HbProofs2 HbProofs3 HbProofs4 HbProofs5 HbProofs6 HbEx.
Ltac Zify.zify_post_hook ::= Z.div_mod_to_equations.
Open Scope N_scope.

Definition okOf {A} (r : res A) : bool := match r with Ok _ => true | Err _ => false end.
Lemma ok_some : forall A (r : res A), okOf r = true -> exists a, r = Ok a.
Proof. intros A [a|x] E; [eauto|discriminate]. Qed.
Lemma err_some : forall A (r : res A), okOf r = false -> exists x, r = Err x.
Proof. intros A [a|x] E; [discriminate|eauto]. Qed.
Lemma split_ok : forall A (q : node * res A) r, snd q = r -> q = ((fst (fst q), snd (fst q)), r).
Proof. intros A [[m d] r0] r E. cbn in *. subst. reflexivity. Qed.

(** ** C97: what the builders make is accepted *)

Lemma c97_built_accepted : forall h cf pre v ms dx, coherent h -> builtLog h pre v ms -> stranger cf (nm h pre) ms -> unknown dx (nm h pre) ->
  exists k, keyState (run (he h) cf (map Deliver ms) dx) (nm h pre) = Some k /\ asViewed v k.
Proof.
  intros h cf pre v ms dx CO B S0 U. destruct (built_accepted h cf pre v ms dx CO B S0 U) as (k & K & A & _). exists k. split; [|exact A].
  apply kget_of. exact K.
Qed.

(** an inception with one witness, a rotation that replaces the witness, an interaction *)
Definition kAx : list bytes := [68 :: s2b "a"; 68 :: s2b "b"].
Definition kBx : list bytes := [68 :: s2b "c"].
Definition kCx : list bytes := [68 :: s2b "d"; 68 :: s2b "e"].
Definition wAx : N := nmx [66; 5].
Definition wBx : N := nmx [66; 6].
Definition signx (keys : list bytes) (raw : bytes) : list siger := sigersFrom hx raw 0 (map (fun k => ((EdSeed, tl k), k)) keys).
Definition getE {A} (d : A) (r : res A) : A := match r with Ok x => x | Err _ => d end.
Definition evt0 : evt := mkEvt [] 0 0 0 Icp None (TNum 0) [] (TNum 0) [] 0 [] [] [] false false None [] 0.
Definition iax : inArgs := mkInArgs (Some two) None None [wAx] false false [] None None.
Definition rax : rotArgs := mkRotArgs None None (Some 1) [wAx] [wBx] [].
Definition e0x : evt := snd (getE ([], evt0) (inceptB hx kAx (map (dig kx (s2b "E")) kBx) iax)).
Definition e1x : evt := getE evt0 (rotateB hx false px kBx (e_said e0x) 1 (map (dig kx (s2b "E")) kCx) [wAx] rax).
Definition e2x : evt := getE evt0 (interactB hx px (e_said e1x) 2 [SealOther [7]]).
Definition msgx (e : evt) (sg wg : list siger) : msg := mkMsg e sg wg None false false 9 None.
Definition l0x : msg := msgx e0x (signx kAx (e_raw e0x)) (signx [[66; 5]] (e_raw e0x)).
Definition l1x : msg := msgx e1x (signx kBx (e_raw e1x)) (signx [[66; 6]] (e_raw e1x)).
Definition l2x : msg := msgx e2x (signx kBx (e_raw e2x)) (signx [[66; 6]] (e_raw e2x)).
Ltac verx := match goal with |- Forall ?P ?l => let l' := eval vm_compute in l in change (Forall P l') end;
  repeat (apply Forall_cons; [eexists; split; [vm_compute; reflexivity|vm_compute; reflexivity]|]); apply Forall_nil.
Ltac nodx := vm_compute; repeat constructor; cbn; intuition discriminate.
Definition v0x : view := mkView e0x (map nmx kAx) (e_kt e0x) (map nmx (map (dig kx (s2b "E")) kBx)) (e_nt e0x) [wAx] (e_bt e0x) false.
Definition v1x : view := mkView e1x (map nmx kBx) (e_kt e1x) (map nmx (map (dig kx (s2b "E")) kCx)) (e_nt e1x) (witsAfter [wAx] [wAx] [wBx]) (e_bt e1x) false.
Definition v2x : view := mkView e2x (v_keys v1x) (v_kt v1x) (v_ndigs v1x) (v_nt v1x) (v_wits v1x) (v_toad v1x) (v_estOnly v1x).
Lemma built_0 : builtLog hx px v0x [l0x].
Proof.
  apply (bl_incept hx px kAx (map (dig kx (s2b "E")) kBx) iax e0x l0x); [vm_compute; reflexivity|reflexivity|reflexivity| |].
  - split; [nodx|]. split; [verx|vm_compute; reflexivity].
  - split; [nodx|]. split; [verx|vm_compute; discriminate].
Qed.
Lemma built_1 : builtLog hx px v1x [l0x; l1x].
Proof.
  apply (bl_rotate hx px v0x [l0x] kBx (map (dig kx (s2b "E")) kCx) rax e1x l1x built_0); [vm_compute; discriminate|vm_compute; reflexivity|reflexivity| | |].
  - split; [nodx|]. split; [verx|vm_compute; reflexivity].
  - exists [0]. split; [|vm_compute; reflexivity]. repeat constructor. eexists _, _. split; [vm_compute; reflexivity|]. split; vm_compute; reflexivity.
  - split; [nodx|]. split; [verx|vm_compute; discriminate].
Qed.
Lemma built_2 : builtLog hx px v2x [l0x; l1x; l2x].
Proof.
  apply (bl_interact hx px v1x [l0x; l1x] [SealOther [7]] e2x l2x built_1); [vm_compute; discriminate|reflexivity|vm_compute; reflexivity|reflexivity| |].
  - split; [nodx|]. split; [verx|vm_compute; reflexivity].
  - split; [nodx|]. split; [verx|vm_compute; discriminate].
Qed.
Example built_accepted_ex : exists k, keyState (run ex cfs (map Deliver [l0x; l1x; l2x]) db0) (nmx px) = Some k /\ asViewed v2x k /\ k_sn k = 2 /\ k_wits k = [wBx].
Proof.
  destruct (c97_built_accepted hx cfs px v2x [l0x; l1x; l2x] db0 hx_coherent built_2) as (k & K & A).
  - split; [intros []|]. split; [intros []|]. intros m w _ _ [].
  - split; reflexivity.
  - exists k. split; [exact K|]. split; [exact A|]. destruct A as (A1 & A2 & A3 & A4 & A5 & A6 & A7 & _). split; [rewrite A2; vm_compute; reflexivity|rewrite A7; vm_compute; reflexivity].
Qed.

Lemma c97_cut_order_refuted : exists h pre keys ndigs dig sn wits cuts cuts' e, coherent h /\ NoDup wits /\ incl cuts wits /\ Permutation.Permutation cuts cuts' /\
  rotateB h false pre keys dig sn ndigs wits (mkRotArgs None None None cuts [] []) = Ok e /\
  rotateB h false pre keys dig sn ndigs wits (mkRotArgs None None None cuts' [] []) = Err ValueError.
Proof.
  exists hx, px, kBx, [], 0, 1, [1; 2; 3], [1; 2], [2; 1]. eexists. split; [exact hx_coherent|]. split; [nodx|].
  split; [intros x [<-|[<-|[]]]; cbn; auto|]. split; [apply Permutation.perm_swap|]. split; vm_compute; reflexivity.
Qed.

(** the keys of the key store are not those of the key state *)
Definition keysOff (m : mgr) (dx : db) : bool :=
  match dget (sits (ks m)) px, keyState dx (nmx px) with
  | Some ps, Some k => negb (leqb (k_keys k) (map nmx (l_pubs (t_new ps))))
  | _, _ => false
  end.
Lemma off_step : forall m dx, keysOff m dx = true -> ~ inStep hx px m dx.
Proof.
  intros m dx H (ps & k & dc & A & B & C & _). change (keyState dx (nmx px) = Some k) in B. unfold keysOff in H. rewrite A, B in H. change (nm hx) with nmx in C. rewrite C in H.
  assert (L : forall l : list N, leqb l l = true) by (induction l as [|y l IH]; [reflexivity|cbn; rewrite N.eqb_refl; exact IH]). rewrite L in H. discriminate.
Qed.

(** ** C98: key store and key event log stay in step *)

Lemma c98_in_step_partial : forall h cf pre m dx, coherent h -> habhist h cf pre m dx -> inStep h pre m dx.
Proof.
  intros h cf pre m dx CO H. destruct (hist_ag h cf pre m dx CO H) as (ps & k & dc & cd & A). destruct A. exists ps, k, dc. auto.
Qed.

Lemma c98_incepted : forall h cf pre m dx now g m' dx', coherent h -> fhist (hk h) m -> In (nm h pre) (c_prefixes cf) -> ~ In (nm h pre) (c_groups cf) ->
  unknown dx (nm h pre) -> habIncept h cf now g (m, dx) = ((m', dx'), Ok pre) -> keyState dx' (nm h pre) <> None ->
  freshKeys (ks m) (ks (fst (snd (KsModel.incept (hk h) (keyArgs g) m)))) ->
  exists k, keyState dx' (nm h pre) = Some k /\ k_sn k = 0 /\ len (k_keys k) = g_icount g /\
    (g_transferable g = true -> g_ncount g = None -> len (k_ndigs k) = g_icount g) /\
    (forall n, g_transferable g = true -> g_ncount g = Some n -> len (k_ndigs k) = n) /\
    (g_transferable g = false -> k_ndigs k = []) /\
    k_wits k = b_wits (g_args g) /\ k_estOnly k = b_estOnly (g_args g) /\ inStep h pre m' dx'.
Proof.
  intros h cf pre m dx now g m' dx' CO F O1 O2 U H KS FR.
  destruct (incept_step h cf pre m dx now g m' dx' CO F O1 O2 U H KS FR) as (ps & k & cd & A & C1 & C2 & C3 & C4 & C5). exists k.
  split; [exact (a_key _ _ _ _ _ _ _ _ _ A)|]. split; [exact C3|]. split; [exact C1|].
  split; [intros T N; rewrite T, N in C2; exact C2|]. split; [intros n T N; rewrite T, N in C2; exact C2|].
  split; [intros T; rewrite T in C2; destruct (k_ndigs k); [reflexivity|unfold len in C2; cbn [List.length] in C2; lia]|].
  split; [exact C4|]. split; [exact C5|]. eapply c98_in_step_partial; [exact CO|]. eapply hh_incept; eassumption.
Qed.

Lemma c98_interact : forall h cf pre m dx k now data, coherent h -> habhist h cf pre m dx -> keyState dx (nm h pre) = Some k ->
  (k_ndigs k <> [] -> k_estOnly k = false -> exists dx' e sg k', habInteract h cf now pre data (m, dx) = ((m, dx'), Ok (e, sg)) /\
     keyState dx' (nm h pre) = Some k' /\ k_evt k' = e /\ k_sn k' = k_sn k + 1 /\ e_prior e = Some (e_said (k_evt k)) /\ e_seals e = data /\
     k_keys k' = k_keys k /\ k_ndigs k' = k_ndigs k /\ inStep h pre m dx') /\
  (k_ndigs k = [] \/ k_estOnly k = true -> habInteract h cf now pre data (m, dx) = ((m, dx), Err ValidationError)).
Proof.
  intros h cf pre m dx k now data CO H K. destruct (hist_ag h cf pre m dx CO H) as (ps & k0 & dc & cd & A). pose proof (a_key _ _ _ _ _ _ _ _ _ A) as K0.
  unfold keyState in K. rewrite K in K0. injection K0 as <-.
  destruct (interact_step h cf pre m dx ps k dc cd now data CO A) as [(N1 & N2 & dx' & e & sg & fn & dts & B1 & B2 & B3 & B4 & B5 & B6 & B7)|(N1 & B1)].
  - split; [|intros [Z|Z]; congruence]. intros _ _. exists dx', e, sg, (interacted k e fn dts). split; [exact B1|]. split; [apply kget_of; exact B6|].
    split; [reflexivity|]. split; [cbn; exact B4|]. split; [exact B5|]. split; [exact B2|]. split; [reflexivity|]. split; [reflexivity|].
    eapply c98_in_step_partial; [exact CO|]. eapply hh_interact; [exact H|exact B1].
  - split; [intros Z1 Z2; destruct N1; congruence|]. intros _. exact B1.
Qed.

Lemma c98_rotate : forall h cf pre m dx k now temp data m1, coherent h -> habhist h cf pre m dx -> keyState dx (nm h pre) = Some k ->
  k_ndigs k <> [] -> k_nt k <> TNum 0 -> covers (k_nt k) (len (k_ndigs k)) ->
  makesKeys h pre (len (k_ndigs k)) temp m m1 -> freshKeys (ks m) (ks m1) ->
  exists m' dx' e sg k' ps ps', habRotate h cf now pre None temp (mkRotArgs None None None [] [] data) (m, dx) = ((m', dx'), Ok (e, sg)) /\
    dget (sits (ks m)) pre = Some ps /\ dget (sits (ks m')) pre = Some ps' /\ keyState dx' (nm h pre) = Some k' /\
    k_evt k' = e /\ k_sn k' = k_sn k + 1 /\ e_prior e = Some (e_said (k_evt k)) /\ e_seals e = data /\
    l_pubs (t_new ps') = l_pubs (t_nxt ps) /\ len (l_pubs (t_nxt ps')) = len (k_ndigs k) /\ k_wits k' = k_wits k /\ k_toad k' = k_toad k /\ k_tholder k' = k_nt k /\ k_nt k' = k_nt k /\
    inStep h pre m' dx' /\ habhist h cf pre m' dx'.
Proof.
  intros h cf pre m dx k now temp data m1 CO H K NE NZ CV MK FR. destruct (hist_ag h cf pre m dx CO H) as (ps & k0 & dc & cd & A). pose proof (a_key _ _ _ _ _ _ _ _ _ A) as K0.
  unfold keyState in K. rewrite K in K0. injection K0 as <-.
  destruct (makes_handOut h pre _ temp m m1 CO (a_fh _ _ _ _ _ _ _ _ _ A) MK) as (vs & ds & HO & LD).
  assert (IZ : isZero (k_nt k) = false) by (destruct (k_nt k) as [n|]; [|reflexivity]; cbn; apply N.ltb_ge; assert (n <> 0) by congruence; lia).
  assert (SZ : thsize (k_nt k) <= len ds) by (rewrite LD; exact (sd_nsize _ (a_sound _ _ _ _ _ _ _ _ _ A))).
  destruct (rotate_plain h cf pre m dx ps k dc cd now None temp data m1 vs ds CO A NE IZ CV HO FR SZ) as (m' & dx' & e & sg & R & FR' & E1 & E2 & E3 & E4 & E5).
  set (a := mkRotArgs None None None [] [] data) in *.
  assert (W : weighsAll a dx (nm h pre)) by (intros s t k0 Z; discriminate Z).
  pose proof (hh_rotate h cf pre m dx now None temp a m' dx' _ H R W FR') as H'.
  destruct (rotate_step _ _ _ _ _ _ _ _ _ _ _ _ _ _ _ _ CO A R W FR') as [(e' & sg' & lot & fn & dts & Q & B1 & B2 & B3 & B4 & B)|(x & Q & _)]; [|discriminate].
  injection Q as <- <-.
  exists m', dx', e, sg, (rotated k e (witsAfter (k_wits k) [] []) [] [] fn dts), ps, (mkSit (t_new ps) (t_nxt ps) lot).
  split; [exact R|]. split; [exact (a_sit _ _ _ _ _ _ _ _ _ A)|]. split; [exact (a_sit _ _ _ _ _ _ _ _ _ B)|]. split; [apply kget_of; exact B1|].
  split; [reflexivity|]. split; [cbn; exact B3|]. split; [exact B4|]. split; [exact B2|]. split; [reflexivity|].
  split. { pose proof (a_ndigs _ _ _ _ _ _ _ _ _ B) as Z. cbn [rotated k_ndigs t_nxt] in Z. rewrite E5 in Z. apply (f_equal (@len N)) in Z. rewrite !map_len in Z. cbn [t_nxt]. congruence. }
  cbn [rotated k_wits k_toad k_tholder k_nt]. split. { unfold witsAfter. rewrite app_nil_r. clear. induction (k_wits k) as [|w l IH]; [reflexivity|cbn; f_equal; exact IH]. }
  split; [exact E3|]. split; [exact E1|]. split; [exact E2|]. split; [eapply c98_in_step_partial; [exact CO|exact H']|exact H'].
Qed.

(** a habitat with two keys, incepted, rotated and used *)
Notation in1 := (habIncept hx cfx 0 (gx (inx (Some two) None None)) (m0x, db0)).
Notation nd1 := (fst in1).
Lemma in1_ok : snd in1 = Ok px.
Proof. vm_compute. reflexivity. Qed.
Lemma in1_state : keyState (snd nd1) (nmx px) <> None.
Proof. vm_compute. discriminate. Qed.
Lemma in1_fresh : freshKeys (ks m0x) (ks (fst (snd (KsModel.incept kx (keyArgs (gx (inx (Some two) None None))) m0x)))).
Proof. apply freshb. vm_compute. reflexivity. Qed.
Lemma hist_1 : habhist hx cfx px (fst nd1) (snd nd1).
Proof.
  apply (hh_incept hx cfx px m0x db0 0 (gx (inx (Some two) None None)) (fst nd1) (snd nd1)).
  - exact fhist_0.
  - left. reflexivity.
  - intros [].
  - split; reflexivity.
  - exact (split_ok _ in1 (Ok px) in1_ok).
  - exact in1_state.
  - exact in1_fresh.
Qed.

(** two keys that commit to three; one key of a non-transferable identifier *)
Definition g3x : habArgs := mkHabArgs (inx (Some two) None None) 2 EdSeed (Some 3) (s2b "E") None None None true (s2b "a") false.
Definition gnx : habArgs := mkHabArgs (inx None None None) 1 EdSeed (Some 3) (s2b "E") None None None false (s2b "a") false.
Notation in3 := (habIncept hx cfx 0 g3x (m0x, db0)).
Definition pnx : bytes := match snd (habIncept hx cfx 0 gnx (m0x, db0)) with Ok p => p | Err _ => [] end.
Definition cfn : conf := mkConf [nmx pnx] [] (fun _ => None).
Notation inn := (habIncept hx cfn 0 gnx (m0x, db0)).
Example incepted_ex : (snd in3 = Ok px /\ freshKeys (ks m0x) (ks (fst (snd (KsModel.incept kx (keyArgs g3x) m0x)))) /\
    exists k, keyState (snd (fst in3)) (nmx px) = Some k /\ len (k_keys k) = 2 /\ len (k_ndigs k) = 3) /\
  (snd inn = Ok pnx /\ freshKeys (ks m0x) (ks (fst (snd (KsModel.incept kx (keyArgs gnx) m0x)))) /\
    exists k, keyState (snd (fst inn)) (nmx pnx) = Some k /\ len (k_keys k) = 1 /\ k_ndigs k = []).
Proof.
  split; (split; [vm_compute; reflexivity|split; [apply freshb; vm_compute; reflexivity|]]); (eexists; split; [vm_compute; reflexivity|split; reflexivity]).
Qed.
Notation ro1 := (habRotate hx cfx 1 px None false (plain [SealOther [7]]) nd1).
Notation nd2 := (fst ro1).
Lemma hist_2 : habhist hx cfx px (fst nd2) (snd nd2).
Proof.
  eapply (hh_rotate hx cfx px (fst nd1) (snd nd1) 1 None false (plain [SealOther [7]]) (fst nd2) (snd nd2) (snd ro1) hist_1).
  - rewrite <- surjective_pairing. apply (split_ok _ ro1). reflexivity.
  - intros s t k Z. discriminate Z.
  - apply freshb. vm_compute. reflexivity.
Qed.
Example in_step_ex : inStep hx px (fst nd2) (snd nd2) /\ option_map k_sn (keyState (snd nd2) (nmx px)) = Some 1.
Proof. split; [exact (c98_in_step_partial hx cfx px _ _ hx_coherent hist_2)|vm_compute; reflexivity]. Qed.
Example interact_ex : exists dx' e sg k', habInteract hx cfx 2 px [SealOther [8]] (fst nd2, snd nd2) = ((fst nd2, dx'), Ok (e, sg)) /\
  keyState dx' (nmx px) = Some k' /\ k_evt k' = e /\ e_seals e = [SealOther [8]] /\ k_sn k' = 2.
Proof.
  assert (K : exists k, keyState (snd nd2) (nmx px) = Some k /\ k_ndigs k <> [] /\ k_estOnly k = false /\ k_sn k = 1).
  { eexists. split; [vm_compute; reflexivity|]. split; [discriminate|]. split; reflexivity. }
  destruct K as (k & K & N1 & N2 & N3).
  destruct (proj1 (c98_interact hx cfx px _ _ k 2 [SealOther [8]] hx_coherent hist_2 K) N1 N2) as (dx' & e & sg & k' & B1 & B2 & B3 & B4 & B5 & B6 & _).
  exists dx', e, sg, k'. split; [exact B1|]. split; [exact B2|]. split; [exact B3|]. split; [exact B6|]. rewrite B4, N3. reflexivity.
Qed.
Example rotate_ex : exists k m1, keyState (snd nd2) (nmx px) = Some k /\ k_ndigs k <> [] /\ k_nt k <> TNum 0 /\ covers (k_nt k) (len (k_ndigs k)) /\
  makesKeys hx px (len (k_ndigs k)) false (fst nd2) m1 /\ freshKeys (ks (fst nd2)) (ks m1).
Proof.
  eexists _, (fst (snd (KsModel.rotate kx px (mkRargs (repeat EdSeed 2) (s2b "E") true false false) (fst nd2)))). split; [vm_compute; reflexivity|]. split; [discriminate|]. split; [discriminate|]. split; [exact Logic.I|].
  split; [eexists _, _; split; vm_compute; reflexivity|]. apply freshb. vm_compute. reflexivity.
Qed.

Lemma c98_short_weights_refuted : exists h cf pre m dx k now a m' dx' msg, coherent h /\ habhist h cf pre m dx /\ keyState dx (nm h pre) = Some k /\
  habRotate h cf now pre None false a (m, dx) = ((m', dx'), Ok msg) /\ keyState dx' (nm h pre) = Some k /\ ~ inStep h pre m' dx' /\
  exists m2 dx2 x, habRotate h cf now pre None false (mkRotArgs None None None [] [] []) (m', dx') = ((m2, dx2), Err x) /\ keyState dx2 (nm h pre) = Some k /\ ~ inStep h pre m2 dx2.
Proof.
  set (a := mkRotArgs (Some (SList [IElem (SW (s2b "1"))])) (Some two) None [] [] []).
  set (q := habRotate hx cfx 1 px None false a nd1). set (q2 := habRotate hx cfx 1 px None false (plain []) (fst q)).
  assert (K : exists k, keyState (snd nd1) (nmx px) = Some k /\ keyState (snd (fst q)) (nmx px) = Some k /\ keyState (snd (fst q2)) (nmx px) = Some k).
  { eexists. split; [vm_compute; reflexivity|]. split; vm_compute; reflexivity. }
  destruct K as (k & K & K1 & K2).
  assert (M : exists msg, snd q = Ok msg) by (apply ok_some; vm_compute; reflexivity). destruct M as (msg & M).
  assert (M2 : exists x, snd q2 = Err x) by (apply err_some; vm_compute; reflexivity). destruct M2 as (x & M2).
  exists hx, cfx, px, (fst nd1), (snd nd1), k, 1, a, (fst (fst q)), (snd (fst q)), msg.
  split; [exact hx_coherent|]. split; [exact hist_1|]. split; [exact K|].
  split; [rewrite <- surjective_pairing; exact (split_ok _ q _ M)|]. split; [exact K1|]. split; [apply off_step; vm_compute; reflexivity|].
  exists (fst (fst q2)), (snd (fst q2)), x. split; [rewrite <- surjective_pairing; exact (split_ok _ q2 _ M2)|].
  split; [exact K2|apply off_step; vm_compute; reflexivity].
Qed.

Lemma c98_short_inception_refuted : exists h cf now g m dx m' dx' pre, coherent h /\ fhist (hk h) m /\ unknown dx (nm h pre) /\ In (nm h pre) (c_prefixes cf) /\
  habIncept h cf now g (m, dx) = ((m', dx'), Ok pre) /\ keyState dx' (nm h pre) = None.
Proof.
  set (g := gx (inx (Some (SList [IElem (SW (s2b "1"))])) (Some two) None)). set (q := habIncept hx cfx 0 g (m0x, db0)).
  exists hx, cfx, 0, g, m0x, db0, (fst (fst q)), (snd (fst q)), px. split; [exact hx_coherent|]. split; [exact fhist_0|]. split; [split; reflexivity|]. split; [left; reflexivity|].
  split; [apply (split_ok _ q); vm_compute; reflexivity|vm_compute; reflexivity].
Qed.

Lemma c98_zero_next_refuted : exists h cf pre m dx k, coherent h /\ habhist h cf pre m dx /\ keyState dx (nm h pre) = Some k /\ k_ndigs k <> [] /\
  forall now ncount temp a, exists x, snd (habRotate h cf now pre ncount temp a (m, dx)) = Err x /\ snd (fst (habRotate h cf now pre ncount temp a (m, dx))) = dx.
Proof.
  set (g := gx (inx (Some two) (Some (SHex (s2b "0"))) None)). set (q := habIncept hx cfx 0 g (m0x, db0)).
  assert (H : habhist hx cfx px (fst (fst q)) (snd (fst q))).
  { eapply (hh_incept hx cfx px m0x db0 0 g).
    - exact fhist_0.
    - left. reflexivity.
    - intros [].
    - split; reflexivity.
    - apply (split_ok _ q). vm_compute. reflexivity.
    - vm_compute. discriminate.
    - apply freshb. vm_compute. reflexivity. }
  assert (K : exists k, keyState (snd (fst q)) (nmx px) = Some k /\ k_ndigs k <> [] /\ k_nt k = TNum 0).
  { eexists. split; [vm_compute; reflexivity|]. split; [discriminate|reflexivity]. }
  destruct K as (k & K & N1 & N2). exists hx, cfx, px, (fst (fst q)), (snd (fst q)), k. split; [exact hx_coherent|]. split; [exact H|]. split; [exact K|]. split; [exact N1|].
  intros now ncount temp a. exact (zero_stuck hx cfx now px ncount temp a _ _ k K N2).
Qed.

(** ** C99: calls that raise *)

Lemma c99_rotate_refused : forall h cf pre m dx now ncount temp a m' dx' x, coherent h -> habhist h cf pre m dx ->
  habRotate h cf now pre ncount temp a (m, dx) = ((m', dx'), Err x) -> weighsAll a dx (nm h pre) -> freshKeys (ks m) (ks m') ->
  dx' = dx /\ dget (sits (ks m')) pre = dget (sits (ks m)) pre /\ inStep h pre m' dx'.
Proof.
  intros h cf pre m dx now ncount temp a m' dx' x CO H E W FR. destruct (hist_ag h cf pre m dx CO H) as (ps & k & dc & cd & A).
  destruct (rotate_step _ _ _ _ _ _ _ _ _ _ _ _ _ _ _ _ CO A E W FR) as [(e & sg & lot & fn & dts & Q & _)|(y & _ & -> & S & F)]; [discriminate|].
  split; [reflexivity|]. rewrite S. split; [symmetry; exact (a_sit _ _ _ _ _ _ _ _ _ A)|]. destruct A. exists ps, k, dc. auto.
Qed.
Notation badx n := (habRotate hx cfx 1 px n false (mkRotArgs None None None [5] [] []) nd1).
Example rotate_refused_ex : exists m' dx' x, habRotate hx cfx 1 px None false (mkRotArgs None None None [5] [] []) (fst nd1, snd nd1) = ((m', dx'), Err x) /\
  weighsAll (mkRotArgs None None None [5] [] []) (snd nd1) (nmx px) /\ freshKeys (ks (fst nd1)) (ks m') /\ ks m' <> ks (fst nd1).
Proof.
  set (q := badx None). assert (M2 : exists x, snd q = Err x) by (apply err_some; vm_compute; reflexivity). destruct M2 as (x & M2).
  exists (fst (fst q)), (snd (fst q)), x. split; [rewrite <- surjective_pairing; exact (split_ok _ q _ M2)|].
  split; [intros s t k Z; discriminate Z|]. split; [apply freshb; vm_compute; reflexivity|]. intros Z. apply (f_equal (fun d => List.length (pubs d))) in Z. vm_compute in Z. discriminate.
Qed.

Lemma c99_repeat_refuted : exists h cf pre m dx now n a m' dx' x, coherent h /\ habhist h cf pre m dx /\
  (exists r, snd (habRotate h cf now pre None false (mkRotArgs None None None [] [] []) (m, dx)) = Ok r) /\
  habRotate h cf now pre (Some n) false a (m, dx) = ((m', dx'), Err x) /\
  exists m2 dx2 x2, habRotate h cf now pre None false (mkRotArgs None None None [] [] []) (m', dx') = ((m2, dx2), Err x2) /\
    m2 = m' /\ dx2 = dx'.
Proof.
  set (q := badx (Some 1)). set (q2 := habRotate hx cfx 1 px None false (plain []) (fst q)).
  assert (M : exists x, snd q = Err x) by (apply err_some; vm_compute; reflexivity). destruct M as (x & M).
  assert (M2 : exists x, snd q2 = Err x) by (apply err_some; vm_compute; reflexivity). destruct M2 as (x2 & M2).
  exists hx, cfx, px, (fst nd1), (snd nd1), 1, 1, (mkRotArgs None None None [5] [] []), (fst (fst q)), (snd (fst q)), x.
  split; [exact hx_coherent|]. split; [exact hist_1|]. split; [apply ok_some; vm_compute; reflexivity|].
  split; [rewrite <- surjective_pairing; exact (split_ok _ q _ M)|].
  exists (fst (fst q2)), (snd (fst q2)), x2. split; [rewrite <- surjective_pairing; exact (split_ok _ q2 _ M2)|].
  split; vm_compute; reflexivity.
Qed.

Lemma c99_incept_repeat_refuted : exists h cf now g g' m dx m' dx' x, coherent h /\ fhist (hk h) m /\
  (exists r, snd (habIncept h cf now g' (m, dx)) = Ok r) /\
  habIncept h cf now g (m, dx) = ((m', dx'), Err x) /\ snd (habIncept h cf now g' (m', dx')) = Err ValueError.
Proof.
  set (g := gx (inx (Some two) None (Some 1))). set (g' := gx (inx (Some two) None None)). set (q := habIncept hx cfx 0 g (m0x, db0)).
  assert (M : exists x, snd q = Err x) by (apply err_some; vm_compute; reflexivity). destruct M as (x & M).
  exists hx, cfx, 0, g, g', m0x, db0, (fst (fst q)), (snd (fst q)), x. split; [exact hx_coherent|]. split; [exact fhist_0|]. split; [apply ok_some; vm_compute; reflexivity|].
  split; [exact (split_ok _ q _ M)|vm_compute; reflexivity].
Qed.
