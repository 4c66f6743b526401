From Verif Require Import Prelude B64Model B64Proofs MatterModel SubsModel SubsProofs ThModel JsonModel JsonProofs KsModel KsSpec KsProofs KsInv KsRun KsHab KsLedger KsSeal KsHeld KsCrash.
Open Scope N_scope.
Ltac Zify.zify_post_hook ::= Z.div_mod_to_equations.

(** ** A concrete choice of the cryptography, for the examples *)
Definition cx : kcfg := mkCfg (fun cd sd (tr : bool) => (if tr then 1 else 0) :: cd ++ sd) (fun p => match p with x :: _ => x =? 1 | [] => false end)
  (fun salt path _ _ _ => salt ++ 47 :: path) (fun n => 114 :: hexstr n) (fun n => 115 :: hexstr n) (fun dc p => dc ++ p) (fun a s => beq a (66 :: s)).
Lemma cx_trans : forall cd sd tr, trans cx (vk cx cd sd tr) = tr.
Proof. intros cd sd []; reflexivity. Qed.
(** the derivation is injective: different paths give different keys *)
Lemma cx_stretch : forall salt p p' t te cd, stretch cx salt p t te cd = stretch cx salt p' t te cd -> p = p'.
Proof. intros. cbn in H. apply app_inv_head in H. congruence. Qed.
(** runs of calls that return *)
Fixpoint runs (m : mgr) (L : ledger) (os : list op) : option (mgr * ledger) :=
  match os with
  | [] => Some (m, L)
  | o :: r => match exec cx o m with (_, (m', Ok x)) => runs m' (publish o x L) r | _ => None end
  end.
Lemma runs_hist : forall os m L m' L', hist cx m L -> runs m L os = Some (m', L') -> hist cx m' L'.
Proof.
  induction os as [|o os IH]; cbn; intros m L m' L' H R; [injection R; intros; subst; auto|].
  destruct (exec cx o m) as [t [m1 [x|e]]] eqn:E; [|discriminate]. eapply IH; [|exact R]. eapply h_ok; eauto.
Qed.
Definition new0 (seed : bytes) : mgr := mkMgr ks0 None None seed 0.
Definition oSetup (a : bytes) : op := OSetup a 0 Salty (s2b "S") TierLow.
Definition oIncept (stem : bytes) (nn : list bytes) : op := OIncept (mkIargs [EdSeed] nn (s2b "E") None None stem None true true false).
Definition ra (nn : list bytes) : rargs := mkRargs nn (s2b "E") true false true.
Definition A1 := [EdSeed].
Definition A2 := [EdSeed; EdSeed].
Definition key (path : bytes) : bytes := vk cx EdSeed (stretch cx (s2b "S") path TierLow false EdSeed) true.
(** a store of one identifier *)
Definition mA : mgr := match runs (new0 []) [] [oSetup []; oIncept [] A2] with Some (m, _) => m | None => new0 [] end.
Definition LA : ledger := match runs (new0 []) [] [oSetup []; oIncept [] A2] with Some (_, L) => L | None => [] end.
Definition preA : bytes := key (s2b "000").
Lemma hist_A : hist cx mA LA.
Proof. eapply (runs_hist [oSetup []; oIncept [] A2]); [apply (h_start cx [] 0)|vm_compute; reflexivity]. Qed.
Lemma freshb : forall d d' : ksdb, (forallb (fun kl => match dget (pubs d) (fst kl) with Some _ => true | None =>
    forallb (fun p => forallb (fun kl' => beq (fst kl') (fst kl) || negb (memB p (snd kl'))) (pubs d')) (snd kl) end) (pubs d')) = true -> freshKeys d d'.
Proof.
  intros d d' H k l p k' l' G1 G2 Hp G3 Hp'. apply dget_In' in G2, G3. rewrite forallb_forall in H.
  specialize (H _ G2). cbn in H. rewrite G1 in H. rewrite forallb_forall in H. specialize (H _ Hp). rewrite forallb_forall in H. specialize (H _ G3). cbn [fst snd] in H.
  apply orb_true_iff in H. destruct H as [H|H]; [apply beq_eq; auto|]. apply negb_true_iff in H.
  assert (memB p l' = true) by (apply existsb_exists; exists p; split; [auto|apply beq_refl]). congruence.
Qed.
Definition mN : mgr := fst (snd (setup cx [] 0 Salty (s2b "S") TierLow (new0 []))).
Lemma fhist_N : fhist cx mN.
Proof. eapply (f_new cx [] 0 Salty (s2b "S") TierLow [] 0); [auto|vm_compute; reflexivity]. Qed.
Lemma fhist_A : fhist cx mA.
Proof.
  eapply (f_incept cx mN (mkIargs [EdSeed] A2 (s2b "E") None None [] None true true false)); [apply fhist_N|vm_compute; reflexivity|].
  apply freshb. vm_compute; reflexivity.
Qed.
Definition okv : list bytes -> list bytes -> bool := fun _ _ => true.
Definition nov : list bytes -> list bytes -> bool := fun _ _ => false.
(** the same identifier rotated once by Hab.rotate *)
Definition mA1 : mgr := fst (snd (exec cx (OHabRotate preA (ra A1) okv) mA)).
Lemma fhist_A1 : fhist cx mA1.
Proof.
  eapply (f_hab cx mA preA (ra A1) okv); [apply fhist_A|vm_compute; reflexivity|exact Logic.I|apply freshb; vm_compute; reflexivity].
Qed.

(** ** C32 *)
Lemma c32_rotation_chain : forall c, (forall cd sd tr, trans c (vk c cd sd tr) = tr) ->
  forall m L pre dc ds o t m' vs ds', hist c m L -> dget L pre = Some (dc, ds) -> rotates pre o ->
  exec c o m = (t, (m', Ok (Some (vs, ds')))) -> map (dig c dc) vs = ds.
Proof.
  intros c TR m L pre dc ds o t m' vs ds' H G R E. destruct (hist_linv c TR _ _ H) as (P & X). destruct (X _ _ _ G) as (ps & (_ & S) & ->).
  destruct o; cbn in R; try contradiction.
  - subst pre0. cbn [exec] in E. apply exec_some in E. destruct E as (x & E & R'). injection R'; intros; subst x.
    destruct (rotate_ok c _ _ _ _ _ _ _ P E) as (pp & ps' & sgs & cr & _ & S' & _ & Hv & _). rewrite S in S'. injection S'; intros; subst. reflexivity.
  - destruct advance; [|contradiction]. subst pre0. cbn [exec] in E. apply exec_some in E. destruct E as (x & E & R'). injection R'; intros; subst x.
    destruct (replay_ok c _ _ _ _ _ _ _ _ _ P E) as (pp & ps' & _ & S' & _ & l & _ & Hv & _). rewrite S in S'. injection S'; intros; subst. reflexivity.
  - subst pre0. cbn [exec] in E. apply exec_some in E. destruct E as (x & E & R'). injection R'; intros; subst x.
    destruct (hab_ok c _ _ _ _ _ _ _ E) as (ps' & m1 & S' & HK & _). destruct (habKeys_vs c _ _ _ _ _ P HK) as (ps'' & S'' & Hv). rewrite S in S''. injection S''; intros; subst. cbn in Hv. subst; reflexivity.
Qed.


Lemma c32_keys_held : forall c, (forall cd sd tr, trans c (vk c cd sd tr) = tr) ->
  forall m p, fhist c m -> inUse (ks m) p ->
  exists cd sd, signersOf c [p] m = ([], (m, Ok [((cd, sd), p)])) /\ vk c cd sd (trans c p) = p.
Proof. intros c TR m p H (pre & ps & S & Hp). eapply held; eauto. Qed.


Lemma c32_positions : forall c, (forall cd sd tr, trans c (vk c cd sd tr) = tr) ->
  forall m pre ps, fhist c m -> dget (sits (ks m)) pre = Some ps ->
  exists L, (forall i l, nth_error (L ++ [l_pubs (t_new ps); l_pubs (t_nxt ps)]) i = Some l -> dget (pubs (ks m)) (riKey pre (N.of_nat i)) = Some l) /\
    l_ridx (t_new ps) = len L /\ l_kidx (t_new ps) = keyCount L /\
    l_ridx (t_nxt ps) = len L + 1 /\ l_kidx (t_nxt ps) = keyCount (L ++ [l_pubs (t_new ps)]).
Proof.
  intros c TR m pre ps H Hs. destruct (fhist_inv c TR _ H) as (_ & _ & KI). pose proof (ki_sit _ KI _ _ Hs) as SO.
  destruct (so_count _ _ _ SO) as (L & Q1 & Q2 & Q3). exists L. split.
  - intros i l E. destruct (Nat.lt_ge_cases i (List.length L)) as [Lt|Ge].
    + rewrite nth_error_app1 in E by auto. apply Q3; auto.
    + rewrite nth_error_app2 in E by auto.
      assert (Z : i = List.length L \/ i = S (List.length L)).
      { destruct (i - List.length L)%nat as [|[|k]] eqn:K; [left; lia|right; lia|cbn in E; destruct k; discriminate]. }
      pose proof (so_new _ _ _ SO) as W1. pose proof (so_nxt _ _ _ SO) as W2. pose proof (so_r _ _ _ SO) as W3. unfold lotOf in *. unfold len in Q1.
      destruct Z as [->| ->]; [rewrite Nat.sub_diag in E|replace (S (List.length L) - List.length L)%nat with 1%nat in E by lia]; cbn in E; injection E; intros; subst.
      * rewrite Q1. exact W1.
      * replace (N.of_nat (S (List.length L))) with (l_ridx (t_nxt ps)) by lia. exact W2.
  - split; [lia|]. split; [auto|]. split; [rewrite (so_r _ _ _ SO); lia|]. rewrite keyCount_app. cbn. rewrite (so_k _ _ _ SO), Q2. lia.
Qed.


Lemma c32_next_position : forall c, (forall cd sd tr, trans c (vk c cd sd tr) = tr) ->
  forall m L pre a t m' vs ds pp ps, hist c m L -> exec c (ORotate pre a) m = (t, (m', Ok (Some (vs, ds)))) ->
  dget (prms (ks m)) pre = Some pp -> dget (sits (ks m)) pre = Some ps -> p_algo pp = Salty ->
  exists salt tier ks', ds = map (dig c (r_dcode a)) ks' /\ List.length ks' = List.length (r_ncodes a) /\
    forall i p, nth_error ks' i = Some p -> exists code, nth_error (r_ncodes a) i = Some code /\
      p = vk c code (stretch c salt (pathOf (p_stem pp) (p_pidx pp) (l_ridx (t_nxt ps) + 1) (l_kidx (t_nxt ps) + len (l_pubs (t_nxt ps)) + N.of_nat i)) tier (r_temp a) code) (r_transferable a).
Proof.
  intros c TR m L pre a t m' vs ds pp ps H E G S Al. destruct (hist_linv c TR _ _ H) as (P & _).
  cbn [exec] in E. apply exec_some in E. destruct E as (x & E & R'). injection R'; intros; subst x.
  destruct (rotate_ok c _ _ _ _ _ _ _ P E) as (pp' & ps' & sgs & cr & G' & S' & _ & _ & Hd & _ & Cr & X). cbv zeta in X. destruct X as ((M1 & M2) & _).
  rewrite G in G'. injection G'; intros; subst pp'. rewrite S in S'. injection S'; intros; subst ps'. destruct (Cr Al) as (s & ti & ->).
  exists s, ti, (pubsOf sgs). split; [auto|]. split; [unfold pubsOf; rewrite map_length; auto|]. intros i p Hi. unfold pubsOf in Hi. rewrite nth_error_map in Hi.
  unfold signer, secret, bytes in *. destruct (nth_error sgs i) as [sg|] eqn:Es; cbn in Hi; [|discriminate]. destruct (M2 _ _ Es) as (code & seed & C1 & _ & -> & ->). exists code. split; [auto|]. cbn in Hi. congruence.
Qed.


Lemma c32_path_injective : forall stem pidx r k r' k', r <= r' -> k <= k' -> pathOf stem pidx r k = pathOf stem pidx r' k' -> r = r' /\ k = k'.
Proof. intros stem pidx r k r' k'. apply path_inj. Qed.


(** Between identifiers derivation paths can collide although the derivation itself does not: with stems (names) "a" and "a11" the key of rotation
    17 of the first is the first next key of the second.  The first erases it when it is retired, and the second can never rotate again. *)
Definition opsC : list op := oSetup [] :: oIncept (s2b "a") A1 :: oIncept (s2b "a11") A1 :: repeat (ORotate (key (s2b "a00")) (ra A1)) 19.
Definition mC : mgr := match runs (new0 []) [] opsC with Some (m, _) => m | None => new0 [] end.
Definition LC : ledger := match runs (new0 []) [] opsC with Some (_, L) => L | None => [] end.
Lemma c32_path_collision_refuted : exists c, (forall cd sd tr, trans c (vk c cd sd tr) = tr) /\
  (forall salt p p' t te cd, stretch c salt p t te cd = stretch c salt p' t te cd -> p = p') /\
  exists m L pre dc d, hist c m L /\ dget L pre = Some (dc, [d]) /\
    forall a, snd (snd (exec c (ORotate pre a) m)) = Err ValueError.
Proof.
  exists cx. split; [apply cx_trans|]. split; [apply cx_stretch|]. exists mC, LC, (key (s2b "a1100")). do 2 eexists. split; [|split].
  - eapply (runs_hist opsC); [apply (h_start cx [] 0)|]. vm_compute. reflexivity.
  - vm_compute. reflexivity.
  - intros a. vm_compute. reflexivity.
Qed.


(** A rotation that raises while it stores the next private keys leaves the identifier in the rotated position without those keys: on an encrypted
    store, ECDSA next keys.  No later rotation succeeds. *)
Definition mE : mgr := match runs (new0 (s2b "x")) [] [oSetup (s2b "Bx"); oIncept [] A1] with Some (m, _) => m | None => new0 [] end.
Definition LE : ledger := match runs (new0 (s2b "x")) [] [oSetup (s2b "Bx"); oIncept [] A1] with Some (_, L) => L | None => [] end.
Lemma c32_failed_rotate_refuted : exists c, (forall cd sd tr, trans c (vk c cd sd tr) = tr) /\
  exists m L pre dc d a t m' e, hist c m L /\ dget L pre = Some (dc, [d]) /\ exec c (OHabRotate pre a okv) m = (t, (m', Err e)) /\
    forall a' valid, (exists e', snd (snd (exec c (OHabRotate pre a' valid) m')) = Err e') /\ (exists e', snd (snd (exec c (ORotate pre a') m')) = Err e').
Proof.
  exists cx. split; [apply cx_trans|]. exists mE, LE, preA. do 2 eexists. exists (ra [s2b "J"]). do 3 eexists. split; [|split; [|split]].
  - eapply (runs_hist [oSetup (s2b "Bx"); oIncept [] A1]); [apply (h_start cx (s2b "x") 0)|]. vm_compute. reflexivity.
  - vm_compute. reflexivity.
  - vm_compute. reflexivity.
  - intros a' valid. split; eexists; vm_compute; reflexivity.
Qed.


(** ** C33 *)
Lemma c33_keys_survive_partial : forall c, (forall cd sd tr, trans c (vk c cd sd tr) = tr) ->
  forall m o d p seed aeid pidx algo salt tier rnd t m', fhist c m -> usesKeys o = true -> In d (ks m :: fst (exec c o m)) -> inUse (ks m) p ->
  (aeidOf (ks m) = [] -> aeid = [] /\ seed = []) ->
  setup c aeid pidx algo salt tier (mkMgr d None None seed rnd) = (t, (m', Ok tt)) ->
  exists cd sd, signersOf c [p] m' = ([], (m', Ok [((cd, sd), p)])) /\ vk c cd sd (trans c p) = p.
Proof. intros c TR m o d p seed aeid pidx algo salt tier rnd t m' H U I P S E. eapply survive_sign; eauto. Qed.
Definition traceA : list ksdb := fst (exec cx (ORotate preA (ra A1)) mA).
Definition back (d : ksdb) (seed : bytes) : mgr := fst (snd (setup cx [] 0 Salty (s2b "S") TierLow (mkMgr d None None seed 0))).


Lemma c33_other_identifiers : forall c m o d pre ps, dget (prms (ks m)) pre <> None -> dget (sits (ks m)) pre = Some ps -> elsewhere pre o ->
  In d (fst (exec c o m)) -> dget (prms d) pre <> None /\ dget (sits d) pre = Some ps.
Proof.
  intros c m o d pre ps A B El Hin. destruct (exec c o m) as [t [m' r]] eqn:E. cbn in Hin.
  destruct (exec_frame c o pre ps El _ _ _ _ E Logic.I (conj A B)) as (F & _). eapply Forall_forall in F; eauto.
Qed.


Lemma c33_rotate_crash_refuted : exists c, (forall cd sd tr, trans c (vk c cd sd tr) = tr) /\
  exists m L pre dc ds a d t m', fhist c m /\ hist c m L /\ dget L pre = Some (dc, ds) /\ In d (fst (exec c (ORotate pre a) m)) /\
    setup c [] 0 Salty (s2b "S") TierLow (mkMgr d None None [] 0) = (t, (m', Ok tt)) /\
    forall a' valid, (exists e, snd (snd (exec c (ORotate pre a') m')) = Err e) /\ (exists e, snd (snd (exec c (OHabRotate pre a' valid) m')) = Err e).
Proof.
  exists cx. split; [apply cx_trans|]. exists mA, LA, preA. do 2 eexists. exists (ra A1), (hd ks0 traceA). do 2 eexists.
  split; [apply fhist_A|]. split; [apply hist_A|]. split; [vm_compute; reflexivity|]. split; [vm_compute; auto|]. split; [vm_compute; reflexivity|].
  intros a' valid. split; eexists; vm_compute; reflexivity.
Qed.


Lemma c33_hab_crash_refuted : exists c, (forall cd sd tr, trans c (vk c cd sd tr) = tr) /\
  exists m L pre dc ds a d t m', fhist c m /\ hist c m L /\ dget L pre = Some (dc, ds) /\ In d (fst (exec c (OHabRotate pre a okv) m)) /\
    setup c [] 0 Salty (s2b "S") TierLow (mkMgr d None None [] 0) = (t, (m', Ok tt)) /\
    exists t2 m2 vs ds2, exec c (OHabRotate pre a okv) m' = (t2, (m2, Ok (Some (vs, ds2)))) /\ map (dig c dc) vs <> ds.
Proof.
  exists cx. split; [apply cx_trans|]. exists mA, LA, preA. do 2 eexists. exists (ra A1), (last (fst (exec cx (OHabRotate preA (ra A1) okv) mA)) ks0). do 2 eexists.
  split; [apply fhist_A|]. split; [apply hist_A|]. split; [vm_compute; reflexivity|]. split; [vm_compute; auto|]. split; [vm_compute; reflexivity|].
  do 4 eexists. split; [vm_compute; reflexivity|]. vm_compute. discriminate.
Qed.


(** A process killed in an inception after its first write: the same inception raises from then on, without changing anything. *)
Definition aB : iargs := mkIargs [EdSeed] A1 (s2b "E") None None [] None true true false.
Lemma c33_incept_crash_refuted : exists c, (forall cd sd tr, trans c (vk c cd sd tr) = tr) /\
  exists m a d t m', fhist c m /\ In d (fst (exec c (OIncept a) m)) /\ (exists t2 m2 x, exec c (OIncept a) m = (t2, (m2, Ok x))) /\
    setup c [] 0 Salty (s2b "S") TierLow (mkMgr d None None [] 0) = (t, (m', Ok tt)) /\
    exec c (OIncept a) m' = ([], (m', Err ValueError)).
Proof.
  exists cx. split; [apply cx_trans|]. exists mN, aB, (hd ks0 (fst (exec cx (OIncept aB) mN))). do 2 eexists.
  split; [apply fhist_N|]. split; [vm_compute; auto|]. split; [do 3 eexists; vm_compute; reflexivity|]. split; vm_compute; reflexivity.
Qed.


Lemma c33_move_crash_refuted : exists c, (forall cd sd tr, trans c (vk c cd sd tr) = tr) /\
  exists m L old new dc ds d t m', fhist c m /\ hist c m L /\ dget L old = Some (dc, ds) /\ In d (fst (exec c (OMove old new) m)) /\
    setup c [] 0 Salty (s2b "S") TierLow (mkMgr d None None [] 0) = (t, (m', Ok tt)) /\
    forall a, snd (snd (exec c (ORotate old a) m')) = Err ValueError /\ snd (snd (exec c (ORotate new a) m')) = Err ValueError /\
              snd (snd (exec c (OMove old new) m')) = Err ValueError.
Proof.
  exists cx. split; [apply cx_trans|]. exists mA, LA, preA, (s2b "Enew"). do 2 eexists. exists (nth 1 (fst (exec cx (OMove preA (s2b "Enew")) mA)) ks0). do 2 eexists.
  split; [apply fhist_A|]. split; [apply hist_A|]. split; [vm_compute; reflexivity|]. split; [vm_compute; auto|]. split; [vm_compute; reflexivity|].
  intros a. split; [vm_compute; reflexivity|]. split; vm_compute; reflexivity.
Qed.


(** ** C50 *)
Lemma c50_at_rest : forall c m, chist c m -> aeidOf (ks m) <> [] -> sealedUnder (aeidOf (ks m)) (ks m) /\ seedOk c (aeidOf (ks m)) (m_seed m) = true.
Proof.
  intros c m H N. destruct (chist_consistent c _ H) as ([(A1 & _)|(a & Na & A1 & A2 & A3 & A4 & A5 & A6)] & _); unfold aeidOf in *; rewrite A1 in *; [congruence|auto].
Qed.
Lemma chist_E : chist cx mE.
Proof.
  eapply (c_call cx (fst (snd (setup cx (s2b "Bx") 0 Salty (s2b "S") TierLow (new0 (s2b "x"))))) (oIncept [] A1)); [|reflexivity|vm_compute; reflexivity].
  eapply (c_new cx (s2b "Bx") 0 Salty (s2b "S") TierLow (s2b "x") 0); [intros; discriminate|vm_compute; reflexivity].
Qed.


Lemma c50_crash_sealed : forall c m o d, chist c m -> aeidOf (ks m) <> [] -> usesKeys o = true -> In d (fst (exec c o m)) ->
  sealedUnder (aeidOf (ks m)) d /\ g_aeid d = g_aeid (ks m).
Proof.
  intros c m o d H N U Hin. destruct (chist_consistent c _ H) as (CO & _). destruct (exec c o m) as [t0 [m0 r0]] eqn:E0.
  destruct (call_consistent c _ _ _ _ _ CO U E0) as (_ & _ & _ & F). eapply Forall_forall in F; [|exact Hin]. destruct F as (F1 & _ & F3).
  destruct (aeidOf (ks m)); [congruence|auto].
Qed.


Lemma c50_readable : forall c, (forall cd sd tr, trans c (vk c cd sd tr) = tr) -> forall m p v, chist c m -> dget (pris (ks m)) p = Some v ->
  exists cd sd, signersOf c [p] m = ([], (m, Ok [((cd, sd), p)])) /\ vk c cd sd (trans c p) = p.
Proof.
  intros c TR m p v H G. destruct (chist_consistent c _ H) as (CO & _). destruct (readable c _ _ _ CO (chist_priOk c TR _ H) G) as (cd & sd & R1 & _ & _ & R2). eauto.
Qed.


Lemma c50_change_keeps : forall c, (forall cd sd tr, trans c (vk c cd sd tr) = tr) -> forall m aeid seed t m' p sg, chist c m ->
  aeidOf (ks m) <> [] -> aeid <> aeidOf (ks m) -> (aeid = [] -> seed = []) ->
  updateAeid c aeid seed m = (t, (m', Ok tt)) -> signersOf c [p] m = ([], (m, Ok [sg])) -> signersOf c [p] m' = ([], (m', Ok [sg])) /\ aeidOf (ks m') = aeid.
Proof.
  intros c TR m aeid seed t m' p sg H N1 N2 HS E S. split; [eapply change_keeps; eauto|].
  destruct (chist_consistent c _ H) as ([(A1 & _)|(a & Na & A1 & A2 & A3 & _)] & _); [unfold aeidOf in N1; rewrite A1 in N1; congruence|].
  assert (N3 : aeid <> a) by (unfold aeidOf in N2; rewrite A1 in N2; exact N2).
  destruct (update_ok c _ _ _ _ _ _ _ E Na A1 A3 N3) as (_ & _ & _ & _ & sv & x & p' & q' & _ & _ & K & _). rewrite K. reflexivity.
Qed.
Definition mE2 : mgr := fst (snd (updateAeid cx (s2b "By") (s2b "y") mE)).
Lemma mE2_ok : updateAeid cx (s2b "By") (s2b "y") mE = (fst (updateAeid cx (s2b "By") (s2b "y") mE), (mE2, Ok tt)).
Proof. vm_compute. reflexivity. Qed.
Lemma chist_E2 : chist cx mE2.
Proof. eapply (c_change cx mE (s2b "By") (s2b "y")); [apply chist_E| | |intros; discriminate|exact mE2_ok]; vm_compute; discriminate. Qed.


Lemma c50_late_encryption_refuted : exists c, (forall cd sd tr, trans c (vk c cd sd tr) = tr) /\
  exists m aeid seed t m' p x, fhist c m /\ inUse (ks m) p /\ updateAeid c aeid seed m = (t, (m', Ok tt)) /\ aeidOf (ks m') = aeid /\ aeid <> [] /\
    seedOk c aeid seed = true /\ dget (pris (ks m')) p = Some (Plain x) /\ exists e, snd (snd (signersOf c [p] m')) = Err e.
Proof.
  exists cx. split; [apply cx_trans|]. exists mA, (s2b "Bx"), (s2b "x"). do 2 eexists. exists preA. eexists. split; [apply fhist_A|].
  split; [exists preA; eexists; split; [vm_compute; reflexivity|vm_compute; auto]|]. split; [vm_compute; reflexivity|]. split; [vm_compute; reflexivity|].
  split; [discriminate|]. split; [vm_compute; reflexivity|]. split; [vm_compute; reflexivity|]. eexists. vm_compute. reflexivity.
Qed.
Lemma c50_ingest_refuted : exists c, (forall cd sd tr, trans c (vk c cd sd tr) = tr) /\
  exists m sec t m' pre p x, chist c m /\ aeidOf (ks m) <> [] /\ ingest c [[sec]] 0 [EdSeed] [] true false m = (t, (m', Ok pre)) /\
    dget (pris (ks m')) p = Some (Plain x) /\ forall a, exists e, snd (snd (exec c (ORotate pre a) m')) = Err e.
Proof.
  exists cx. split; [apply cx_trans|]. exists mE, (EdSeed, s2b "own"). do 3 eexists. exists (key (s2b "111")). eexists. split; [apply chist_E|].
  split; [vm_compute; discriminate|]. split; [vm_compute; reflexivity|]. split; [vm_compute; reflexivity|]. intros a. eexists. vm_compute. reflexivity.
Qed.
Lemma c50_change_crash_refuted : exists c, (forall cd sd tr, trans c (vk c cd sd tr) = tr) /\
  exists m aeid seed d p, chist c m /\ inUse (ks m) p /\ aeid <> aeidOf (ks m) /\ seedOk c aeid seed = true /\ seedOk c (aeidOf (ks m)) (m_seed m) = true /\
    (exists t m', updateAeid c aeid seed m = (t, (m', Ok tt))) /\ In d (fst (updateAeid c aeid seed m)) /\
    (exists e, snd (restart c d seed aeid 0 0 Salty (s2b "S") TierLow) = Err e) /\
    snd (restart c d (m_seed m) (aeidOf (ks m)) 0 0 Salty (s2b "S") TierLow) = Ok tt /\
    exists e, snd (snd (signersOf c [p] (fst (restart c d (m_seed m) (aeidOf (ks m)) 0 0 Salty (s2b "S") TierLow)))) = Err e.
Proof.
  exists cx. split; [apply cx_trans|]. exists mE, (s2b "By"), (s2b "y"), (nth 2 (fst (updateAeid cx (s2b "By") (s2b "y") mE)) ks0), preA. split; [apply chist_E|].
  split; [exists preA; eexists; split; [vm_compute; reflexivity|vm_compute; auto]|]. split; [vm_compute; discriminate|]. split; [vm_compute; reflexivity|]. split; [vm_compute; reflexivity|].
  split; [do 2 eexists; vm_compute; reflexivity|]. split; [vm_compute; auto|]. split; [eexists; vm_compute; reflexivity|]. split; [vm_compute; reflexivity|]. eexists. vm_compute. reflexivity.
Qed.
Lemma c50_refused_change_refuted : exists c, (forall cd sd tr, trans c (vk c cd sd tr) = tr) /\
  exists m aeid seed m1 a t2 m2 x p s, chist c m /\ aeid <> aeidOf (ks m) /\ seedOk c aeid seed = false /\ updateAeid c aeid seed m = ([], (m1, Err AuthError)) /\
    exec c (OIncept a) m1 = (t2, (m2, Ok x)) /\ inUse (ks m2) p /\ dget (pris (ks m2)) p = Some (Sealed aeid s) /\ aeidOf (ks m2) = aeidOf (ks m).
Proof.
  exists cx. split; [apply cx_trans|]. exists mE, (s2b "By"), (s2b "z"). eexists. exists (mkIargs [EdSeed] A1 (s2b "E") None None (s2b "b") None true true false). do 3 eexists. exists (key (s2b "b00")). eexists.
  split; [apply chist_E|]. split; [vm_compute; discriminate|]. split; [vm_compute; reflexivity|]. split; [vm_compute; reflexivity|]. split; [vm_compute; reflexivity|].
  split; [exists (key (s2b "b00")); eexists; split; [vm_compute; reflexivity|vm_compute; auto]|]. split; vm_compute; reflexivity.
Qed.
Lemma c50_seed_alone_refuted : exists c, (forall cd sd tr, trans c (vk c cd sd tr) = tr) /\
  exists seed t m t2 m2 x p, setup c [] 0 Salty (s2b "S") TierLow (mkMgr ks0 None None seed 0) = (t, (m, Ok tt)) /\
    exec c (OIncept (mkIargs [EdSeed] [EdSeed] (s2b "E") None (Some (s2b "S")) [] None true true false)) m = (t2, (m2, Ok x)) /\ inUse (ks m2) p /\ exists e, snd (snd (signersOf c [p] m2)) = Err e.
Proof.
  exists cx. split; [apply cx_trans|]. exists (s2b "x"). do 5 eexists. exists preA. split; [vm_compute; reflexivity|]. split; [vm_compute; reflexivity|].
  split; [exists preA; eexists; split; [vm_compute; reflexivity|vm_compute; auto]|]. eexists. vm_compute. reflexivity.
Qed.


(** ** C51 *)
Lemma c51_refused_restores : forall c, (forall cd sd tr, trans c (vk c cd sd tr) = tr) -> forall m L pre a valid t m', hist c m L ->
  exec c (OHabRotate pre a valid) m = (t, (m', Err ValidationError)) ->
  (forall q, dget (sits (ks m')) q = dget (sits (ks m)) q) /\ prms (ks m') = prms (ks m) /\ pres (ks m') = pres (ks m) /\
  (forall p v, dget (pris (ks m)) p = Some v -> dget (pris (ks m')) p = Some v).
Proof. intros c TR m L pre a valid t m' H E. destruct (hist_linv c TR _ _ H) as (P & _). destruct (refused c _ _ _ _ _ _ P E) as (R1 & R2 & R3 & _ & R4 & _). auto. Qed.
Definition mR : mgr := fst (snd (exec cx (OHabRotate preA (ra A1) nov) mA)).


Lemma c51_retry_same_keys : forall c, (forall cd sd tr, trans c (vk c cd sd tr) = tr) -> forall m L pre a valid t m' a2 valid2 t2 m2 vs ds, hist c m L ->
  exec c (OHabRotate pre a valid) m = (t, (m', Err ValidationError)) ->
  exec c (OHabRotate pre a2 valid2) m' = (t2, (m2, Ok (Some (vs, ds)))) ->
  exists nexts, valid vs (map (dig c (r_dcode a)) nexts) = false /\ valid2 vs ds = true /\ ds = map (dig c (r_dcode a2)) nexts.
Proof. intros c TR m L pre a valid t m' a2 valid2 t2 m2 vs ds H E E2. destruct (hist_linv c TR _ _ H) as (P & _). eapply retried; eauto. Qed.


Lemma c51_retry_count_refuted : exists c, (forall cd sd tr, trans c (vk c cd sd tr) = tr) /\ exists m L pre a a2 t m' t2 m2 vs ds, hist c m L /\
  exec c (OHabRotate pre a nov) m = (t, (m', Err ValidationError)) /\ exec c (OHabRotate pre a2 okv) m' = (t2, (m2, Ok (Some (vs, ds)))) /\
  List.length ds <> List.length (r_ncodes a2).
Proof.
  exists cx. split; [apply cx_trans|]. exists mA, LA, preA, (ra A1), (ra A2). do 6 eexists. split; [apply hist_A|]. split; [vm_compute; reflexivity|]. split; [vm_compute; reflexivity|]. vm_compute. discriminate.
Qed.
