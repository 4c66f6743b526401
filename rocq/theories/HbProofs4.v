(** The key store and the key event log of a habitat stay in step. *)
From Coq Require Import Lia.
From Verif Require Import Prelude B64Model MatterModel SubsModel ThModel ThSpec ThProofs ThThms JsonModel SerModel KsModel KsSpec JsonProofs KsProofs KsInv KsRun KsHab KsHeld KelModel KelSpec KelProofs KelInv OoSpec OoProofs OoProofs2 HbModel HbSpec HbProofs HbProofs2 HbProofs3.
Open Scope N_scope.
Ltac Zify.zify_post_hook ::= Z.div_mod_to_equations.

(** ** Signing *)
Definition holds1 (h : hcfg) (p : bytes) (sg : signer) : Prop := exists cd sd tr, sg = ((cd, sd), p) /\ p = vk (hk h) cd sd tr.
Lemma sign_all : forall h m pubs, (forall p, In p pubs -> exists cd sd, signersOf (hk h) [p] m = ([], (m, Ok [((cd, sd), p)])) /\ vk (hk h) cd sd (trans (hk h) p) = p) ->
  exists sgs, signersOf (hk h) pubs m = ([], (m, Ok sgs)) /\ Forall2 (holds1 h) pubs sgs.
Proof.
  intros h m. induction pubs as [|p pubs IH]; intros H.
  - exists []. split; [reflexivity|constructor].
  - destruct IH as (sgs & A & B); [intros q I; apply H; right; exact I|]. destruct (H p (or_introl eq_refl)) as (cd & sd & C & D).
    exists (((cd, sd), p) :: sgs). split; [|constructor; [exists cd, sd, (trans (hk h) p); auto|exact B]].
    unfold signersOf in *. cbn [mapM] in *. unfold bindM at 1. unfold bindM at 1 in C.
    match goal with |- context [match ?g with (_, _) => _ end] => destruct g as [t [m0 r]] eqn:G end.
    destruct r as [sg|x]; [|discriminate]. cbn in C. injection C; intros. subst. destruct t; [|discriminate]. unfold bindM at 1. rewrite A. reflexivity.
Qed.
Lemma sigers_len : forall h ser sgs j, List.length (sigersFrom h ser j sgs) = List.length sgs.
Proof. intros h ser. induction sgs as [|a sgs IH]; intros j; cbn; [reflexivity|]. rewrite IH. reflexivity. Qed.
Lemma sigers_index : forall h ser sgs j, map sg_index (sigersFrom h ser (N.of_nat j) sgs) = map N.of_nat (seq j (List.length sgs)).
Proof.
  intros h ser. induction sgs as [|a sgs IH]; intros j; cbn [sigersFrom map seq List.length sg_index]; [reflexivity|]. f_equal.
  replace (N.of_nat j + 1) with (N.of_nat (S j)) by lia. apply IH.
Qed.
Lemma sigers_ge : forall h ser sgs j s, In s (sigersFrom h ser j sgs) -> j <= sg_index s /\ sg_qb64 s = qb_of h (sg_index s) (sg_raw s).
Proof.
  intros h ser. induction sgs as [|a sgs IH]; intros j s I; [destruct I|]. cbn [sigersFrom] in I. destruct I as [<-|I]; [cbn; split; [lia|reflexivity]|].
  destruct (IH _ _ I) as [A B]. split; [lia|exact B].
Qed.
Lemma sigers_nodup : forall h ser sgs j, coherent h -> NoDup (map sg_qb64 (sigersFrom h ser j sgs)).
Proof.
  intros h ser sgs j CO. revert j. induction sgs as [|a sgs IH]; intros j; cbn [sigersFrom map]; constructor; [|apply IH].
  intros I. apply in_map_iff in I. destruct I as (s & A & B). apply sigers_ge in B. destruct B as [B1 B2]. cbn [sg_qb64] in A. rewrite B2 in A.
  apply (co_qb h CO) in A. lia.
Qed.
Lemma sigers_verified : forall h ser pubs sgs K j, coherent h -> Forall2 (holds1 h) pubs sgs -> List.length K = j ->
  Forall (verified (he h) (K ++ map (nm h) pubs) ser) (sigersFrom h ser (N.of_nat j) sgs).
Proof.
  intros h ser pubs sgs K j CO F. revert K j. induction F as [|p sg pubs sgs (cd & sd & tr & E1 & E2) F IH]; intros K j L; [constructor|].
  cbn [sigersFrom map]. constructor.
  - exists (nm h p). cbn [sg_index sg_raw]. rewrite Nnat.Nat2N.id. split.
    + rewrite nth_error_app2 by lia. rewrite L, Nat.sub_diag. reflexivity.
    + subst sg. cbn [fst]. rewrite E2. apply (co_sign h CO).
  - replace (N.of_nat j + 1) with (N.of_nat (S j)) by lia. specialize (IH (K ++ [nm h p]) (S j)). rewrite <- app_assoc in IH. cbn [app] in IH.
    apply IH. rewrite app_length. cbn. lia.
Qed.
Lemma upTo_len : forall n, len (upTo n) = n.
Proof. intros n. unfold upTo, len. rewrite map_length, seq_length. lia. Qed.
Lemma upTo_of : forall A (l : list A), upTo (len l) = map N.of_nat (seq 0 (List.length l)).
Proof. intros A l. unfold upTo, len. rewrite Nnat.Nat2N.id. reflexivity. Qed.
Lemma upTo_In : forall n i, In i (upTo n) <-> i < n.
Proof.
  intros n i. unfold upTo. rewrite in_map_iff. split.
  - intros (x & <- & Hx). apply in_seq in Hx. lia.
  - intros L. exists (N.to_nat i). split; [lia|]. apply in_seq. lia.
Qed.
Record signedAll (h : hcfg) (pubs : list bytes) (ser : bytes) (sg : list siger) : Prop := mkSa {
  sa_nodup : NoDup (map sg_qb64 sg);
  sa_ver : Forall (verified (he h) (map (nm h) pubs) ser) sg;
  sa_idx : map sg_index sg = upTo (len pubs);
  sa_exp : forall dc, exposeds (he h) (map (fun p => nm h (dig (hk h) dc p)) pubs) (map (nm h) pubs) sg = upTo (len pubs);
  sa_text : map (tx h) (map (nm h) pubs) = pubs }.
Lemma mgr_signs : forall h m pre ps pubs ser, coherent h -> fhist (hk h) m -> dget (sits (ks m)) pre = Some ps ->
  incl pubs (l_pubs (t_new ps) ++ l_pubs (t_nxt ps)) -> exists sg, mgrSign h m ser pubs = Ok sg /\ signedAll h pubs ser sg.
Proof.
  intros h m pre ps pubs ser CO F S I.
  destruct (sign_all h m pubs) as (sgs & A & B).
  { intros p J. exact (held (hk h) (co_trans h CO) m pre ps p F S (I p J)). }
  exists (sigersFrom h ser 0 sgs). unfold mgrSign. rewrite A. cbn [snd bind]. split; [reflexivity|].
  assert (L : List.length sgs = List.length pubs) by (clear -B; induction B; cbn; auto).
  constructor.
  - apply sigers_nodup. exact CO.
  - apply (sigers_verified h ser pubs sgs [] 0 CO B eq_refl).
  - rewrite upTo_of, <- L. exact (sigers_index h ser sgs 0%nat).
  - intros dc. apply exposeds_all. rewrite upTo_of, <- L.
    assert (Z : forall q r j, Forall2 (holds1 h) q r -> forall D K, List.length D = j -> List.length K = j ->
      Forall2 (fun s o => sg_ondex s = Some o /\ exists dg ky, nth_error (D ++ map (fun p => nm h (dig (hk h) dc p)) q) (N.to_nat o) = Some dg /\
        nth_error (K ++ map (nm h) q) (N.to_nat (sg_index s)) = Some ky /\ commits (he h) dg ky = true) (sigersFrom h ser (N.of_nat j) r) (map N.of_nat (seq j (List.length r)))).
    { clear -CO. intros q r j F. revert j. induction F as [|p sg q r X F IH]; intros j D K LD LK; [constructor|]. cbn [sigersFrom map seq List.length]. constructor.
      - cbn [sg_ondex sg_index]. split; [reflexivity|]. exists (nm h (dig (hk h) dc p)), (nm h p). rewrite Nnat.Nat2N.id.
        rewrite !nth_error_app2 by lia. rewrite LD, LK, Nat.sub_diag. split; [reflexivity|]. split; [reflexivity|]. apply (co_commit h CO).
      - replace (N.of_nat j + 1) with (N.of_nat (S j)) by lia. specialize (IH (S j) (D ++ [nm h (dig (hk h) dc p)]) (K ++ [nm h p])).
        rewrite <- !app_assoc in IH. cbn [app] in IH. apply IH; rewrite app_length; cbn; lia. }
    exact (Z pubs sgs 0%nat B [] [] eq_refl eq_refl).
  - clear -B CO. induction B as [|p sg pubs sgs (cd & sd & tr & _ & E) B IH]; [reflexivity|]. cbn [map]. rewrite IH, E, (co_text h CO). reflexivity.
Qed.
Lemma matched_all : forall h dc pubs, coherent h -> matched h (map (fun p => nm h (dig (hk h) dc p)) pubs) pubs = upTo (len pubs).
Proof.
  intros h dc pubs CO. unfold matched. rewrite map_length, upTo_of.
  assert (Z : forall q (l : list N), incl q pubs -> List.length l = List.length q ->
    map snd (filter (fun di => existsb (fun v => commits (he h) (fst di) (nm h v)) pubs) (combine (map (fun p => nm h (dig (hk h) dc p)) q) l)) = l).
  { induction q as [|p q IH]; intros [|n l] I L; try discriminate; [reflexivity|]. cbn [map combine filter fst].
    assert (X : existsb (fun v => commits (he h) (nm h (dig (hk h) dc p)) (nm h v)) pubs = true).
    { apply existsb_exists. exists p. split; [apply I; left; reflexivity|apply (co_commit h CO)]. }
    rewrite X. cbn [map snd]. f_equal. apply IH; [intros y J; apply I; right; exact J|]. cbn in L. lia. }
  apply Z; [apply incl_refl|]. rewrite map_length, seq_length. reflexivity.
Qed.

(** ** The invariant *)
Record ag (h : hcfg) (cf : conf) (pre : bytes) (m : mgr) (dx : db) (ps : presit) (k : kever) (dc cd : bytes) : Prop := mkAg {
  a_fh : fhist (hk h) m;
  a_own : In (nm h pre) (c_prefixes cf) /\ ~ In (nm h pre) (c_groups cf);
  a_sit : dget (sits (ks m)) pre = Some ps;
  a_key : kget (fst dx) (snd dx) (nm h pre) = Some k;
  a_pre : k_pre k = nm h pre;
  a_keys : k_keys k = map (nm h) (l_pubs (t_new ps));
  a_ndigs : k_ndigs k = map (fun p => nm h (dig (hk h) dc p)) (l_pubs (t_nxt ps));
  a_sound : sound k;
  a_sat : satisfy (k_tholder k) (upTo (len (k_keys k))) = true;
  a_cd : code_of h pre = Some cd; a_dex : memB cd PreDex = true;
  a_ddex : k_delpre k <> None -> memB cd DigDex = true;
  a_fix : memB cd NonTransDex = true -> k_ndigs k = [] }.
Lemma ag_owned : forall h cf pre k, In (nm h pre) (c_prefixes cf) /\ ~ In (nm h pre) (c_groups cf) -> k_pre k = nm h pre -> locallyOwned cf k = true.
Proof.
  intros h cf pre k [A B] E. unfold locallyOwned. rewrite E. rewrite (proj2 (memN_In _ _) A).
  destruct (memN (nm h pre) (c_groups cf)) eqn:M0; [apply memN_In in M0; contradiction|reflexivity].
Qed.
Lemma ag_valid : forall h cf pre m dx ps k dc cd, coherent h -> ag h cf pre m dx ps k dc cd -> validPre (he h) (nm h pre) = true.
Proof. intros h cf pre m dx ps k dc cd CO A. apply (co_valid h CO pre cd (a_cd _ _ _ _ _ _ _ _ _ A)). apply dex_pre. exact (a_dex _ _ _ _ _ _ _ _ _ A). Qed.
Lemma ag_transferable : forall h cf pre m dx ps k dc cd, coherent h -> ag h cf pre m dx ps k dc cd -> k_ndigs k <> [] -> transferable (he h) k = true.
Proof.
  intros h cf pre m dx ps k dc cd CO A NE. unfold transferable. destruct (k_ndigs k) as [|n l] eqn:Q; [congruence|]. rewrite (a_pre _ _ _ _ _ _ _ _ _ A).
  destruct (transf (he h) (nm h pre)) eqn:T; [reflexivity|]. exfalso.
  apply (co_transf h CO pre cd (a_cd _ _ _ _ _ _ _ _ _ A) (proj1 (dex_pre _) (a_dex _ _ _ _ _ _ _ _ _ A))) in T. apply dex_fixed in T.
  apply (a_fix _ _ _ _ _ _ _ _ _ A) in T. congruence.
Qed.
Lemma covers_all : forall t n, threshold t -> isZero t = false -> thsize t <= n -> covers t n -> satisfy t (upTo n) = true.
Proof.
  intros [z|th] n T Z S C.
  - apply c11_numeric. rewrite upTo_len. cbn in Z, S. lia.
  - unfold covers in C. unfold upTo. rewrite <- C. apply c11_satisfiable. exact T.
Qed.

(** *** Interaction *)
Lemma interact_step : forall h cf pre m dx ps k dc cd now data, coherent h -> ag h cf pre m dx ps k dc cd ->
  (k_ndigs k <> [] /\ k_estOnly k = false /\ exists dx' e sg fn dts,
     habInteract h cf now pre data (m, dx) = ((m, dx'), Ok (e, sg)) /\ e_seals e = data /\ e_pre e = nm h pre /\ e_sn e = k_sn k + 1 /\ e_prior e = Some (e_said (k_evt k)) /\
     kevers (fst dx') (nm h pre) = Some (interacted k e fn dts) /\ ag h cf pre m dx' ps (interacted k e fn dts) dc cd) \/
  ((k_ndigs k = [] \/ k_estOnly k = true) /\ habInteract h cf now pre data (m, dx) = ((m, dx), Err ValidationError)).
Proof.
  intros h cf pre m [d x] ps k dc cd now data CO A. pose proof (ag_valid _ _ _ _ _ _ _ _ _ CO A) as VP. pose proof A as A'. destruct A'. cbn [fst snd] in *.
  unfold habInteract. cbn [fst snd]. rewrite a_key0.
  assert (IB : exists e, interactB h pre (e_said (k_evt k)) (k_sn k + 1) data = Ok e /\ e_pre e = nm h pre /\ e_sn e = k_sn k + 1 /\ e_ilk e = Ixn /\ e_prior e = Some (e_said (k_evt k)) /\ e_seals e = data).
  { unfold interactB. rewrite (proj2 (N.ltb_ge _ _)) by lia. cbv zeta. unfold verifyLater. rewrite a_cd0. eexists. cbn [makify withSaid e_ilk ilk_eqb isRot andb].
    rewrite a_dex0. cbn [negb bind]. split; [reflexivity|]. repeat (split; [reflexivity|]). reflexivity. }
  destruct IB as (e & IB & E1 & E2 & E3 & E4 & E5). rewrite IB.
  destruct (mgr_signs h m pre ps (l_pubs (t_new ps)) (e_raw e) CO a_fh0 a_sit0) as (sg & S1 & S2); [apply incl_appl; apply incl_refl|].
  rewrite a_keys0. rewrite (sa_text _ _ _ _ S2), S1. unfold ownEvent, ownMsg, processEvent. cbn [m_evt m_now m_sigers m_wigers m_seal m_local].
  rewrite E1, VP. cbn [negb]. rewrite a_key0, E3. cbn [isIncept]. rewrite E2, (proj2 (N.ltb_ge _ _) (N.le_refl _)), N.eqb_refl. cbn [orb].
  assert (DN : k_ndigs k = [] \/ k_ndigs k <> []) by (destruct (k_ndigs k); [left; reflexivity|right; discriminate]). destruct DN as [ND|NE].
  { right. split; [auto|]. unfold update. unfold transferable. rewrite ND. reflexivity. }
  pose proof (ag_transferable _ _ _ _ _ _ _ _ _ CO A NE) as TF.
  destruct (k_estOnly k) eqn:EO.
  { right. split; [auto|]. unfold update. cbn [m_evt]. rewrite TF, E1, a_pre0, N.eqb_refl, E3, EO. reflexivity. }
  left. split; [exact NE|]. split; [reflexivity|]. pose proof a_sound0 as SD. destruct SD.
  assert (FS : fullySigned (he h) (k_keys k) (k_tholder k) (e_raw e) sg).
  { split; [exact (sa_nodup _ _ _ _ S2)|]. split; [rewrite a_keys0; exact (sa_ver _ _ _ _ S2)|]. rewrite (sa_idx _ _ _ _ S2). rewrite a_keys0, map_len in a_sat0. exact a_sat0. }
  destruct (update_ixn (he h) cf (mkMsg e sg [] None false true now None) k d x sg [] None None) as (d' & x' & fn & dts & N1 & N2); cbn [m_evt m_now m_sigers m_wigers m_seal m_local m_eager]; auto.
  - rewrite E1, a_pre0. reflexivity.
  - apply val_own; auto.
    + apply (ag_owned h cf pre k a_own0 a_pre0).
    + rewrite E3. discriminate.
    + rewrite E3. reflexivity.
    + rewrite E3. discriminate.
  - rewrite N1. cbn [m_evt] in N2. rewrite a_pre0 in N2. exists (d', x'), e, sg, fn, dts. repeat (split; [first [reflexivity|assumption]|]).
    constructor; cbn [fst snd]; auto.
    + apply kget_of. exact N2.
    + constructor; assumption.
Qed.
