(** Properties of key event log processing. *)
From Verif Require Import Prelude B64Model MatterModel SubsModel SubsThms ThModel ThSpec ThThms KelModel KelSpec KelProofs KelInv KelLaw.
Ltac Zify.zify_post_hook ::= Z.div_mod_to_equations.
Open Scope N_scope.

(** ** A small world for examples *)

(** Key [k] signs bytes [b] as [k :: b]; next digest [k + 100] commits to key [k]; prefixes
    below 1000 are transferable. *)
Definition E1 : env := mkEnv (fun k s b => beq s (k :: b)) (fun dg k => dg =? k + 100) (fun p => p <? 1000) (fun _ => true).
Definition cf0 : conf := mkConf [] [] (fun _ => None).
Definition sign (e : evt) (key index : N) (ondex : option N) : siger :=
  mkSigerO [key; index; match ondex with Some o => o + 1 | None => 0 end; e_said e] index (key :: e_raw e) ondex.
Definition icpT (said p : N) (kt : N) (keys : list N) (nt : N) (ndigs : list N) (bt : N) (wits : list N) : evt :=
  mkEvt [said] said p 0 Icp None (TNum kt) keys (TNum nt) ndigs bt wits [] [] false false None [] 1.
Definition icp1 (said p : N) (keys ndigs : list N) : evt := icpT said p 1 keys 1 ndigs 0 [].
Definition rotT (i : ilk) (said p sn prior : N) (kt : N) (keys : list N) (nt : N) (ndigs : list N) (bt : N) (cuts adds : list N) : evt :=
  mkEvt [said] said p sn i (Some prior) (TNum kt) keys (TNum nt) ndigs bt [] cuts adds false false None [] 1.
Definition rot1 (said p sn prior : N) (keys ndigs : list N) : evt := rotT Rot said p sn prior 1 keys 1 ndigs 0 [] [].
Definition ixn1 (said p sn prior : N) (seals : list seal) : evt :=
  mkEvt [said] said p sn Ixn (Some prior) (TNum 1) [] (TNum 1) [1] 0 [] [] [] false false None seals 1.
Definition dipT (said p dp : N) (keys ndigs : list N) : evt :=
  mkEvt [said] said p 0 Dip None (TNum 1) keys (TNum 1) ndigs 0 [] [] [] false false (Some dp) [] 1.
Definition Hof (l : list evt) (s : N) : option evt := find (fun e => e_said e =? s) l.
Definition msgT (e : evt) (sg wg : list siger) (sl : option (N * N)) : msg := mkMsg e sg wg sl true true 0 None.
Definition dlv (e : evt) (sg : list siger) : op := Deliver (msgT e sg [] None).

Lemma threshold_num : forall n, n < 2 ^ 32 -> threshold (TNum n).
Proof.
  intros n L. apply (th_num n). unfold processThold, processUnweighted.
  destruct (c06_number_round_trip n) as (m & q & b & M1 & _); [|rewrite M1; reflexivity].
  eapply N.lt_le_trans; [exact L|]. vm_compute. discriminate.
Qed.
Definition small_th (t : tholder) : bool := match t with TNum n => n <? 2 ^ 32 | _ => false end.
Lemma world_of : forall l, forallb (fun e => small_th (e_kt e) && small_th (e_nt e)) l = true -> world (Hof l).
Proof.
  intros l F s e X. unfold Hof in X. apply find_some in X. destruct X as [X1 X2]. apply N.eqb_eq in X2.
  rewrite forallb_forall in F. apply F, andb_true_iff in X1. destruct X1 as [A B].
  assert (T : forall t, small_th t = true -> threshold t).
  { intros [n|th] Q; [|discriminate]. apply threshold_num. apply N.ltb_lt. exact Q. }
  auto.
Qed.
Lemma sane_of : forall l, forallb (fun e => thsize (e_nt e) <=? len (e_ndigs e)) l = true -> sane (Hof l).
Proof.
  intros l F s e X. unfold Hof in X. apply find_some in X. destruct X as [X1 X2].
  rewrite forallb_forall in F. apply F in X1. apply N.leb_le. exact X1.
Qed.
Definition real_ops_b (l : list evt) (ops : list op) : bool :=
  forallb (fun o => match o with Deliver m => existsb (fun e => e_said e =? e_said (m_evt m)) l | _ => true end) ops.
Lemma real_cons : forall H o ops, real_op H o -> Forall (real_op H) ops -> Forall (real_op H) (o :: ops).
Proof. intros. constructor; assumption. Qed.
Ltac reals := repeat (apply real_cons; [first [reflexivity|exact Logic.I]|]); apply Forall_nil.

(** Identifier 7: inception, two interactions, a rotation at sn 1 that supersedes them, an
    interaction after it. *)
Definition A0 := icp1 20 7 [1] [102].
Definition A1 := ixn1 21 7 1 20 [].
Definition A2 := ixn1 22 7 2 21 [].
Definition A1r := rot1 23 7 1 20 [2] [103].
Definition A2r := ixn1 24 7 2 23 [].
Definition evsA := [A0; A1; A2; A1r; A2r].
Definition opsA : list op :=
  [dlv A1 [sign A1 1 0 None]; dlv A0 [sign A0 1 0 None]; Escrows 1; dlv A2 [sign A2 1 0 None];
   dlv A1r [sign A1r 2 0 (Some 0)]; Restart; dlv A2r [sign A2r 2 0 None]].
Definition dxA : db := run E1 cf0 opsA db0.

(** ** Theorems *)

Lemma c14_accepted_signed : forall E cf m dx dx', enters E cf m dx dx' ->
  if isEst (e_ilk (m_evt m))
  then signedBy E (e_keys (m_evt m)) (e_kt (m_evt m)) (e_raw (m_evt m)) (m_sigers m)
  else exists k, keyState dx (e_pre (m_evt m)) = Some k /\
         signedBy E (k_keys k) (k_tholder k) (e_raw (m_evt m)) (m_sigers m).
Proof.
  intros E cf m [d x] dx' X. apply enters_inv in X. destruct X as (d' & x' & r & ko & k' & sg & wg & dp & cpl & -> & A).
  pose proof (a_valid _ _ _ _ _ _ _ _ _ _ _ _ _ _ A) as V.
  pose proof (signedBy_incl _ _ _ _ _ _ (v_incl _ _ _ _ _ _ _ _ _ _ _ _ _ _ _ _ _ V) (valid_signed _ _ _ _ _ _ _ _ _ _ _ _ _ _ _ _ _ V)) as SB.
  pose proof (a_tr _ _ _ _ _ _ _ _ _ _ _ _ _ _ A) as T. inversion T; subst.
  - apply incept_inv in H1. destruct H1 as (_ & _ & _ & _ & _ & ->). cbn in SB.
    rewrite (proj2 (isIncept_facts _ H0)). exact SB.
  - rewrite (proj2 (isRot_facts _ H2)). exact SB.
  - rewrite H2. cbn. exists k. split; [exact H|exact SB].
Qed.

Lemma c14_log_signed : forall E H cf dx p s, world H -> reachable E H cf dx -> In s (fels (fst dx) p) ->
  exists e c ee, e_said e = s /\ e_pre e = p /\ log H (e :: c) /\ Forall (fun a => In (e_said a) (fels (fst dx) p)) c /\
    est_of (e :: c) = Some ee /\ signedBy E (e_keys ee) (e_kt ee) (e_raw e) (getSigs (snd dx) p s).
Proof.
  intros E H cf dx p s W R IN. pose proof (reach_inv _ _ _ _ W R) as I.
  destruct (i_fe _ _ _ _ I _ _ IN) as (e & c & ee & A1 & A2 & A3 & A4). exists e, c, ee.
  pose proof (chain_hd _ _ _ _ _ _ A2) as (B1 & _). split; [exact A1|]. split; [exact B1|]. split; [apply A2|].
  split; [|auto]. destruct A2 as [_ A2]. inversion A2; subst. eapply Forall_impl; [|exact H3]. cbn. tauto.
Qed.


Lemma c15_exposed : forall E cf m dx dx', enters E cf m dx dx' -> isRot (e_ilk (m_evt m)) = true ->
  exists k, keyState dx (e_pre (m_evt m)) = Some k /\ k_ndigs k <> [] /\
    exposedBy E (e_keys (m_evt m)) (e_raw (m_evt m)) (k_ndigs k) (k_nt k) (m_sigers m).
Proof.
  intros E cf m [d x] dx' X RO. apply enters_inv in X. destruct X as (d' & x' & r & ko & k' & sg & wg & dp & cpl & -> & A).
  pose proof (a_valid _ _ _ _ _ _ _ _ _ _ _ _ _ _ A) as V.
  pose proof (exposedBy_incl _ _ _ _ _ _ _ (v_incl _ _ _ _ _ _ _ _ _ _ _ _ _ _ _ _ _ V) (valid_exposed _ _ _ _ _ _ _ _ _ _ _ _ _ _ _ _ _ V RO)) as SB.
  pose proof (a_tr _ _ _ _ _ _ _ _ _ _ _ _ _ _ A) as T. inversion T; subst.
  - apply isIncept_facts in H0. destruct H0. congruence.
  - exists k. split; [exact H|]. split; [apply rotate_inv in H6; tauto|exact SB].
  - rewrite H2 in RO. discriminate.
Qed.

Lemma c15_log_exposed_partial : forall E H cf dx p s, world H -> sane H -> reachable E H cf dx -> no_est_superseded dx p ->
  In s (fels (fst dx) p) -> exists e c, e_said e = s /\ e_pre e = p /\ log H (e :: c) /\
    (isRot (e_ilk e) = true -> exists ee, est_of c = Some ee /\ e_ndigs ee <> [] /\
       exposedBy E (e_keys e) (e_raw e) (e_ndigs ee) (e_nt ee) (getSigs (snd dx) p s)).
Proof.
  intros E H cf [d x] p s W SN R NES IN. cbn [fst snd] in *. destruct (reach_ninv _ _ _ _ W SN R) as [S NI].
  specialize (NI p NES). pose proof (s_inv _ _ _ _ S) as I. cbn [fst snd] in *.
  destruct (i_fe _ _ _ _ I _ _ IN) as (e & c & ee & A1 & A2 & A3 & A4). exists e, c.
  pose proof (chain_hd _ _ _ _ _ _ A2) as (B1 & _). split; [exact A1|]. split; [exact B1|]. split; [apply A2|].
  intros RO. rewrite <- A1. exact (t_exp _ _ _ _ _ NI _ _ A2 RO).
Qed.

Lemma c16_chain : forall E H cf dx p k, world H -> reachable E H cf dx -> keyState dx p = Some k ->
  exists c ee, log H (k_evt k :: c) /\ Forall (fun a => e_pre a = p /\ In (e_said a) (fels (fst dx) p)) (k_evt k :: c) /\
    k_pre k = p /\ k_sn k = e_sn (k_evt k) /\ k_ilk k = e_ilk (k_evt k) /\
    est_of (k_evt k :: c) = Some ee /\ k_keys k = e_keys ee /\ k_tholder k = e_kt ee /\ k_ndigs k = e_ndigs ee /\ k_nt k = e_nt ee /\
    k_toad k = e_bt ee /\ k_lastS k = e_sn ee /\ k_lastD k = e_said ee.
Proof.
  intros E H cf [d x] p k W R K. destruct (kget_good _ _ _ _ _ _ W (reach_inv _ _ _ _ W R) K) as (c & ee & G).
  exists c, ee. destruct G. split; [apply g_chain|]. split; [|auto 12].
  destruct g_chain as [_ C]. eapply Forall_impl; [|exact C]. cbn. tauto.
Qed.


Lemma c44_readback_partial : forall E H cf dx p k n, world H -> sane H -> reachable E H cf dx -> no_est_superseded dx p ->
  keyState dx p = Some k -> n <= k_sn k ->
  exists c a, log H (k_evt k :: c) /\ In a (k_evt k :: c) /\ e_sn a = n /\ klast (kels (fst dx) p) n = Some (e_said a).
Proof.
  intros E H cf [d x] p k n W SN R NES K LE. destruct (reach_ninv _ _ _ _ W SN R) as [S NI]. specialize (NI p NES).
  cbn [fst snd] in *. destruct (sinv_kget _ _ _ _ p W S) as [(KN & _)|(k2 & KG & SF)]; [unfold keyState in K; cbn in K; congruence|].
  unfold keyState in K. cbn [fst snd] in K. assert (k2 = k) by congruence. subst k2.
  destruct SF as (c & ee & l & G & F & _). exists c. pose proof (g_chain _ _ _ _ _ _ _ _ G) as C.
  destruct (log_at H c (k_evt k) n (proj1 C)) as (pre & b & post & Q1 & Q2); [rewrite <- (g_sn _ _ _ _ _ _ _ _ G); exact LE|].
  exists b. assert (BI : In b (k_evt k :: c)) by (rewrite Q1; apply in_or_app; right; left; reflexivity).
  split; [apply C|]. split; [exact BI|]. split; [exact Q2|]. rewrite <- Q2.
  destruct (t_last _ _ _ _ _ NI l _ c F C) as [B1 _]. rewrite Forall_forall in B1. apply B1. exact BI.
Qed.

Lemma c17_append_only : forall E H cf dx ops p, world H -> reachable E H cf dx -> Forall (real_op H) ops ->
  exists l, fels (fst (run E cf ops dx)) p = fels (fst dx) p ++ l /\
            seen (run E cf ops dx) p = seen dx p ++ map (evts (snd (run E cf ops dx)) p) l.
Proof.
  intros E H cf [d x] ops p W R RO. pose proof (reach_inv _ _ _ _ W R) as I.
  pose proof (micro_run E H cf ops (d, x) W I RO) as M. destruct (micros_grows _ _ _ _ _ W I M) as (A & B & _).
  destruct (A p) as (l & L). exists l. split; [exact L|].
  destruct (run E cf ops (d, x)) as [d' x']. cbn [fst snd] in *. eapply seen_keep; eauto.
Qed.

Lemma c17_ordinals : forall E H cf dx p s, world H -> reachable E H cf dx ->
  (forall n, fons (fst dx) p s = Some n -> nth_error (fels (fst dx) p) (N.to_nat n) = Some s) /\
  (In s (fels (fst dx) p) -> exists n, fons (fst dx) p s = Some n).
Proof.
  intros E H cf dx p s W R. pose proof (reach_inv _ _ _ _ W R) as I. split; [intros n; apply (i_fn _ _ _ _ I)|apply (i_nf _ _ _ _ I)].
Qed.

Lemma c45_once_partial : forall E H cf dx p, world H -> sane H -> reachable E H cf dx -> no_est_superseded dx p ->
  NoDup (fels (fst dx) p).
Proof.
  intros E H cf [d x] p W SN R NES. destruct (reach_ninv _ _ _ _ W SN R) as [S NI]. exact (t_nodup _ _ _ _ _ (NI p NES)).
Qed.

Lemma c18_attaches : forall E cf m dx dx', enters E cf m dx dx' -> isIncept (e_ilk (m_evt m)) = false ->
  exists k, keyState dx (e_pre (m_evt m)) = Some k /\
   ((e_sn (m_evt m) = k_sn k + 1 /\ e_prior (m_evt m) = Some (e_said (k_evt k))) \/
    ((e_ilk (m_evt m) = Rot /\ k_ilk k = Ixn /\ k_lastS k < e_sn (m_evt m) \/ e_ilk (m_evt m) = Drt /\ k_lastS k <= e_sn (m_evt m)) /\
     0 < e_sn (m_evt m) <= k_sn k /\
     exists s pe, klast (kels (fst dx) (e_pre (m_evt m))) (e_sn (m_evt m) - 1) = Some s /\
       evts (snd dx) (e_pre (m_evt m)) s = Some pe /\ e_prior (m_evt m) = Some (e_said pe))).
Proof.
  intros E cf m [d x] dx' X IC. apply enters_inv in X. destruct X as (d' & x' & r & ko & k' & sg & wg & dp & cpl & -> & A).
  pose proof (a_tr _ _ _ _ _ _ _ _ _ _ _ _ _ _ A) as T. inversion T; subst.
  - congruence.
  - exists k. split; [exact H|]. apply rotate_inv in H6. destruct H6 as (_ & _ & _ & _ & [B|(B1 & B2 & B3 & pd & pe & B4 & B5)]); [left; exact B|].
    right. split.
    + destruct (e_ilk (m_evt m)); try discriminate; [left; destruct (B2 eq_refl); auto|right; auto].
    + split; [lia|]. exists pd, pe. exact B5.
  - exists k. auto.
Qed.

Lemma c18_first_seen_wins_partial : forall E H cf dx p i j ei ej, world H -> sane H -> reachable E H cf dx ->
  (i < j)%nat -> nth_error (seen dx p) i = Some (Some ei) -> nth_error (seen dx p) j = Some (Some ej) ->
  isEst (e_ilk ei) = true -> e_sn ei < e_sn ej \/ (e_ilk ej = Drt /\ e_sn ei = e_sn ej).
Proof. intros E H cf dx p i j ei ej W SN R. apply (reach_ordered _ _ _ _ W SN R). Qed.


Lemma c19_wellformed : forall E H cf dx p k, world H -> reachable E H cf dx -> keyState dx p = Some k ->
  NoDup (k_wits k) /\ inbounds (k_toad k) (k_wits k).
Proof.
  intros E H cf [d x] p k W R K. destruct (kget_good _ _ _ _ _ _ W (reach_inv _ _ _ _ W R) K) as (c & ee & G).
  split; [apply (g_wits _ _ _ _ _ _ _ _ G)|apply (g_in _ _ _ _ _ _ _ _ G)].
Qed.

Lemma keyState_accept : forall E H cf m d x d' x' r ko k' sg wg dp cpl k, world H -> inv E H d x ->
  accept E cf m d x d' x' r ko k' sg wg dp cpl -> keyState (d', x') (e_pre (m_evt m)) = Some k -> k = k'.
Proof.
  intros E H cf m d x d' x' r ko k' sg wg dp cpl k W I A K.
  destruct ko as [k1|]; [eapply keyState_after; eauto; right; left; discriminate|].
  destruct (a_pin _ _ _ _ _ _ _ _ _ _ _ _ _ _ A) as [(-> & _)|(ex & -> & _ & Z0 & Z)]; [eapply keyState_after; eauto|].
  exfalso. pose proof (a_tr _ _ _ _ _ _ _ _ _ _ _ _ _ _ A) as T. inversion T; subst.
  unfold keyState in K. cbn [fst snd] in K. unfold kget in K, H0. rewrite Z in K. rewrite Z0 in K.
  destruct (kevers d (e_pre (m_evt m))) as [k1|]; [discriminate|].
  destruct (states d (e_pre (m_evt m))) as [st|] eqn:ST; [|discriminate].
  destruct (i_st _ _ _ _ I _ _ ST) as (k2 & c & ee & G & S). rewrite (kstate_reload _ _ _ _ _ _ _ _ _ W G S) in H0. discriminate.
Qed.

Lemma c19_delta_partial : forall E H cf m dx dx' k', world H -> reachable E H cf dx -> enters E cf m dx dx' ->
  keyState dx' (e_pre (m_evt m)) = Some k' ->
  match keyState dx (e_pre (m_evt m)) with
  | None => k_wits k' = e_wits (m_evt m)
  | Some k => if isRot (e_ilk (m_evt m))
      then k_sn k < e_sn (m_evt m) ->
        k_wits k' = filter (fun w => negb (memN w (e_cuts (m_evt m)))) (k_wits k) ++ e_adds (m_evt m) /\
        incl (e_cuts (m_evt m)) (k_wits k) /\ (forall w, In w (e_adds (m_evt m)) -> ~ In w (k_wits k)) /\
        NoDup (e_cuts (m_evt m)) /\ NoDup (e_adds (m_evt m))
      else k_wits k' = k_wits k
  end.
Proof.
  intros E H cf m [d x] dx' k2 W R X K. pose proof (reach_inv _ _ _ _ W R) as I. cbn [fst snd] in I.
  apply enters_inv in X. destruct X as (d' & x' & r & ko & k' & sg & wg & dp & cpl & -> & A).
  rewrite (keyState_accept _ _ _ _ _ _ _ _ _ _ _ _ _ _ _ _ W I A K) in *. clear K k2.
  pose proof (a_tr _ _ _ _ _ _ _ _ _ _ _ _ _ _ A) as T. unfold keyState. cbn [fst snd]. inversion T; subst; rewrite H0.
  - apply incept_inv in H2. destruct H2 as (_ & _ & _ & _ & _ & ->). reflexivity.
  - rewrite H3. intros LT. destruct (kget_good _ _ _ _ _ _ W I H0) as (c & ee & G).
    apply rotate_inv in H7. destruct H7 as (_ & _ & _ & DB & _).
    apply deriveBacks_inv in DB; [|assumption|eapply g_wits; eauto|eapply g_cuts; eauto|eapply g_adds; eauto|eapply g_disj; eauto].
    destruct DB as (D1 & D2 & D3 & D4 & D5 & _). destruct (D5 LT) as (-> & -> & B3 & B4 & ->). cbn. auto 6.
  - rewrite H3. cbn. reflexivity.
Qed.

Lemma outsider_local : forall cf k p wits, k_pre k = p -> outsider cf p wits -> wits <> [] -> isLocal cf k wits = false.
Proof.
  intros cf k p wits P (A & B & C) NE. unfold isLocal, locallyOwned, locallyMembered, locallyWitnessed. rewrite P.
  rewrite (proj2 (memN_nIn _ _) A), (proj2 (memN_nIn _ _) B). cbn [andb orb negb].
  destruct wits as [|w ws]; [congruence|]. apply not_true_is_false. intros Q. apply existsb_exists in Q.
  destruct Q as (y & Y1 & Y2). apply memN_In in Y2. exact (C y Y2 Y1).
Qed.

Lemma ko_pre : forall E cf m d x d' x' r ko k' sg wg dp cpl, accept E cf m d x d' x' r ko k' sg wg dp cpl ->
  k_pre (match ko with Some k => k | None => k' end) = e_pre (m_evt m).
Proof.
  intros. pose proof (a_tr _ _ _ _ _ _ _ _ _ _ _ _ _ _ H) as T. destruct ko as [k|]; [|eapply tr_pre; eauto].
  apply tr_flags in T. destruct T as (_ & _ & _ & _ & _ & _ & T & _). exact T.
Qed.

Lemma c20_witnessed_partial : forall E H cf m dx dx' k', world H -> reachable E H cf dx -> enters E cf m dx dx' ->
  keyState dx' (e_pre (m_evt m)) = Some k' -> outsider cf (e_pre (m_evt m)) (k_wits k') ->
  exists ws, incl ws (m_wigers m) /\ NoDup (map sg_qb64 ws) /\ Forall (verified E (k_wits k') (e_raw (m_evt m))) ws /\
    k_toad k' <= len ws /\
    (NoDup (map sg_index ws) -> NoDup (k_wits k') ->
       exists signers, NoDup signers /\ k_toad k' <= len signers /\
         forall w, In w signers -> In w (k_wits k') /\ exists s, In s (m_wigers m) /\ vrfy E w (sg_raw s) (e_raw (m_evt m)) = true).
Proof.
  intros E H cf m [d x] dx' k2 W R X K O. pose proof (reach_inv _ _ _ _ W R) as I. cbn [fst snd] in I.
  apply enters_inv in X. destruct X as (d' & x' & r & ko & k' & sg & wg & dp & cpl & -> & A).
  rewrite (keyState_accept _ _ _ _ _ _ _ _ _ _ _ _ _ _ _ _ W I A K) in *. clear K k2.
  pose proof (a_valid _ _ _ _ _ _ _ _ _ _ _ _ _ _ A) as V. pose proof (ko_pre _ _ _ _ _ _ _ _ _ _ _ _ _ _ A) as KP.
  exists wg. destruct V. split; [exact v_wincl|]. split; [exact v_wnodup|]. split; [exact v_wver|].
  assert (TD : k_toad k' <= len wg).
  { destruct (k_wits k') eqn:WE; [rewrite (v_notoad eq_refl); lia|]. rewrite <- WE in *.
    assert (NE : k_wits k' <> []) by congruence. apply v_toad; [exact NE|]. eapply outsider_local; eauto. }
  split; [exact TD|]. intros ND NW.
  exists (map (fun s => nth (N.to_nat (sg_index s)) (k_wits k') 0) wg).
  assert (VI : forall s, In s wg -> exists ky, nth_error (k_wits k') (N.to_nat (sg_index s)) = Some ky /\ vrfy E ky (sg_raw s) (e_raw (m_evt m)) = true).
  { rewrite Forall_forall in v_wver. exact v_wver. }
  split; [|split].
  - clear - ND NW VI. induction wg as [|s wg IH]; cbn [map]; [constructor|]. cbn [map] in ND. inversion ND; subst. constructor.
    + intros Q. apply in_map_iff in Q. destruct Q as (t & Q1 & Q2). apply H1. apply in_map_iff. exists t. split; [|exact Q2].
      destruct (VI s (or_introl eq_refl)) as (a & A1 & _). destruct (VI t (or_intror Q2)) as (b & B1 & _).
      rewrite (nth_error_nth _ _ 0 A1), (nth_error_nth _ _ 0 B1) in Q1. subst b.
      assert (N.to_nat (sg_index t) = N.to_nat (sg_index s)) by (eapply (proj1 (NoDup_nth_error _) NW); [apply nth_error_Some; congruence|congruence]).
      lia.
    + apply IH; auto. intros t Q. apply VI. right. exact Q.
  - rewrite len_map. exact TD.
  - intros w Q. apply in_map_iff in Q. destruct Q as (s & Q1 & Q2). destruct (VI s Q2) as (a & A1 & A2).
    rewrite (nth_error_nth _ _ 0 A1) in Q1. subst w. split; [eapply nth_error_In; eauto|]. exists s. auto.
Qed.

Lemma c21_sealed_partial : forall E H cf m dx dx' k', world H -> reachable E H cf dx -> enters E cf m dx dx' ->
  keyState dx' (e_pre (m_evt m)) = Some k' -> isDel (e_ilk (m_evt m)) = true -> k_delpre k' <> None ->
  outsider cf (e_pre (m_evt m)) (k_wits k') ->
  (forall k w, keyState dx (e_pre (m_evt m)) = Some k -> In w (k_wits k) -> ~ In w (c_prefixes cf)) ->
  exists dp dk de, k_delpre k' = Some dp /\ (e_ilk (m_evt m) = Dip -> e_delpre (m_evt m) = Some dp) /\
    keyState dx dp = Some dk /\ k_dnd dk = false /\
    In (e_said de) (fels (fst dx) dp) /\ e_pre de = dp /\ real H de /\
    In (SealEvt (e_pre (m_evt m)) (e_sn (m_evt m)) (e_said (m_evt m))) (e_seals de).
Proof.
  intros E H cf m [d x] dx' k2 W R X K DE DP O O2. pose proof (reach_inv _ _ _ _ W R) as I. cbn [fst snd] in I.
  apply enters_inv in X. destruct X as (d' & x' & r & ko & k' & sg & wg & dp & cpl & -> & A).
  rewrite (keyState_accept _ _ _ _ _ _ _ _ _ _ _ _ _ _ _ _ W I A K) in *. clear K k2.
  pose proof (a_valid _ _ _ _ _ _ _ _ _ _ _ _ _ _ A) as V. pose proof (ko_pre _ _ _ _ _ _ _ _ _ _ _ _ _ _ A) as KP.
  pose proof (tr_flags _ _ _ _ _ _ (a_tr _ _ _ _ _ _ _ _ _ _ _ _ _ _ A)) as (_ & TF).
  assert (LO : isLocal cf (match ko with Some k => k | None => k' end) (k_wits k') = false).
  { destruct (k_wits k') as [|w ws] eqn:WE; [|rewrite <- WE in *; eapply outsider_local; eauto; congruence].
    destruct O as (O1 & O3 & _). unfold isLocal, locallyOwned, locallyMembered, locallyWitnessed. rewrite KP.
    rewrite (proj2 (memN_nIn _ _) O1), (proj2 (memN_nIn _ _) O3). cbn [andb orb negb].
    apply not_true_is_false. intros Q. apply existsb_exists in Q. destruct Q as (y & Y1 & Y2). apply memN_In in Y2.
    destruct ko as [k|]; [|rewrite WE in Y2; destruct Y2]. destruct TF as (_ & _ & _ & T4 & _).
    exact (O2 k y T4 Y2 Y1). }
  assert (QD : k_delpre k' = dp /\ (e_ilk (m_evt m) = Dip -> e_delpre (m_evt m) = dp)).
  { destruct V. clear - v_delpre TF A DE. destruct ko as [k|].
    - destruct TF as (_ & _ & T3 & _ & _ & _ & T7 & _).
      destruct (e_ilk (m_evt m)) eqn:IK; try discriminate; subst dp; [|split; [exact T3|discriminate]].
      destruct T7 as [(T7 & _)|(T7 & _)]; discriminate.
    - destruct TF as (_ & _ & _ & T4 & _). split; [apply (a_delpre _ _ _ _ _ _ _ _ _ _ _ _ _ _ A eq_refl)|].
      intros Q. rewrite Q in v_delpre. symmetry. exact v_delpre. }
  destruct QD as (QD1 & QD2).
  destruct (v_del _ _ _ _ _ _ _ _ _ _ _ _ _ _ _ _ _ V) as [(Z & _)|(q & Z & [(Z1 & _)|(_ & AP)])]; [congruence|congruence|].
  destruct AP as (dk & n & s & de & P1 & P2 & P3 & P4 & P5 & _).
  exists q, dk, de. split; [congruence|]. split; [intros Q; rewrite (QD2 Q); exact Z|]. split; [exact P1|]. split; [exact P2|].
  pose proof (i_kf _ _ _ _ I _ _ _ (klast_In _ _ _ P3)) as (F1 & _).
  pose proof (i_ev _ _ _ _ I _ _ _ P4) as (F2 & F3). pose proof (W _ _ F2) as (F4 & _). rewrite F4. split; [exact F1|].
  split; [exact F3|]. split; [unfold real; rewrite F4; exact F2|].
  apply existsb_exists in P5. destruct P5 as (sl & S1 & S2). unfold seal_is in S2. destruct sl as [i n0 dd|]; [|discriminate].
  apply andb_true_iff in S2. destruct S2 as [S2 S3]. apply andb_true_iff in S2. destruct S2 as [S2 S4].
  apply N.eqb_eq in S2, S3, S4. subst. exact S1.
Qed.

Lemma c22_rejected_no_effect_partial : forall E H cf m dx dx' ex, world H -> sane H -> reachable E H cf dx -> real H (m_evt m) ->
  processEvent E cf m dx = (dx', Err ex) -> same_acc (fst dx) (fst dx') /\ (forall p, keyState dx' p = keyState dx p).
Proof.
  intros E H cf m [d x] [d' x'] ex W SN R RM P. pose proof (reach_sinv _ _ _ _ W SN R) as S. cbn [fst snd] in *.
  pose proof P as P0. apply process_inv in P. destruct P as [(X & _ & SA)|(ko & k' & sg & wg & dp & cpl & A)].
  - specialize (SA (inv_said_ok _ _ _ _ W (s_inv _ _ _ _ S))). split; [exact SA|].
    intros p. unfold keyState. cbn [fst snd]. destruct SA as (_ & _ & _ & _ & A5 & A6).
    unfold kget. rewrite A5, A6. destruct (kevers d p); [reflexivity|].
    destruct (s_p _ _ _ _ S p) as [(_ & -> & _)|(k & st & (c & ee & l & G & _) & KS & -> & _)]; [reflexivity|].
    rewrite (kstate_reload _ _ _ _ _ _ _ _ _ W G KS).
    assert (GR : grows d x d x') by (split; [|split]; [auto|apply X|apply X]).
    rewrite (kstate_reload _ _ _ _ _ _ _ _ _ W (goodk_grows _ _ _ _ _ _ _ _ _ _ GR G) KS). reflexivity.
  - destruct (accept_sinv _ _ _ _ _ _ _ _ _ _ _ _ _ _ _ W SN S RM A) as (_ & Z & _). discriminate.
Qed.

Lemma c24_lawful : forall E H cf dx p s, world H -> reachable E H cf dx -> In s (fels (fst dx) p) ->
  exists e c, e_said e = s /\ e_pre e = p /\ log H (e :: c) /\ lawful E (e :: c).
Proof.
  intros E H cf [d x] p s W R IN. pose proof (reach_linv _ _ _ _ W R) as L. cbn [fst snd] in *.
  destruct (i_fe _ _ _ _ (l_inv _ _ _ _ L) _ _ IN) as (e & c & ee & A1 & A2 & A3 & A4). exists e, c.
  pose proof (chain_hd _ _ _ _ _ _ A2) as (B1 & _). split; [exact A1|]. split; [exact B1|]. split; [apply A2|].
  exact (l_law _ _ _ _ L _ _ _ A2).
Qed.

Lemma tip_unique : forall E H d x d' x' p k k' c c' ee ee' l l', goodk E H d x p k c ee -> goodk E H d' x' p k' c' ee' ->
  fels d p = l ++ [e_said (k_evt k)] -> fels d' p = l' ++ [e_said (k_evt k')] -> fels d' p = fels d p -> k_evt k = k_evt k' /\ c = c' /\ ee = ee'.
Proof.
  intros E H d x d' x' p k k' c c' ee ee' l l' G G' F F' Q. rewrite F, F' in Q. apply app_inj_tail in Q. destruct Q as [_ Q].
  pose proof (chain_hd _ _ _ _ _ _ (g_chain _ _ _ _ _ _ _ _ G)) as (_ & _ & _ & R1).
  pose proof (chain_hd _ _ _ _ _ _ (g_chain _ _ _ _ _ _ _ _ G')) as (_ & _ & _ & R2).
  assert (QE : k_evt k = k_evt k') by (unfold real in *; congruence).
  assert (QC : c = c'). { eapply log_unique; [apply (g_chain _ _ _ _ _ _ _ _ G)|rewrite QE; apply (g_chain _ _ _ _ _ _ _ _ G')]. }
  split; [exact QE|]. split; [exact QC|]. pose proof (g_est _ _ _ _ _ _ _ _ G) as E1. pose proof (g_est _ _ _ _ _ _ _ _ G') as E2.
  rewrite QE, QC in E1. congruence.
Qed.

Lemma c24_final_partial : forall E H cf dx p k ops, world H -> sane H -> reachable E H cf dx -> Forall (real_op H) ops ->
  keyState dx p = Some k -> k_ndigs k = [] \/ transf E p = false -> fels (fst (run E cf ops dx)) p = fels (fst dx) p.
Proof.
  intros E H cf dx p k ops W SN R RO K NT. pose proof (reach_sinv _ _ _ _ W SN R) as S.
  pose proof (micro_run E H cf ops dx W (s_inv _ _ _ _ S) RO) as M. revert M. generalize (run E cf ops dx). intros dz M.
  revert S K. clear R RO ops. induction M as [|a b c M IH Mi]; intros S K; [reflexivity|].
  specialize (IH S K). pose proof (sinv_micros _ _ _ _ _ W SN S M) as Sb.
  destruct a as [d x], b as [d1 x1], c as [d2 x2]. cbn [fst snd] in *. rewrite <- IH.
  inversion Mi as [e0 d0 x0 d3 x3 R X SA|d0 x0 x3 Q1 Q2 Q3|m d0 x0 d3 x3 r ko k' sg wg dp cpl R A|d0 x0]; subst; try reflexivity; [apply SA|].
  rewrite (a_fels _ _ _ _ _ _ _ _ _ _ _ _ _ _ A). destruct (N.eq_dec p (e_pre (m_evt m))) as [->|NE]; [exfalso|apply fset_other; exact NE].
  unfold keyState in K. cbn [fst snd] in K.
  destruct (sinv_kget _ _ _ _ (e_pre (m_evt m)) W S) as [(KN & _)|(k0 & KG & (c0 & ee0 & l0 & G0 & F0 & _))]; [congruence|].
  assert (k0 = k) by congruence. subst k0.
  destruct (sinv_kget _ _ _ _ (e_pre (m_evt m)) W Sb) as [(_ & KN & _)|(k1 & KG1 & (c1 & ee1 & l1 & G1 & F1 & _))].
  { rewrite KN in IH. rewrite F0 in IH. destruct l0; discriminate. }
  destruct (tip_unique _ _ _ _ _ _ _ _ _ _ _ _ _ _ _ G0 G1 F0 F1 IH) as (T1 & T2 & T3). subst ee1.
  pose proof (tr_flags _ _ _ _ _ _ (a_tr _ _ _ _ _ _ _ _ _ _ _ _ _ _ A)) as (_ & TF).
  destruct ko as [k2|]; [|destruct TF as (_ & _ & _ & _ & TF); congruence].
  destruct TF as (_ & _ & _ & T4 & T5 & T6 & _). assert (k2 = k1) by congruence. subst k2.
  unfold transferable in T5. rewrite T6 in T5. destruct NT as [NT|NT].
  - rewrite (g_ndigs _ _ _ _ _ _ _ _ G1), <- (g_ndigs _ _ _ _ _ _ _ _ G0), NT in T5. discriminate.
  - rewrite NT in T5. destruct (k_ndigs k1); discriminate.
Qed.

Lemma c25_idempotent_partial : forall E H cf m dx dx' r, world H -> sane H -> reachable E H cf dx -> real H (m_evt m) ->
  no_est_superseded dx (e_pre (m_evt m)) -> In (e_said (m_evt m)) (fels (fst dx) (e_pre (m_evt m))) -> e_ilk (m_evt m) <> Drt ->
  processEvent E cf m dx = (dx', r) -> same_acc (fst dx) (fst dx').
Proof.
  intros E H cf m [d x] [d' x'] r W SN R RM NES IN ND P. destruct (reach_ninv _ _ _ _ W SN R) as [S NI]. cbn [fst snd] in *.
  specialize (NI _ NES). apply process_inv in P. destruct P as [(X & _ & SA)|(ko & k' & sg & wg & dp & cpl & A)].
  - apply SA. eapply inv_said_ok; [exact W|exact (s_inv _ _ _ _ S)].
  - exfalso. eapply (accept_fresh _ _ _ _ _ _ _ _ _ _ _ _ _ _ _ W S RM A NI); [intros; congruence|exact IN].
Qed.


Lemma c26_reload_partial : forall E H cf dx p, world H -> sane H -> reachable E H cf dx ->
  match keyState dx p, keyState (restart dx) p with
  | Some k, Some k' => same_state k k'
  | None, None => True
  | _, _ => False
  end.
Proof.
  intros E H cf [d x] p W SN R. pose proof (reach_sinv _ _ _ _ W SN R) as S. cbn [fst snd] in S.
  unfold keyState, restart. cbn [fst snd]. unfold kget. cbn [kevers states set_kevers].
  destruct (s_p _ _ _ _ S p) as [(_ & -> & ->)|(k & st & (c & ee & l & G & _) & KS & -> & KV)]; [exact Logic.I|].
  rewrite (kstate_reload _ _ _ _ _ _ _ _ _ W G KS). destruct KV as [-> | ->]; repeat split.
Qed.

Lemma c40_no_resurrection_partial : forall E H cf dx ops p k k' c c', world H -> sane H -> reachable E H cf dx ->
  Forall (real_op H) ops -> no_est_superseded (run E cf ops dx) p ->
  keyState dx p = Some k -> keyState (run E cf ops dx) p = Some k' -> log H (k_evt k :: c) -> log H (k_evt k' :: c') ->
  (forall a, In a (k_evt k :: c) -> e_sn a <= k_lastS k -> In a (k_evt k' :: c')) /\
  (forall a, real H a -> In (e_said a) (fels (fst dx) p) -> ~ In a (k_evt k :: c) -> ~ In a (k_evt k' :: c')).
Proof.
  intros E H cf dx ops p k k' c c' W SN R RO NES K K' L L'.
  destruct (reach_ninv _ _ _ _ W SN R) as [S NI].
  pose proof (micro_run E H cf ops dx W (s_inv _ _ _ _ S) RO) as M.
  destruct (micros_grows _ _ _ _ _ W (s_inv _ _ _ _ S) M) as (GR1 & GR2 & _).
  destruct (ninv_micros _ _ _ _ _ W SN (conj S NI) M) as [S' NI'].
  assert (NES0 : no_est_superseded dx p).
  { destruct dx as [d x]. destruct (run E cf ops (d, x)) as [d' x']. destruct (GR1 p) as (l & Ll).
    eapply nes_prefix; [|exact NES]. eapply seen_keep; eauto. exact (s_inv _ _ _ _ S). }
  destruct dx as [d x]. destruct (run E cf ops (d, x)) as [d' x']. clear M RO R. cbn [fst snd] in *.
  specialize (NI p NES0). specialize (NI' p NES).
  unfold keyState in K, K'. cbn [fst snd] in K, K'.
  destruct (sinv_kget _ _ _ _ p W S) as [(KN & _)|(k0 & KG & (c0 & ee & l & G & F & _ & _ & FE & _))]; [congruence|].
  destruct (sinv_kget _ _ _ _ p W S') as [(KN & _)|(k1 & KG1 & (c1 & ee1 & l1 & G1 & F1 & _))]; [congruence|].
  assert (k0 = k) by congruence. assert (k1 = k') by congruence. subst k0 k1.
  pose proof (g_chain _ _ _ _ _ _ _ _ G) as C. pose proof (g_chain _ _ _ _ _ _ _ _ G1) as C1.
  pose proof (log_unique _ _ _ _ (proj1 C) L) as U1. pose proof (log_unique _ _ _ _ (proj1 C1) L') as U2. subst c0 c1. clear L L'.
  assert (FI : forall s, In s (fels d p) -> In s (fels d' p)).
  { intros s Y. destruct (GR1 p) as (l2 & ->). apply in_or_app. auto. }
  destruct (est_in _ _ (g_est _ _ _ _ _ _ _ _ G)) as [EI EE].
  destruct C as [LC FC]. destruct C1 as [LC1 FC1]. pose proof FC as FCx. rewrite Forall_forall in FCx. destruct (FCx _ EI) as (_ & EF & EV).
  destruct (t_last _ _ _ _ _ NI' l1 _ _ F1 (conj LC1 FC1)) as [_ EST1].
  pose proof (EST1 _ _ (FI _ EF) (GR2 _ _ _ EV) EE) as EI1.
  destruct (in_split _ _ EI) as (pre & post & Q). destruct (in_split _ _ EI1) as (pre1 & post1 & Q1).
  assert (LS : log H (ee :: post)) by (eapply log_suffix; rewrite <- Q; exact LC).
  assert (LS1 : log H (ee :: post1)) by (eapply log_suffix; rewrite <- Q1; exact LC1).
  pose proof (log_unique _ _ _ _ LS LS1) as QP. subst post1.
  split.
  - intros a AI AS. rewrite Q in AI. rewrite Q1. apply in_or_app. right. apply in_app_or in AI. destruct AI as [AI|AI]; [|exact AI].
    exfalso. rewrite Q in LC. pose proof (log_pre_sn _ _ _ _ _ LC AI). rewrite (g_lastS _ _ _ _ _ _ _ _ G) in AS. lia.
  - intros a RA AF NA AI. apply NA. destruct (in_split _ _ AI) as (pre2 & post2 & Q2).
    assert (LA : log H (a :: post2)) by (eapply log_suffix; rewrite <- Q2; exact LC1).
    rewrite Q1 in AI. apply in_app_or in AI. destruct AI as [AI|AI].
    + assert (GT : e_sn ee < e_sn a) by (rewrite Q1 in LC1; eapply log_pre_sn; eauto).
      assert (IE : In ee (a :: post2)).
      { rewrite Q2 in EI1. apply in_app_or in EI1. destruct EI1 as [Y|Y]; [|exact Y].
        rewrite Q2 in LC1. pose proof (log_pre_sn _ _ _ _ _ LC1 Y). lia. }
      apply (t_desc _ _ _ _ _ NI l _ _ _ a post2 F (conj LC FC) (g_est _ _ _ _ _ _ _ _ G)); [|exact IE].
      eapply chain_old; [exact (s_inv _ _ _ _ S)| |exact AF|exact GR2]. split; [exact LA|].
      rewrite Q2 in FC1. apply Forall_app in FC1. apply FC1.
    + rewrite Q. apply in_or_app. right. exact AI.
Qed.


(** ** What does not hold *)

(** Delegator 8 seals events of 9 in its interactions. *)
Definition B0 := icp1 40 8 [5] [106].
Definition B1 := ixn1 41 8 1 40 [SealEvt 9 0 30].
Definition B2 := ixn1 42 8 2 41 [SealEvt 9 1 31].
Definition B3 := ixn1 43 8 3 42 [SealEvt 9 1 32].
Definition B4 := ixn1 44 8 4 43 [SealEvt 9 1 31].
Definition D0 := dipT 30 9 8 [1] [102].
Definition D1 := rotT Drt 31 9 1 30 1 [2] 1 [103] 0 [] [].
Definition D1' := rotT Drt 32 9 1 30 1 [3] 1 [102] 0 [] [].
Definition evsD := [B0; B1; B2; B3; B4; D0; D1; D1'].
Definition opsD : list op :=
  [dlv B0 [sign B0 5 0 None]; dlv B1 [sign B1 5 0 None]; dlv D0 [sign D0 1 0 None];
   dlv B2 [sign B2 5 0 None]; Deliver (msgT D1 [sign D1 2 0 (Some 0)] [] (Some (2, 42)))].
Definition opsD2 : list op := opsD ++ [dlv B3 [sign B3 5 0 None]; Deliver (msgT D1' [sign D1' 3 0 (Some 0)] [] (Some (3, 43)))].
Definition again : op := Deliver (msgT D1 [sign D1 2 0 (Some 0)] [] (Some (4, 44))).
Definition opsD3 : list op := opsD2 ++ [dlv B4 [sign B4 5 0 None]].



Lemma c14_distinct_refuted : exists E H cf m e, world H /\ real H e /\ m_evt m = e /\ e_kt e = TNum 2 /\ e_keys e = [1; 2] /\
  enters E cf m db0 (fst (processEvent E cf m db0)) /\ Forall (fun s => vrfy E 2 (sg_raw s) (e_raw e) = false) (m_sigers m).
Proof.
  pose (e := icpT 60 7 2 [1; 2] 1 [103] 0 []).
  exists E1, (Hof [e]), cf0, (msgT e [sign e 1 0 None; sign e 1 0 (Some 0)] [] None), e.
  split; [apply world_of; reflexivity|]. split; [reflexivity|]. split; [reflexivity|]. split; [reflexivity|]. split; [reflexivity|].
  split; [split; [reflexivity|vm_compute; discriminate]|]. repeat constructor.
Qed.

Lemma c15_superseding_refuted : exists E H cf dx p k c pe, world H /\ sane H /\ reachable E H cf dx /\ keyState dx p = Some k /\
  log H (k_evt k :: c) /\ isRot (e_ilk (k_evt k)) = true /\ est_of c = Some pe /\
  forall key dg, In key (e_keys (k_evt k)) -> In dg (e_ndigs pe) -> commits E dg key = false.
Proof.
  assert (K : exists k, keyState (run E1 cf0 opsD2 db0) 9 = Some k /\ k_evt k = D1') by (eexists; split; [vm_compute; reflexivity|reflexivity]).
  destruct K as (k & K & KE). exists E1, (Hof evsD), cf0, (run E1 cf0 opsD2 db0), 9, k, [D0], D0. rewrite KE.
  split; [apply world_of; reflexivity|]. split; [apply sane_of; reflexivity|].
  split; [exists opsD2; split; [unfold opsD2, opsD; cbn [app]; reals|reflexivity]|]. split; [exact K|].
  split; [apply log_next; try reflexivity; apply log_icp; reflexivity|]. split; [reflexivity|]. split; [reflexivity|].
  intros key dg [<-|[]] [<-|[]]. reflexivity.
Qed.

Lemma c44_readback_refuted : exists E H cf dx p k, world H /\ sane H /\ reachable E H cf dx /\ keyState dx p = Some k /\
  klast (kels (fst dx) p) (k_sn k) <> Some (e_said (k_evt k)).
Proof.
  pose (ops := opsD3 ++ [again]).
  assert (K : exists k, keyState (run E1 cf0 ops db0) 9 = Some k /\ klast (kels (fst (run E1 cf0 ops db0)) 9) (k_sn k) <> Some (e_said (k_evt k)))
    by (eexists; split; [vm_compute; reflexivity|vm_compute; discriminate]).
  destruct K as (k & K1 & K2). exists E1, (Hof evsD), cf0, (run E1 cf0 ops db0), 9, k.
  split; [apply world_of; reflexivity|]. split; [apply sane_of; reflexivity|].
  split; [exists ops; split; [unfold ops, opsD3, opsD2, opsD; cbn [app]; reals|reflexivity]|]. auto.
Qed.

Lemma c45_twice_refuted : exists E H cf dx p s, world H /\ sane H /\ reachable E H cf dx /\
  nth_error (fels (fst dx) p) 1 = Some s /\ nth_error (fels (fst dx) p) 3 = Some s /\ fons (fst dx) p s = Some 3.
Proof.
  pose (ops := opsD3 ++ [again]). exists E1, (Hof evsD), cf0, (run E1 cf0 ops db0), 9, 31.
  split; [apply world_of; reflexivity|]. split; [apply sane_of; reflexivity|].
  split; [exists ops; split; [unfold ops, opsD3, opsD2, opsD; cbn [app]; reals|reflexivity]|]. vm_compute. auto.
Qed.

(** A delegated rotation of an identifier that is not delegated supersedes an accepted
    rotation, without any delegator. *)
Definition R1 := rot1 71 7 1 20 [2] [103].
Definition R1' := rotT Drt 72 7 1 20 1 [3] 1 [104] 0 [] [].
Definition opsR : list op := [dlv A0 [sign A0 1 0 None]; dlv R1 [sign R1 2 0 (Some 0)]].
Lemma c18_superseded_refuted : exists E H cf dx dx' m k, world H /\ sane H /\ reachable E H cf dx /\ real H (m_evt m) /\
  enters E cf m dx dx' /\ keyState dx (e_pre (m_evt m)) = Some k /\ k_delpre k = None /\
  e_ilk (k_evt k) = Rot /\ e_sn (k_evt k) = e_sn (m_evt m) /\ k_evt k <> m_evt m.
Proof.
  pose (m := msgT R1' [sign R1' 3 0 (Some 0)] [] None).
  assert (K : exists k, keyState (run E1 cf0 opsR db0) 7 = Some k /\ k_delpre k = None /\ k_evt k = R1) by (eexists; split; [vm_compute; reflexivity|split; reflexivity]).
  destruct K as (k & K1 & K2 & K3).
  exists E1, (Hof [A0; R1; R1']), cf0, (run E1 cf0 opsR db0), (fst (processEvent E1 cf0 m (run E1 cf0 opsR db0))), m, k. rewrite K3.
  split; [apply world_of; reflexivity|]. split; [apply sane_of; reflexivity|].
  split; [exists opsR; split; [unfold opsR; reals|reflexivity]|]. split; [reflexivity|].
  split; [split; [reflexivity|vm_compute; discriminate]|]. split; [exact K1|]. split; [exact K2|].
  split; [reflexivity|]. split; [reflexivity|]. discriminate.
Qed.

Lemma c21_undelegated_refuted : exists E H cf dx dx' m, world H /\ sane H /\ reachable E H cf dx /\ real H (m_evt m) /\
  enters E cf m dx dx' /\ e_ilk (m_evt m) = Drt /\ outsider cf (e_pre (m_evt m)) [] /\
  forall p s de, In s (fels (fst dx) p) -> evts (snd dx) p s = Some de -> e_seals de = [].
Proof.
  pose (m := msgT R1' [sign R1' 3 0 (Some 0)] [] None).
  exists E1, (Hof [A0; R1; R1']), cf0, (run E1 cf0 opsR db0), (fst (processEvent E1 cf0 m (run E1 cf0 opsR db0))), m.
  pose proof (world_of [A0; R1; R1'] eq_refl) as W.
  split; [exact W|]. split; [apply sane_of; reflexivity|].
  assert (R : reachable E1 (Hof [A0; R1; R1']) cf0 (run E1 cf0 opsR db0)) by (exists opsR; split; [unfold opsR; reals|reflexivity]).
  split; [exact R|]. split; [reflexivity|].
  split; [split; [reflexivity|vm_compute; discriminate]|]. split; [reflexivity|]. split; [repeat split; cbn; auto|].
  intros p s de _ EV. destruct (i_ev _ _ _ _ (reach_inv _ _ _ _ W R) _ _ _ EV) as [X _]. unfold Hof in X. apply find_some in X.
  destruct X as [[<-|[<-|[<-|[]]]] _]; reflexivity.
Qed.

(** A rotation with a next threshold larger than its list of next digests is written to the
    accepted logs and then raises. *)
Definition R2 := rotT Rot 73 7 1 20 1 [2] 2 [103] 0 [] [].
Definition mR2 := msgT R2 [sign R2 2 0 (Some 0)] [] None.
Lemma c22_refuted : exists E H cf dx dx' m ex, world H /\ reachable E H cf dx /\ real H (m_evt m) /\
  processEvent E cf m dx = (dx', Err ex) /\ fels (fst dx') (e_pre (m_evt m)) = fels (fst dx) (e_pre (m_evt m)) ++ [e_said (m_evt m)].
Proof.
  pose (ops := [dlv A0 [sign A0 1 0 None]]).
  exists E1, (Hof [A0; R2]), cf0, (run E1 cf0 ops db0), (fst (processEvent E1 cf0 mR2 (run E1 cf0 ops db0))), mR2, ValueError.
  split; [apply world_of; reflexivity|].
  split; [exists ops; split; [unfold ops; reals|reflexivity]|]. split; [reflexivity|]. split; [vm_compute; reflexivity|vm_compute; reflexivity].
Qed.

Lemma c26_unpinned_refuted : exists E H cf dx m k k' dx', world H /\ reachable E H cf dx /\ real H (m_evt m) /\
  keyState dx (e_pre (m_evt m)) = Some k /\ keyState (restart dx) (e_pre (m_evt m)) = Some k' /\ k_keys k <> k_keys k' /\
  enters E cf m (restart dx) dx' /\ e_ilk (m_evt m) = Ixn /\ e_sn (m_evt m) = k_sn k /\ isRot (k_ilk k) = true /\
  In (e_said (k_evt k)) (fels (fst dx) (e_pre (m_evt m))).
Proof.
  pose (ops := [dlv A0 [sign A0 1 0 None]; Deliver mR2]). pose (m := msgT A1 [sign A1 1 0 None] [] None).
  assert (K : exists k k', keyState (run E1 cf0 ops db0) 7 = Some k /\ keyState (restart (run E1 cf0 ops db0)) 7 = Some k' /\ k_keys k <> k_keys k' /\
    1 = k_sn k /\ isRot (k_ilk k) = true /\ In (e_said (k_evt k)) (fels (fst (run E1 cf0 ops db0)) 7)).
  { eexists. eexists. split; [vm_compute; reflexivity|]. split; [vm_compute; reflexivity|]. split; [discriminate|]. vm_compute. auto 6. }
  destruct K as (k & k' & K1 & K2 & K3 & K4 & K5 & K6).
  exists E1, (Hof [A0; R2; A1]), cf0, (run E1 cf0 ops db0), m, k, k', (fst (processEvent E1 cf0 m (restart (run E1 cf0 ops db0)))).
  split; [apply world_of; reflexivity|].
  split; [exists ops; split; [unfold ops; reals|reflexivity]|]. split; [reflexivity|]. split; [exact K1|]. split; [exact K2|]. split; [exact K3|].
  split; [split; [reflexivity|vm_compute; discriminate]|]. split; [reflexivity|]. split; [exact K4|]. split; [exact K5|exact K6].
Qed.

(** A rotation without next digests whose next threshold is not 0 is written to the accepted
    logs and makes the key state in memory final, but a restart brings back the state before
    it, and the log grows again. *)
Definition R3 := rotT Rot 74 7 1 20 1 [2] 1 [] 0 [] [].
Lemma c24_final_refuted : exists E H cf dx p k ops, world H /\ reachable E H cf dx /\ Forall (real_op H) ops /\
  keyState dx p = Some k /\ k_ndigs k = [] /\ fels (fst (run E cf ops dx)) p <> fels (fst dx) p.
Proof.
  pose (ops := [dlv A0 [sign A0 1 0 None]; Deliver (msgT R3 [sign R3 2 0 (Some 0)] [] None)]).
  pose (ops' := [Restart; dlv A1 [sign A1 1 0 None]]).
  assert (K : exists k, keyState (run E1 cf0 ops db0) 7 = Some k /\ k_ndigs k = []) by (eexists; split; [vm_compute; reflexivity|reflexivity]).
  destruct K as (k & K1 & K2).
  exists E1, (Hof [A0; R3; A1]), cf0, (run E1 cf0 ops db0), 7, k, ops'.
  split; [apply world_of; reflexivity|].
  split; [exists ops; split; [unfold ops; reals|reflexivity]|]. split; [unfold ops'; reals|]. split; [exact K1|]. split; [exact K2|].
  vm_compute. discriminate.
Qed.

Lemma c40_resurrection_refuted : exists E H cf dx ops p k k' c c' a, world H /\ sane H /\ reachable E H cf dx /\
  Forall (real_op H) ops /\ keyState dx p = Some k /\ keyState (run E cf ops dx) p = Some k' /\
  log H (k_evt k :: c) /\ log H (k_evt k' :: c') /\
  real H a /\ In (e_said a) (fels (fst dx) p) /\ ~ In a (k_evt k :: c) /\ In a (k_evt k' :: c').
Proof.
  assert (K : exists k k', keyState (run E1 cf0 opsD3 db0) 9 = Some k /\ keyState (run E1 cf0 [again] (run E1 cf0 opsD3 db0)) 9 = Some k' /\
    k_evt k = D1' /\ k_evt k' = D1) by (eexists; eexists; split; [vm_compute; reflexivity|]; split; [vm_compute; reflexivity|split; reflexivity]).
  destruct K as (k & k' & K1 & K2 & K3 & K4).
  exists E1, (Hof evsD), cf0, (run E1 cf0 opsD3 db0), [again], 9, k, k', [D0], [D0], D1. rewrite K3, K4.
  split; [apply world_of; reflexivity|]. split; [apply sane_of; reflexivity|].
  split; [exists opsD3; split; [unfold opsD3, opsD2, opsD; cbn [app]; reals|reflexivity]|].
  split; [unfold again; reals|]. split; [exact K1|]. split; [exact K2|].
  split; [apply log_next; try reflexivity; apply log_icp; reflexivity|].
  split; [apply log_next; try reflexivity; apply log_icp; reflexivity|].
  split; [reflexivity|]. split; [vm_compute; auto|]. split; [|left; reflexivity].
  intros [Z|[Z|[]]]; discriminate Z.
Qed.

(** A rotation that recovers from an interaction does not change the witness list, whatever
    it cuts and adds. *)
Definition W0 := icpT 80 7 1 [1] 1 [102] 1 [50; 51].
Definition W1 := ixn1 81 7 1 80 [].
Definition W1r := rotT Rot 82 7 1 80 1 [2] 1 [103] 1 [50] [52].
Definition opsW : list op :=
  [Deliver (msgT W0 [sign W0 1 0 None] [sign W0 51 1 None] None); Deliver (msgT W1 [sign W1 1 0 None] [sign W1 51 1 None] None)].
Lemma c19_recovery_refuted : exists E H cf dx dx' m k k', world H /\ sane H /\ reachable E H cf dx /\ real H (m_evt m) /\
  enters E cf m dx dx' /\ isRot (e_ilk (m_evt m)) = true /\ keyState dx (e_pre (m_evt m)) = Some k /\ keyState dx' (e_pre (m_evt m)) = Some k' /\
  k_evt k' = m_evt m /\ k_wits k = [50; 51] /\ e_cuts (m_evt m) = [50] /\ e_adds (m_evt m) = [52] /\ k_wits k' = [50; 51].
Proof.
  pose (m := msgT W1r [sign W1r 2 0 (Some 0)] [sign W1r 51 1 None] None). pose (dx := run E1 cf0 opsW db0).
  assert (K : exists k k', keyState dx 7 = Some k /\ keyState (fst (processEvent E1 cf0 m dx)) 7 = Some k' /\ k_evt k' = W1r /\
    k_wits k = [50; 51] /\ k_wits k' = [50; 51]).
  { eexists. eexists. split; [vm_compute; reflexivity|]. split; [vm_compute; reflexivity|]. auto. }
  destruct K as (k & k' & K1 & K2 & K3 & K4 & K5).
  exists E1, (Hof [W0; W1; W1r]), cf0, dx, (fst (processEvent E1 cf0 m dx)), m, k, k'.
  split; [apply world_of; reflexivity|]. split; [apply sane_of; reflexivity|].
  split; [exists opsW; split; [unfold opsW; reals|reflexivity]|]. split; [reflexivity|].
  split; [split; [reflexivity|vm_compute; discriminate]|]. split; [reflexivity|]. split; [exact K1|]. split; [exact K2|].
  split; [exact K3|]. split; [exact K4|]. split; [reflexivity|]. split; [reflexivity|exact K5].
Qed.


Lemma c20_distinct_refuted : exists E H cf m e, world H /\ real H e /\ m_evt m = e /\ e_bt e = 2 /\ e_wits e = [50; 51] /\
  outsider cf (e_pre e) (e_wits e) /\
  enters E cf m db0 (fst (processEvent E cf m db0)) /\ Forall (fun s => vrfy E 51 (sg_raw s) (e_raw e) = false) (m_wigers m).
Proof.
  pose (e := icpT 61 7 1 [1] 1 [103] 2 [50; 51]).
  exists E1, (Hof [e]), cf0, (msgT e [sign e 1 0 None] [sign e 50 0 None; sign e 50 0 (Some 0)] None), e.
  split; [apply world_of; reflexivity|]. split; [reflexivity|]. split; [reflexivity|]. split; [reflexivity|]. split; [reflexivity|].
  split; [repeat split; cbn; auto|].
  split; [split; [reflexivity|vm_compute; discriminate]|]. repeat constructor.
Qed.

Lemma c25_drt_refuted : exists E H cf dx dx' m k k', world H /\ sane H /\ reachable E H cf dx /\ real H (m_evt m) /\
  In (e_said (m_evt m)) (fels (fst dx) (e_pre (m_evt m))) /\ enters E cf m dx dx' /\
  keyState dx (e_pre (m_evt m)) = Some k /\ keyState dx' (e_pre (m_evt m)) = Some k' /\ k_keys k <> k_keys k'.
Proof.
  pose (m := msgT D1 [sign D1 2 0 (Some 0)] [] (Some (4, 44))). pose (dx := run E1 cf0 opsD3 db0).
  assert (K : exists k k', keyState dx 9 = Some k /\ keyState (fst (processEvent E1 cf0 m dx)) 9 = Some k' /\ k_keys k <> k_keys k').
  { eexists. eexists. split; [vm_compute; reflexivity|]. split; [vm_compute; reflexivity|]. discriminate. }
  destruct K as (k & k' & K1 & K2 & K3).
  exists E1, (Hof evsD), cf0, dx, (fst (processEvent E1 cf0 m dx)), m, k, k'.
  split; [apply world_of; reflexivity|]. split; [apply sane_of; reflexivity|].
  split; [exists opsD3; split; [unfold opsD3, opsD2, opsD; cbn [app]; reals|reflexivity]|]. split; [reflexivity|].
  split; [vm_compute; auto|]. split; [split; [reflexivity|vm_compute; discriminate]|]. split; [exact K1|]. split; [exact K2|exact K3].
Qed.

(** A restart changes what happens next: a delegated rotation that arrives before the
    event sealing it is escrowed and accepted later if the process was not restarted, and
    is lost if it was. *)
Definition preD : list op := firstn 3 opsD.
Definition lateD : list op := [Deliver (msgT D1 [sign D1 2 0 (Some 0)] [] (Some (2, 42))); dlv B2 [sign B2 5 0 None]; Escrows 1].
Lemma c26_cues_refuted : exists E H cf pre late p s, world H /\ sane H /\ Forall (real_op H) (pre ++ late) /\
  In s (fels (fst (run E cf (pre ++ late) db0)) p) /\ ~ In s (fels (fst (run E cf (pre ++ [Restart] ++ late) db0)) p).
Proof.
  exists E1, (Hof evsD), cf0, preD, lateD, 9, 31. split; [apply world_of; reflexivity|]. split; [apply sane_of; reflexivity|].
  split; [unfold preD, lateD, opsD; cbn [app firstn]; reals|].
  split; [vm_compute; auto|]. vm_compute. intros [X|[]]. discriminate.
Qed.



(** Identifier 7 is abandoned by a rotation with no next digests. *)
Definition Z1 := rotT Rot 90 7 1 20 1 [2] 0 [] 0 [] [].
Definition opsZ : list op := [dlv A0 [sign A0 1 0 None]; dlv Z1 [sign Z1 2 0 (Some 0)]].

