(** Acceptance: a reply that says something, correctly signed and newer than the recorded one, is recorded. *)
From Verif Require Import Prelude SubsModel JsonModel JsonProofs ThModel ThProofs SerProofs Lex RpModel RpSpec RpProofs.
Open Scope N_scope.
Ltac Zify.zify_post_hook ::= Z.div_mod_to_equations.

Lemma nosep_in : forall sep s, ~ In sep s -> nosep sep s.
Proof. intros sep s H. unfold nosep. apply Forall_forall. intros x I E. subst x. exact (H I). Qed.
Lemma nosep_s2b : forall s, forallb (fun x => negb (x =? 47)) (s2b s) = true -> nosep 47 (s2b s).
Proof.
  intros s H. apply nosep_in. intros I. rewrite forallb_forall in H. specialize (H _ I). cbn in H. discriminate.
Qed.

Lemma says_parse : forall e r aid k v, says e r aid k v -> exists p, parse e r = Ok p /\ p_aid p = aid /\ p_key p = k /\ p_val p = v
  /\ findRoute (q_route r) <> None /\ (forall x, findRoute (q_route r) <> Some (HKsn x)).
Proof.
  intros e r aid k v H. destruct H as [on rest cid role eid HR HN H1 H2 H3 P1 P2 IR|eid scheme url HR H1 H2 H3 P1 IS U|on aid cid oid HR HN NE H1 H2].
  - assert (F : findRoute (q_route r) = Some HEnd).
    { unfold findRoute. rewrite HR.
      assert (S : splitb 47 (s2b (if on then "/end/role/add" else "/end/role/cut") ++ rest) = [[]; s2b "end"; s2b "role"; s2b (if on then "add" else "cut") ++ rest]).
      { assert (E : s2b (if on then "/end/role/add" else "/end/role/cut") ++ rest
                  = [] ++ 47 :: s2b "end" ++ 47 :: s2b "role" ++ 47 :: (s2b (if on then "add" else "cut") ++ rest)) by (destruct on; reflexivity).
        rewrite E, (splitb_app 47 []) by constructor. rewrite splitb_app by (apply nosep_s2b; reflexivity).
        rewrite splitb_app by (apply nosep_s2b; reflexivity). rewrite splitb_nosep; [reflexivity|].
        apply Forall_app. split; [destruct on; apply nosep_s2b; reflexivity|apply nosep_in; exact HN]. }
      rewrite S. destruct on; reflexivity. }
    unfold parse. rewrite F. unfold parseEnd.
    assert (A : (if startswith (s2b "/end/role/add") (q_route r) then Ok true
                 else if startswith (s2b "/end/role/cut") (q_route r) then Ok false else Err ValidationError) = Ok on).
    { rewrite HR. destruct on; cbn; reflexivity. }
    rewrite A. cbn [bind]. unfold field. rewrite H1, H2, H3. cbn [bind]. rewrite P1, P2. cbn [negb].
    apply (proj2 (SerProofs.memB_In _ _)) in IR. rewrite IR. cbn [negb]. eexists. repeat (split; [reflexivity|]). split; intros; discriminate.
  - assert (F : findRoute (q_route r) = Some HLoc) by (rewrite HR; reflexivity).
    unfold parse. rewrite F. unfold parseLoc. rewrite HR.
    replace (startswith (s2b "/loc/scheme") (s2b "/loc/scheme")) with true by reflexivity. cbn [negb].
    unfold field. rewrite H1, H2, H3. cbn [bind]. rewrite P1. apply (proj2 (SerProofs.memB_In _ _)) in IS. rewrite IS. cbn [negb].
    assert (A : match urlScheme e url with [] => false | u => negb (beq u scheme) end = false).
    { destruct U as [-> | ->]; [reflexivity|]. destruct scheme; [reflexivity|]. rewrite beq_refl. reflexivity. }
    rewrite A. eexists. repeat (split; [reflexivity|]). split; intros; discriminate.
  - assert (F : findRoute (q_route r) = Some (HWat aid (s2b (if on then "add" else "cut")))).
    { unfold findRoute. rewrite HR.
      assert (S : splitb 47 (s2b "/watcher/" ++ aid ++ s2b (if on then "/add" else "/cut")) = [[]; s2b "watcher"; aid; s2b (if on then "add" else "cut")]).
      { assert (E : s2b "/watcher/" ++ aid ++ s2b (if on then "/add" else "/cut")
                  = [] ++ 47 :: s2b "watcher" ++ 47 :: aid ++ 47 :: s2b (if on then "add" else "cut")) by (destruct on; reflexivity).
        rewrite E, (splitb_app 47 []) by constructor. rewrite splitb_app by (apply nosep_s2b; reflexivity).
        rewrite splitb_app by (apply nosep_in; exact HN). rewrite splitb_nosep; [reflexivity|].
        destruct on; apply nosep_s2b; reflexivity. }
      rewrite S. destruct aid; [congruence|]. destruct on; reflexivity. }
    unfold parse. rewrite F. unfold parseWat.
    assert (A : startswith (s2b "/watcher") (q_route r) = true).
    { apply startswith_ok. rewrite HR. exists (s2b "/" ++ aid ++ s2b (if on then "/add" else "/cut")). reflexivity. }
    rewrite A. cbn [negb].
    assert (B : (if beq (s2b (if on then "add" else "cut")) (s2b "add") then Ok true
                 else if beq (s2b (if on then "add" else "cut")) (s2b "cut") then Ok false else Err ValidationError) = Ok on) by (destruct on; reflexivity).
    rewrite B. cbn [bind]. unfold field. rewrite H1, H2. cbn [bind]. eexists. repeat (split; [reflexivity|]). split; intros; discriminate.
Qed.

(** The recorded reply at [k], if any, is dated before [r]. *)
Definition olderRecord (d : rdb) (k : bytes) (r : reply) : Prop :=
  forall s x, dget (ans d) k = Some s -> dget (sdts d) s = Some x -> x < q_dt r.

Section Live.
  Variable e : renv.

  Lemma process_parse : forall kv r cs gs d p, saidOk e r = true -> parse e r = Ok p ->
    findRoute (q_route r) <> None -> (forall x, findRoute (q_route r) <> Some (HKsn x)) ->
    processReply e kv r cs gs d = finish e kv r p cs gs d.
  Proof.
    intros kv r cs gs d p S P N1 N2. unfold processReply. rewrite S. cbn [negb].
    destruct (findRoute (q_route r)) as [[| |x|x y]|]; try congruence; unfold bindM, lift; rewrite P; reflexivity.
  Qed.

  Lemma cigLoop_accepts : forall r aid o odt cs d, trans e aid = false -> skipOwn e aid = false ->
    (exists cg, In cg cs /\ c_key cg = aid /\ vrfy e aid (c_raw cg) (q_raw r) = true) ->
    (forall x, odt = Some x -> x < q_dt r) -> exists d', cigLoop e r aid o odt cs d = (d', Ok true).
  Proof.
    intros r aid o odt cs d T K (cg & I & C & V) OD. induction cs as [|a cs IH]; [destruct I|]. cbn [cigLoop].
    destruct I as [->|I].
    - rewrite C, T, K, beq_refl. cbn [negb].
      assert (A : match odt with Some x => q_dt r <=? x | None => false end = false).
      { destruct odt as [x|]; [|reflexivity]. specialize (OD x eq_refl). apply N.leb_gt. exact OD. }
      rewrite A, V. cbn [negb]. eexists. reflexivity.
    - destruct (IH I) as (d' & E). destruct (trans e (c_key a)); [eauto|]. destruct (skipOwn e (c_key a)); [eauto|].
      destruct (negb (beq aid (c_key a))); [eauto|].
      destruct (match odt with Some x => q_dt r <=? x | None => false end); [eauto|].
      destruct (negb (vrfy e (c_key a) (c_raw a) (q_raw r))); [eauto|]. eexists. reflexivity.
  Qed.

  Lemma newer_single : forall kv r aid k v cs d, says e r aid k v -> saidOk e r = true -> signedSingle e r aid cs ->
    skipOwn e aid = false -> olderRecord d k r ->
    exists d', processReply e kv r cs [] d = (d', Ok tt) /\ dget (ans d') k = Some (q_said r) /\ dget (vals d') k = Some v.
  Proof.
    intros kv r aid k v cs d SY SO (cg & I & C & T & V) K OR. destruct (says_parse _ _ _ _ _ SY) as (p & P & <- & <- & <- & N1 & N2).
    rewrite (process_parse _ _ _ _ _ _ SO P N1 N2). unfold finish, rd. unfold bindM at 1.
    set (o := match dget (ans d) (p_key p) with
              | Some s => if (p_tag p =? tagEnd) && beq s (q_said r) then None else Some s | None => None end).
    unfold bindM. unfold acceptReply, rd, bindM.
    set (odt := match o with Some s => dget (sdts d) s | None => None end).
    destruct (cigLoop_accepts r (p_aid p) o odt cs d T K) as (d1 & E).
    { exists cg. auto. }
    { intros x E. unfold odt, o in E. destruct (dget (ans d) (p_key p)) as [s|] eqn:A; [|discriminate].
      destruct ((p_tag p =? tagEnd) && beq s (q_said r)); [discriminate|]. exact (OR s x A E). }
    rewrite E. cbn [grpLoop ret]. unfold upd. eexists. split; [reflexivity|].
    unfold record. cbn [ans vals setVals setAns]. rewrite !dget_dset, !beq_refl. auto.
  Qed.

  Lemma dedupB_id : forall l seen, NoDup (map sg_qb64 l) -> (forall s, In s l -> ~ In (sg_qb64 s) seen) -> dedupB seen l = l.
  Proof.
    induction l as [|x l IH]; intros seen N D; [reflexivity|]. cbn [dedupB map] in *. inversion N as [|? ? N1 N2]; subst.
    destruct (memB (sg_qb64 x) seen) eqn:M.
    - apply SerProofs.memB_In in M. exfalso. apply (D x); [left; reflexivity|exact M].
    - f_equal. apply IH; [exact N2|]. intros s I [E|J].
      + apply N1. rewrite E. apply in_map. exact I.
      + apply (D s); [right; exact I|exact J].
  Qed.
  Lemma filter_id : forall A (f : A -> bool) l, (forall x, In x l -> f x = true) -> filter f l = l.
  Proof. intros A f l H. induction l as [|x l IH]; [reflexivity|]. cbn. rewrite H by (left; reflexivity). f_equal. apply IH. intros y I. apply H. right. exact I. Qed.

  (** all the attached signatures verify and meet the threshold *)
  Definition fullySigned (r : reply) (ev : est) (sigs : list siger) : Prop :=
    sigs <> [] /\ NoDup (map sg_qb64 sigs) /\ thsize (e_th ev) <= len (e_keys ev) /\ satisfy (e_th ev) (map sg_index sigs) = true /\
    (forall s, In s sigs -> exists k, nth_error (e_keys ev) (N.to_nat (sg_index s)) = Some k /\ vrfy e k (sg_raw s) (q_raw r) = true).

  Lemma validate_full : forall r ev sigs, fullySigned r ev sigs ->
    validateSigs bytes (vrfy e) (q_raw r) sigs (e_keys ev) (e_th ev) = Ok (sigs, true).
  Proof.
    intros r ev sigs (NE & ND & TS & SA & V). unfold validateSigs. apply N.ltb_ge in TS. rewrite TS. unfold verifySigs.
    rewrite dedupB_id by (auto; intros s I []). rewrite filter_id.
    - destruct (map sg_index sigs) as [|i is] eqn:M; [destruct sigs; [congruence|discriminate]|]. rewrite SA. reflexivity.
    - intros s I. destruct (V s I) as (k & K1 & K2). rewrite K1. exact K2.
  Qed.

  (** what is recorded at [k] was signed under an earlier key state than [g]'s, or the same one and dated before [r] *)
  Definition olderState (d : rdb) (k : bytes) (r : reply) (g : group) : Prop :=
    forall s t0 ts, dget (ans d) k = Some s -> fetchTsgs (tsgs d) s None = t0 :: ts ->
      t_sn t0 < g_sn g \/ (t_sn t0 = g_sn g /\ forall x, dget (sdts d) s = Some x -> x < q_dt r).

  Lemma newer_group : forall kv r aid k v g ev d, says e r aid k v -> saidOk e r = true -> skipOwn e aid = false ->
    g_pre g = aid -> at_sn kv aid (g_sn g) = Some ev -> e_said ev = g_dig g -> fullySigned r ev (g_sigs g) ->
    fetchTsgs (tsgs d) (q_said r) None = [] -> olderState d k r g ->
    exists d', processReply e kv r [] [g] d = (d', Ok tt) /\ dget (ans d') k = Some (q_said r) /\ dget (vals d') k = Some v.
  Proof.
    intros kv r aid k v g ev d SY SO K GP AT ES FS FR OS. destruct (says_parse _ _ _ _ _ SY) as (p & P & <- & <- & <- & N1 & N2).
    rewrite (process_parse _ _ _ _ _ _ SO P N1 N2). unfold finish, rd. unfold bindM at 1.
    set (o := match dget (ans d) (p_key p) with
              | Some s => if (p_tag p =? tagEnd) && beq s (q_said r) then None else Some s | None => None end).
    unfold bindM at 1. unfold acceptReply, rd. unfold bindM at 1.
    set (odt := match o with Some s => dget (sdts d) s | None => None end).
    cbn [cigLoop]. unfold bindM at 1. unfold ret at 1. cbn [grpLoop]. unfold rd at 1. unfold bindM at 1.
    rewrite GP, K, beq_refl. cbn [negb].
    assert (ST : staleGrp r g o odt d = false).
    { unfold staleGrp. destruct o as [s|] eqn:EO; [|reflexivity].
      assert (A : dget (ans d) (p_key p) = Some s).
      { unfold o in EO. destruct (dget (ans d) (p_key p)) as [s'|]; [|discriminate]. destruct ((p_tag p =? tagEnd) && beq s' (q_said r)); [discriminate|exact EO]. }
      destruct (fetchTsgs (tsgs d) s None) as [|t0 ts] eqn:FT; [reflexivity|]. destruct (OS s t0 ts A FT) as [L|[L1 L2]].
      - apply orb_false_iff. split; [apply N.ltb_ge; lia|]. apply andb_false_iff. left. apply N.eqb_neq. lia.
      - apply orb_false_iff. split; [apply N.ltb_ge; lia|]. apply andb_false_iff. right. unfold odt.
        destruct (dget (sdts d) s) as [x|]; [|reflexivity]. apply N.leb_gt. apply L2. reflexivity. }
    rewrite ST, AT, ES, beq_refl. cbn [negb].
    pose proof FS as (NE & ND & TS & SA & V).
    destruct (e_keys ev) as [|k0 ks] eqn:EK.
    { destruct (g_sigs g) as [|s0 sl] eqn:GS; [congruence|]. destruct (V s0 (or_introl eq_refl)) as (k & K1 & _).
      destruct (N.to_nat (sg_index s0)); discriminate. }
    rewrite <- EK in *.
    assert (TG : tget (tsgs d) (q_said r) (p_aid p) (g_sn g) (g_dig g) = []).
    { unfold tget. destruct (find _ (tsgs d)) as [x|] eqn:F; [|reflexivity]. apply find_some in F. destruct F as [F1 F2].
      unfold sameT in F2. rewrite !andb_true_iff, !beq_eq in F2. destruct F2 as (((F2 & _) & _) & _). cbn [t_said] in F2.
      exfalso. assert (I : In x (fetchTsgs (tsgs d) (q_said r) None)) by (apply fetch_In; auto). rewrite FR in I. destruct I. }
    rewrite TG, app_nil_r. rewrite (validate_full _ _ _ FS). unfold lift. unfold bindM at 1. cbn [snd fst].
    unfold upd at 1. unfold bindM at 1. unfold upd at 1. unfold bindM at 1. unfold bindM at 1.
    set (d2 := removeReply o (updateGrp r g (g_sigs g) d)).
    assert (TL : trimLoop r g d2 = (d2, Ok tt)).
    { unfold trimLoop, rd, bindM. match goal with |- (if ?b then _ else _) _ = _ => assert (B : b = false) end.
      { destruct (existsb _ _) eqn:X; [|reflexivity]. apply existsb_exists in X. destruct X as (t & I & X).
        apply fetch_cut_In in I. destruct I as [I S1].
        assert (I2 : In t (tput (tsgs d) (mkT (q_said r) (g_pre g) (g_sn g) (g_dig g) (g_sigs g)))).
        { unfold d2, removeReply in I. destruct o as [s|]; cbn [tsgs] in I; [apply filter_In in I; destruct I as [I _]|]; exact I. }
        apply tput_In in I2. destruct I2 as [I2|(_ & _ & _ & E3 & E4 & _)].
        - exfalso. assert (J : In t (fetchTsgs (tsgs d) (q_said r) None)) by (apply fetch_In; auto). rewrite FR in J. destruct J.
        - cbn [t_sn t_dig] in E3, E4. rewrite E3, E4, beq_refl in X. cbn [negb] in X. rewrite andb_false_r, orb_false_r in X.
          apply N.ltb_lt in X. lia. }
      rewrite B. reflexivity. }
    rewrite TL. cbn [grpLoop ret]. unfold upd. eexists. split; [reflexivity|].
    unfold record. cbn [ans vals setVals setAns]. rewrite !dget_dset, !beq_refl. auto.
  Qed.

  (** key state notices: what one delivery writes *)
  Lemma ksn_changes : forall kv r cs gs d d' x k, processReply e kv r cs gs d = (d', x) -> isKsn k = true ->
    dget (ans d') k <> dget (ans d) k \/ dget (vals d') k <> dget (vals d) k ->
    x = Ok tt /\ exists aid q, saidOk e r = true /\ findRoute (q_route r) = Some (HKsn aid) /\ q_ksr r = Some q /\
      (k = key tagKsn [ks_i q; aid] /\ dget (ans d') k = Some (ks_d q) \/ k = key tagKsn [ks_d q] /\ dget (vals d') k = Some (ks_rec q)) /\
      (signedSingle e r aid cs \/ exists sn dig, signedState e kv r aid sn dig) /\
      (forall ev, at_sn kv (ks_i q) (ks_s q) = Some ev -> e_said ev = ks_d q) /\
      (forall n, cur_sn kv (ks_i q) = Some n -> n <= ks_s q) /\
      (lax e = true \/ aid = ks_i q \/ In aid (ks_b q) \/ In aid (wats e)).
  Proof.
    intros kv r cs gs d d' x k H IK CH. apply process_outcome in H. destruct H.
    - destruct CH as [C|C]; elim C; reflexivity.
    - destruct (accept_keeps _ _ _ _ _ _ _ _ _ _ _ H1) as [K1 K2]. unfold record in *. cbn [ans vals setVals setAns] in *.
      assert (B : beq k (p_key p) = false).
      { apply parse_says in H0. apply says_ksn in H0. apply beq_neq. intros ->. congruence. }
      rewrite K1, K2, !dget_dset, B in CH. destruct CH as [C|C]; elim C; reflexivity.
    - destruct (accept_keeps _ _ _ _ _ _ _ _ _ _ _ H1) as [K1 K2]. rewrite K1, K2 in CH. destruct CH as [C|C]; elim C; reflexivity.
    - destruct (accept_keeps _ _ _ _ _ _ _ _ _ _ _ H1) as [K1 K2]. rewrite K1, K2 in CH. destruct CH as [C|C]; elim C; reflexivity.
    - destruct (accept_keeps _ _ _ _ _ _ _ _ _ _ _ H2) as [K1 K2]. rewrite K1, K2 in CH. destruct CH as [C|C]; elim C; reflexivity.
    - destruct (accept_keeps _ _ _ _ _ _ _ _ _ _ _ H2) as [K1 K2]. cbn [ans vals setVals setAns] in *. rewrite !dget_dset in *.
      rewrite K1, K2 in CH. split; [reflexivity|]. exists aid, k0. do 3 (split; [assumption|]). split.
      + destruct (beq k (key tagKsn [ks_i k0; aid])) eqn:B1; [left; apply beq_eq in B1; auto|].
        destruct (beq k (key tagKsn [ks_d k0])) eqn:B2; [right; apply beq_eq in B2; auto|]. destruct CH as [C|C]; elim C; reflexivity.
      + split; [|auto]. apply accept_true in H2. destruct H2 as [[S1 _]|(g & _ & _ & S1 & _)]; [left; exact S1|right; eauto].
  Qed.

  (** a sweep is a sequence of rounds *)
  Lemma sweep_hist : forall kv now l d, hist e l d ->
    exists l', hist e (l' ++ l) (processEscrowReply e kv now d) /\ Forall (fun a => exists route said, a = Item kv now route said) l'.
  Proof.
    intros kv now l d. unfold processEscrowReply. generalize (rpes d) at 1 as xs. intros xs. revert l d.
    induction xs as [|x xs IH]; intros l d H; cbn [fold_left].
    - exists []. split; [exact H|constructor].
    - destruct (IH (Item kv now (fst x) (snd x) :: l) _ (h_step e _ _ (Item kv now (fst x) (snd x)) H)) as (l' & H1 & H2).
      exists (l' ++ [Item kv now (fst x) (snd x)]). rewrite <- app_assoc. split; [exact H1|].
      apply Forall_app. split; [exact H2|constructor; [eauto|constructor]].
  Qed.
End Live.
