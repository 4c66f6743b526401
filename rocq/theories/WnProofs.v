(** Proofs on the receipts of a witness. *)
From Coq Require Import Lia.
From Verif Require Import Prelude B64Model MatterModel SubsModel ThModel ThSpec KelModel KelSpec KelProofs KelInv KelLaw WnModel WnSpec.
Ltac Zify.zify_post_hook ::= Z.div_mod_to_equations.
Open Scope N_scope.

(** An event that processEvent returns from is in the first seen log. *)
Lemma process_ok_in : forall E H cf m d x d' x' u, world H -> inv E H d x -> real H (m_evt m) ->
  processEvent E cf m (d, x) = ((d', x'), Ok u) -> In (e_said (m_evt m)) (fels d' (e_pre (m_evt m))).
Proof.
  intros E H cf m d x d' x' u W I R P. pose proof P as X.
  apply process_inv in P. destruct P as [(U1 & (_ & _ & U & _) & _)|(ko & k' & sg & wg & dp & cpl & A)].
  2:{ eapply accept_self; eauto. }
  assert (ACC : forall ko k' sg wg dp cpl, accept E cf m d x d' x' (Ok u) ko k' sg wg dp cpl -> In (e_said (m_evt m)) (fels d' (e_pre (m_evt m)))).
  { intros. eapply accept_self; eauto. }
  rewrite U in *. unfold processEvent in X. cbv zeta in X.
  destruct (validPre E (e_pre (m_evt m))); cbn [negb] in X; [|discriminate X].
  destruct (kget d x (e_pre (m_evt m))) as [k|] eqn:KG.
  2:{ destruct (isIncept (e_ilk (m_evt m))) eqn:IC; [|discriminate X].
      destruct (newKever_inv _ _ _ _ _ _ _ _ KG IC X) as [(_ & _ & ex & Z)|(ko & k' & sg & wg & dp & cpl & A)]; [discriminate Z|eauto]. }
  destruct (isIncept (e_ilk (m_evt m))) eqn:IC.
  - destruct (N.eqb_spec (e_sn (m_evt m)) 0) as [S0|]; cbn [negb] in X; [|discriminate X].
    destruct (fetchEst (S (N.to_nat (e_sn (m_evt m)))) d x (e_pre (m_evt m)) (e_sn (m_evt m))) as [ee|] eqn:FE; [|discriminate X].
    destruct (N.eqb_spec (e_said ee) (e_said (m_evt m))) as [SE|]; [|discriminate X]. clear X.
    cbn [fetchEst] in FE. destruct (klast (kels d (e_pre (m_evt m))) (e_sn (m_evt m))) as [s|] eqn:KL; [|discriminate].
    destruct (evts x (e_pre (m_evt m)) s) as [a|] eqn:EV; [|discriminate].
    destruct (isEst (e_ilk a)).
    + injection FE as ->. apply klast_In in KL. apply (i_kf _ _ _ _ I) in KL. destruct KL as [KL _].
      apply (i_ev _ _ _ _ I) in EV. destruct EV as [EV _]. apply W in EV. destruct EV as [EV _]. rewrite <- SE, EV. exact KL.
    + rewrite S0 in FE. destruct (e_sn a =? 0); discriminate FE.
  - destruct (N.ltb_spec (k_sn k + 1) (e_sn (m_evt m))) as [LT|LE]; [discriminate X|].
    match type of X with (if ?b then _ else _) = _ => destruct b eqn:CO end.
    + assert (CO' : e_sn (m_evt m) = k_sn k + 1 \/ (e_ilk (m_evt m) = Rot /\ k_lastS k < e_sn (m_evt m)) \/
         (e_ilk (m_evt m) = Drt /\ k_lastS k <= e_sn (m_evt m))).
      { apply orb_true_iff in CO. destruct CO as [CO|CO].
        - apply orb_true_iff in CO. destruct CO as [CO|CO]; [left; apply N.eqb_eq; exact CO|].
          apply andb_true_iff in CO. destruct CO as [C1 C2]. apply ilk_eqb_eq in C1. apply N.ltb_lt in C2. auto.
        - apply andb_true_iff in CO. destruct CO as [C1 C2]. apply ilk_eqb_eq in C1. apply N.leb_le in C2. auto. }
      destruct (update_inv _ _ _ _ _ _ _ _ _ KG LE CO' X) as [(_ & _ & ex & Z)|(ko & k' & sg & wg & dp & cpl & A)]; [discriminate Z|eauto].
    + match type of X with (if ?b then _ else _) = _ => destruct b eqn:DU end; [|discriminate X]. clear X.
      destruct (klast (kels d (e_pre (m_evt m))) (e_sn (m_evt m))) as [s|] eqn:KL; [|discriminate].
      apply N.eqb_eq in DU. subst s. apply klast_In in KL. apply (i_kf _ _ _ _ I) in KL. apply KL.
Qed.

(** An event of the universe in the first seen log. *)
Definition acc_evt (H : N -> option evt) (dx : db) (e : evt) : Prop := real H e /\ In (e_said e) (fels (fst dx) (e_pre e)).
Lemma acc_evt_at : forall H dx e, acc_evt H dx e -> acceptedAt H dx (e_pre e) (e_sn e) (e_said e).
Proof. intros H dx e (A & B). split; [exact B|]. exists e. auto. Qed.
Lemma acc_evt_micros : forall E H cf a b e, world H -> inv E H (fst a) (snd a) -> micros E H cf a b -> acc_evt H a e -> acc_evt H b e.
Proof.
  intros E H cf a b e W I M (A & B). split; [exact A|]. destruct (micros_grows _ _ _ _ _ W I M) as (G & _).
  destruct (G (e_pre e)) as (l & ->). apply in_or_app. auto.
Qed.

(** What one processing of an event does to database and cues. *)
Lemma processCue_ok : forall E H cf m a, world H -> inv E H (fst (fst a)) (snd (fst a)) -> real H (m_evt m) ->
  micros E H cf (fst a) (fst (processCue E cf m a)) /\
  exists l, snd (processCue E cf m a) = snd a ++ l /\ Forall (acc_evt H (fst (processCue E cf m a))) l.
Proof.
  intros E H cf m [[d x] cs] W I R. unfold processCue. cbn [fst snd] in *.
  destruct (processEvent E cf m (d, x)) as [[d' x'] r] eqn:P. split; [eapply micro_process; eauto|]. cbn [fst snd].
  eexists. split; [reflexivity|]. destruct r as [u|]; [|constructor].
  destruct (grew _ _ _); [|constructor]. constructor; [|constructor]. split; [exact R|]. eapply process_ok_in; eauto.
Qed.

Lemma unescrow1_fels : forall E H cf now q p n s d x e, world H -> inv E H d x -> evts x p s = Some e ->
  grew p (d, x) (unescrow1 E cf now q (p, n, s) (d, x)) = true -> acc_evt H (unescrow1 E cf now q (p, n, s) (d, x)) e.
Proof.
  intros E H cf now q p n s d x e W I EV G.
  pose proof (i_ev _ _ _ _ I _ _ _ EV) as [EH EP]. pose proof (W _ _ EH) as (ES & _).
  assert (R : real H e) by (unfold real; rewrite ES; exact EH).
  assert (NO : forall y, grew p (d, x) (d, y) = true -> False).
  { intros y Z. unfold grew in Z. cbn [fst] in Z. rewrite N.eqb_refl in Z. discriminate Z. }
  split; [exact R|]. revert G. unfold unescrow1.
  destruct (esrs x p s) as [local|]; [|intros Z; destruct (NO _ Z)].
  destruct (dtss x p s) as [dt|]; [|intros Z; destruct (NO _ Z)].
  rewrite EV.
  destruct (getSigs x p s) as [|g sg]; [intros Z; destruct (NO _ Z)|].
  destruct (p_timeout q <? now - dt); [intros Z; destruct (NO _ Z)|].
  match goal with |- context [processEvent E cf ?m (d, x)] => set (m0 := m) end.
  destruct (processEvent E cf m0 (d, x)) as [[d' x'] o] eqn:P.
  assert (CL : forall y, grew p (d, x) (d', y) = true -> In (e_said e) (fels d' (e_pre e))).
  { intros y Z. pose proof P as P2. apply process_inv in P2. destruct P2 as [(_ & (_ & _ & U & _) & _)|(ko & k' & sg2 & wg & dp & cpl & A)].
    - unfold grew in Z. cbn [fst] in Z. rewrite U, N.eqb_refl in Z. discriminate Z.
    - change e with (m_evt m0). eapply accept_self; eauto. }
  destruct o as [u|ex]; [|destruct (p_keep q ex)]; cbn [fst]; apply CL.
Qed.

Lemma unescrowCue1_ok : forall E H cf now q r a, world H -> inv E H (fst (fst a)) (snd (fst a)) ->
  micros E H cf (fst a) (fst (unescrowCue1 E cf now q a r)) /\
  exists l, snd (unescrowCue1 E cf now q a r) = snd a ++ l /\ Forall (acc_evt H (fst (unescrowCue1 E cf now q a r))) l.
Proof.
  intros E H cf now q [[p n] s] [dx cs] W I. unfold unescrowCue1. cbn [fst snd] in *. split; [apply micro_unescrow1; assumption|].
  eexists. split; [reflexivity|]. destruct (evts (snd dx) p s) as [e|] eqn:EV; [|constructor].
  destruct (grew p dx (unescrow1 E cf now q (p, n, s) dx)) eqn:G; [|constructor]. constructor; [|constructor].
  destruct dx as [d x]. eapply unescrow1_fels; eauto.
Qed.

(** Steps that move the database by small changes and add only accepted events to the cues. *)
Definition cstep (E : env) (H : N -> option evt) (cf : conf) (a b : db * list evt) : Prop :=
  micros E H cf (fst a) (fst b) /\ exists l, snd b = snd a ++ l /\ Forall (acc_evt H (fst b)) l.
Lemma cstep_refl : forall E H cf a, cstep E H cf a a.
Proof. intros. split; [apply ms_nil|]. exists []. rewrite app_nil_r. auto. Qed.
Lemma cstep_trans : forall E H cf a b c, world H -> inv E H (fst (fst a)) (snd (fst a)) -> cstep E H cf a b -> cstep E H cf b c -> cstep E H cf a c.
Proof.
  intros E H cf a b c W I (A & l & A1 & A2) (B & l' & B1 & B2). split; [eapply ms_trans; eauto|]. exists (l ++ l').
  split; [rewrite B1, A1, <- app_assoc; reflexivity|]. apply Forall_app. split; [|exact B2].
  eapply Forall_impl; [|exact A2]. intros e. apply (acc_evt_micros E H cf); auto. eapply inv_micros; eauto.
Qed.
Lemma cstep_fold : forall T E H cf (f : db * list evt -> T -> db * list evt) (l : list T) a, world H -> inv E H (fst (fst a)) (snd (fst a)) ->
  (forall a t, inv E H (fst (fst a)) (snd (fst a)) -> cstep E H cf a (f a t)) -> cstep E H cf a (fold_left f l a).
Proof.
  intros T E H cf f l. induction l as [|t l IH]; intros a W I F; cbn [fold_left]; [apply cstep_refl|].
  eapply cstep_trans; [exact W|exact I|apply F; exact I|]. apply IH; auto.
  eapply inv_micros; [exact W|exact I|apply F; exact I].
Qed.
Lemma escrowCues_ok : forall E H cf now a, world H -> inv E H (fst (fst a)) (snd (fst a)) -> cstep E H cf a (escrowCues E cf now a).
Proof.
  intros E H cf now a W I. unfold escrowCues. apply cstep_fold; auto. intros b q J. unfold unescrowCue. apply cstep_fold; auto.
  intros c r K. apply unescrowCue1_ok; assumption.
Qed.

(** The invariant of a history. *)
Lemma asLocal_eq : forall m, asLocal m = mkMsg (m_evt m) (m_sigers m) (m_wigers m) (m_seal m) (m_eager m) true (m_now m) (m_dater m).
Proof. reflexivity. Qed.
Lemma parseOne_micros : forall E H cf m dx, world H -> inv E H (fst dx) (snd dx) -> real H (m_evt m) -> micros E H cf dx (parseOne E cf m dx).
Proof.
  intros E H cf m [d x] W I R. unfold parseOne. cbn [m_sigers]. destruct (isnil (m_sigers m)); [apply ms_nil|].
  rewrite <- asLocal_eq. destruct (processEvent E cf (asLocal m) (d, x)) as [[d' x'] r] eqn:P.
  cbn [fst]. apply (micro_process E H cf (asLocal m) d x d' x' r); auto.
Qed.
Lemma onPost_shape : forall E cf me aids m s, let p := e_pre (m_evt m) in let dx' := parseOne E cf m (wdb s) in
  (onPost E cf me aids m s = (s, BadRequest) /\ ~ allowed aids p) \/
  (allowed aids p /\
   match keyState dx' p with
   | None => onPost E cf me aids m s = (mkW dx' (wcues s) (signed s), Accepted202)
   | Some k =>
       (In me (k_wits k) /\ onPost E cf me aids m s = (mkW dx' (wcues s) (signed s ++ [rctOf (m_evt m)]), Receipted (rctOf (m_evt m)))) \/
       (~ In me (k_wits k) /\ onPost E cf me aids m s = (mkW dx' (wcues s) (signed s), BadRequest))
   end).
Proof.
  intros E cf me aids m s p dx'. unfold onPost, keyState. fold p. fold dx'. cbv zeta.
  destruct (match aids with Some l => negb (memN p l) | None => false end) eqn:AL.
  - left. split; [reflexivity|]. destruct aids as [l|]; [|discriminate AL]. cbn. apply negb_true_iff in AL. apply memN_nIn. exact AL.
  - right. split.
    + destruct aids as [l|]; [|exact Logic.I]. cbn. apply negb_false_iff in AL. apply memN_In. exact AL.
    + destruct (kget (fst dx') (snd dx') p) as [k|]; [|reflexivity]. destruct (memN me (k_wits k)) eqn:MM.
      * left. split; [apply memN_In; exact MM|reflexivity].
      * right. split; [apply memN_nIn; exact MM|reflexivity].
Qed.

Record winv (E : env) (H : N -> option evt) (cf : conf) (ops : list wop) (s : wst) : Prop := mkWinv {
  v_db : micros E H cf db0 (wdb s);
  v_cues : Forall (acc_evt H (wdb s)) (wcues s);
  v_sig : forall p n d, In (p, n, d) (signed s) -> acceptedAt H (wdb s) p n d \/ posted ops p n d }.
Lemma acceptedAt_micros : forall E H cf a b p n d, world H -> inv E H (fst a) (snd a) -> micros E H cf a b -> acceptedAt H a p n d -> acceptedAt H b p n d.
Proof.
  intros E H cf a b p n d W I M (A & B). split; [|exact B]. destruct (micros_grows _ _ _ _ _ W I M) as (G & _).
  destruct (G p) as (l & ->). apply in_or_app. auto.
Qed.
Lemma winv_inv : forall E H cf ops s, world H -> winv E H cf ops s -> inv E H (fst (wdb s)) (snd (wdb s)).
Proof. intros E H cf ops s W V. eapply (inv_micros E H cf db0); [exact W|apply inv0|apply (v_db _ _ _ _ _ V)]. Qed.
Lemma winv_move : forall E H cf ops o s dx cs, world H -> winv E H cf ops s -> micros E H cf (wdb s) dx ->
  Forall (acc_evt H dx) cs -> winv E H cf (ops ++ [o]) (mkW dx cs (signed s)).
Proof.
  intros E H cf ops o s dx cs W V M F. constructor; cbn [wdb wcues signed].
  - eapply ms_trans; [apply (v_db _ _ _ _ _ V)|exact M].
  - exact F.
  - intros p n d X. apply (v_sig _ _ _ _ _ V) in X. destruct X as [X|(m & X & Y)].
    + left. eapply acceptedAt_micros; eauto. eapply winv_inv; eauto.
    + right. exists m. split; [apply in_or_app; auto|exact Y].
Qed.
Lemma winv_step : forall E H cf me aids ops o s, world H -> real_wop H o -> winv E H cf ops s ->
  winv E H cf (ops ++ [o]) (wstep E cf me aids s o).
Proof.
  intros E H cf me aids ops o s W R V. pose proof (winv_inv _ _ _ _ _ W V) as I.
  assert (CC : forall b, cstep E H cf (wdb s, wcues s) b -> winv E H cf (ops ++ [o]) (mkW (fst b) (snd b) (signed s))).
  { intros [dx cs] (M & l & L1 & L2). cbn [fst snd] in *. subst cs. apply winv_move; auto. apply Forall_app. split; [|exact L2].
    eapply Forall_impl; [|apply (v_cues _ _ _ _ _ V)]. intros e. eapply acc_evt_micros; eauto. }
  destruct o as [m|m|now| |]; cbn [wstep real_wop] in *.
  - destruct (processCue E cf m (wdb s, wcues s)) as [dx cs] eqn:P.
    change (winv E H cf (ops ++ [WDeliver m]) (mkW (fst (dx, cs)) (snd (dx, cs)) (signed s))). rewrite <- P. apply CC.
    apply (processCue_ok E H cf m (wdb s, wcues s)); assumption.
  - pose proof (parseOne_micros E H cf m (wdb s) W I R) as M.
    assert (FC : Forall (acc_evt H (parseOne E cf m (wdb s))) (wcues s)).
    { eapply Forall_impl; [|apply (v_cues _ _ _ _ _ V)]. intros e. eapply acc_evt_micros; eauto. }
    pose proof (winv_move E H cf ops (WPost m) s _ _ W V M FC) as V'.
    destruct (onPost_shape E cf me aids m s) as [(-> & _)|(_ & S)].
    + cbn [fst]. destruct s as [dx cs sg]. apply (winv_move E H cf ops (WPost m) (mkW dx cs sg) dx cs W V); [apply ms_nil|apply (v_cues _ _ _ _ _ V)].
    + destruct (keyState _ _) as [k|]; [|rewrite S; exact V'].
      destruct S as [(_ & ->)|(_ & ->)]; [|exact V']. cbn [fst]. destruct V' as [V1 V2 V3]. cbn [wdb wcues signed] in *.
      constructor; cbn [wdb wcues signed]; [exact V1|exact V2|]. intros p n d X. apply in_app_or in X. destruct X as [X|[X|[]]]; [auto|].
      right. unfold rctOf in X. inversion X; subst. exists m. split; [apply in_or_app; right; left; reflexivity|auto].
  - destruct (escrowCues E cf now (wdb s, wcues s)) as [dx cs] eqn:P.
    change (winv E H cf (ops ++ [WEscrows now]) (mkW (fst (dx, cs)) (snd (dx, cs)) (signed s))). rewrite <- P. apply CC.
    apply escrowCues_ok; assumption.
  - pose proof (v_cues _ _ _ _ _ V) as FC.
    destruct (wcues s) as [|e cs] eqn:C.
    + pose proof (winv_move E H cf ops WCue s (wdb s) [] W V (ms_nil _ _ _ _) FC) as Z. destruct s as [dx c0 sg]. cbn in C. subst c0. exact Z.
    + inversion FC; subst. pose proof (winv_move E H cf ops WCue s (wdb s) cs W V (ms_nil _ _ _ _) H3) as [V1 V2 V3].
      unfold receipt. cbn [wdb wcues signed] in *. constructor; cbn [wdb wcues signed]; [exact V1|exact V2|].
      intros p n d X. apply in_app_or in X. destruct X as [X|[X|[]]]; [auto|]. left. unfold rctOf in X. inversion X; subst. apply acc_evt_at. exact H2.
  - apply winv_move; [exact W|exact V| |constructor]. destruct (wdb s) as [d x]. apply ms_one, mi_restart.
Qed.
Lemma winv_run : forall E H cf me aids ops, world H -> Forall (real_wop H) ops -> winv E H cf ops (wrun E cf me aids ops).
Proof.
  intros E H cf me aids ops W. unfold wrun. induction ops as [|o ops IH] using rev_ind; intros R.
  - constructor; cbn; [apply ms_nil|constructor|intros p n d []].
  - apply Forall_app in R. destruct R as [R1 R2]. inversion R2; subst. rewrite fold_left_app. cbn [fold_left].
    apply winv_step; auto.
Qed.

(** ** Numbers in the first seen log go up by one unless a rotation comes *)
Definition climbs (dx : db) : Prop := forall p i j ei ej, (i < j)%nat ->
  nth_error (seen dx p) i = Some (Some ei) -> nth_error (seen dx p) j = Some (Some ej) ->
  (exists k ek, (i < k <= j)%nat /\ nth_error (seen dx p) k = Some (Some ek) /\ isRot (e_ilk ek) = true /\ e_sn ek <= e_sn ej) \/ e_sn ei < e_sn ej.

Lemma climbs_micro : forall E H cf d x d' x', world H -> sinv E H d x -> climbs (d, x) -> micro E H cf (d, x) (d', x') -> climbs (d', x').
Proof.
  intros E H cf d x d' x' W S O M. destruct (seen_micro _ _ _ _ _ _ _ W (s_inv _ _ _ _ S) M) as [Q|Q].
  - intros p i j ei ej L A B. rewrite Q in *. eapply O; eauto.
  - destruct Q as (m & r & ko & k' & sg & wg & dp & cpl & R & A & Q1 & Q2). intros p i j ei ej L A1 A2.
    destruct (N.eq_dec p (e_pre (m_evt m))) as [->|NE]; [|rewrite Q2 in * by exact NE; eapply O; eauto].
    rewrite Q1 in *. apply nth_snoc in A2. destruct A2 as [A2|[A2 A3]].
    + assert (LJ : (j < List.length (seen (d, x) (e_pre (m_evt m))))%nat) by (apply nth_error_Some; congruence).
      rewrite nth_error_app1 in A1 by lia. destruct (O _ _ _ _ _ L A1 A2) as [(k & ek & K1 & K2 & K3)|K]; [|auto].
      left. exists k, ek. split; [exact K1|]. split; [rewrite nth_error_app1 by lia; exact K2|exact K3].
    + inv A3. rewrite nth_error_app1 in A1 by lia. pose proof A1 as B0. apply seen_in in A1. destruct A1 as (s & B1 & B2).
      pose proof B1 as B1'. apply nth_error_In in B1'.
      destruct (sinv_kget _ _ _ _ (e_pre (m_evt m)) W S) as [(_ & F0 & _)|(k & KG & SF)]; [rewrite F0 in B1'; destruct B1'|].
      destruct SF as (ck & eek & lk & Gk & Fk1 & _).
      destruct (tr_flags _ _ _ _ _ _ (a_tr _ _ _ _ _ _ _ _ _ _ _ _ _ _ A)) as (_ & TF).
      destruct ko as [k1|]; [|destruct TF as (_ & _ & _ & _ & TF); congruence].
      destruct TF as (_ & _ & _ & T4 & _ & _ & T7 & _ & T9). assert (k1 = k) by congruence. subst k1.
      set (n := List.length (seen (d, x) (e_pre (m_evt m)))) in *.
      destruct T7 as [(T7 & _)|(T7 & _)].
      * left. exists n, (m_evt m). split; [lia|]. split; [|split; [exact T7|lia]].
        rewrite nth_error_app2 by (fold n; lia). fold n. replace (n - n)%nat with 0%nat by lia. reflexivity.
      * destruct T9 as [T9|[(T9 & _)|(T9 & _)]]; [|congruence|congruence].
        (* the last entry is the event of the key state *)
        pose proof (chain_hd _ _ _ _ _ _ (g_chain _ _ _ _ _ _ _ _ Gk)) as (_ & _ & CE & _).
        assert (SL : n = (List.length lk + 1)%nat).
        { unfold n, seen. rewrite map_length. cbn [fst]. rewrite Fk1, app_length. cbn. lia. }
        assert (LAST : nth_error (seen (d, x) (e_pre (m_evt m))) (List.length lk) = Some (Some (k_evt k))).
        { unfold seen. cbn [fst snd]. rewrite Fk1, map_app, nth_error_app2 by (rewrite map_length; lia).
          rewrite map_length, Nat.sub_diag. cbn. rewrite CE. reflexivity. }
        pose proof (g_sn _ _ _ _ _ _ _ _ Gk) as GS.
        destruct (Nat.eq_dec i (List.length lk)) as [->|NI].
        -- right. assert (Some (Some ei) = Some (Some (k_evt k))) by (rewrite <- LAST; symmetry; exact B0). inv H0. lia.
        -- assert (LI : (i < List.length lk)%nat) by lia.
           destruct (O _ _ _ _ _ LI B0 LAST) as [(k2 & ek & K1 & K2 & K3 & K4)|K]; [|right; lia].
           left. exists k2, ek. split; [lia|]. split; [rewrite nth_error_app1 by (fold n; lia); exact K2|]. split; [exact K3|lia].
Qed.
Lemma climbs_micros : forall E H cf a b, world H -> sane H -> sinv E H (fst a) (snd a) -> climbs a -> micros E H cf a b -> climbs b.
Proof.
  intros E H cf a b W SN S O M. induction M as [|a b c M IH Mi]; [exact O|].
  pose proof (sinv_micros _ _ _ _ _ W SN S M) as S'. destruct b as [d x], c as [d' x'].
  eapply climbs_micro; [exact W|exact S'|exact (IH S O)|exact Mi].
Qed.
Lemma climbs_from0 : forall E H cf b, world H -> sane H -> micros E H cf db0 b -> climbs b.
Proof.
  intros E H cf b W SN M. eapply (climbs_micros E H cf db0); eauto using sinv0.
  intros p i j ei ej _ A. unfold seen in A. cbn in A. destruct i; discriminate.
Qed.

(** ** What is newly accepted is cued *)
Definition cued (a b : db * list evt) : Prop :=
  (forall e, In e (snd a) -> In e (snd b)) /\
  forall p s, newly (fst a) (fst b) p s -> exists e, In e (snd b) /\ e_pre e = p /\ e_said e = s.
Lemma cued_refl : forall a, cued a a.
Proof. intros a. split; [auto|]. intros p s (A & B). destruct (B A). Qed.
Lemma cued_trans : forall a b c, cued a b -> cued b c -> cued a c.
Proof.
  intros a b c (A1 & A2) (B1 & B2). split; [auto|]. intros p s (X & Y).
  destruct (in_dec N.eq_dec s (fels (fst (fst b)) p)) as [Z|Z].
  - destruct (A2 p s) as (e & E1 & E2); [split; assumption|]. exists e. auto.
  - apply B2. split; assumption.
Qed.
Lemma cued_fold : forall T E H cf (f : db * list evt -> T -> db * list evt) (l : list T) a, world H -> sane H -> sinv E H (fst (fst a)) (snd (fst a)) ->
  (forall a t, sinv E H (fst (fst a)) (snd (fst a)) -> micros E H cf (fst a) (fst (f a t)) /\ cued a (f a t)) ->
  micros E H cf (fst a) (fst (fold_left f l a)) /\ cued a (fold_left f l a).
Proof.
  intros T E H cf f l. induction l as [|t l IH]; intros a W SN S0 F; cbn [fold_left]; [split; [apply ms_nil|apply cued_refl]|].
  destruct (F a t S0) as (M & C). pose proof (sinv_micros _ _ _ _ _ W SN S0 M) as S1.
  destruct (IH (f a t) W SN S1 F) as (M2 & C2). split; [eapply ms_trans; eauto|eapply cued_trans; eauto].
Qed.

(** a new entry of a first seen log is the event processed, which was then returned from *)
Lemma accept_new : forall E y cf m d x d' x' r ko k' sg wg dp cpl p s, accept E cf m d x d' x' r ko k' sg wg dp cpl ->
  newly (d, x) (d', y) p s -> p = e_pre (m_evt m) /\ s = e_said (m_evt m).
Proof.
  intros E y cf m d x d' x' r ko k' sg wg dp cpl p s A (X & Y). cbn [fst] in X, Y.
  rewrite (a_fels _ _ _ _ _ _ _ _ _ _ _ _ _ _ A) in X.
  destruct (fset_cases _ (fels d) (e_pre (m_evt m)) (fels d (e_pre (m_evt m)) ++ [e_said (m_evt m)]) p) as [(-> & Q)|(_ & Q)]; rewrite Q in X.
  - apply in_app_or in X. destruct X as [X|[X|[]]]; [destruct (Y X)|auto].
  - destruct (Y X).
Qed.
Lemma accept_grew : forall E cf m d x d' x' y r ko k' sg wg dp cpl, accept E cf m d x d' x' r ko k' sg wg dp cpl ->
  grew (e_pre (m_evt m)) (d, x) (d', y) = true.
Proof.
  intros E cf m d x d' x' y r ko k' sg wg dp cpl A. unfold grew. cbn [fst]. rewrite (a_fels _ _ _ _ _ _ _ _ _ _ _ _ _ _ A).
  unfold fset. rewrite N.eqb_refl. apply negb_true_iff. apply N.eqb_neq. unfold len. rewrite app_length. cbn [List.length]. lia.
Qed.
Lemma processCue_cued : forall E H cf m a, world H -> sane H -> sinv E H (fst (fst a)) (snd (fst a)) -> real H (m_evt m) -> cued a (processCue E cf m a).
Proof.
  intros E H cf m [[d x] cs] W SN S0 R. unfold processCue. cbn [fst snd] in *.
  destruct (processEvent E cf m (d, x)) as [[d' x'] r] eqn:P. split; cbn [fst snd]; [intros e X; apply in_or_app; auto|].
  intros p s X. pose proof P as P2. apply process_inv in P2. destruct P2 as [(_ & (_ & _ & U & _) & _)|(ko & k' & sg & wg & dp & cpl & A)].
  - destruct X as (X & Y). cbn [fst] in X, Y. rewrite U in X. destruct (Y X).
  - destruct (accept_new E x' cf m d x d' x' _ _ _ _ _ _ _ p s A X) as (-> & ->).
    destruct (accept_sinv _ _ _ _ _ _ _ _ _ _ _ _ _ _ _ W SN S0 R A) as (_ & -> & _). rewrite (accept_grew _ _ _ _ _ _ x' x' _ _ _ _ _ _ _ A).
    exists (m_evt m). split; [apply in_or_app; right; left; reflexivity|auto].
Qed.
Lemma unescrowCue1_cued : forall E H cf now q r a, world H -> inv E H (fst (fst a)) (snd (fst a)) -> cued a (unescrowCue1 E cf now q a r).
Proof.
  intros E H cf now q [[p n] s] [[d x] cs] W I. unfold unescrowCue1. cbn [fst snd] in *. split; cbn [fst snd]; [intros e X; apply in_or_app; auto|].
  intros p' s' X.
  assert (G : exists e, evts x p s = Some e /\ e_pre e = p /\ e_said e = s /\ p' = p /\ s' = s /\ grew p (d, x) (unescrow1 E cf now q (p, n, s) (d, x)) = true).
  { assert (NO : forall y, newly (d, x) (d, y) p' s' -> False) by (intros y (Z1 & Z2); exact (Z2 Z1)).
    revert X. unfold unescrow1.
    destruct (esrs x p s) as [local|]; [|intros Z; destruct (NO _ Z)].
    destruct (dtss x p s) as [dt|]; [|intros Z; destruct (NO _ Z)].
    destruct (evts x p s) as [e|] eqn:EV; [|intros Z; destruct (NO _ Z)].
    pose proof (i_ev _ _ _ _ I _ _ _ EV) as [EH EP]. pose proof (W _ _ EH) as (ES & _).
    destruct (getSigs x p s) as [|g sg]; [intros Z; destruct (NO _ Z)|].
    destruct (p_timeout q <? now - dt); [intros Z; destruct (NO _ Z)|].
    match goal with |- context [processEvent E cf ?m (d, x)] => set (m0 := m) end.
    destruct (processEvent E cf m0 (d, x)) as [[d' x'] o] eqn:P.
    assert (CL : forall y, newly (d, x) (d', y) p' s' -> p' = p /\ s' = s /\ grew p (d, x) (d', y) = true).
    { intros y Z. pose proof P as P2. apply process_inv in P2. destruct P2 as [(_ & (_ & _ & U & _) & _)|(ko & k' & sg2 & wg & dp & cpl & A)].
      - destruct Z as (Z1 & Z2). cbn [fst] in Z1, Z2. rewrite U in Z1. destruct (Z2 Z1).
      - destruct (accept_new E y cf m0 d x d' x' _ _ _ _ _ _ _ p' s' A Z) as (Z1 & Z2). cbn [m0 m_evt] in Z1, Z2.
        pose proof (accept_grew _ _ _ _ _ _ x' y _ _ _ _ _ _ _ A) as Z3. cbn [m0 m_evt] in Z3. rewrite EP in Z1, Z3. rewrite ES in Z2. auto. }
    intros Z. exists e. split; [reflexivity|]. split; [exact EP|]. split; [exact ES|].
    destruct o as [u|ex]; [|destruct (p_keep q ex)]; apply CL in Z; exact Z. }
  destruct G as (e & EV & EP & ES & -> & -> & G). rewrite EV, G. exists e. split; [apply in_or_app; right; left; reflexivity|auto].
Qed.
Lemma escrowCues_cued : forall E H cf now a, world H -> sane H -> sinv E H (fst (fst a)) (snd (fst a)) -> cued a (escrowCues E cf now a).
Proof.
  intros E H cf now a W SN S0. unfold escrowCues. apply (cued_fold pass E H cf); auto. intros b q S1.
  unfold unescrowCue. apply (cued_fold (N * N * N) E H cf); auto. intros c r S2. pose proof (s_inv _ _ _ _ S2) as I2.
  split; [apply (unescrowCue1_ok E H cf now q r c W I2)|eapply unescrowCue1_cued; eauto].
Qed.
Lemma winv_sinv : forall E H cf ops s, world H -> sane H -> winv E H cf ops s -> sinv E H (fst (wdb s)) (snd (wdb s)).
Proof. intros E H cf ops s W SN V. exact (sinv_micros E H cf db0 _ W SN (sinv0 E H) (v_db _ _ _ _ _ V)). Qed.
