(** Proofs about passes over escrowed queries, and about what an answer is good for. *)
From Coq Require Import Lia.
From Verif Require Import Prelude B64Model MatterModel SubsModel ThModel ThSpec KelModel KelSpec KelProofs KelInv OoSpec OoProofs ClModel ClSpec ClProofs ClProofs3 QyModel QySpec QyProofs QyProofs2.
Ltac Zify.zify_post_hook ::= Z.div_mod_to_equations.
Open Scope N_scope.

(** ** A query that is answered leaves the escrow *)
Lemma row_leaves ops L now dx p q c s cs s' cs' : sound ops s -> (forall q', asked ops p q' -> q_said q' = q_said q -> q' = q) ->
  answer dx q p = Ok (Some c) -> unescrowQ1 L now dx (p, q_said q, q_said q) (s, cs) = (s', cs') -> ~ In (p, q_said q, q_said q) (qnfs s').
Proof.
  intros SD UQ A U. unfold unescrowQ1 in U.
  assert (ST : forall cs1 (X : qst * list cue), X = (remRow (p, q_said q, q_said q) s, cs1) -> X = (s', cs') -> ~ In (p, q_said q, q_said q) (qnfs s')).
  { intros cs1 X -> Q. injection Q as <- _. cbn [remRow qnfs]. intros Z. apply etab_rem_In in Z. tauto. }
  destruct (qdts s p (q_said q)) as [dt|]; [|eapply ST; [reflexivity|exact U]]. destruct (qevts s p (q_said q)) as [q'|] eqn:EV; [|eapply ST; [reflexivity|exact U]].
  destruct (olist (qsigs s p (q_said q))) as [|g sg]; [eapply ST; [reflexivity|exact U]|]. destruct (L <? now - dt); [eapply ST; [reflexivity|exact U]|].
  destruct (o_ev _ _ SD _ _ _ EV) as (AS & QD & _). rewrite (UQ _ AS QD) in U. unfold processQuery in U. rewrite A in U. eapply ST; [reflexivity|exact U].
Qed.
Lemma pass_leaves ops L now dx p q c s s' cs' : sound ops s -> (forall q', asked ops p q' -> q_said q' = q_said q -> q' = q) ->
  answer dx q p = Ok (Some c) -> unescrowQ L now dx s = (s', cs') -> ~ In (p, q_said q, q_said q) (qnfs s').
Proof.
  intros SD UQ A U. unfold unescrowQ in U. assert (FR : Forall (fun r : N * N * N => exists p d, r = (p, d, d)) (qnfs s)) by (apply Forall_forall; apply (o_row _ _ SD)).
  destruct (etab_mem (p, q_said q, q_said q) (qnfs s)) eqn:M.
  - apply etab_mem_In in M. destruct (in_split _ _ M) as (r1 & r2 & SP). pose proof (o_nd _ _ SD) as ND. rewrite SP in ND, FR, U. apply NoDup_remove_2 in ND. rewrite in_app_iff in ND.
    apply Forall_app in FR. destruct FR as [FR1 FR2]. inversion FR2 as [|? ? _ FR3]; subst.
    rewrite fold_left_app in U. cbn [fold_left] in U.
    destruct (fold_left (fun sc r => unescrowQ1 L now dx r sc) r1 (s, [])) as [s1 c1] eqn:F1. destruct (rows_sound _ _ _ _ _ _ _ _ _ FR1 SD F1) as (SD1 & _).
    destruct (unescrowQ1 L now dx (p, q_said q, q_said q) (s1, c1)) as [s2 c2] eqn:F2. destruct (row_sound _ _ _ _ _ _ _ _ _ _ SD1 F2) as (SD2 & _).
    pose proof (row_leaves _ _ _ _ _ _ _ _ _ _ _ SD1 UQ A F2) as G.
    apply (rows_gone p L q ops now dx r2 FR3 (fun Z => ND (or_intror Z)) s2 c2 s' cs' SD2 G U).
  - assert (NI : ~ In (p, q_said q, q_said q) (qnfs s)) by (rewrite <- etab_mem_In; congruence).
    apply (rows_gone p L q ops now dx (qnfs s) FR NI s [] s' cs' SD NI U).
Qed.

(** ** Old queries are dropped *)
Definition fresh (L now : N) (s : qst) (r : N * N * N) : Prop := let '(p, _, d) := r in exists dt, qdts s p d = Some dt /\ now <= dt + L.
Lemma row_fresh ops L now dx p d s cs s' cs' : sound ops s -> unescrowQ1 L now dx (p, d, d) (s, cs) = (s', cs') ->
  (forall r, In r (qnfs s') -> In r (qnfs s) \/ r = (p, d, d)) /\ (forall r, fresh L now s r -> fresh L now s' r) /\ (In (p, d, d) (qnfs s') -> fresh L now s' (p, d, d)).
Proof.
  intros SD U. unfold unescrowQ1 in U.
  assert (ST : forall cs1 (X : qst * list cue), X = (remRow (p, d, d) s, cs1) -> X = (s', cs') ->
    (forall r, In r (qnfs s') -> In r (qnfs s) \/ r = (p, d, d)) /\ (forall r, fresh L now s r -> fresh L now s' r) /\ (In (p, d, d) (qnfs s') -> fresh L now s' (p, d, d))).
  { intros cs1 X -> Q. injection Q as <- _. cbn [remRow qnfs]. split; [intros r Z; apply etab_rem_In in Z; tauto|]. split; [intros [[a b] c] Z; exact Z|]. intros Z. apply etab_rem_In in Z. tauto. }
  destruct (qdts s p d) as [dt|] eqn:QD; [|eapply ST; [reflexivity|exact U]]. destruct (qevts s p d) as [q'|] eqn:EV; [|eapply ST; [reflexivity|exact U]].
  destruct (olist (qsigs s p d)) as [|g sg]; [eapply ST; [reflexivity|exact U]|]. destruct (L <? now - dt) eqn:TM; [eapply ST; [reflexivity|exact U]|].
  destruct (o_ev _ _ SD _ _ _ EV) as (_ & SQ & _).
  destruct (processQuery now dx (Some p) (g :: sg) (olist (qrcts s p d)) q' s) as [[s1 c1] r] eqn:P.
  destruct (pq_cases _ _ _ _ _ _ _ _ _ _ P) as [(_ & _ & _ & Z)|(dest & [DS|(DS & _)] & [(o & A & -> & -> & ->)|[(A & _ & -> & -> & ->)|(e & A & N0 & -> & CI & ->)]])]; try discriminate.
  - eapply ST; [reflexivity|exact U].
  - injection DS as <-. injection U as <- <-. unfold escrowed. cbn [escrowQuery fst qnfs qdts]. rewrite SQ. split; [intros r Z; apply etab_add_In in Z; tauto|]. split.
    + intros [[a b] c] (dt' & Q & T). exists dt'. cbn [qdts]. split; [apply aput_keep; exact Q|exact T].
    + intros _. exists dt. cbn [qdts]. split; [apply aput_keep; exact QD|lia].
  - eapply ST; [|exact U]. destruct e; try reflexivity. congruence.
Qed.
Lemma rows_fresh ops L now dx rows : forall s cs s' cs', Forall (fun r => exists p d, r = (p, d, d)) rows -> sound ops s ->
  fold_left (fun sc r => unescrowQ1 L now dx r sc) rows (s, cs) = (s', cs') ->
  (forall r, fresh L now s r -> fresh L now s' r) /\ (forall r, In r (qnfs s') -> fresh L now s' r \/ (In r (qnfs s) /\ ~ In r rows)).
Proof.
  induction rows as [|r rows IH]; intros s cs s' cs' FR SD F; cbn [fold_left] in F; [injection F as <- <-; split; [auto|]; intros r I; right; auto|].
  inversion FR as [|? ? (p & d & ->) FR']; subst. destruct (unescrowQ1 L now dx (p, d, d) (s, cs)) as [s1 c1] eqn:U.
  destruct (row_sound _ _ _ _ _ _ _ _ _ _ SD U) as (SD1 & _). destruct (row_fresh _ _ _ _ _ _ _ _ _ _ SD U) as (A1 & A2 & A3).
  destruct (IH _ _ _ _ FR' SD1 F) as (B1 & B2). split; [auto|]. intros r I. destruct (B2 r I) as [Z|(Z & NZ)]; [auto|].
  destruct (row_eqb r (p, d, d)) eqn:Q.
  - apply row_eqb_eq in Q. subst r. left. auto.
  - assert (NE : r <> (p, d, d)) by (intros ->; rewrite (proj2 (row_eqb_eq _ _) eq_refl) in Q; discriminate).
    destruct (A1 r Z) as [Y|Y]; [|congruence]. right. split; [exact Y|]. intros [Y'|Y']; [congruence|auto].
Qed.
Lemma pass_fresh ops L now dx s s' cs' p d : sound ops s -> unescrowQ L now dx s = (s', cs') -> In (p, d, d) (qnfs s') -> exists dt, qdts s' p d = Some dt /\ now <= dt + L.
Proof.
  intros SD U I. unfold unescrowQ in U. apply (rows_fresh ops) in U; [|apply Forall_forall; apply (o_row _ _ SD)|exact SD]. destruct U as (_ & U). destruct (U _ I) as [Z|(Z & NZ)]; [exact Z|tauto].
Qed.

(** ** The answer to a query for a log *)
Lemma answer_clones dx q p pre src ms : answer dx q p = Ok (Some (CReplay q pre src ms p)) ->
  q_i q = Some pre /\ exists k, keyState dx pre = Some k /\ ms = clonePre dx pre (fromOf q) ++ match k_delpre k with Some dp => clonePre dx dp 0 | None => [] end.
Proof.
  intros A. destruct dx as [d x]. unfold answer in A. unfold keyState. cbn [fst snd]. destruct (q_route q) eqn:RT.
  - apply bind_ok in A. destruct A as (pre' & F1 & A). apply field_ok in F1. apply bind_ok in A. destruct A as (src' & F2 & A).
    apply bind_ok in A. destruct A as (sn & F3 & A). apply bind_ok in A. destruct A as (fn & F4 & A). apply num_ok in F4. destruct F4 as (_ & F4).
    destruct (kget d x pre') as [k|] eqn:K; [|discriminate]. apply bind_ok in A. destruct A as (u & _ & A). apply bind_ok in A. destruct A as (ms' & M & A).
    assert (FN : match fn with Some n => n | None => 0 end = fromOf q). { unfold fromOf. subst fn. destruct (q_fn q) as [[m|]|]; reflexivity. }
    rewrite FN in M. destruct (isnil ms'); [discriminate|]. injection A as <- <- <-. split; [exact F1|]. exists k. split; [exact K|]. destruct (k_delpre k) as [dp|].
    + destruct (kget d x dp); [|discriminate]. congruence.
    + rewrite app_nil_r. congruence.
  - apply bind_ok in A. destruct A as (? & _ & A). apply bind_ok in A. destruct A as (? & _ & A). destruct (kget _ _ _); [|discriminate]. destruct (_ <? _); [discriminate|]. apply bind_ok in A. destruct A as (? & _ & A). discriminate.
  - apply bind_ok in A. destruct A as (? & _ & A). apply bind_ok in A. destruct A as (? & _ & A). apply bind_ok in A. destruct A as (? & _ & A). destruct (kget _ _ _); discriminate.
  - discriminate.
Qed.
Lemma undelegated_delpre E H cf dx p k : world H -> sane H -> reachable E H cf dx -> undelegated dx p -> keyState dx p = Some k -> k_delpre k = None.
Proof.
  intros W SN R UN K. pose proof (reach_sinv' _ _ _ _ W SN R) as SI. destruct dx as [d x]. cbn [fst snd] in SI. unfold keyState in K. cbn [fst snd] in K.
  destruct (sinv_kget _ _ _ _ p W SI) as [(Z & _)|(k' & K' & c & ee & l & G & _ & _ & (_ & _ & FD & _) & _)]; [congruence|].
  assert (k' = k) by congruence. subst k'. rewrite FD. destruct (g_chain _ _ _ _ _ _ _ _ G) as (_ & FA).
  assert (IL : In (last c (k_evt k)) (k_evt k :: c)) by (apply last_In). rewrite Forall_forall in FA. destruct (FA _ IL) as (_ & F1 & F2).
  destruct (UN (last c (k_evt k)) (conj F1 F2)) as (IK & _). unfold delegator. destruct (e_ilk (last c (k_evt k))); auto. cbn in IK. intuition discriminate.
Qed.
Lemma clone_pre E H cf dx p fn c : world H -> reachable E H cf dx -> In c (clonePre dx p fn) -> e_pre (cl_evt c) = p.
Proof.
  intros W R I. destruct (reach_all _ _ _ _ W R) as (_ & IV & _). unfold clonePre in I. apply in_flat_map in I. destruct I as ([n s] & _ & I). cbn [fst snd] in I.
  unfold cloneEvtMsg in I. destruct (evts (snd dx) p s) as [e|] eqn:EV; [|destruct I]. destruct (getSigs _ _ _); [destruct I|]. destruct (dtss _ _ _); [|destruct I]. destruct I as [<-|[]]. cbn.
  apply (i_ev _ _ _ _ IV _ _ _ EV).
Qed.
Lemma kstate_says k st : kstate k = Ok st -> s_i st = k_pre k /\ s_s st = k_sn k /\ s_d st = e_said (k_evt k) /\ s_k st = k_keys k /\ s_n st = k_ndigs k /\ s_bt st = k_toad k /\ s_b st = k_wits k /\ s_di st = k_delpre k.
Proof.
  unfold kstate. intros Q. apply bind_ok in Q. destruct Q as (t & _ & Q). do 2 (apply raise_if_ok in Q; destruct Q as [_ Q]). apply bind_ok in Q. destruct Q as (nt & _ & Q).
  do 6 (apply raise_if_ok in Q; destruct Q as [_ Q]). injection Q as <-. cbn. auto 10.
Qed.
