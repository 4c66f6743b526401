(** Proofs about histories with queries. *)
From Coq Require Import Lia.
From Verif Require Import Prelude B64Model MatterModel SubsModel ThModel ThSpec KelModel KelSpec KelProofs KelInv OoSpec OoProofs ClModel ClSpec ClProofs ClProofs3 QyModel QySpec QyProofs.
Ltac Zify.zify_post_hook ::= Z.div_mod_to_equations.
Open Scope N_scope.

Lemma aput_get {A} (m : amap A) a b v a' b' w : aput m a b v a' b' = Some w -> m a' b' = Some w \/ (a' = a /\ b' = b /\ w = v).
Proof.
  unfold aput. destruct (m a b) eqn:M; [auto|]. unfold aset. destruct ((a' =? a) && (b' =? b)) eqn:Q; [|auto].
  apply andb_true_iff in Q. destruct Q as [Q1 Q2]. apply N.eqb_eq in Q1. apply N.eqb_eq in Q2. intros Z. injection Z as <-. auto.
Qed.
Lemma aput_keep {A} (m : amap A) a b v a' b' w : m a' b' = Some w -> aput m a b v a' b' = Some w.
Proof.
  intros M. unfold aput. destruct (m a b) eqn:N0; [exact M|]. unfold aset. destruct ((a' =? a) && (b' =? b)) eqn:Q; [|exact M].
  apply andb_true_iff in Q. destruct Q as [Q1 Q2]. apply N.eqb_eq in Q1. apply N.eqb_eq in Q2. subst. congruence.
Qed.
Lemma aput_new {A} (m : amap A) a b v : m a b = None -> aput m a b v a b = Some v.
Proof. intros M. unfold aput, aset. rewrite M, !N.eqb_refl. reflexivity. Qed.
Lemma addSigs_some new old : old <> [] \/ new <> [] -> addSigs old new <> [].
Proof.
  intros [Q|Q] Z.
  - destruct old as [|g ?]; [congruence|]. pose proof (proj2 (addSigs_In new (g :: old) g) (or_introl (or_introl eq_refl))) as Y. rewrite Z in Y. destruct Y.
  - destruct new as [|g ?]; [congruence|]. pose proof (proj2 (addSigs_In (g :: new) old g) (or_intror (or_introl eq_refl))) as Y. rewrite Z in Y. destruct Y.
Qed.
Lemma etab_ins_nodup r t : NoDup t -> ~ In r t -> NoDup (etab_ins r t).
Proof.
  induction t as [|a t IH]; intros ND NI; cbn [etab_ins]; [constructor; auto|]. inversion ND as [|? ? N1 N2]; subst.
  destruct (key_ltb r a); [constructor; assumption|]. constructor; [|apply IH; [exact N2|intros Z; apply NI; right; exact Z]].
  intros Z. apply etab_ins_In in Z. destruct Z as [->|Z]; [apply NI; left; reflexivity|apply N1; exact Z].
Qed.
Lemma etab_add_nodup r t : NoDup t -> NoDup (etab_add r t).
Proof.
  intros ND. unfold etab_add. destruct (etab_mem r t) eqn:M; [exact ND|]. apply etab_ins_nodup; [exact ND|]. rewrite <- etab_mem_In. congruence.
Qed.

(** how a query is processed *)
Definition escrowed (now p : N) (q : query) (sg : list siger) (cg : list N) (s : qst) : qst := fst (escrowQuery now (Some p) q sg cg s).
Lemma pq_cases now dx source sg cg q s s' cs r : processQuery now dx source sg cg q s = (s', cs, r) ->
  (s' = s /\ cs = [] /\ r = Err AttributeError /\ source = None) \/
  exists dest, (source = Some dest \/ (source = None /\ exists cg', cg = dest :: cg')) /\
   ((exists o, answer dx q dest = Ok o /\ s' = s /\ cs = ocue o /\ r = Ok tt) \/
    (answer dx q dest = Err QueryNotFoundError /\ source = Some dest /\ s' = escrowed now dest q sg cg s /\ cs = [] /\ r = Err QueryNotFoundError) \/
    (exists e, answer dx q dest = Err e /\ e <> QueryNotFoundError /\ s' = s /\ (cs = [] \/ q_route q = OtherRoute) /\ r = Err e)).
Proof.
  unfold processQuery. intros P. destruct (match source with None => _ | _ => _ end) as [dest|] eqn:D.
  2:{ injection P as <- <- <-. left. destruct source; [discriminate|]. auto. }
  assert (DD : source = Some dest \/ (source = None /\ exists cg', cg = dest :: cg')). { destruct source as [p|]; [auto|]. destruct cg as [|c cg']; [discriminate|]. injection D as ->. eauto. }
  destruct (answer dx q dest) as [o|e] eqn:A.
  - right. exists dest. split; [exact DD|]. left. injection P as <- <- <-. eauto 6.
  - destruct e; try (right; exists dest; split; [exact DD|]; right; right; injection P as <- <- <-; eexists; split; [exact A|]; split; [discriminate|]; split; [reflexivity|]; split; [destruct (q_route q); auto|reflexivity]; fail).
    destruct source as [p|].
    + cbn [escrowQuery] in P. injection P as <- <- <-. right. exists dest. split; [exact DD|]. right. left. destruct DD as [Q|(Q & _)]; [|discriminate]. injection Q as ->. split; [exact A|]. split; [reflexivity|]. split; [reflexivity|]. auto.
    + cbn [escrowQuery] in P. injection P as <- <- <-. left. auto.
Qed.
Lemma answer_route dx q p e : answer dx q p = Err e -> e = QueryNotFoundError -> q_route q <> OtherRoute.
Proof. intros A -> RT. destruct dx. unfold answer in A. rewrite RT in A. discriminate. Qed.

(** what is stored comes from queries *)
Record sound (ops : list qop) (s : qst) : Prop := mkSound {
  o_ev : forall p d q, qevts s p d = Some q -> asked ops p q /\ q_said q = d /\ q_route q <> OtherRoute;
  o_row : forall r, In r (qnfs s) -> exists p d, r = (p, d, d);
  o_nd : NoDup (qnfs s) }.
Lemma asked_app ops o p q : asked ops p q -> asked (ops ++ [o]) p q.
Proof. intros (a & b & c & d & I & Q). exists a, b, c, d. split; [apply in_or_app; left; exact I|exact Q]. Qed.
Lemma sound_app ops o s : sound ops s -> sound (ops ++ [o]) s.
Proof. intros [A B C]. split; [|exact B|exact C]. intros p d q Q. destruct (A _ _ _ Q) as (X & Y). split; [apply asked_app; exact X|exact Y]. Qed.
Lemma sound_esc ops now p q sg cg s : asked ops p q -> q_route q <> OtherRoute -> sound ops s -> sound ops (escrowed now p q sg cg s).
Proof.
  intros AS NR [A B C]. unfold escrowed. cbn [escrowQuery fst]. split; cbn [qevts qnfs].
  - intros p' d' q' Q. apply aput_get in Q. destruct Q as [Q|(-> & -> & ->)]; [auto|auto].
  - intros r I. apply etab_add_In in I. destruct I as [->|I]; [eauto|auto].
  - apply etab_add_nodup. exact C.
Qed.
Lemma sound_rem ops r s : sound ops s -> sound ops (remRow r s).
Proof.
  intros [A B C]. split; cbn [remRow qevts qnfs]; [exact A| |unfold etab_rem; apply NoDup_filter; exact C].
  intros r' I. apply etab_rem_In in I. apply B. tauto.
Qed.
Definition justified (ops : list qop) (dx : db) (c : cue) : Prop := exists p q, asked ops p q /\ answer dx q p = Ok (Some c).

(** one row of a pass *)
Lemma row_sound ops L now dx p d s cs s' cs' : sound ops s -> unescrowQ1 L now dx (p, d, d) (s, cs) = (s', cs') ->
  sound ops s' /\ exists new, cs' = cs ++ new /\ Forall (justified ops dx) new.
Proof.
  intros SD U. unfold unescrowQ1 in U.
  assert (ST : forall X : qst * list cue, X = (remRow (p, d, d) s, cs) -> X = (s', cs') -> sound ops s' /\ exists new, cs' = cs ++ new /\ Forall (justified ops dx) new).
  { intros X -> Q. injection Q as <- <-. split; [apply sound_rem; exact SD|]. exists []. rewrite app_nil_r. auto. }
  destruct (qdts s p d) as [dt|]; [|eapply ST; [reflexivity|exact U]]. destruct (qevts s p d) as [q|] eqn:EV; [|eapply ST; [reflexivity|exact U]].
  destruct (olist (qsigs s p d)) as [|g sg]; [eapply ST; [reflexivity|exact U]|]. destruct (L <? now - dt); [eapply ST; [reflexivity|exact U]|].
  destruct (o_ev _ _ SD _ _ _ EV) as (AS & QD & NR).
  destruct (processQuery now dx (Some p) (g :: sg) (olist (qrcts s p d)) q s) as [[s1 c1] r] eqn:P.
  destruct (pq_cases _ _ _ _ _ _ _ _ _ _ P) as [(_ & _ & _ & Z)|(dest & [DS|(DS & _)] & [(o & A & -> & -> & ->)|[(A & _ & -> & -> & ->)|(e & A & NE & -> & CI & ->)]])]; try discriminate.
  - injection DS as <-. injection U as <- <-. split; [apply sound_rem; exact SD|]. exists (ocue o). split; [reflexivity|]. destruct o as [c|]; constructor; [|constructor]. exists p, q. auto.
  - injection DS as <-. injection U as <- <-. split; [apply sound_esc; auto|]. exists []. auto.
  - injection DS as <-. destruct CI as [->|CI]; [|congruence]. assert (Q : (remRow (p, d, d) s, cs ++ []) = (s', cs')) by (destruct e; try exact U; congruence).
    eapply ST; [|exact Q]. rewrite app_nil_r. reflexivity.
Qed.
Lemma rows_sound ops L now dx rows : forall s cs s' cs', Forall (fun r => exists p d, r = (p, d, d)) rows -> sound ops s ->
  fold_left (fun sc r => unescrowQ1 L now dx r sc) rows (s, cs) = (s', cs') ->
  sound ops s' /\ exists new, cs' = cs ++ new /\ Forall (justified ops dx) new.
Proof.
  induction rows as [|r rows IH]; intros s cs s' cs' FR SD F; cbn [fold_left] in F.
  - injection F as <- <-. split; [exact SD|]. exists []. rewrite app_nil_r. auto.
  - inversion FR as [|? ? (p & d & ->) FR']; subst. destruct (unescrowQ1 L now dx (p, d, d) (s, cs)) as [s1 c1] eqn:U.
    destruct (row_sound _ _ _ _ _ _ _ _ _ _ SD U) as (SD1 & n1 & -> & J1). destruct (IH _ _ _ _ FR' SD1 F) as (SD2 & n2 & -> & J2).
    split; [exact SD2|]. exists (n1 ++ n2). rewrite app_assoc. split; [reflexivity|]. apply Forall_app. auto.
Qed.
Lemma receive_cases v2 now dx lsg cg q s s' cs r : receive v2 now dx lsg cg q s = (s', cs, r) ->
  (s' = s /\ cs = []) \/
  exists p, ((exists sg, lsg = Some (p, sg)) \/ (lsg = None /\ exists cg', cg = p :: cg')) /\
   ((exists o, answer dx q p = Ok o /\ s' = s /\ cs = ocue o) \/
    (exists sg, answer dx q p = Err QueryNotFoundError /\ lsg = Some (p, sg) /\ s' = escrowed now p q sg cg s /\ cs = [])).
Proof.
  unfold receive. intros RC. 
  assert (X : exists source sg, match lsg with Some (p, sg) => (Some p, sg) | None => (None, []) end = (source, sg) /\
     (source = None -> lsg = None) /\ (forall p, source = Some p -> lsg = Some (p, sg))).
  { destruct lsg as [[p sg]|]; eexists; eexists; (split; [reflexivity|]); split; congruence. }
  destruct X as (source & sg & XE & X1 & X2). rewrite XE in RC.
  destruct (match source with None => _ | _ => _ end); [injection RC as <- <- <-; auto|].
  assert (Q : (s', cs) = (s, []) \/ (q_route q <> OtherRoute /\ exists s1 c1 r1, processQuery now dx source sg cg q s = (s1, c1, r1) /\ s1 = s' /\ c1 = cs)).
  { destruct source as [p|]; [|destruct cg]; destruct (q_route q); try (left; congruence);
    (right; split; [discriminate|]; destruct (processQuery now dx _ sg _ q s) as [[s1 c1] r1]; exists s1, c1, r1; split; [reflexivity|]; destruct r1 as [[]|[]]; injection RC; auto). }
  destruct Q as [Q|(NR & s1 & c1 & r1 & P & -> & ->)]; [injection Q as -> ->; auto|].
  destruct (pq_cases _ _ _ _ _ _ _ _ _ _ P) as [(-> & -> & _)|(dest & DS & [(o & A & -> & -> & ->)|[(A & SO & -> & -> & ->)|(e & A & NE & -> & [->|CI] & ->)]])]; auto; [| |congruence].
  - right. exists dest. split; [|left; eauto]. destruct DS as [DS|(DS & CG)]; [left; rewrite (X2 _ DS); eauto|right; auto].
  - right. exists dest. split; [left; rewrite (X2 _ SO); eauto|right; exists sg; auto].
Qed.
Lemma ask_now ops v2 now lsg cg q p : (exists sg, lsg = Some (p, sg)) \/ (lsg = None /\ exists cg', cg = p :: cg') -> asked (ops ++ [Ask v2 now lsg cg q]) p q.
Proof. intros Q. exists v2, now, lsg, cg. split; [apply in_or_app; right; left; reflexivity|exact Q]. Qed.
Lemma run_sound E cf L ops : sound ops (n_q (qrun E cf L ops node0)) /\
  Forall (fun c => exists ops1 o ops2, ops = ops1 ++ o :: ops2 /\ justified (ops1 ++ [o]) (n_db (qrun E cf L ops1 node0)) c) (n_cues (qrun E cf L ops node0)).
Proof.
  induction ops as [|o ops (SD & FC)] using rev_ind.
  - split; [split; cbn; [discriminate|intros r []|constructor]|constructor].
  - rewrite qrun_app. cbn [qrun fold_left]. fold (qrun E cf L ops node0). set (n := qrun E cf L ops node0) in *.
    assert (OLD : Forall (fun c => exists ops1 o' ops2, ops ++ [o] = ops1 ++ o' :: ops2 /\ justified (ops1 ++ [o']) (n_db (qrun E cf L ops1 node0)) c) (n_cues n)).
    { eapply Forall_impl; [|exact FC]. intros c (o1 & o' & o2 & -> & J). exists o1, o', (o2 ++ [o]). split; [rewrite <- app_assoc; reflexivity|exact J]. }
    assert (NEW : forall new, Forall (justified (ops ++ [o]) (n_db n)) new -> Forall (fun c => exists ops1 o' ops2, ops ++ [o] = ops1 ++ o' :: ops2 /\ justified (ops1 ++ [o']) (n_db (qrun E cf L ops1 node0)) c) (n_cues n ++ new)).
    { intros new J. apply Forall_app. split; [exact OLD|]. eapply Forall_impl; [|exact J]. intros c JC. exists ops, o, []. auto. }
    destruct o as [o|v2 now lsg cg q|now]; cbn [qstep].
    + split; [apply sound_app; exact SD|exact OLD].
    + destruct (receive v2 now (n_db n) lsg cg q (n_q n)) as [[s cs] r] eqn:RC. cbn [n_q n_cues].
      destruct (receive_cases _ _ _ _ _ _ _ _ _ _ RC) as [(-> & ->)|(p & WH & [(o & A & -> & ->)|(sg & A & LS & -> & ->)])].
      * split; [apply sound_app; exact SD|apply NEW; constructor].
      * split; [apply sound_app; exact SD|apply NEW]. destruct o as [c|]; constructor; [|constructor]. exists p, q. split; [apply ask_now; exact WH|exact A].
      * split; [apply sound_esc; [apply ask_now; exact WH|exact (answer_route _ _ _ _ A eq_refl)|apply sound_app; exact SD]|apply NEW; constructor].
    + destruct (unescrowQ L now (n_db n) (n_q n)) as [s cs] eqn:U. cbn [n_q n_cues]. unfold unescrowQ in U.
      apply (rows_sound (ops ++ [QPass now])) in U; [|apply Forall_forall; apply (o_row _ _ SD)|apply sound_app; exact SD].
      destruct U as (SD' & new & -> & J). split; [exact SD'|apply NEW; exact J].
Qed.

(** ** A query that waits *)
Section Wait.
Context (p t L : N) (q : query).
Let d := q_said q.
Record held (s : qst) : Prop := mkHeld {
  h_row : In (p, d, d) (qnfs s); h_dt : qdts s p d = Some t; h_ev : qevts s p d = Some q; h_sg : olist (qsigs s p d) <> [] }.
Lemma held_esc now p' q' sg cg s : held s -> held (escrowed now p' q' sg cg s).
Proof.
  intros [A B C D]. unfold escrowed. cbn [escrowQuery fst]. split; cbn [qnfs qdts qevts qsigs].
  - apply etab_add_In. auto.
  - apply aput_keep. exact B.
  - apply aput_keep. exact C.
  - unfold aset. destruct ((p =? p') && (d =? q_said q')) eqn:Q; [|exact D]. apply andb_true_iff in Q. destruct Q as [Q1 Q2]. apply N.eqb_eq in Q1. apply N.eqb_eq in Q2. subst p'. rewrite <- Q2. cbn [olist].
    apply addSigs_some. left. exact D.
Qed.
Lemma held_rem r s : r <> (p, d, d) -> held s -> held (remRow r s).
Proof. intros NE [A B C D]. split; cbn [remRow qnfs qdts qevts qsigs]; auto. apply etab_rem_In. auto. Qed.
Lemma row_other now dx r s cs s' cs' : r <> (p, d, d) -> held s -> unescrowQ1 L now dx r (s, cs) = (s', cs') -> held s' /\ exists new, cs' = cs ++ new.
Proof.
  intros NE HD U. destruct r as [[a b] c]. unfold unescrowQ1 in U.
  assert (ST : forall new (X : qst * list cue), X = (remRow (a, b, c) s, cs ++ new) -> X = (s', cs') -> held s' /\ exists new, cs' = cs ++ new).
  { intros new X -> Q. injection Q as <- <-. split; [apply held_rem; assumption|eauto]. }
  assert (ST0 := ST []). rewrite app_nil_r in ST0.
  destruct (qdts s a c) as [dt|]; [|eapply ST0; [reflexivity|exact U]]. destruct (qevts s a c) as [q'|]; [|eapply ST0; [reflexivity|exact U]].
  destruct (olist (qsigs s a c)) as [|g sg]; [eapply ST0; [reflexivity|exact U]|]. destruct (L <? now - dt); [eapply ST0; [reflexivity|exact U]|].
  destruct (processQuery now dx (Some a) (g :: sg) (olist (qrcts s a c)) q' s) as [[s1 c1] r] eqn:P.
  destruct (pq_cases _ _ _ _ _ _ _ _ _ _ P) as [(_ & _ & _ & Z)|(dest & _ & [(o & A & -> & -> & ->)|[(A & _ & -> & -> & ->)|(e & A & N0 & -> & CI & ->)]])]; try discriminate.
  - eapply ST; [reflexivity|exact U].
  - injection U as <- <-. split; [apply held_esc; exact HD|eauto].
  - eapply (ST c1); [|exact U]. destruct e; try reflexivity. congruence.
Qed.
Lemma row_held now dx s cs s' cs' : held s -> now <= t + L -> unescrowQ1 L now dx (p, d, d) (s, cs) = (s', cs') ->
  (forall c, answer dx q p = Ok (Some c) -> s' = remRow (p, d, d) s /\ cs' = cs ++ [c]) /\
  (answer dx q p = Err QueryNotFoundError -> held s' /\ cs' = cs).
Proof.
  intros HD TM U. unfold unescrowQ1 in U. rewrite (h_dt _ HD), (h_ev _ HD) in U. pose proof (h_sg _ HD) as SG. destruct (olist (qsigs s p d)) as [|g sg]; [congruence|].
  replace (L <? now - t) with false in U by lia. unfold processQuery in U. split.
  - intros c A. rewrite A in U. cbn [ocue] in U. injection U as <- <-. auto.
  - intros A. rewrite A in U. destruct (escrowQuery now (Some p) q (g :: sg) (olist (qrcts s p d)) s) as [s1 r1] eqn:X.
    assert (S1 : s1 = escrowed now p q (g :: sg) (olist (qrcts s p d)) s) by (unfold escrowed; rewrite X; reflexivity).
    cbn [escrowQuery] in X. injection X as _ <-. injection U as <- <-. rewrite S1, app_nil_r. split; [apply held_esc; exact HD|reflexivity].
Qed.
Lemma rows_other now dx rows : ~ In (p, d, d) rows -> forall s cs s' cs', held s -> fold_left (fun sc r => unescrowQ1 L now dx r sc) rows (s, cs) = (s', cs') ->
  held s' /\ exists new, cs' = cs ++ new.
Proof.
  induction rows as [|r rows IH]; intros NI s cs s' cs' HD F; cbn [fold_left] in F; [injection F as <- <-; split; [exact HD|exists []; rewrite app_nil_r; reflexivity]|].
  destruct (unescrowQ1 L now dx r (s, cs)) as [s1 c1] eqn:U. destruct (row_other now dx r s cs s1 c1) as (HD1 & n1 & ->); auto.
  { intros ->. apply NI. left. reflexivity. }
  destruct (IH (fun Z => NI (or_intror Z)) _ _ _ _ HD1 F) as (HD2 & n2 & ->). split; [exact HD2|]. exists (n1 ++ n2). rewrite app_assoc. reflexivity.
Qed.
(** after it is gone, other rows do not bring it back *)
Lemma row_gone ops now dx a b s cs s' cs' : sound ops s -> (a, b, b) <> (p, d, d) -> ~ In (p, d, d) (qnfs s) -> unescrowQ1 L now dx (a, b, b) (s, cs) = (s', cs') ->
  ~ In (p, d, d) (qnfs s') /\ exists new, cs' = cs ++ new.
Proof.
  intros SD NE NI U. unfold unescrowQ1 in U.
  assert (ST : forall new (X : qst * list cue), X = (remRow (a, b, b) s, cs ++ new) -> X = (s', cs') -> ~ In (p, d, d) (qnfs s') /\ exists new, cs' = cs ++ new).
  { intros new X -> Q. injection Q as <- <-. split; [|eauto]. cbn [remRow qnfs]. intros Z. apply etab_rem_In in Z. tauto. }
  assert (ST0 := ST []). rewrite app_nil_r in ST0.
  destruct (qdts s a b) as [dt|]; [|eapply ST0; [reflexivity|exact U]]. destruct (qevts s a b) as [q'|] eqn:EV; [|eapply ST0; [reflexivity|exact U]].
  destruct (olist (qsigs s a b)) as [|g sg]; [eapply ST0; [reflexivity|exact U]|]. destruct (L <? now - dt); [eapply ST0; [reflexivity|exact U]|].
  destruct (o_ev _ _ SD _ _ _ EV) as (_ & QD & _).
  destruct (processQuery now dx (Some a) (g :: sg) (olist (qrcts s a b)) q' s) as [[s1 c1] r] eqn:P.
  destruct (pq_cases _ _ _ _ _ _ _ _ _ _ P) as [(_ & _ & _ & Z)|(dest & [DS|(DS & _)] & [(o & A & -> & -> & ->)|[(A & _ & -> & -> & ->)|(e & A & N0 & -> & CI & ->)]])]; try discriminate.
  - eapply ST; [reflexivity|exact U].
  - injection DS as <-. injection U as <- <-. split; [|eauto]. unfold escrowed. cbn [escrowQuery fst qnfs]. rewrite QD. intros Z. apply etab_add_In in Z. destruct Z as [Z|Z]; [congruence|auto].
  - eapply (ST c1); [|exact U]. destruct e; try reflexivity. congruence.
Qed.
Lemma rows_gone ops now dx rows : Forall (fun r => exists p d, r = (p, d, d)) rows -> ~ In (p, d, d) rows -> forall s cs s' cs', sound ops s -> ~ In (p, d, d) (qnfs s) ->
  fold_left (fun sc r => unescrowQ1 L now dx r sc) rows (s, cs) = (s', cs') -> ~ In (p, d, d) (qnfs s') /\ exists new, cs' = cs ++ new.
Proof.
  induction rows as [|r rows IH]; intros FR NI s cs s' cs' SD HD F; cbn [fold_left] in F; [injection F as <- <-; split; [exact HD|exists []; rewrite app_nil_r; reflexivity]|].
  inversion FR as [|? ? (a & b & ->) FR']; subst.
  destruct (unescrowQ1 L now dx (a, b, b) (s, cs)) as [s1 c1] eqn:U. destruct (row_gone ops now dx a b s cs s1 c1) as (HD1 & n1 & ->); auto.
  { intros Z. apply NI. left. exact Z. }
  destruct (row_sound _ _ _ _ _ _ _ _ _ _ SD U) as (SD1 & _).
  destruct (IH FR' (fun Z => NI (or_intror Z)) _ _ _ _ SD1 HD1 F) as (HD2 & n2 & ->). split; [exact HD2|]. exists (n1 ++ n2). rewrite app_assoc. reflexivity.
Qed.
Lemma pass_held ops now dx s s' cs' : sound ops s -> held s -> now <= t + L -> unescrowQ L now dx s = (s', cs') ->
  (forall c, answer dx q p = Ok (Some c) -> ~ In (p, d, d) (qnfs s') /\ In c cs') /\
  (answer dx q p = Err QueryNotFoundError -> held s').
Proof.
  intros SD HD TM U. unfold unescrowQ in U. destruct (in_split _ _ (h_row _ HD)) as (r1 & r2 & SP).
  pose proof (o_nd _ _ SD) as ND. rewrite SP in ND. apply NoDup_remove_2 in ND. rewrite in_app_iff in ND.
  assert (FR : Forall (fun r : N * N * N => exists p d, r = (p, d, d)) (r1 ++ (p, d, d) :: r2)) by (rewrite <- SP; apply Forall_forall; apply (o_row _ _ SD)).
  apply Forall_app in FR. destruct FR as [FR1 FR2]. inversion FR2 as [|? ? _ FR3]; subst.
  rewrite SP, fold_left_app in U. cbn [fold_left] in U.
  destruct (fold_left (fun sc r => unescrowQ1 L now dx r sc) r1 (s, [])) as [s1 c1] eqn:F1.
  destruct (rows_other now dx r1 (fun Z => ND (or_introl Z)) _ _ _ _ HD F1) as (HD1 & _).
  destruct (rows_sound _ _ _ _ _ _ _ _ _ FR1 SD F1) as (SD1 & _).
  destruct (unescrowQ1 L now dx (p, d, d) (s1, c1)) as [s2 c2] eqn:F2. destruct (row_held _ _ _ _ _ _ HD1 TM F2) as (Y & W). destruct (row_sound _ _ _ _ _ _ _ _ _ _ SD1 F2) as (SD2 & _). split.
  - intros c A. destruct (Y c A) as (Y1 & Y2). destruct (rows_gone ops now dx r2 FR3 (fun Z => ND (or_intror Z)) s2 c2 s' cs' SD2) as (G & n & ->); auto.
    { rewrite Y1. cbn [remRow qnfs]. intros Z. apply etab_rem_In in Z. tauto. }
    split; [exact G|]. rewrite Y2. apply in_or_app. left. apply in_or_app. right. left. reflexivity.
  - intros A. destruct (W A) as (HD2 & _). destruct (rows_other now dx r2 (fun Z => ND (or_intror Z)) _ _ _ _ HD2 U) as (HD3 & _). exact HD3.
Qed.
End Wait.

Lemma cues_grow E cf L o n : exists new, n_cues (qstep E cf L n o) = n_cues n ++ new.
Proof.
  destruct o; cbn [qstep]; [exists []; rewrite app_nil_r; reflexivity| |].
  - destruct (receive _ _ _ _ _ _ _) as [[s cs] r]. cbn. eauto.
  - destruct (unescrowQ _ _ _ _) as [s cs]. cbn. eauto.
Qed.
Lemma cues_run E cf L ops : forall n c, In c (n_cues n) -> In c (n_cues (qrun E cf L ops n)).
Proof.
  induction ops as [|o ops IH]; intros n c I; [exact I|]. change (qrun E cf L (o :: ops) n) with (qrun E cf L ops (qstep E cf L n o)). apply IH.
  destruct (cues_grow E cf L o n) as (new & ->). apply in_or_app. auto.
Qed.
Lemma not_stored E cf L ops p q : (forall q', asked ops p q' -> q_said q' <> q_said q) ->
  qevts (n_q (qrun E cf L ops node0)) p (q_said q) = None /\ qdts (n_q (qrun E cf L ops node0)) p (q_said q) = None.
Proof.
  intros NA.
  assert (J : forall a b, qdts (n_q (qrun E cf L ops node0)) a b <> None -> qevts (n_q (qrun E cf L ops node0)) a b <> None).
  { clear NA. induction ops as [|o ops IH] using rev_ind; [intros a b Z; cbn in Z; congruence|]. rewrite qrun_app. cbn [qrun fold_left]. fold (qrun E cf L ops node0). set (n := qrun E cf L ops node0) in *.
    pose (K := fun s : qst => forall a b, qdts s a b <> None -> qevts s a b <> None). change (K (n_q (qstep E cf L n o))). change (K (n_q n)) in IH.
    assert (KE : forall now p q sg cg s, K s -> K (escrowed now p q sg cg s)).
    { intros now p' q' sg cg s X a b Z. unfold escrowed in *. cbn [escrowQuery fst qdts qevts] in *. 
      destruct (qevts s a b) as [e|] eqn:EV; [rewrite (aput_keep _ _ _ _ _ _ _ EV); discriminate|].
      assert (QN : qdts s a b = None) by (destruct (qdts s a b) eqn:QD; [destruct (X a b); [congruence|exact EV]|reflexivity]).
      destruct (aput (qdts s) p' (q_said q') now a b) as [w|] eqn:QQ; [|congruence]. apply aput_get in QQ. destruct QQ as [QQ|(-> & -> & _)]; [congruence|].
      rewrite (aput_new _ _ _ _ EV). discriminate. }
    destruct o as [o|v2 now lsg cg q0|now]; cbn [qstep]; [exact IH| |].
    - destruct (receive v2 now (n_db n) lsg cg q0 (n_q n)) as [[s cs] r] eqn:RC. cbn [n_q].
      destruct (receive_cases _ _ _ _ _ _ _ _ _ _ RC) as [(-> & ->)|(p0 & WH & [(o & A & -> & ->)|(sg & A & LS & -> & ->)])]; [exact IH|exact IH|apply KE; exact IH].
    - destruct (unescrowQ L now (n_db n) (n_q n)) as [s cs] eqn:U. cbn [n_q]. unfold unescrowQ in U. revert U. generalize (@nil cue) at 1. revert IH. generalize (n_q n) at 1 3. generalize (qnfs (n_q n)).
      induction e as [|r rows IHr]; intros s0 K0 c0 F; cbn [fold_left] in F; [injection F as <- <-; exact K0|].
      destruct (unescrowQ1 L now (n_db n) r (s0, c0)) as [s1 c1] eqn:U. apply (IHr s1) in F; [exact F|]. clear F IHr. destruct r as [[a b] c]. unfold unescrowQ1 in U.
      assert (ST : forall cs' (X : qst * list cue), X = (remRow (a, b, c) s0, cs') -> X = (s1, c1) -> K s1) by (intros cs' X -> Q; injection Q as <- _; exact K0).
      destruct (qdts s0 a c) as [dt|]; [|eapply ST; [reflexivity|exact U]]. destruct (qevts s0 a c) as [q'|]; [|eapply ST; [reflexivity|exact U]].
      destruct (olist (qsigs s0 a c)) as [|g sg]; [eapply ST; [reflexivity|exact U]|]. destruct (L <? now - dt); [eapply ST; [reflexivity|exact U]|].
      destruct (processQuery now (n_db n) (Some a) (g :: sg) (olist (qrcts s0 a c)) q' s0) as [[s2 c2] r] eqn:P.
      destruct (pq_cases _ _ _ _ _ _ _ _ _ _ P) as [(_ & _ & _ & Z)|(dest & _ & [(o & A & -> & -> & ->)|[(A & _ & -> & -> & ->)|(ex & A & N0 & -> & CI & ->)]])]; try discriminate.
      + eapply ST; [reflexivity|exact U].
      + injection U as <- _. apply KE. exact K0.
      + eapply ST; [|exact U]. destruct ex; try reflexivity. congruence. }
  destruct (run_sound E cf L ops) as (SD & _).
  assert (EN : qevts (n_q (qrun E cf L ops node0)) p (q_said q) = None).
  { destruct (qevts (n_q (qrun E cf L ops node0)) p (q_said q)) as [q'|] eqn:EV; [|reflexivity]. destruct (o_ev _ _ SD _ _ _ EV) as (AS & QD & _). destruct (NA _ AS QD). }
  split; [exact EN|]. destruct (qdts (n_q (qrun E cf L ops node0)) p (q_said q)) eqn:QD; [|reflexivity]. destruct (J p (q_said q)); congruence.
Qed.

(** ** A query gets its answer *)
Section Prompt.
Context (E : env) (H : N -> option evt) (cf : conf) (L : N) (W : world H) (SN : sane H).
Context (p : N) (q : query) (CQ : complete q).
(** the delegator is known whenever it is needed *)
Definition bossed (dx : db) : Prop := forall pre, q_i q = Some pre -> boss_known dx pre.

Lemma answers_of dx c : reachable E H cf dx -> answer dx q p = Ok (Some c) -> answers c q p.
Proof. intros R A. apply (answer_good _ _ _ _ _ _ _ W R A). Qed.

Lemma waits ops1 v2 t sg cg ops2 : sg <> [] ->
  let start := ops1 ++ [Ask v2 t (Some (p, sg)) cg q] in
  Forall (real_qop H) (start ++ ops2) -> (forall q', asked ops1 p q' -> q_said q' <> q_said q) ->
  (forall a b, start ++ ops2 = a ++ b -> bossed (n_db (qrun E cf L a node0))) -> passes_by (t + L) ops2 ->
  (exists c, In c (n_cues (qrun E cf L (start ++ ops2) node0)) /\ answers c q p) \/ held p t q (n_q (qrun E cf L (start ++ ops2) node0)).
Proof.
  intros NE start. induction ops2 as [|o ops2 IH] using rev_ind.
  - intros RO NA BK _. rewrite app_nil_r in *. subst start. rewrite qrun_app. set (n := qrun E cf L ops1 node0) in *. cbn [qrun fold_left qstep].
    destruct (receive v2 t (n_db n) (Some (p, sg)) cg q (n_q n)) as [[s cs] r] eqn:RC. cbn [n_cues n_q].
    assert (R : reachable E H cf (n_db n)) by (apply qrun_reach; apply Forall_app in RO; tauto).
    assert (B : bossed (n_db n)) by (apply (BK ops1 [Ask v2 t (Some (p, sg)) cg q]); reflexivity).
    destruct (not_stored E cf L ops1 p q NA) as (EN & DN). fold n in EN, DN.
    assert (RC' : receive v2 t (n_db n) (Some (p, sg)) cg q (n_q n) = match processQuery t (n_db n) (Some p) sg cg q (n_q n) with
      | (s, cs, Err AttributeError) => (s, cs, Err ValidationError) | (s, cs, Err QueryNotFoundError) => (s, cs, if v2 then Err QueryNotFoundError else Ok tt) | r => r end).
    { destruct CQ as (_ & _ & _ & _ & _ & NR). unfold receive. destruct (q_route q); congruence. }
    rewrite RC' in RC. clear RC'. unfold processQuery in RC. destruct (answer_else _ _ _ _ _ p W SN R CQ B) as [(c & A)|A]; rewrite A in RC.
    + injection RC as <- <- <-. left. exists c. split; [apply in_or_app; right; left; reflexivity|]. exact (answers_of _ _ R A).
    + right. cbn [escrowQuery] in RC. injection RC as <- <- <-. split; cbn [qnfs qdts qevts qsigs].
      * apply etab_add_In. auto.
      * apply aput_new. exact DN.
      * apply aput_new. exact EN.
      * unfold aset. rewrite !N.eqb_refl. cbn [andb olist]. apply addSigs_some. auto.
  - intros RO NA BK PB. rewrite app_assoc in *. rewrite qrun_app.
    destruct IH as [(c & IC & AC)|HD].
    { apply Forall_app in RO. tauto. } { exact NA. } { intros a b Q. apply (BK a (b ++ [o])). rewrite Q, app_assoc. reflexivity. }
    { intros now I. apply PB. apply in_or_app. auto. }
    + left. exists c. split; [|exact AC]. apply (cues_run E cf L [o]). exact IC.
    + destruct (run_sound E cf L (start ++ ops2)) as (SD & _). set (n := qrun E cf L (start ++ ops2) node0) in *.
      assert (R : reachable E H cf (n_db n)) by (apply qrun_reach; apply Forall_app in RO; tauto).
      assert (B : bossed (n_db n)) by (apply (BK (start ++ ops2) [o]); reflexivity).
      destruct o as [o|v2' now lsg cg' q'|now]; cbn [qrun fold_left qstep].
      * right. exact HD.
      * destruct (receive v2' now (n_db n) lsg cg' q' (n_q n)) as [[s cs] r] eqn:RC. cbn [n_q n_cues]. right.
        destruct (receive_cases _ _ _ _ _ _ _ _ _ _ RC) as [(-> & ->)|(p0 & WH & [(o & A & -> & ->)|(sg' & A & LS & -> & ->)])]; [exact HD|exact HD|apply held_esc; exact HD].
      * destruct (unescrowQ L now (n_db n) (n_q n)) as [s cs] eqn:U. cbn [n_q n_cues].
        assert (TM : now <= t + L) by (apply PB; apply in_or_app; right; left; reflexivity).
        destruct (pass_held _ _ _ _ _ _ _ _ _ _ SD HD TM U) as (Y & Z).
        destruct (answer_else _ _ _ _ _ p W SN R CQ B) as [(c & A)|A].
        -- left. exists c. split; [apply in_or_app; right; apply (Y c A)|]. exact (answers_of _ _ R A).
        -- right. apply (Z A).
Qed.
End Prompt.
