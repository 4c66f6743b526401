(** Lemmas on the replay of first seen logs. *)
From Verif Require Import Prelude B64Model MatterModel SubsModel ThModel ThSpec ThProofs ThThms KelModel KelSpec KelProofs KelInv OoSpec OoProofs OoProofs2 OoProofs3 OoProofs4 ClModel ClSpec.
Open Scope N_scope.
Ltac Zify.zify_post_hook ::= Z.div_mod_to_equations.

(** ** Small steps of an execution, with the messages that are processed *)
Inductive pst (E : env) (H : N -> option evt) (cf : conf) : db -> db -> Prop :=
| p_proc : forall m dx, real H (m_evt m) -> pst E H cf dx (fst (processEvent E cf m dx))
| p_quiet : forall d x x', evts x' = evts x -> sigs x' = sigs x -> wigs x' = wigs x -> dtss x' = dtss x ->
    pst E H cf (d, x) (d, x')
| p_restart : forall dx, pst E H cf dx (restart dx).
Inductive psts (E : env) (H : N -> option evt) (cf : conf) : db -> db -> Prop :=
| ps_nil : forall a, psts E H cf a a
| ps_snoc : forall a b c, psts E H cf a b -> pst E H cf b c -> psts E H cf a c.
Lemma ps_trans : forall E H cf a b c, psts E H cf a b -> psts E H cf b c -> psts E H cf a c.
Proof. intros E H cf a b c A B. induction B; [assumption|]. eapply ps_snoc; [apply IHB; assumption|assumption]. Qed.
Lemma ps_one : forall E H cf a b, pst E H cf a b -> psts E H cf a b.
Proof. intros. eapply ps_snoc; [apply ps_nil|assumption]. Qed.

Lemma pst_micros : forall E H cf a b, world H -> inv E H (fst a) (snd a) -> pst E H cf a b -> micros E H cf a b.
Proof.
  intros E H cf a b W I P. inversion P as [m dx R|d x x' Q1 Q2 Q3 Q4|dx]; subst.
  - destruct a as [d x]. destruct (processEvent E cf m (d, x)) as [[d' x'] r] eqn:X. eapply micro_process; eauto.
  - apply ms_one, mi_quiet; assumption.
  - destruct a as [d x]. apply ms_one, mi_restart.
Qed.

Lemma psts_micros : forall E H cf a b, world H -> inv E H (fst a) (snd a) -> psts E H cf a b ->
  micros E H cf a b /\ inv E H (fst b) (snd b).
Proof.
  intros E H cf a b W I P. induction P as [|a b c P IH Q]; [split; [apply ms_nil|exact I]|].
  destruct (IH I) as [A B]. pose proof (pst_micros _ _ _ _ _ W B Q) as C.
  split; [eapply ms_trans; eassumption|eapply inv_micros; eassumption].
Qed.

Lemma dtss_p_rem : forall q r x, dtss (p_rem q r x) = dtss x.
Proof. intros q r x. destruct q; reflexivity. Qed.
Lemma pst_drop : forall E H cf q r p s d x,
  psts E H cf (d, x) (d, match q with PPD => remUdes p s (p_rem q r x) | _ => p_rem q r x end).
Proof.
  intros. apply ps_one. destruct (quiet_p_rem q r x) as (A & B & C). pose proof (dtss_p_rem q r x) as D.
  destruct q; apply p_quiet; assumption.
Qed.
Lemma pst_done : forall E H cf q r p s d x,
  psts E H cf (d, x) (d, match q with POO => p_rem q r x | _ => remUdes p s (p_rem q r x) end).
Proof.
  intros. apply ps_one. destruct (quiet_p_rem q r x) as (A & B & C). pose proof (dtss_p_rem q r x) as D.
  destruct q; apply p_quiet; assumption.
Qed.

Lemma pst_unescrow1 : forall E H cf now q r dx, world H -> inv E H (fst dx) (snd dx) ->
  psts E H cf dx (unescrow1 E cf now q r dx).
Proof.
  intros E H cf now q [[p sn] s] [d x] W I. cbn [fst snd] in I. unfold unescrow1.
  destruct (esrs x p s) as [local|]; [|apply pst_drop].
  destruct (dtss x p s) as [dt|]; [|apply pst_drop].
  destruct (evts x p s) as [e|] eqn:EV; [|apply pst_drop].
  destruct (getSigs x p s) as [|g sg]; [apply pst_drop|].
  destruct (p_timeout q <? now - dt); [apply pst_drop|].
  match goal with |- context [processEvent E cf ?m (d, x)] => set (m0 := m) end.
  assert (R : real H (m_evt m0)).
  { cbn. apply (i_ev _ _ _ _ I) in EV. destruct EV as [EV _]. pose proof (W _ _ EV) as (Z & _). unfold real. rewrite Z. exact EV. }
  pose proof (ps_one _ _ _ _ _ (p_proc E H cf m0 (d, x) R)) as M1.
  destruct (processEvent E cf m0 (d, x)) as [[d' x'] o] eqn:P. cbn [fst] in M1.
  destruct o as [u|ex].
  - eapply ps_trans; [exact M1|apply pst_done].
  - destruct (p_keep q ex); [exact M1|]. eapply ps_trans; [exact M1|apply pst_drop].
Qed.

Lemma pst_fold : forall A E H cf (f : db -> A -> db) l dx, world H -> inv E H (fst dx) (snd dx) ->
  (forall dx a, inv E H (fst dx) (snd dx) -> psts E H cf dx (f dx a)) ->
  psts E H cf dx (fold_left f l dx).
Proof.
  intros A E H cf f l. induction l as [|a l IH]; intros dx W I F; cbn [fold_left]; [apply ps_nil|].
  pose proof (F dx a I) as M. eapply ps_trans; [exact M|]. apply IH; auto. eapply psts_micros; eauto.
Qed.

Lemma pst_step : forall E H cf o dx, world H -> inv E H (fst dx) (snd dx) -> real_op H o ->
  psts E H cf dx (step E cf o dx).
Proof.
  intros E H cf o dx W I R. destruct o as [m|now|]; cbn [step].
  - apply ps_one, p_proc. exact R.
  - unfold processEscrows. apply pst_fold; auto. intros dx' q I'. unfold unescrow.
    apply pst_fold; auto. intros. apply pst_unescrow1; auto.
  - apply ps_one, p_restart.
Qed.

Lemma pst_run : forall E H cf ops dx, world H -> inv E H (fst dx) (snd dx) -> Forall (real_op H) ops ->
  psts E H cf dx (run E cf ops dx).
Proof.
  intros E H cf ops. induction ops as [|o ops IH]; intros dx W I R; [apply ps_nil|].
  inversion R as [|? ? R1 R2]; subst. change (run E cf (o :: ops) dx) with (run E cf ops (step E cf o dx)).
  pose proof (pst_step E H cf o dx W I R1) as M. eapply ps_trans; [exact M|]. apply IH; auto. eapply psts_micros; eauto.
Qed.

(** ** What grows *)
Record more (a b : db) : Prop := mkMore {
  mo_fels : forall p, exists l, fels (fst b) p = fels (fst a) p ++ l;
  mo_evts : forall p s e, evts (snd a) p s = Some e -> evts (snd b) p s = Some e;
  mo_sigs : forall p s, incl (getSigs (snd a) p s) (getSigs (snd b) p s);
  mo_wigs : forall p s, incl (getWigs (snd a) p s) (getWigs (snd b) p s);
  mo_dtss : forall p s, dtss (snd a) p s <> None -> dtss (snd b) p s <> None }.
Lemma more_refl : forall a, more a a.
Proof. intros a. constructor; auto using incl_refl. intros p. exists []. rewrite app_nil_r. reflexivity. Qed.
Lemma more_trans : forall a b c, more a b -> more b c -> more a c.
Proof.
  intros a b c [A1 A2 A3 A4 A5] [B1 B2 B3 B4 B5]. constructor; auto.
  - intros p. destruct (A1 p) as (l1 & L1). destruct (B1 p) as (l2 & L2). exists (l1 ++ l2). rewrite L2, L1, app_assoc. reflexivity.
  - intros p s. eapply incl_tran; eauto.
  - intros p s. eapply incl_tran; eauto.
Qed.
Lemma more_pst : forall E H cf a b, world H -> pst E H cf a b -> more a b.
Proof.
  intros E H cf a b W P. inversion P as [m dx R|d x x' Q1 Q2 Q3 Q4|dx]; subst.
  - destruct a as [d x]. pose proof (process_onto E cf m d x) as [FR _].
    destruct (processEvent E cf m (d, x)) as [[d' x'] r] eqn:X. cbn [fst snd] in *.
    pose proof (fr_ds _ _ _ _ _ FR) as DS.
    apply process_inv in X. destruct X as [(X & (_ & _ & F & _) & _)|(ko & k' & sg & wg & dp & cpl & A)].
    + destruct X as (X1 & X2 & X3 & X4). constructor; cbn [fst snd]; auto.
      intros p. exists []. rewrite app_nil_r, F. reflexivity.
    + destruct (a_ext _ _ _ _ _ _ _ _ _ _ _ _ _ _ A) as (X1 & X2 & X3 & X4). constructor; cbn [fst snd]; auto.
      intros p. rewrite (a_fels _ _ _ _ _ _ _ _ _ _ _ _ _ _ A). unfold fset. destruct (p =? _) eqn:Q.
      * apply N.eqb_eq in Q. subst p. eauto.
      * exists []. rewrite app_nil_r. reflexivity.
  - constructor; cbn [fst snd]; unfold getSigs, getWigs; rewrite ?Q1, ?Q2, ?Q3, ?Q4; auto using incl_refl.
    intros p. exists []. rewrite app_nil_r. reflexivity.
  - destruct a as [d x]. constructor; cbn [fst snd]; auto using incl_refl. intros p. exists []. rewrite app_nil_r. reflexivity.
Qed.
Lemma more_psts : forall E H cf a b, world H -> psts E H cf a b -> more a b.
Proof.
  intros E H cf a b W P. induction P; [apply more_refl|]. eapply more_trans; [exact IHP|]. eapply more_pst; eauto.
Qed.

Lemma sinv_psts : forall E H cf a b, world H -> sane H -> sinv E H (fst a) (snd a) -> psts E H cf a b -> sinv E H (fst b) (snd b).
Proof.
  intros E H cf a b W SN S P. eapply sinv_micros; eauto. eapply psts_micros; eauto. apply (s_inv _ _ _ _ S).
Qed.

(** ** Every accepted event has a date *)
Definition dated (m : msg) (d : acc) (dx' : db) : Prop :=
  fels (fst dx') = fels d \/
  exists t, dtss (snd dx') (e_pre (m_evt m)) (e_said (m_evt m)) = Some t /\
    (isEst (e_ilk (m_evt m)) = true -> t = match m_dater m with Some t => t | None => m_now m end).

Lemma log_dated : forall cf now k e sg wg wits cpl dater local d x,
  dtss (snd (fst (logEvent cf now k e sg wg wits true cpl dater local (d, x)))) (e_pre e) (e_said e) = Some (match dater with Some t => t | None => now end).
Proof.
  intros. unfold logEvent. cbv zeta. cbn [fst snd].
  match goal with |- dtss (set_dtss (aset ?a ?b ?c ?v) ?y) _ _ = _ => cbn [dtss set_dtss] end.
  rewrite aset_same. reflexivity.
Qed.

Lemma log_first_false : forall cf now k e sg wg wits cpl dater local d x,
  fels (fst (fst (logEvent cf now k e sg wg wits false cpl dater local (d, x)))) = fels d.
Proof.
  intros. unfold logEvent. cbv zeta. cbn [fst snd fels set_kels]. destruct wits; reflexivity.
Qed.

Lemma process_dated : forall E cf m d x, dated m d (fst (processEvent E cf m (d, x))).
Proof.
  intros. unfold processEvent. cbv zeta.
  assert (SAME : forall x', dated m d (d, x')) by (intros; left; reflexivity).
  destruct (validPre E (e_pre (m_evt m))); cbn [negb]; [|apply SAME].
  assert (DUP : forall k keys wits, dated m d
     (fst (let '(sg, _) := verifySigs N (vrfy E) (e_raw (m_evt m)) (m_sigers m) keys in
      let '(wg, _) := verifySigs N (vrfy E) (e_raw (m_evt m)) (m_wigers m) wits in
      if isnil sg && isnil wg then ((d, x), Ok tt)
      else (fst (logEvent cf (m_now m) k (m_evt m) sg wg [] false None None true (d, x)), Ok tt)))).
  { intros k keys wits. destruct (verifySigs N (vrfy E) (e_raw (m_evt m)) (m_sigers m) keys) as [sg u].
    destruct (verifySigs N (vrfy E) (e_raw (m_evt m)) (m_wigers m) wits) as [wg v].
    destruct (isnil sg && isnil wg); [apply SAME|]. cbn [fst]. left. apply log_first_false. }
  destruct (kget d x (e_pre (m_evt m))) as [k|].
  - destruct (isIncept (e_ilk (m_evt m))).
    + destruct (negb (e_sn (m_evt m) =? 0)); [apply SAME|].
      destruct (fetchEst _ d x (e_pre (m_evt m)) (e_sn (m_evt m))) as [ee|]; [|apply SAME].
      destruct (e_said ee =? e_said (m_evt m)); [apply DUP|apply SAME].
    + destruct (k_sn k + 1 <? e_sn (m_evt m)); [apply SAME|].
      match goal with |- context [if ?b then update _ _ _ _ _ else _] => destruct b end.
      * unfold update. destruct (negb (transferable E k)); [apply SAME|].
        destruct (negb (e_pre (m_evt m) =? k_pre k)); [apply SAME|].
        destruct (isRot (e_ilk (m_evt m))).
        -- match goal with |- context [if ?b then _ else _] => destruct b end; [apply SAME|].
           destruct (rotate d x k (m_evt m)) as [[[wits cuts] adds]|ex]; [|apply SAME].
           match goal with |- context [valSigsWigsDel ?a ?b ?c ?d ?e ?f ?g ?h ?i ?j ?k ?l ?m ?n ?o ?p] =>
             destruct (valSigsWigsDel a b c d e f g h i j k l m n o p) as [x1 [[[[sg wg] dpre] cpl]|ex]] end; [|apply SAME].
           pose proof (log_dated cf (m_now m) k (m_evt m) sg wg wits cpl (m_dater m) (m_local m) d x1) as L.
           destruct (logEvent cf (m_now m) k (m_evt m) sg wg wits true cpl (m_dater m) (m_local m) (d, x1)) as [[d2 x2] o].
           destruct (match o with Some p => p | None => _ end) as [fn dts]. right. rewrite pin_snd. eexists. split; [exact L|]. intros _. reflexivity.
        -- destruct (ilk_eqb (e_ilk (m_evt m)) Ixn) eqn:IXN; [|apply SAME]. destruct (k_estOnly k); [apply SAME|].
           destruct (negb (e_sn (m_evt m) =? k_sn k + 1)); [apply SAME|].
           destruct (negb (compare (k_evt k) (e_prior (m_evt m)))); [apply SAME|].
           match goal with |- context [valSigsWigsDel ?a ?b ?c ?d ?e ?f ?g ?h ?i ?j ?k ?l ?m ?n ?o ?p] =>
             destruct (valSigsWigsDel a b c d e f g h i j k l m n o p) as [x1 [[[[sg wg] dpre] cpl]|ex]] end; [|apply SAME].
           pose proof (log_dated cf (m_now m) k (m_evt m) sg wg [] None None true d x1) as L.
           destruct (logEvent cf (m_now m) k (m_evt m) sg wg [] true None None true (d, x1)) as [[d2 x2] o].
           destruct (match o with Some p => p | None => _ end) as [fn dts]. right. rewrite pin_snd. eexists. split; [exact L|].
           intros IE. exfalso. destruct (e_ilk (m_evt m)); discriminate.
      * match goal with |- context [if ?b then _ else _] => destruct b end; [|apply SAME].
        destruct (fetchEst _ d x (e_pre (m_evt m)) (e_sn (m_evt m))) as [ee|]; [|apply SAME].
        destruct (fetchWits d x (e_pre (m_evt m)) (kback (kels d (e_pre (m_evt m))) (e_sn (m_evt m)))) as [ws|ex];
          [apply DUP|]. destruct (verifySigs N (vrfy E) (e_raw (m_evt m)) (m_sigers m) (e_keys ee)). apply SAME.
  - destruct (isIncept (e_ilk (m_evt m))) eqn:IC; [|apply SAME].
    unfold newKever. rewrite IC. cbn [negb]. destruct (isnil (m_sigers m)); [apply SAME|].
    destruct (incept E (m_evt m)) as [k|ex]; [|apply SAME].
    match goal with |- context [valSigsWigsDel ?a ?b ?c ?d ?e ?f ?g ?h ?i ?j ?k ?l ?m ?n ?o ?p] =>
      destruct (valSigsWigsDel a b c d e f g h i j k l m n o p) as [x1 [[[[sg wg] dpre] cpl]|ex]] end; [|apply SAME].
    match goal with |- context [logEvent ?a ?b ?c ?d ?e ?f ?g ?h ?i ?j ?k (d, x1)] =>
      pose proof (log_dated a b c d e f g i j k) as L end.
    match goal with |- context [logEvent cf ?b ?c ?dd ?e ?f ?g true ?i ?j ?k (d, x1)] =>
      pose proof (log_dated cf b c dd e f g i j k d x1) as L2; destruct (logEvent cf b c dd e f g true i j k (d, x1)) as [[d2 x2] o] end.
    cbn [fst snd] in L2. clear L. destruct o as [[fn dts]|]; [|right; eexists; split; [exact L2|reflexivity]].
    match goal with |- context [pinState ?k ?dx] => pose proof (pin_snd k d2 x2) as P1;
      destruct (pinState k dx) as [[d3 x3] [u|ex]] end; cbn [fst snd] in *; subst x3; right; eexists; (split; [exact L2|reflexivity]).
Qed.

Definition dates (dx : db) : Prop := forall p s, In s (fels (fst dx) p) -> dtss (snd dx) p s <> None.
Lemma dates_psts : forall E H cf a b, world H -> psts E H cf a b -> dates a -> dates b.
Proof.
  intros E H cf a b W P D. induction P as [|a b c P IH Q]; [exact D|]. specialize (IH D).
  pose proof (more_pst _ _ _ _ _ W Q) as M. intros p s I.
  inversion Q as [m dx R|d x x' Q1 Q2 Q3 Q4|dx]; subst.
  - destruct b as [d x]. pose proof (process_dated E cf m d x) as DT.
    destruct (processEvent E cf m (d, x)) as [[d' x'] r] eqn:X. cbn [fst snd] in *.
    apply process_inv in X. destruct X as [(_ & (_ & _ & F & _) & _)|(ko & k' & sg & wg & dp & cpl & A)].
    + rewrite F in I. apply (mo_dtss _ _ M). apply IH. exact I.
    + pose proof (a_fels _ _ _ _ _ _ _ _ _ _ _ _ _ _ A) as F.
      destruct DT as [DT|DT].
      { exfalso. pose proof (f_equal (fun f => f (e_pre (m_evt m))) F) as Z. cbv beta in Z. rewrite fset_same in Z. cbn [fst] in DT. rewrite DT in Z.
        apply (f_equal (@List.length N)) in Z. rewrite app_length in Z. cbn in Z. lia. }
      rewrite F in I. unfold fset in I. destruct (p =? e_pre (m_evt m)) eqn:PE.
      * apply N.eqb_eq in PE. subst p. apply in_app_iff in I. destruct I as [I|[<-|[]]]; [|destruct DT as (t & DT & _); cbn [snd] in DT; congruence].
        apply (mo_dtss _ _ M). apply IH. exact I.
      * apply (mo_dtss _ _ M). apply IH. exact I.
  - apply (mo_dtss _ _ M). apply IH. exact I.
  - destruct b as [d x]. apply (mo_dtss _ _ M). apply IH. exact I.
Qed.
