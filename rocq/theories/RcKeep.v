(** Receipts waiting for their event are kept and then recorded. *)
From Verif Require Import Prelude B64Model MatterModel SubsModel ThModel ThSpec ThThms KelModel KelSpec KelProofs KelInv OoProofs
  RcModel RcSpec RcProofs RcInv.
Ltac Zify.zify_post_hook ::= Z.div_mod_to_equations.
Open Scope N_scope.

(** ** The date of an event *)
Section Fr.
  Variables (on : bool) (t p s : N).
  (** if [on], the event is dated not before [t], and the partial witness escrow only lists known events *)
  Definition fr (x : aux) : Prop :=
    (on = true -> exists dt, dtss x p s = Some dt /\ t <= dt) /\
    (forall a n b, In (a, n, b) (pwes x) -> exists e, evts x a b = Some e).
  Definition core (x : aux) := (dtss x, evts x, pwes x).

  Lemma fr_same : forall x x', core x' = core x -> fr x -> fr x'.
  Proof. intros x x' Q F. unfold core in Q. injection Q as Q1 Q2 Q3. unfold fr. rewrite Q1, Q2, Q3. exact F. Qed.
  Lemma fr_put : forall x a b now, fr x -> fr (set_dtss (aput (dtss x) a b now) x).
  Proof.
    intros x a b now (D & PW). split; [|exact PW]. intros O. destruct (D O) as (dt & A & B). exists dt. split; [|exact B]. cbn [dtss set_dtss]. unfold aput.
    destruct (dtss x a b) eqn:Q; [exact A|]. destruct (aset_cases _ (dtss x) a b (Some now) p s) as [(-> & -> & Z)|(_ & Z)]; [congruence|].
    rewrite Z. exact A.
  Qed.
  Lemma fr_evts : forall x e, fr x -> fr (set_evts (aput (evts x) (e_pre e) (e_said e) e) x).
  Proof.
    intros x e (A & PW). split; [exact A|]. intros a n b I. destruct (PW a n b I) as (e' & EV). exists e'.
    apply (ext_evts e x). exact EV.
  Qed.
  Lemma core_putSigs : forall a b l x, core (putSigs a b l x) = core x.
  Proof. intros. unfold putSigs. destruct l; reflexivity. Qed.
  Lemma core_putWigs : forall a b l x, core (putWigs a b l x) = core x.
  Proof. intros. unfold putWigs. destruct l; reflexivity. Qed.
  Lemma core_putUdes : forall e sl x, core (putUdes e sl x) = core x.
  Proof. intros. unfold putUdes. destruct sl; reflexivity. Qed.
  Lemma core_esr : forall a b local x,
    core (match esrs x a b with
          | Some l => if local && negb l then set_esrs (aset (esrs x) a b (Some true)) x else x
          | None => set_esrs (aset (esrs x) a b (Some local)) x
          end) = core x.
  Proof. intros. destruct (esrs x a b) as [l|]; [destruct (local && negb l)|]; reflexivity. Qed.
  Lemma fr_escCommon : forall now e sg wg local x, fr x -> fr (escCommon now e sg wg local x).
  Proof.
    intros now e sg wg local x F. unfold escCommon. cbv zeta. eapply fr_same; [apply core_esr|]. apply fr_evts.
    eapply fr_same; [apply core_putWigs|]. eapply fr_same; [apply core_putSigs|]. apply fr_put. exact F.
  Qed.
  Lemma escCommon_evt : forall now e sg wg local x, exists a, evts (escCommon now e sg wg local x) (e_pre e) (e_said e) = Some a.
  Proof.
    intros. unfold escCommon. cbv zeta. set (y := putWigs _ _ _ _).
    assert (Z : exists a, evts (set_evts (aput (evts y) (e_pre e) (e_said e) e) y) (e_pre e) (e_said e) = Some a).
    { cbn [evts set_evts]. unfold aput. destruct (evts y (e_pre e) (e_said e)) as [a|] eqn:Q; [eauto|]. rewrite aset_same. eauto. }
    destruct Z as (a & Z). exists a. rewrite <- Z. clear Z. set (z := set_evts _ _). clearbody z.
    destruct (esrs z _ _) as [l|]; [destruct (local && negb l)|]; reflexivity.
  Qed.

  Definition frm {A} (a : M A) : Prop := forall x, fr x -> fr (fst (a x)).
  Lemma frm_ret : forall A (a : A), frm (retm a).
  Proof. intros A a x F. exact F. Qed.
  Lemma frm_fail : forall A e, frm (@failm A e).
  Proof. intros A e x F. exact F. Qed.
  Lemma frm_read : forall A (f : aux -> A), frm (readm f).
  Proof. intros A f x F. exact F. Qed.
  Lemma frm_esc : forall A f e, (forall x, fr x -> fr (f x)) -> frm (@escm A f e).
  Proof. intros A f e G x F. apply G. exact F. Qed.
  Lemma frm_bind : forall A B (a : M A) (b : A -> M B), frm a -> (forall v, frm (b v)) -> frm (bindm a b).
  Proof.
    intros A B a b GA GB x F. unfold bindm. specialize (GA x F). destruct (a x) as [x' [v|e]]; cbn in *; [apply GB; exact GA|exact GA].
  Qed.

  Lemma fr_MF : forall now e sg wg sl local x, fr x -> fr (escrowMF now e sg wg sl local x).
  Proof. intros. eapply fr_same; [|apply fr_escCommon; exact H]. apply (core_putUdes e sl). Qed.
  Lemma fr_PS : forall now e sg wg sl local x, fr x -> fr (escrowPS now e sg wg sl local x).
  Proof. intros. eapply fr_same; [|apply fr_escCommon; exact H]. apply (core_putUdes e sl). Qed.
  Lemma fr_PW : forall now e sg wg sl local x, fr x -> fr (escrowPW now e sg wg sl local x).
  Proof.
    intros now e sg wg sl local x F. unfold escrowPW. cbv zeta. set (y := putUdes e sl _).
    assert (F1 : fr y) by (eapply fr_same; [apply core_putUdes|apply fr_escCommon; exact F]).
    assert (EV : exists a, evts y (e_pre e) (e_said e) = Some a).
    { destruct (escCommon_evt now e sg wg local x) as (a & A). exists a. rewrite <- A. unfold y, putUdes. destruct sl; reflexivity. }
    clearbody y. destruct F1 as (A & PW). split; [exact A|]. intros a n b I. cbn [evts pwes set_pwes] in *.
    apply etab_add_In in I. destruct I as [I|I]; [|eapply PW; eauto]. unfold row in I. inversion I; subst. exact EV.
  Qed.
  Lemma fr_OO : forall now e sg wg sl local x, fr x -> fr (escrowOO now e sg wg sl local x).
  Proof. intros. eapply fr_same; [|apply fr_escCommon; exact H]. apply (core_putUdes e sl). Qed.
  Lemma fr_Del : forall now e sg wg local x, fr x -> fr (escrowDelegable now e sg wg local x).
  Proof. intros. eapply fr_same; [|apply fr_escCommon; exact H]. reflexivity. Qed.
  Lemma fr_PD : forall now e sg wg sl local x, fr x -> fr (escrowPD now e sg wg sl local x).
  Proof. intros. eapply fr_same; [|apply fr_escCommon; exact H]. reflexivity. Qed.

  Ltac frm1 :=
    match goal with
    | |- frm (retm _) => apply frm_ret
    | |- frm (failm _) => apply frm_fail
    | |- frm (readm _) => apply frm_read
    | |- frm (escm _ _) => apply frm_esc; intros ? ?; first [apply fr_MF|apply fr_PS|apply fr_PD|apply fr_Del|apply fr_OO]; assumption
    | |- frm (bindm _ _) => apply frm_bind; [|intros ?]
    | |- frm (let '(_, _) := ?a in _) => destruct a
    | |- frm (if ?b then _ else _) => destruct b
    | |- frm (match ?b with _ => _ end) => destruct b
    end.

  Lemma frm_fetchDelegating : forall d dp e eager, frm (fetchDelegating d dp e eager).
  Proof.
    intros d dp e eager x F. unfold fetchDelegating.
    repeat match goal with |- context [match ?b with _ => _ end] => destruct b end; cbn [fst]; exact F.
  Qed.
  Lemma frm_validateDelegation : forall cf now d k e sg wg wits delpre sl eager local,
    frm (validateDelegation cf now d k e sg wg wits delpre sl eager local).
  Proof.
    intros. unfold validateDelegation. repeat first [apply frm_fetchDelegating|frm1].
  Qed.
  Lemma frm_val : forall E cf now d k e sg verfers th wg toad wits sl eager local,
    frm (valSigsWigsDel E cf now d k e sg verfers th wg toad wits sl eager local).
  Proof.
    intros. unfold valSigsWigsDel.
    repeat first [apply frm_validateDelegation|frm1].
    all: intros x F; cbn [fst]; first [apply fr_PW; exact F|exact F].
  Qed.

  Lemma fr_logEvent : forall cf now k e sg wg wits first cpl dater local d x,
    fr x -> t <= now -> (e_pre e = p -> e_said e = s -> forall dt, dater = Some dt -> t <= dt) ->
    fr (snd (fst (logEvent cf now k e sg wg wits first cpl dater local (d, x)))).
  Proof.
    intros cf now k e sg wg wits first cpl dater local d x F T DT. unfold logEvent. cbv zeta.
    set (x1 := match k_delpre k, cpl with Some _, Some _ => _ | _, _ => _ end).
    assert (F1 : fr x1).
    { unfold x1. destruct (k_delpre k) as [dp|]; [destruct cpl as [c|]; [destruct (negb (ilk_eqb (e_ilk e) Ixn) && _ && _)|]|];
        match goal with
        | |- fr (set_aess _ _) => eapply fr_same; [reflexivity|]
        | _ => idtac
        end; apply fr_evts; (eapply fr_same; [apply core_putWigs|]); (eapply fr_same; [apply core_putSigs|]); apply fr_put; exact F. }
    clearbody x1.
    set (x2 := match esrs x1 (e_pre e) (e_said e) with Some l => _ | None => _ end).
    assert (F2 : fr x2) by (eapply fr_same; [apply core_esr|exact F1]).
    clearbody x2. destruct first; cbn [fst snd]; [|exact F2].
    destruct F2 as (D & PW). split; [|exact PW]. intros O. destruct (D O) as (dt & A & B). cbn [dtss set_dtss].
    destruct (aset_cases _ (dtss x2) (e_pre e) (e_said e) (Some (match dater with Some t0 => t0 | None => now end)) p s) as [(Q1 & Q2 & Z)|(_ & Z)]; rewrite Z; [|eauto].
    eexists. split; [reflexivity|]. destruct dater as [t1|]; [|exact T]. apply DT; auto.
  Qed.
  Lemma fr_pinState : forall k d x, snd (fst (pinState k (d, x))) = x.
  Proof. intros. unfold pinState. destruct (kstate k); reflexivity. Qed.

  Lemma fr_process : forall E cf m d x, fr x -> t <= m_now m ->
    (e_pre (m_evt m) = p -> e_said (m_evt m) = s -> forall dt, m_dater m = Some dt -> t <= dt) ->
    fr (snd (fst (processEvent E cf m (d, x)))).
  Proof.
    intros E cf m d x F T DT. unfold processEvent. cbv zeta.
    destruct (validPre E (e_pre (m_evt m))); cbn [negb]; [|exact F].
    assert (LD : fr (escrowLD (m_now m) (m_evt m) (m_sigers m) x)) by (apply fr_escCommon; exact F).
    assert (OO : fr (escrowOO (m_now m) (m_evt m) (m_sigers m) (m_wigers m) (m_seal m) (m_local m) x)) by (apply fr_OO; exact F).
    destruct (kget d x (e_pre (m_evt m))) as [k|] eqn:KG.
    2:{ destruct (isIncept (e_ilk (m_evt m))) eqn:IC; [|exact OO]. unfold newKever. cbv zeta.
        destruct (isnil (m_sigers m)); [exact F|]. rewrite IC. cbn [negb]. destruct (incept E (m_evt m)) as [k|ex]; [|exact F].
        match goal with |- context [valSigsWigsDel ?a ?b ?c ?d0 ?k0 ?e0 ?f ?g ?h ?i ?j ?l ?m0 ?n ?o x] =>
          pose proof (frm_val a b c d0 k0 e0 f g h i j l m0 n o x F) as F1;
          destruct (valSigsWigsDel a b c d0 k0 e0 f g h i j l m0 n o x) as [x1 [[[[sg wg] dp] cpl]|ex]] end; cbn [fst] in F1; [|exact F1].
        match goal with |- context [logEvent ?a ?b ?c ?d0 ?k0 ?e0 ?f ?g ?h ?i ?j (d, x1)] =>
          pose proof (fr_logEvent a b c d0 k0 e0 f g h i j d x1 F1 T DT) as F2;
          destruct (logEvent a b c d0 k0 e0 f g h i j (d, x1)) as [[d2 x2] [[fn dts]|]] end; cbn [fst snd] in F2; [|exact F2].
        match goal with |- context [pinState ?k2 (d2, x2)] => pose proof (fr_pinState k2 d2 x2) as P; destruct (pinState k2 (d2, x2)) as [[d3 x3] [u|ex]] end;
          cbn [fst snd] in *; rewrite P; exact F2. }
    assert (DUP : forall sg wg, fr (snd (fst (fst (logEvent cf (m_now m) k (m_evt m) sg wg [] false None None true (d, x)), @Ok unit tt)))).
    { intros. cbn [fst]. apply fr_logEvent; auto. intros _ _ dt Q. discriminate. }
    destruct (isIncept (e_ilk (m_evt m))) eqn:IC.
    { destruct (negb (e_sn (m_evt m) =? 0)); [exact F|].
      destruct (fetchEst _ d x _ _) as [ee|]; [|exact F]. destruct (e_said ee =? e_said (m_evt m)); [|exact LD].
      destruct (verifySigs _ _ _ _ _) as [sg i1]. destruct (verifySigs _ _ _ _ _) as [wg i2].
      destruct (isnil sg && isnil wg); [exact F|]. apply DUP. }
    destruct (k_sn k + 1 <? e_sn (m_evt m)); [exact OO|].
    match goal with |- context [if ?b then update _ _ _ _ _ else _] => destruct b end.
    - unfold update. cbv zeta. destruct (negb (transferable E k)); [exact F|]. destruct (negb (e_pre (m_evt m) =? k_pre k)); [exact F|].
      destruct (isRot (e_ilk (m_evt m))).
      + match goal with |- context [if ?b then _ else _] => destruct b end; [exact F|].
        destruct (rotate d x k (m_evt m)) as [[[wits cuts] adds]|ex]; [|exact F].
        match goal with |- context [valSigsWigsDel ?a ?b ?c ?d0 ?k0 ?e0 ?f ?g ?h ?i ?j ?l ?m0 ?n ?o x] =>
          pose proof (frm_val a b c d0 k0 e0 f g h i j l m0 n o x F) as F1;
          destruct (valSigsWigsDel a b c d0 k0 e0 f g h i j l m0 n o x) as [x1 [[[[sg wg] dp] cpl]|ex]] end; cbn [fst] in F1; [|exact F1].
        match goal with |- context [logEvent ?a ?b ?c ?d0 ?k0 ?e0 ?f ?g ?h ?i ?j (d, x1)] =>
          pose proof (fr_logEvent a b c d0 k0 e0 f g h i j d x1 F1 T DT) as F2;
          destruct (logEvent a b c d0 k0 e0 f g h i j (d, x1)) as [[d2 x2] o1] end; cbn [fst snd] in F2.
        destruct (match o1 with Some p0 => p0 | None => (k_fn k, k_dts k) end) as [fn dts]. rewrite fr_pinState. exact F2.
      + destruct (ilk_eqb (e_ilk (m_evt m)) Ixn); [|exact F]. destruct (k_estOnly k); [exact F|].
        destruct (negb (e_sn (m_evt m) =? k_sn k + 1)); [exact F|]. destruct (negb (compare (k_evt k) (e_prior (m_evt m)))); [exact F|].
        match goal with |- context [valSigsWigsDel ?a ?b ?c ?d0 ?k0 ?e0 ?f ?g ?h ?i ?j ?l ?m0 ?n ?o x] =>
          pose proof (frm_val a b c d0 k0 e0 f g h i j l m0 n o x F) as F1;
          destruct (valSigsWigsDel a b c d0 k0 e0 f g h i j l m0 n o x) as [x1 [[[[sg wg] dp] cpl]|ex]] end; cbn [fst] in F1; [|exact F1].
        assert (DN : e_pre (m_evt m) = p -> e_said (m_evt m) = s -> forall dt, @None N = Some dt -> t <= dt) by discriminate.
        match goal with |- context [logEvent ?a ?b ?c ?d0 ?k0 ?e0 ?f ?g ?h ?i ?j (d, x1)] =>
          pose proof (fr_logEvent a b c d0 k0 e0 f g h i j d x1 F1 T DN) as F2;
          destruct (logEvent a b c d0 k0 e0 f g h i j (d, x1)) as [[d2 x2] o1] end; cbn [fst snd] in F2.
        destruct (match o1 with Some p0 => p0 | None => (k_fn k, k_dts k) end) as [fn dts]. rewrite fr_pinState. exact F2.
    - match goal with |- context [if ?b then _ else _] => destruct b end; [|exact LD].
      destruct (fetchEst _ d x _ _) as [ee|]; [|exact F]. destruct (verifySigs _ _ _ _ _) as [sg i1].
      destruct (fetchWits d x _ _) as [wits|ex]; [|exact F]. destruct (verifySigs _ _ _ _ _) as [wg i2].
      destruct (isnil sg && isnil wg); [exact F|]. apply DUP.
  Qed.

  Lemma fr_rem : forall q r x, fr x -> fr (p_rem q r x).
  Proof.
    intros q r x F. destruct q; try (eapply fr_same; [|exact F]; reflexivity).
    destruct F as (A & PW). split; [exact A|]. intros a n b I. cbn [p_rem pwes set_pwes evts] in *. apply etab_rem_In in I.
    eapply PW. apply I.
  Qed.
  Lemma fr_unescrow1 : forall E cf now q r d x, fr x -> t <= now -> fr (snd (unescrow1 E cf now q r (d, x))).
  Proof.
    intros E cf now q [[a n] b] d x F T. unfold unescrow1.
    assert (DR : forall (d' : acc) x', fr x' -> fr (snd (d', match q with PPD => remUdes a b (p_rem q (a, n, b) x') | _ => p_rem q (a, n, b) x' end))).
    { intros d' x' F'. pose proof (fr_rem q (a, n, b) x' F') as F2. destruct q; exact F2. }
    destruct (esrs x a b) as [local|]; [|apply (DR d); exact F]. destruct (dtss x a b) as [dt|]; [|apply (DR d); exact F].
    destruct (evts x a b) as [e|]; [|apply (DR d); exact F]. destruct (getSigs x a b) as [|g sg]; [apply (DR d); exact F|].
    destruct (p_timeout q <? now - dt); [apply (DR d); exact F|].
    match goal with |- context [processEvent E cf ?m0 (d, x)] =>
      pose proof (fr_process E cf m0 d x F T (fun _ _ dt0 (Q : None = Some dt0) => False_ind _ (eq_ind None (fun o => match o with None => True | Some _ => False end) Logic.I _ Q))) as F1;
      destruct (processEvent E cf m0 (d, x)) as [[d1 x1] [u|ex]] end; cbn [fst snd] in F1.
    - pose proof (fr_rem q (a, n, b) x1 F1) as F2. destruct q; cbn [snd]; try exact F2; (eapply fr_same; [|exact F2]); reflexivity.
    - destruct (p_keep q ex); [exact F1|apply (DR d1); exact F1].
  Qed.
  Lemma fr_unescrow : forall E cf now q dx, fr (snd dx) -> t <= now -> fr (snd (unescrow E cf now q dx)).
  Proof.
    intros E cf now q dx F T. unfold unescrow. generalize (p_rows q (snd dx)). intros l. revert dx F.
    induction l as [|r l IH]; intros dx F; [exact F|]. cbn [fold_left]. apply IH. destruct dx as [d x]. apply fr_unescrow1; assumption.
  Qed.
End Fr.

(** ** Witness signatures only grow *)
Lemma micros_wigs : forall E H cf a b, micros E H cf a b -> forall p s, incl (getWigs (snd a) p s) (getWigs (snd b) p s).
Proof.
  intros E H cf a b M. induction M as [|a b c M IH Mi]; intros p s; [apply incl_refl|].
  eapply incl_tran; [apply IH|]. inversion Mi; subst; cbn [snd restart].
  - apply H1.
  - unfold getWigs. rewrite H2. apply incl_refl.
  - apply H1.
  - apply incl_refl.
Qed.

(** ** Witnesses of a prefix *)
Definition wbnd (W : list N) (p : N) (dx : db) : Prop :=
  (forall k, kevers (fst dx) p = Some k -> incl (k_wits k) W) /\ (forall st, states (fst dx) p = Some st -> incl (s_b st) W).
Lemma kstate_wits : forall k st, kstate k = Ok st -> s_b st = k_wits k.
Proof.
  intros k st X. unfold kstate in X. apply bind_ok in X. destruct X as (t & _ & X).
  apply raise_if_ok in X. destruct X as [_ X]. apply raise_if_ok in X. destruct X as [_ X].
  apply bind_ok in X. destruct X as (nt & _ & X). do 6 (apply raise_if_ok in X; destruct X as [_ X]).
  inversion X; subst. reflexivity.
Qed.
Lemma wbnd_kget : forall W p d x k, wbnd W p (d, x) -> kget d x p = Some k -> incl (k_wits k) W.
Proof.
  intros W p d x k (A & B) K. unfold kget in K. cbn [fst] in *. destruct (kevers d p) as [k0|] eqn:KV; [inversion K; subst; auto|].
  destruct (states d p) as [st|] eqn:ST; [|discriminate]. unfold kreload in K.
  destruct (processSith (s_kt st)) as [t1|]; cbn in K; [|discriminate]. destruct (processSith (s_nt st)) as [t2|]; cbn in K; [|discriminate].
  destruct (evts x (s_i st) (s_d st)); [|discriminate]. inversion K; subst. cbn. auto.
Qed.
Lemma derive_incl : forall k e wits cuts adds, deriveBacks k e = Ok (wits, cuts, adds) ->
  forall w, In w wits -> In w (k_wits k) \/ In w (e_adds e).
Proof.
  intros k e wits cuts adds X w I. unfold deriveBacks in X. destruct (negb (isRot (e_ilk e)) || (e_sn e <=? k_sn k)); [inversion X; subst; auto|].
  cbv zeta in X. do 6 (apply raise_if_ok in X; destruct X as [_ X]). inversion X; subst.
  apply addNs_In in I. destruct I as [I|I]; [apply diff_In in I; destruct I as [I _]; apply (proj1 (oset_In _ _)) in I; auto|apply (proj1 (oset_In _ _)) in I; auto].
Qed.
Lemma wbnd_micro : forall E H cf W p a b,
  (forall e, real H e -> e_pre e = p -> incl (e_wits e) W /\ incl (e_adds e) W) ->
  wbnd W p a -> micro E H cf a b -> wbnd W p b.
Proof.
  intros E H cf W p a b HW B M. inversion M as [e0 d0 x0 d1 x1 R X SA|d0 x0 x1 Q1 Q2 Q3|m d0 x0 d1 x1 r ko k' sg wg dp cpl R A|d0 x0]; subst.
  - destruct SA as (_ & _ & _ & _ & A5 & A6). destruct B as [B1 B2]. split; cbn [fst] in *; intros q Z; [apply B1|apply B2]; congruence.
  - exact B.
  - assert (K : e_pre (m_evt m) = k_pre k' /\ (e_pre (m_evt m) = p -> incl (k_wits k') W)).
    { destruct (a_tr _ _ _ _ _ _ _ _ _ _ _ _ _ _ A) as [k0 delpre fn dts KG IC IN|k wits cuts adds fn dts KG T P RO DL SN SN2 RT|k fn dts KG T P IX EO SN PR].
      - unfold incept in IN. do 7 (apply raise_if_ok in IN; destruct IN as [_ IN]). inversion IN; subst. cbn. split; [reflexivity|].
        intros P. apply (HW _ R P).
      - cbn [k_pre k_wits]. split; [exact P|]. intros PP w I. apply rotate_inv in RT. destruct RT as (_ & _ & _ & DB & _).
        destruct (derive_incl _ _ _ _ _ DB w I) as [J|J]; [rewrite PP in KG; eapply wbnd_kget; eauto|]. apply (HW _ R PP). exact J.
      - cbn [k_pre k_wits]. split; [exact P|]. intros PP. rewrite PP in KG. eapply wbnd_kget; eauto. }
    destruct K as [KP KW]. destruct B as [B1 B2]. cbn [fst] in *.
    destruct (a_pin _ _ _ _ _ _ _ _ _ _ _ _ _ _ A) as [(_ & st & KS & KV & ST)|(ex & _ & _ & ST & KV)]; split; cbn [fst]; intros q Z.
    + rewrite KV in Z. destruct (fset_cases _ (kevers d0) (k_pre k') (Some k') p) as [(-> & F)|(_ & F)]; rewrite F in Z; [|auto].
      inversion Z; subst. auto.
    + rewrite ST in Z. destruct (fset_cases _ (states d0) (k_pre k') (Some st) p) as [(-> & F)|(_ & F)]; rewrite F in Z; [|auto].
      inversion Z; subst. rewrite (kstate_wits _ _ KS). auto.
    + rewrite KV in Z. destruct ko; [|auto]. destruct (fset_cases _ (kevers d0) (k_pre k') (Some k') p) as [(-> & F)|(_ & F)]; rewrite F in Z; [|auto].
      inversion Z; subst. auto.
    + rewrite ST in Z. auto.
  - destruct B as [B1 B2]. split; cbn [fst restart kevers set_kevers states] in *; intros q Z; [discriminate|auto].
Qed.
Lemma wbnd_micros : forall E H cf W p a b,
  (forall e, real H e -> e_pre e = p -> incl (e_wits e) W /\ incl (e_adds e) W) ->
  wbnd W p a -> micros E H cf a b -> wbnd W p b.
Proof. intros E H cf W p a b HW B M. induction M as [|a b c M IH Mi]; [exact B|]. exact (wbnd_micro E H cf W p b c HW (IH B) Mi). Qed.
Lemma wbnd0 : forall W p, wbnd W p db0.
Proof. intros. split; cbn; discriminate. Qed.

Lemma indexOf_lt : forall x l i, indexOf x l = Some i -> i < len l.
Proof.
  induction l as [|y l IH]; intros i X; [discriminate|]. cbn in X. unfold len in *. cbn [List.length].
  destruct (x =? y); [inversion X; lia|]. destruct (indexOf x l) as [j|]; [|discriminate]. inversion X; subst. specialize (IH j eq_refl). lia.
Qed.
Lemma index63 : forall x l W i, NoDup l -> incl l W -> len W <= 64 -> indexOf x l = Some i -> i <= 63.
Proof.
  intros x l W i N I L X. apply indexOf_lt in X. pose proof (NoDup_incl_length N I). unfold len in *. lia.
Qed.

(** ** Operations that keep what is on record or waiting *)
Lemma quietw_pwes : forall x x', quietw x x' -> pwes x' = pwes x.
Proof. intros x x' Q. rewrite (q_eq _ _ Q). reflexivity. Qed.

Section Keep.
  Variables (on : bool) (t p s : N) (R : wst -> Prop).
  Hypothesis R_x : forall x x' r, (forall a b, incl (getWigs x a b) (getWigs x' a b)) -> R (x, r) -> R (x', r).
  Hypothesis R_r : forall x r r', (forall a b, incl (getRcts r a b) (getRcts r' a b)) ->
    (forall a b, incl (getVrcs r a b) (getVrcs r' a b)) -> incl (ures r) (ures r') -> incl (vres r) (vres r') -> R (x, r) -> R (x, r').

  Definition J (w : wst) : Prop := fr on t p s (fst w) /\ R w.
  Definition kj {A} (a : act A) : Prop := forall w, J w -> J (fst (a w)).

  Lemma kj_ok : kj ok.
  Proof. intros w K. exact K. Qed.
  Lemma kj_raise : forall A e, kj (@raise A e).
  Proof. intros A e w K. exact K. Qed.
  Lemma kj_seq : forall A (a : act unit) (b : act A), kj a -> kj b -> kj (seqa a b).
  Proof.
    intros A a b GA GB w K. unfold seqa. specialize (GA w K). destruct (a w) as [w' [u|e]]; cbn in *; [apply GB; exact GA|exact GA].
  Qed.
  Lemma kj_each : forall A (f : A -> act unit) l, (forall a, kj (f a)) -> kj (each f l).
  Proof. intros A f l G. induction l as [|a l IH]; [apply kj_ok|]. cbn [each]. apply kj_seq; auto. Qed.

  Lemma J_wigs : forall x r a b l, J (x, r) -> J (putWigs a b l x, r).
  Proof.
    intros x r a b l (F & K). split; cbn [fst] in *; [eapply fr_same; [apply core_putWigs|exact F]|].
    eapply R_x; [|exact K]. intros a' b'. apply (ext_putWigs (mkEvt [] 0 0 0 Icp None (TNum 0) [] (TNum 0) [] 0 [] [] [] false false None [] 0)).
  Qed.
  Lemma kj_putDts : forall a b now, kj (putDts a b now).
  Proof.
    intros a b now [x r] (F & K). split; cbn [fst] in *; [apply fr_put; exact F|].
    eapply R_x; [|exact K]. intros. apply incl_refl.
  Qed.
  Lemma kj_r : forall f, (forall r a b, incl (getRcts r a b) (getRcts (f r) a b)) ->
    (forall r a b, incl (getVrcs r a b) (getVrcs (f r) a b)) -> (forall r, incl (ures r) (ures (f r))) ->
    (forall r, incl (vres r) (vres (f r))) -> kj (wr f).
  Proof. intros f A B C D [x r] (F & K). split; cbn [fst] in *; [exact F|]. eapply R_r; eauto. Qed.
  Lemma kj_addRct : forall a b c, kj (wr (addRct a b c)).
  Proof.
    intros. apply kj_r; intros; try apply incl_refl. intros y I. unfold getRcts, addRct. cbn [rcts set_rcts].
    destruct (aset_cases _ (rcts r) a b (Some (addc cigar_eqb c (getRcts r a b))) a0 b0) as [(-> & -> & Z)|(_ & Z)]; rewrite Z; [|exact I].
    cbn [olist]. apply addc_incl. exact I.
  Qed.
  Lemma kj_addVrc : forall a b o g, kj (wr (addVrc a b o g)).
  Proof.
    intros. apply kj_r; intros; try apply incl_refl. intros y I. unfold getVrcs, addVrc. cbn [vrcs set_vrcs].
    destruct (aset_cases _ (vrcs r) a b (Some (addc rct_eqb (o, g) (getVrcs r a b))) a0 b0) as [(-> & -> & Z)|(_ & Z)]; rewrite Z; [|exact I].
    cbn [olist]. apply addc_incl. exact I.
  Qed.
  Lemma kj_addWig : forall Q a b raw i, kj (addWig Q a b raw i).
  Proof. intros Q a b raw i [x r] K. unfold addWig. destruct (mkWig Q raw i); [apply J_wigs; exact K|exact K]. Qed.
  Lemma kj_escrowU : forall E now a sn b cs, kj (escrowU E now a sn b cs).
  Proof.
    intros. unfold escrowU. apply kj_seq; [apply kj_putDts|]. apply kj_each. intros c. destruct (transf E (cg_key c)); [apply kj_ok|].
    apply kj_r; intros; cbn; try apply incl_refl. apply tab_add_incl.
  Qed.
  Lemma kj_escrowUW : forall now a sn b ws, kj (escrowUW now a sn b ws).
  Proof.
    intros. unfold escrowUW. apply kj_seq; [apply kj_putDts|]. apply kj_each. intros c. apply kj_r; intros; cbn; apply incl_refl.
  Qed.
  Lemma kj_escrowT : forall now a sn b g, kj (escrowT now a sn b g).
  Proof.
    intros. unfold escrowT. apply kj_seq; [apply kj_putDts|]. apply kj_each. intros c. apply kj_r; intros; cbn; try apply incl_refl.
    apply tab_add_incl.
  Qed.

  Ltac kj1 :=
    match goal with
    | |- J (fst (ok _)) => apply kj_ok
    | |- J (fst (raise _ _)) => apply kj_raise
    | |- J (fst (seqa _ _ _)) => apply kj_seq; [intros ? ?|intros ? ?|]
    | |- J (fst (each _ _ _)) => apply kj_each; [intros ? ? ?|]
    | |- J (fst (wr (addRct _ _ _) _)) => apply kj_addRct
    | |- J (fst (wr (addVrc _ _ _ _) _)) => apply kj_addVrc
    | |- J (fst (addWig _ _ _ _ _ _)) => apply kj_addWig
    | |- J (fst (wra (putWigs _ _ _) ?w)) => destruct w; unfold wra; cbn [fst]; apply J_wigs
    | |- J (fst (escrowU _ _ _ _ _ _ _)) => apply kj_escrowU
    | |- J (fst (escrowUW _ _ _ _ _ _)) => apply kj_escrowUW
    | |- J (fst (escrowT _ _ _ _ _ _)) => apply kj_escrowT
    | |- J (fst ((if ?b then _ else _) _)) => destruct b
    | |- J (fst (if ?b then _ else _)) => destruct b
    | |- J (fst (match ?b with _ => _ end)) => destruct b
    | |- J (fst (match ?b with _ => _ end _)) => destruct b
    | K : J ?w |- J ?w => exact K
    end.

  Lemma kj_recTsg : forall E rc d a sn b l local now le g, kj (recTsg E rc d a sn b l local now le g).
  Proof. intros. intros w K. unfold recTsg, recSigs. cbv beta zeta. repeat kj1. Qed.
  Lemma kj_processReceipt : forall E rc d m, kj (processReceipt E rc d m).
  Proof.
    intros E rc d m w K. unfold processReceipt, recCigar, recWiger, escrowTRs. cbv beta zeta.
    repeat first [apply kj_recTsg|kj1].
  Qed.
  Lemma kj_attachedCouples : forall E rc d e cs fo local now, kj (attachedCouples E rc d e cs fo local now).
  Proof. intros. intros w K. unfold attachedCouples, attCigar. cbv beta zeta. repeat kj1. Qed.
  Lemma kj_attachedGroups : forall E rc d e ts fo local now, kj (attachedGroups E rc d e ts fo local now).
  Proof. intros. intros w K. unfold attachedGroups, attTsg, attSigs. cbv beta zeta. repeat kj1. Qed.
  Lemma kj_findUnver : forall E rc d a sn b g w, J w -> J (fst (findUnver E rc d a sn b g w)).
  Proof.
    intros E rc d a sn b g [x r] K. unfold findUnver. cbv zeta. cbn [fst snd].
    repeat match goal with
      | |- context [match ?v with _ => _ end] => destruct v
      end; cbn [fst]; first [exact K|apply J_wigs; exact K].
  Qed.
  Lemma kj_unNTacc : forall E rc d a sn b c, kj (unNTacc E rc d a sn b c).
  Proof. intros. intros w K. unfold unNTacc. cbv beta zeta. repeat kj1. Qed.
  Lemma kj_unTacc : forall E d a sn b o g, kj (unTacc E d a sn b o g).
  Proof. intros E d a sn b [[sp ssn] sd] g w K. unfold unTacc. cbv beta zeta. repeat kj1. Qed.

  Lemma J_unUW : forall E rc d now w row, J w -> J (unUW E rc d now w row).
  Proof.
    intros E rc d now w [[a sn] [b g]] K. unfold unUW.
    assert (D : forall w, J w -> J (fst w, set_uwes (tab_rem uwe_eqb (a, sn, (b, g)) (uwes (snd w))) (snd w))).
    { intros [x r] (F & K1). split; [exact F|]. cbn [fst snd]. eapply R_r; [| | | |exact K1]; intros; apply incl_refl. }
    destruct (stale (fst w) now a b); [apply D; exact K|].
    pose proof (kj_findUnver E rc d a sn b (RWig g) w K) as F.
    destruct (findUnver E rc d a sn b (RWig g) w) as [w1 [[|]|ex]]; cbn [fst] in F; [apply D; exact F|exact F|apply D; exact F].
  Qed.
  (** a row of .ures is processed, if dropping that row does no harm *)
  Lemma J_unNT : forall E rc d now w row, J w ->
    (forall x r, R (x, r) -> R (x, set_ures (tab_rem ure_eqb row (ures r)) r)) -> J (unNT E rc d now w row).
  Proof.
    intros E rc d now w [[a sn] [b c]] K RD. unfold unNT.
    assert (D : forall w, J w -> J (fst w, set_ures (tab_rem ure_eqb (a, sn, (b, c)) (ures (snd w))) (snd w))).
    { intros [x r] (F & K1). split; [exact F|]. cbn [fst snd]. apply RD. exact K1. }
    destruct (stale (fst w) now a b); [apply D; exact K|].
    pose proof (kj_findUnver E rc d a sn b (RCig c) w K) as F.
    destruct (findUnver E rc d a sn b (RCig c) w) as [w1 [[|]|ex]]; cbn [fst] in F; [apply D; exact F| |apply D; exact F].
    pose proof (kj_unNTacc E rc d a sn b c w1 F) as F2. destruct (unNTacc E rc d a sn b c w1) as [w2 [u|ex]]; cbn [fst] in F2; [apply D; exact F2|].
    destruct ex; try (apply D; exact F2). exact F2.
  Qed.
  Lemma J_unT : forall E rc d now w row, J w ->
    (forall x r, R (x, r) -> R (x, set_vres (tab_rem vre_eqb row (vres r)) r)) -> J (unT E rc d now w row).
  Proof.
    intros E rc d now w [[a sn] [[b o] g]] K RD. unfold unT.
    assert (D : forall w, J w -> J (fst w, set_vres (tab_rem vre_eqb (a, sn, (b, o, g)) (vres (snd w))) (snd w))).
    { intros [x r] (F & K1). split; [exact F|]. cbn [fst snd]. apply RD. exact K1. }
    destruct (stale (fst w) now a b); [apply D; exact K|].
    pose proof (kj_unTacc E d a sn b o g w K) as F2. destruct (unTacc E d a sn b o g w) as [w2 [u|ex]]; cbn [fst] in F2; [apply D; exact F2|].
    destruct ex; try (apply D; exact F2). exact F2.
  Qed.

  (** ** Whole operations other than the passes over .ures and .vres *)
  Definition Js (st : rdb) : Prop := J (snd (fst st), snd st).
  Lemma Js_kel : forall (dx dx' : db) r, Js (dx, r) -> fr on t p s (snd dx') ->
    (forall a b, incl (getWigs (snd dx) a b) (getWigs (snd dx') a b)) -> Js (dx', r).
  Proof. intros dx dx' r (_ & K) F W. split; [exact F|]. cbn [fst snd] in *. eapply R_x; eauto. Qed.
  Lemma Js_event : forall E H rc m st, world H -> inv E H (fst (fst st)) (snd (fst st)) -> real H (m_evt (em_msg m)) ->
    t <= m_now (em_msg m) ->
    (e_pre (m_evt (em_msg m)) = p -> e_said (m_evt (em_msg m)) = s -> forall dt, m_dater (em_msg m) = Some dt -> t <= dt) ->
    Js st -> Js (fst (dispatchEvt E rc m st)).
  Proof.
    intros E H rc m [[d x] r] W I RE T DT K. unfold dispatchEvt. cbn [fst snd] in *.
    destruct (isnil (m_sigers (em_msg m))); [exact K|].
    pose proof (fr_process on t p s E (rc_conf rc) (em_msg m) d x (proj1 K) T DT) as F.
    destruct (processEvent E (rc_conf rc) (em_msg m) (d, x)) as [[d1 x1] o] eqn:P. cbn [fst snd] in F.
    pose proof (micro_process _ _ _ _ _ _ _ _ _ W I RE P) as M.
    assert (K1 : Js ((d1, x1), r)).
    { apply (Js_kel (d, x)); [exact K|exact F|]. exact (micros_wigs _ _ _ _ _ M). }
    destruct o as [u|ex]; [|exact K1].
    match goal with |- context [seqa ?a ?b (x1, r)] => assert (G : J (fst (seqa a b (x1, r)))); [|destruct (seqa a b (x1, r)) as [[x2 r2] r1]; exact G] end.
    apply kj_seq; [| |exact K1].
    - destruct (isnil (em_cigars m)); [apply kj_ok|apply kj_attachedCouples].
    - destruct (isnil (em_rsgs m)); [apply kj_ok|apply kj_attachedGroups].
  Qed.
  Lemma Js_receipt : forall E rc m st, Js st -> Js (fst (dispatchRct E rc m st)).
  Proof.
    intros E rc m [[d x] r] K. unfold dispatchRct, split. cbn [fst snd] in *.
    match goal with |- context [if ?b then _ else _] => destruct b end; [exact K|].
    pose proof (kj_processReceipt E rc d m (x, r) K) as G. destruct (processReceipt E rc d m (x, r)) as [[x1 r1] o]. exact G.
  Qed.
  Lemma Js_restart : forall E rc st, Js st -> Js (rstep E rc st RRestart).
  Proof. intros E rc [[d x] r] K. exact K. Qed.
  Lemma Js_kpass : forall E H rc now q st, world H -> inv E H (fst (fst st)) (snd (fst st)) -> t <= now ->
    Js st -> Js (runPass E rc now st (REv q)).
  Proof.
    intros E H rc now q [[d x] r] W I T K. unfold runPass, split. cbn [fst snd] in *.
    assert (M : micros E H (rc_conf rc) (d, x) (unescrow E (rc_conf rc) now q (d, x))).
    { unfold unescrow. apply micro_fold; [exact W|exact I|]. intros dx a I'. apply micro_unescrow1; assumption. }
    pose proof (fr_unescrow on t p s E (rc_conf rc) now q (d, x) (proj1 K) T) as F.
    apply (Js_kel (d, x)); [exact K|exact F|]. exact (micros_wigs _ _ _ _ _ M).
  Qed.
  Lemma Js_uwpass : forall E rc now st, Js st -> Js (runPass E rc now st RUW).
  Proof.
    intros E rc now [[d x] r] K. unfold runPass, split, join. 
    assert (G : forall l w, J w -> J (fold_left (unUW E rc d now) l w)).
    { induction l as [|a l IH]; intros w K1; [exact K1|]. cbn [fold_left]. apply IH. apply J_unUW. exact K1. }
    specialize (G (uwes (snd (x, r))) (x, r) K). destruct (fold_left _ _ _) as [x1 r1]. exact G.
  Qed.
End Keep.

(** ** A waiting receipt of a non transferable receiptor *)
Lemma kget_evts : forall d x x' p, evts x' = evts x -> kget d x' p = kget d x p.
Proof. intros d x x' p Q. unfold kget, kreload. rewrite Q. reflexivity. Qed.
Lemma pweWits_evts : forall d x x' e, evts x' = evts x -> pweWits d x' e = pweWits d x e.
Proof. intros d x x' e Q. unfold pweWits. rewrite (kget_evts d x x' (e_pre e) Q). reflexivity. Qed.
Lemma evts_putWigs : forall a b l x, evts (putWigs a b l x) = evts x.
Proof. intros. unfold putWigs. destruct l; reflexivity. Qed.
Lemma evts_findUnver : forall E rc d a n b g w, evts (fst (fst (findUnver E rc d a n b g w))) = evts (fst w).
Proof.
  intros E rc d a n b g [x r]. unfold findUnver. cbv zeta. cbn [fst snd].
  repeat match goal with |- context [match ?v with _ => _ end] => destruct v end; cbn [fst]; rewrite ?evts_putWigs; reflexivity.
Qed.
Lemma evts_unNTacc : forall E rc d a n b c w, evts (fst (fst (unNTacc E rc d a n b c w))) = evts (fst w).
Proof.
  intros E rc d a n b c [x r]. unfold unNTacc. cbn [fst snd].
  destruct (klast (kels d a) n) as [s|]; [|reflexivity]. destruct (evts x a s) as [e|]; [|reflexivity].
  destruct (negb (b =? e_said e)); [reflexivity|]. destruct (negb (vrfy E (cg_key c) (cg_raw c) (e_raw e))); [reflexivity|].
  destruct (kget d x (e_pre e)) as [k|]; [|reflexivity]. destruct (indexOf (cg_key c) (k_wits k)); [|reflexivity].
  unfold addWig. destruct (mkWig _ _ _); [unfold wra; cbn [fst]; apply evts_putWigs|reflexivity].
Qed.
Lemma evts_unNT : forall E rc d now w row, evts (fst (unNT E rc d now w row)) = evts (fst w).
Proof.
  intros E rc d now w [[a n] [b c]]. unfold unNT. destruct (stale (fst w) now a b); [reflexivity|].
  pose proof (evts_findUnver E rc d a n b (RCig c) w) as F. destruct (findUnver E rc d a n b (RCig c) w) as [w1 [[|]|ex]]; cbn [fst] in *; [exact F| |exact F].
  pose proof (evts_unNTacc E rc d a n b c w1) as G. destruct (unNTacc E rc d a n b c w1) as [w2 [u|ex]]; cbn [fst] in *; [congruence|].
  destruct ex; cbn [fst]; congruence.
Qed.
Lemma evts_unTacc : forall E d a n b o g w, evts (fst (fst (unTacc E d a n b o g w))) = evts (fst w).
Proof.
  intros E d a n b [[sp ssn] sd] g [x r]. unfold unTacc. cbn [fst snd].
  destruct (klast (kels d a) n) as [s|]; [|reflexivity]. destruct (evts x a s) as [e|]; [|reflexivity].
  destruct (negb (b =? e_said e)); [reflexivity|]. destruct (klast (kels d sp) ssn) as [sdig|]; [|reflexivity].
  destruct (evts x sp sdig) as [se|]; [|reflexivity]. destruct (negb (e_said se =? sd)); [reflexivity|].
  destruct (isnil (e_keys se)); [reflexivity|]. destruct (nth_error _ _); [|reflexivity]. destruct (vrfy E _ _ _); reflexivity.
Qed.
Lemma evts_unT : forall E rc d now w row, evts (fst (unT E rc d now w row)) = evts (fst w).
Proof.
  intros E rc d now w [[a n] [[b o] g]]. unfold unT. destruct (stale (fst w) now a b); [reflexivity|].
  pose proof (evts_unTacc E d a n b o g w) as G. destruct (unTacc E d a n b o g w) as [w2 [u|ex]]; cbn [fst] in *; [congruence|].
  destruct ex; cbn [fst]; congruence.
Qed.

Lemma ure_row_eq : forall a b, trow_eqb ure_eqb a b = true -> a = b.
Proof.
  intros [[p n] [s [k r]]] [[p' n'] [s' [k' r']]] X. cbn in X. unfold ure_eqb, cigar_eqb in X. cbn in X.
  repeat (apply andb_prop in X; destruct X as [X ?]); repeat match goal with Q : _ && _ = true |- _ => apply andb_prop in Q; destruct Q end.
  repeat match goal with Q : (_ =? _) = true |- _ => apply N.eqb_eq in Q; subst end.
  match goal with Q : beq _ _ = true |- _ => apply beq_eq in Q; subst end. reflexivity.
Qed.
Lemma vre_row_eq : forall a b, trow_eqb vre_eqb a b = true -> a = b.
Proof.
  intros [[p n] [[s [[o1 o2] o3]] g]] [[p' n'] [[s' [[o1' o2'] o3']] g']] X. cbn in X. unfold src_eqb, row_eqb in X.
  repeat (apply andb_prop in X; destruct X as [X ?]); repeat match goal with Q : _ && _ = true |- _ => apply andb_prop in Q; destruct Q end.
  repeat match goal with Q : (_ =? _) = true |- _ => apply N.eqb_eq in Q; subst end.
  match goal with Q : siger_eqb _ _ = true |- _ => apply siger_eqb_eq in Q; subst end. reflexivity.
Qed.

Section NT.
  Variables (E : env) (rc : rconf) (t : N) (e : evt) (c : cigar).
  Let p := e_pre e.
  Let n := e_sn e.
  Let s := e_said e.
  Hypothesis EN : endorses E e c.

  Definition rec1 (w : wst) : Prop :=
    In c (getRcts (snd w) p s) \/ exists g, In g (getWigs (fst w) p s) /\ sg_raw g = cg_raw c.
  Definition R1 (w : wst) : Prop := In (p, n, (s, c)) (ures (snd w)) \/ rec1 w.

  Lemma rec1_x : forall x x' r, (forall a b, incl (getWigs x a b) (getWigs x' a b)) -> rec1 (x, r) -> rec1 (x', r).
  Proof. intros x x' r W [A|(g & A & B)]; [left; exact A|right; exists g; split; [apply W; exact A|exact B]]. Qed.
  Lemma rec1_r : forall x r r', (forall a b, incl (getRcts r a b) (getRcts r' a b)) -> rec1 (x, r) -> rec1 (x, r').
  Proof. intros x r r' W [A|A]; [left; apply W; exact A|right; exact A]. Qed.
  Lemma R1_x : forall x x' r, (forall a b, incl (getWigs x a b) (getWigs x' a b)) -> R1 (x, r) -> R1 (x', r).
  Proof. intros x x' r W [A|A]; [left; exact A|right; eapply rec1_x; eauto]. Qed.
  Lemma R1_r : forall x r r', (forall a b, incl (getRcts r a b) (getRcts r' a b)) ->
    (forall a b, incl (getVrcs r a b) (getVrcs r' a b)) -> incl (ures r) (ures r') -> incl (vres r) (vres r') -> R1 (x, r) -> R1 (x, r').
  Proof. intros x r r' A _ B _ [K|K]; [left; apply B; exact K|right; eapply rec1_r; eauto]. Qed.

  Record ctx1 (d : acc) (x : aux) : Prop := mkCtx1 {
    c_at : forall s', klast (kels d p) n = Some s' -> s' = s /\ evts x p s = Some e;
    c_ev : forall e', evts x p s = Some e' -> e' = e;
    c_pw : evts x p s = Some e -> exists wo, pweWits d x e = Ok wo /\
             forall wits i, wo = Some wits -> indexOf (cg_key c) wits = Some i -> i <= 63;
    c_k : forall k i, kget d x p = Some k -> indexOf (cg_key c) (k_wits k) = Some i -> i <= 63;
    c_acc : klast (kels d p) n = Some s -> kget d x p <> None }.
  Lemma ctx1_evts : forall d x x', evts x' = evts x -> ctx1 d x -> ctx1 d x'.
  Proof. intros d x x' Q []. constructor; rewrite ?(pweWits_evts d x x' e Q), ?(kget_evts d x x' p Q), ?Q; auto. Qed.

  Lemma fresh_stale : forall x now, fr true t p s x -> now <= t + 3600 -> stale x now p s = false.
  Proof. intros x now (D & _) T. destruct (D eq_refl) as (dt & A & B). unfold stale. rewrite A. unfold rtimeout. apply N.ltb_ge. lia. Qed.

  Lemma rec1_putWig : forall x r raw Q i g, mkWig Q raw i = Ok g -> raw = cg_raw c -> rec1 (putWigs p s [g] x, r).
  Proof.
    intros x r raw Q i g M ->. right. exists g. split; [apply getWigs_put; cbn; auto|].
    unfold mkWig in M. destruct (63 <? i); [discriminate|]. inversion M; subst. reflexivity.
  Qed.

  Lemma unNT_row : forall d now w, J true t p s R1 w -> ctx1 d (fst w) -> now <= t + 3600 ->
    J true t p s R1 (unNT E rc d now w (p, n, (s, c))) /\
    (klast (kels d p) n = Some s -> rec1 (unNT E rc d now w (p, n, (s, c)))).
  Proof.
    intros d now [x r] K C T. cbn [fst] in C. destruct EN as [NT VF].
    assert (D : forall x' r', fr true t p s x' -> rec1 (x', r') ->
      J true t p s R1 (x', set_ures (tab_rem ure_eqb (p, n, (s, c)) (ures r')) r') /\
      (klast (kels d p) n = Some s -> rec1 (x', set_ures (tab_rem ure_eqb (p, n, (s, c)) (ures r')) r'))).
    { intros x' r' F1 K1. assert (K2 : rec1 (x', set_ures (tab_rem ure_eqb (p, n, (s, c)) (ures r')) r')) by (eapply rec1_r; [|exact K1]; intros; apply incl_refl).
      split; [split; [exact F1|right; exact K2]|auto]. }
    pose proof (proj1 K) as F. cbn [fst] in F. pose proof (proj2 F) as PW.
    unfold unNT. cbn [fst snd]. rewrite (fresh_stale x now F T). unfold findUnver. cbn [fst snd].
    assert (GO : J true t p s R1 (match unNTacc E rc d p n s c (x, r) with
                             | (w, Err UnverifiedReceiptError) => w
                             | (w, _) => (fst w, set_ures (tab_rem ure_eqb (p, n, (s, c)) (ures (snd w))) (snd w)) end) /\
                 (klast (kels d p) n = Some s -> rec1 (match unNTacc E rc d p n s c (x, r) with
                             | (w, Err UnverifiedReceiptError) => w
                             | (w, _) => (fst w, set_ures (tab_rem ure_eqb (p, n, (s, c)) (ures (snd w))) (snd w)) end))).
    { unfold unNTacc. cbn [fst]. destruct (klast (kels d p) n) as [s'|] eqn:KL; [|split; [exact K|discriminate]].
      destruct (c_at _ _ C _ KL) as [-> EV]. rewrite EV. unfold s at 1 4. rewrite N.eqb_refl. cbn [negb]. rewrite VF. cbn [negb].
      fold p. destruct (kget d x p) as [k|] eqn:KG; [|destruct (c_acc _ _ C KL KG)].
      destruct (indexOf (cg_key c) (k_wits k)) as [i|] eqn:IX.
      - pose proof (c_k _ _ C _ _ KG IX) as L. unfold addWig. destruct (mkWig (rc_qb rc) (cg_raw c) i) as [g|ex] eqn:M.
        + unfold wra. cbn [fst snd]. apply D; [eapply fr_same; [apply core_putWigs|exact F]|]. eapply rec1_putWig; eauto.
        + unfold mkWig in M. replace (63 <? i) with false in M by (symmetry; apply N.ltb_ge; exact L). discriminate.
      - unfold wr. cbn [fst snd]. apply D; [exact F|]. left. unfold getRcts, addRct. cbn [snd rcts set_rcts]. fold s. rewrite aset_same. cbn [olist].
        unfold addc. destruct (existsb (cigar_eqb c) (getRcts r p s)) eqn:X; [|apply in_or_app; cbn; auto].
        apply existsb_exists in X. destruct X as ([k1 r1] & X & Y). unfold cigar_eqb in Y. apply andb_prop in Y. destruct Y as [Y1 Y2].
        apply N.eqb_eq in Y1. apply beq_eq in Y2. destruct c as [k0 r0]. cbn in Y1, Y2. subst. exact X. }
    destruct (etab_mem (p, n, s) (pwes x)) eqn:PM; cbn [negb]; [|exact GO].
    apply etab_mem_In in PM. destruct (PW _ _ _ PM) as (e1 & EV). rewrite EV. apply (c_ev _ _ C) in EV as Q. subst e1.
    destruct (c_pw _ _ C EV) as (wo & PWW & LI). rewrite PWW. destruct wo as [wits|]; [|exact GO].
    destruct (indexOf (cg_key c) wits) as [i|] eqn:IX; [|exact GO]. pose proof (LI _ _ eq_refl IX) as L.
    destruct (mkWig (rc_qb rc) (cg_raw c) i) as [g|ex] eqn:M.
    - rewrite VF. cbn [fst snd]. fold s. apply D; [eapply fr_same; [apply core_putWigs|exact F]|]. eapply rec1_putWig; eauto.
    - unfold mkWig in M. replace (63 <? i) with false in M by (symmetry; apply N.ltb_ge; exact L). discriminate.
  Qed.

  Lemma unNT_fold : forall d now l w, J true t p s R1 w -> ctx1 d (fst w) -> now <= t + 3600 ->
    J true t p s R1 (fold_left (unNT E rc d now) l w) /\
    (klast (kels d p) n = Some s -> rec1 w \/ In (p, n, (s, c)) l -> rec1 (fold_left (unNT E rc d now) l w)).
  Proof.
    intros d now. induction l as [|a l IH]; intros w K C T; [split; [exact K|]; intros _ [A|[]]; exact A|]. cbn [fold_left].
    assert (C1 : ctx1 d (fst (unNT E rc d now w a))) by (eapply ctx1_evts; [apply evts_unNT|exact C]).
    assert (K0 : J true t p s rec1 w -> J true t p s rec1 (unNT E rc d now w a)).
    { intros K1. apply J_unNT; [apply rec1_x|intros; eapply rec1_r; eauto|exact K1|]. intros x r A. eapply rec1_r; [|exact A]. intros; apply incl_refl. }
    destruct (trow_eqb ure_eqb a (p, n, (s, c))) eqn:Q.
    - apply ure_row_eq in Q. subst a. destruct (unNT_row d now w K C T) as [A B]. destruct (IH _ A C1 T) as [A1 B1].
      split; [exact A1|]. intros KL _. apply B1; [exact KL|]. left. apply B. exact KL.
    - assert (K1 : J true t p s R1 (unNT E rc d now w a)).
      { apply J_unNT; [apply R1_x|apply R1_r|exact K|]. intros x r [A|A]; [left|right; eapply rec1_r; [|exact A]; intros; apply incl_refl].
        cbn [snd ures set_ures] in *. apply filter_In. split; [exact A|]. rewrite Q. reflexivity. }
      destruct (IH _ K1 C1 T) as [A1 B1]. split; [exact A1|]. intros KL [A|[A|A]]; apply B1; auto.
      + left. apply K0. split; [apply K|exact A].
      + subst a. exfalso. clear - Q. cbn in Q. unfold ure_eqb, cigar_eqb in Q. cbn in Q. rewrite !N.eqb_refl, beq_refl in Q. discriminate.
  Qed.
End NT.

(** ** A waiting signature of a transferable receiptor *)
Section TR.
  Variables (E : env) (rc : rconf) (t : N) (e se : evt) (g : siger).
  Let p := e_pre e.
  Let n := e_sn e.
  Let s := e_said e.
  Let o : src := (e_pre se, e_sn se, e_said se).
  Hypothesis VE : verified E (e_keys se) (e_raw e) g.

  Definition rec2 (w : wst) : Prop := In (o, g) (getVrcs (snd w) p s).
  Definition R2 (w : wst) : Prop := In (p, n, (s, o, g)) (vres (snd w)) \/ rec2 w.
  Lemma R2_x : forall x x' r, (forall a b, incl (getWigs x a b) (getWigs x' a b)) -> R2 (x, r) -> R2 (x', r).
  Proof. intros x x' r _ K. exact K. Qed.
  Lemma R2_r : forall x r r', (forall a b, incl (getRcts r a b) (getRcts r' a b)) ->
    (forall a b, incl (getVrcs r a b) (getVrcs r' a b)) -> incl (ures r) (ures r') -> incl (vres r) (vres r') -> R2 (x, r) -> R2 (x, r').
  Proof. intros x r r' _ A _ B [K|K]; [left; apply B; exact K|right; apply A; exact K]. Qed.

  Record ctx2 (d : acc) (x : aux) : Prop := mkCtx2 {
    c2_at : forall s', klast (kels d p) n = Some s' -> s' = s /\ evts x p s = Some e;
    c2_src : forall s', klast (kels d (e_pre se)) (e_sn se) = Some s' -> s' = e_said se /\ evts x (e_pre se) s' = Some se }.
  Lemma ctx2_evts : forall d x x', evts x' = evts x -> ctx2 d x -> ctx2 d x'.
  Proof. intros d x x' Q []. constructor; rewrite ?Q; auto. Qed.

  Lemma unT_row : forall d now w, J true t p s R2 w -> ctx2 d (fst w) -> now <= t + 3600 ->
    J true t p s R2 (unT E rc d now w (p, n, (s, o, g))) /\
    (klast (kels d p) n = Some s -> klast (kels d (e_pre se)) (e_sn se) = Some (e_said se) ->
     rec2 (unT E rc d now w (p, n, (s, o, g)))).
  Proof.
    intros d now [x r] K C T. cbn [fst] in C. destruct VE as (ky & NE & VF).
    pose proof (proj1 K) as F. cbn [fst] in F.
    pose proof (fresh_stale t e x now F T) as FS. fold p s in FS.
    unfold unT. cbn [fst snd]. rewrite FS. change (unTacc E d p n s o g) with (unTacc E d p n s (e_pre se, e_sn se, e_said se) g).
    unfold unTacc. cbn [fst].
    destruct (klast (kels d p) n) as [s'|] eqn:KL; [|split; [exact K|discriminate]].
    destruct (c2_at _ _ C _ KL) as [-> EV]. rewrite EV. change (s =? e_said e) with (e_said e =? e_said e). rewrite N.eqb_refl. cbn [negb].
    destruct (klast (kels d (e_pre se)) (e_sn se)) as [s2|] eqn:KS; [|split; [exact K|discriminate]].
    destruct (c2_src _ _ C _ KS) as [-> ES]. rewrite ES. rewrite N.eqb_refl. cbn [negb].
    destruct (e_keys se) as [|k0 ks] eqn:KE; [destruct (N.to_nat (sg_index g)); discriminate|]. cbn [isnil]. rewrite NE, VF.
    unfold wr. cbn [fst snd].
    assert (RR : rec2 (x, set_vres (tab_rem vre_eqb (p, n, (s, o, g)) (vres (addVrc p (e_said e) (e_pre se, e_sn se, e_said se) g r)))
                            (addVrc p (e_said e) (e_pre se, e_sn se, e_said se) g r))).
    { unfold rec2, getVrcs, addVrc. cbn [snd vrcs set_vrcs set_vres]. fold s. rewrite aset_same. cbn [olist]. fold o.
      unfold addc. destruct (existsb (rct_eqb (o, g)) (getVrcs r p s)) eqn:X; [|apply in_or_app; cbn; auto].
      apply existsb_exists in X. destruct X as ([o1 g1] & X & Y). unfold rct_eqb, src_eqb in Y. cbn [fst snd] in Y. apply andb_prop in Y. destruct Y as [Y1 Y2].
      apply siger_eqb_eq in Y2. subst g1. destruct o1 as [[a b] c]. unfold o, row_eqb in Y1. apply andb_prop in Y1. destruct Y1 as [Y1 Y3].
      apply andb_prop in Y1. destruct Y1 as [Y1 Y2]. apply N.eqb_eq in Y1, Y2, Y3. subst. exact X. }
    split; [|auto]. split; [exact F|right; exact RR].
  Qed.

  Lemma unT_fold : forall d now l w, J true t p s R2 w -> ctx2 d (fst w) -> now <= t + 3600 ->
    J true t p s R2 (fold_left (unT E rc d now) l w) /\
    (klast (kels d p) n = Some s -> klast (kels d (e_pre se)) (e_sn se) = Some (e_said se) ->
     rec2 w \/ In (p, n, (s, o, g)) l -> rec2 (fold_left (unT E rc d now) l w)).
  Proof.
    intros d now. induction l as [|a l IH]; intros w K C T; [split; [exact K|]; intros _ _ [A|[]]; exact A|]. cbn [fold_left].
    assert (C1 : ctx2 d (fst (unT E rc d now w a))) by (eapply ctx2_evts; [apply evts_unT|exact C]).
    assert (K0 : J true t p s rec2 w -> J true t p s rec2 (unT E rc d now w a)).
    { intros K1. apply J_unT; [intros ? ? ? _ A _ _ B; apply A; exact B|exact K1|]. intros x r A. exact A. }
    destruct (trow_eqb vre_eqb a (p, n, (s, o, g))) eqn:Q.
    - apply vre_row_eq in Q. subst a. destruct (unT_row d now w K C T) as [A B]. destruct (IH _ A C1 T) as [A1 B1].
      split; [exact A1|]. intros KL KS _. apply B1; [exact KL|exact KS|]. left. apply B; assumption.
    - assert (K1 : J true t p s R2 (unT E rc d now w a)).
      { apply J_unT; [apply R2_r|exact K|]. intros x r [A|A]; [left|right; exact A].
        cbn [snd vres set_vres] in *. apply filter_In. split; [exact A|]. rewrite Q. reflexivity. }
      destruct (IH _ K1 C1 T) as [A1 B1]. split; [exact A1|]. intros KL KS [A|[A|A]]; apply B1; auto.
      + left. apply K0. split; [apply K|exact A].
      + subst a. exfalso. clear - Q. cbn in Q. unfold row_eqb in Q. rewrite !N.eqb_refl in Q. cbn in Q.
        replace (siger_eqb g g) with true in Q by (symmetry; apply siger_eqb_eq; reflexivity). discriminate.
  Qed.
End TR.

(** ** Over executions *)
Section Run.
  Variables (E : env) (H : N -> option evt) (rc : rconf) (W : list N) (t : N) (e : evt).
  Hypothesis WH : world H.
  Hypothesis SH : sane H.
  Hypothesis RE : real H e.
  Hypothesis AL : alone H e.
  Let p := e_pre e.
  Hypothesis HW : forall e', real H e' -> e_pre e' = p -> incl (e_wits e') W /\ incl (e_adds e') W.

  Record base (st : rdb) : Prop := mkBase {
    b_r : rinv E H (Tweak E) st;
    b_s : sinv E H (fst (fst st)) (snd (fst st));
    b_w : wbnd W p (fst st) }.
  Lemma base_micros : forall st st', base st -> rinv E H (Tweak E) st' -> micros E H (rc_conf rc) (fst st) (fst st') -> base st'.
  Proof.
    intros st st' [A B C] R M. constructor; [exact R| |].
    - eapply sinv_micros; eauto.
    - exact (wbnd_micros E H (rc_conf rc) W p _ _ HW C M).
  Qed.
  Lemma base0 : base rdb0.
  Proof. constructor; [apply rinv0|apply (sinv0 E H)|apply wbnd0]. Qed.
  Lemma base_step : forall st o, base st -> rreal H o -> base (rstep E rc st o) /\ micros E H (rc_conf rc) (fst st) (fst (rstep E rc st o)).
  Proof.
    intros st o B RO. destruct (rinv_weak_step E H rc st o WH (b_r _ B) RO) as [A M]. split; [|exact M]. eapply base_micros; eauto.
  Qed.
  Lemma base_pass : forall st now q, base st -> base (runPass E rc now st q) /\ micros E H (rc_conf rc) (fst st) (fst (runPass E rc now st q)).
  Proof.
    intros st now q B.
    assert (TV : forall d x p s o g, inv E H d x -> Vs E d (evts x) p s o g -> Tweak E (d, x) p s o g)
      by (intros; eapply Tweak_vw; eauto using Vs_Vw).
    destruct (rinv_pass E H rc WH (Tweak E) (Tweak_mono E) TV now st q (b_r _ B)) as [A M]. split; [|exact M]. eapply base_micros; eauto.
  Qed.
  Lemma base_run : forall ops st, base st -> Forall (rreal H) ops -> base (rrun E rc ops st).
  Proof.
    induction ops as [|o ops IH]; intros st B F; [exact B|]. inversion F; subst. cbn [rrun fold_left]. apply IH; [|assumption].
    apply base_step; assumption.
  Qed.

  Lemma at_alone : forall d x e' s', inv E H d x -> alone H e' -> klast (kels d (e_pre e')) (e_sn e') = Some s' ->
    s' = e_said e' /\ evts x (e_pre e') s' = Some e'.
  Proof.
    intros d x e' s' I A KL. apply klast_In in KL. destruct (i_kf _ _ _ _ I _ _ _ KL) as (_ & e1 & EV & SN).
    destruct (i_ev _ _ _ _ I _ _ _ EV) as [HS PR]. assert (SD : e_said e1 = s') by (apply (WH _ _ HS)).
    assert (Q : e1 = e'). { apply A; [unfold real; rewrite SD; exact HS|exact PR|exact SN]. }
    subst e1. auto.
  Qed.
  Lemma klast_acc : forall d x e', inv E H d x -> real H e' -> alone H e' -> In (e_said e') (fels d (e_pre e')) ->
    klast (kels d (e_pre e')) (e_sn e') = Some (e_said e').
  Proof.
    intros d x e' I R A F. destruct (i_fe _ _ _ _ I _ _ F) as (e1 & c & ee & S1 & CH & _). destruct (chain_hd _ _ _ _ _ _ CH) as (_ & _ & EV & R1).
    assert (Q : e1 = e') by (unfold real in R, R1; rewrite S1 in R1; congruence). subst e1.
    pose proof (i_fk _ _ _ _ I _ _ _ F EV) as K. rewrite klast_row.
    destruct (rev (krow (kels d (e_pre e')) (e_sn e'))) as [|s' l] eqn:RV.
    - apply (in_rev) in K. rewrite RV in K. destruct K.
    - f_equal. apply (at_alone d x e' s' I A). rewrite klast_row, RV. reflexivity.
  Qed.

  Lemma index_bound : forall st k ky i, len W <= 64 -> base st -> kget (fst (fst st)) (snd (fst st)) p = Some k ->
    indexOf ky (k_wits k) = Some i -> i <= 63.
  Proof.
    intros st k ky i LW B KG IX. destruct (sinv_kget _ _ _ _ p WH (b_s _ B)) as [(Z & _)|(k1 & K1 & (c & ee & l & G & _))]; [congruence|].
    assert (k1 = k) by congruence. subst k1. eapply index63; [eapply g_wits; exact G| |exact LW|exact IX].
    destruct st as [[d x] r]. eapply wbnd_kget; [apply B|exact KG].
  Qed.

  Definition stays (st : rdb) : Prop :=
    (isIncept (e_ilk e) = true /\ NoDup (e_wits e)) \/
    (isIncept (e_ilk e) = false /\ fels (fst (fst st)) p <> [] /\ e_cuts e = [] /\ e_adds e = []).
  Lemma stays_micros : forall st st', base st -> stays st -> micros E H (rc_conf rc) (fst st) (fst st') -> stays st'.
  Proof.
    intros st st' B [K|(A1 & A2 & A3)] M; [left; exact K|right]. split; [exact A1|]. split; [|exact A3].
    destruct (micros_grows _ _ _ _ _ WH (ri_inv _ _ _ _ (b_r _ B)) M) as (G & _). destruct (G p) as (l & L). rewrite L.
    destruct (fels (fst (fst st)) p); [congruence|discriminate].
  Qed.
  Lemma keeps_stays : forall st, base st -> keepsWits st e -> stays st.
  Proof.
    intros st B [K|(A1 & A2 & A3)]; [left; exact K|right]. split; [exact A1|]. split; [|exact A3].
    destruct (sinv_kget _ _ _ _ p WH (b_s _ B)) as [(Z & _)|(k1 & K1 & (c & ee & l & _ & FL & _))].
    - destruct A2. exact Z.
    - rewrite FL. destruct l; discriminate.
  Qed.
  Lemma fels_kget : forall st, base st -> fels (fst (fst st)) p <> [] -> exists k, kget (fst (fst st)) (snd (fst st)) p = Some k.
  Proof.
    intros st B F. destruct (sinv_kget _ _ _ _ p WH (b_s _ B)) as [(_ & Z & _)|(k1 & K1 & _)]; [congruence|eauto].
  Qed.

  Lemma inter_nil : forall a, inter a [] = [].
  Proof. intros a. unfold inter. induction a as [|y a IH]; [reflexivity|]. exact IH. Qed.

  Lemma ctx1_base : forall st c, len W <= 64 -> base st -> stays st -> ctx1 e c (fst (fst st)) (snd (fst st)).
  Proof.
    intros [[d x] r] c LW B ST. cbn [fst snd]. pose proof (ri_inv _ _ _ _ (b_r _ B)) as I. cbn [fst snd] in I. constructor.
    - intros s' KL. destruct (at_alone d x e s' I AL KL) as [-> EV]. auto.
    - intros e' EV. destruct (i_ev _ _ _ _ I _ _ _ EV) as [HS _]. unfold real in RE. congruence.
    - intros EV. destruct ST as [(A1 & A2)|(A1 & A2 & A3 & A4)]; unfold pweWits; rewrite A1.
      + exists (Some (e_wits e)). rewrite (oset_id _ A2), N.eqb_refl. cbn [negb]. split; [reflexivity|]. intros wits i Q IX. inversion Q; subst.
        eapply index63; [exact A2| |exact LW|exact IX]. apply HW; [exact RE|reflexivity].
      + destruct (fels_kget _ B A2) as (k & KG). fold p. cbn [fst snd] in KG. rewrite KG. destruct (isRot (e_ilk e)).
        * rewrite A3, A4. cbn [oset addNs]. rewrite !inter_nil. cbn. eexists. split; [reflexivity|]. intros wits i Q IX. inversion Q; subst; clear Q.
          destruct (sinv_kget _ _ _ _ p WH (b_s _ B)) as [(Z & _)|(k1 & K1 & (cc & ee & l & G & _))]; [cbn [fst snd] in *; congruence|].
          cbn [fst snd] in K1. assert (k1 = k) by congruence. subst k1. rewrite (oset_id _ (g_wits _ _ _ _ _ _ _ _ G)) in IX.
          eapply (index63 _ _ W); [| |exact LW|exact IX].
          { apply NoDup_filter. exact (g_wits _ _ _ _ _ _ _ _ G). }
          { intros w J. apply filter_In in J. destruct J as [J _]. exact (wbnd_kget _ _ _ _ _ (b_w _ B) KG w J). }
        * exists (Some (k_wits k)). split; [reflexivity|]. intros wits i Q IX. inversion Q; subst. exact (index_bound ((d, x), r) k _ i LW B KG IX).
    - intros k i KG IX. exact (index_bound ((d, x), r) k _ i LW B KG IX).
    - intros KL. apply klast_In in KL. apply (i_kf _ _ _ _ I) in KL. destruct KL as [F _].
      destruct (fels_kget _ B) as (k & KG). { cbn [fst]. intros Z. unfold p in Z. rewrite Z in F. destruct F. } cbn [fst snd] in KG. unfold p in KG. congruence.
  Qed.

  (** non transferable *)
  Variable c : cigar.
  Hypothesis EN : endorses E e c.
  Hypothesis LW : len W <= 64.
  Let Jn := Js true t (e_pre e) (e_said e) (R1 e c).

  Lemma Jn_pass : forall st now q, base st -> stays st -> t <= now -> now <= t + 3600 -> Jn st -> Jn (runPass E rc now st q).
  Proof.
    intros st now q B ST T1 T2 K. destruct q as [q| | |].
    - eapply Js_kpass; [apply R1_x|exact WH|exact (ri_inv _ _ _ _ (b_r _ B))|exact T1|exact K].
    - apply Js_uwpass; [apply R1_x|apply R1_r|exact K].
    - pose proof (ctx1_base st c LW B ST) as C. destruct st as [[d x] r]. unfold runPass, split, join. cbn [fst snd] in C.
      destruct (unNT_fold E rc t e c EN d now (ures (snd (x, r))) (x, r) K C T2) as [A _].
      destruct (fold_left _ _ _) as [x1 r1]. exact A.
    - destruct st as [[d x] r]. unfold runPass, split, join.
      assert (G : forall l w, J true t (e_pre e) (e_said e) (R1 e c) w -> J true t (e_pre e) (e_said e) (R1 e c) (fold_left (unT E rc d now) l w)).
      { induction l as [|a l IH]; intros w K1; [exact K1|]. cbn [fold_left]. apply IH. apply J_unT; [apply R1_r|exact K1|]. intros x0 r0 A. exact A. }
      specialize (G (vres (snd (x, r))) (x, r) K). destruct (fold_left _ _ _) as [x1 r1]. exact G.
  Qed.
  Lemma Jn_passes : forall now l st, base st -> stays st -> t <= now -> now <= t + 3600 -> Jn st ->
    base (fold_left (runPass E rc now) l st) /\ stays (fold_left (runPass E rc now) l st) /\ Jn (fold_left (runPass E rc now) l st).
  Proof.
    intros now l. induction l as [|q l IH]; intros st B ST T1 T2 K; [auto|]. cbn [fold_left].
    destruct (base_pass st now q B) as [B1 M1]. apply IH; auto; [exact (stays_micros st _ B ST M1)|apply Jn_pass; auto].
  Qed.
  Lemma Jn_step : forall st o, base st -> stays st -> rreal H o -> inHour t e o -> Jn st ->
    base (rstep E rc st o) /\ stays (rstep E rc st o) /\ Jn (rstep E rc st o).
  Proof.
    intros st o B ST RO IH K. destruct (base_step st o B RO) as [B1 M1]. split; [exact B1|]. split; [exact (stays_micros st _ B ST M1)|].
    destruct o as [m|m|now|]; cbn [inHour] in IH.
    - destruct IH as [T D]. cbn [rstep]. eapply Js_event; [apply R1_x|apply R1_r|exact WH|exact (ri_inv _ _ _ _ (b_r _ B))|exact RO|exact T| |exact K].
      intros P S dt Q. apply (D). 2: exact Q. cbn [rreal] in RO. unfold real in RO, RE. rewrite S in RO. congruence.
    - cbn [rstep]. apply Js_receipt; [apply R1_x|apply R1_r|exact K].
    - cbn [rstep]. unfold rescrows. apply Jn_passes; auto; apply IH.
    - apply Js_restart. exact K.
  Qed.
  Lemma Jn_run : forall ops st, base st -> stays st -> Forall (rreal H) ops -> Forall (inHour t e) ops -> Jn st ->
    base (rrun E rc ops st) /\ stays (rrun E rc ops st) /\ Jn (rrun E rc ops st).
  Proof.
    induction ops as [|o ops IH]; intros st B ST F1 F2 K; [auto|]. inversion F1; subst. inversion F2; subst. cbn [rrun fold_left].
    destruct (Jn_step st o B ST H2 H4 K) as (A1 & A2 & A3). apply IH; auto.
  Qed.
  Definition rec1s (st : rdb) : Prop := rec1 e c (snd (fst st), snd st).
  Lemma rec1s_pass : forall st now q, base st -> rec1s st -> rec1s (runPass E rc now st q).
  Proof.
    intros st now q B K. destruct q as [q| | |]; destruct st as [[d x] r]; unfold runPass, split, join.
    - eapply (rec1_x e c x); [|exact K]. cbn [fst snd].
      assert (M : micros E H (rc_conf rc) (d, x) (unescrow E (rc_conf rc) now q (d, x))).
      { unfold unescrow. apply micro_fold; [exact WH|exact (ri_inv _ _ _ _ (b_r _ B))|]. intros dx a I'. apply micro_unescrow1; assumption. }
      exact (micros_wigs _ _ _ _ _ M).
    - unfold rec1s. cbn [fst snd].
      match goal with |- rec1 e c (fst ?a, snd ?a) => set (w := a); assert (G : adv E (Vs E d) (x, r) w) end.
      { apply (adv_fold _ E (Vs E d) (fun _ => True)); [exact (rinv_evok E H WH _ _ (b_r _ B))|apply Forall_forall; auto|]. intros w0 a O _. apply adv_unUW. exact O. }
      destruct w as [x1 r1]. cbn [fst snd]. eapply rec1_x; [apply (ad_x _ _ _ _ G)|]. eapply rec1_r; [|exact K]. intros a b. apply (ad_rct_incl _ _ _ _ G).
    - unfold rec1s. cbn [fst snd].
      match goal with |- rec1 e c (fst ?a, snd ?a) => set (w := a); assert (G : adv E (Vs E d) (x, r) w) end.
      { apply (adv_fold _ E (Vs E d) (fun row => transf E (cg_key (snd (snd row))) = false)); [exact (rinv_evok E H WH _ _ (b_r _ B))| |].
        - apply Forall_forall. intros [[a b] [d0 c0]] I. exact (ri_ure _ _ _ _ (b_r _ B) _ _ _ _ I).
        - intros w0 a O P. apply adv_unNT; assumption. }
      destruct w as [x1 r1]. cbn [fst snd]. eapply rec1_x; [apply (ad_x _ _ _ _ G)|]. eapply rec1_r; [|exact K]. intros a b. apply (ad_rct_incl _ _ _ _ G).
    - unfold rec1s. cbn [fst snd].
      match goal with |- rec1 e c (fst ?a, snd ?a) => set (w := a); assert (G : adv E (Vs E d) (x, r) w) end.
      { apply (adv_fold _ E (Vs E d) (fun _ => True)); [exact (rinv_evok E H WH _ _ (b_r _ B))|apply Forall_forall; auto|]. intros w0 a O _. apply adv_unT. exact O. }
      destruct w as [x1 r1]. cbn [fst snd]. eapply rec1_x; [apply (ad_x _ _ _ _ G)|]. eapply rec1_r; [|exact K]. intros a b. apply (ad_rct_incl _ _ _ _ G).
  Qed.
  Lemma rec1s_passes : forall now l st, base st -> rec1s st -> rec1s (fold_left (runPass E rc now) l st).
  Proof.
    intros now l. induction l as [|q l IH]; intros st B K; [exact K|]. cbn [fold_left]. apply IH; [apply base_pass; exact B|apply rec1s_pass; assumption].
  Qed.
  Lemma acc_pass : forall st now q e', base st -> In (e_said e') (fels (fst (fst st)) (e_pre e')) ->
    In (e_said e') (fels (fst (fst (runPass E rc now st q))) (e_pre e')).
  Proof.
    intros st now q e' B F. destruct (base_pass st now q B) as [_ M].
    destruct (micros_grows _ _ _ _ _ WH (ri_inv _ _ _ _ (b_r _ B)) M) as (G & _). destruct (G (e_pre e')) as (l & L). rewrite L. apply in_or_app. auto.
  Qed.

  Lemma Jn_final : forall st now, base st -> stays st -> t <= now -> now <= t + 3600 -> Jn st ->
    In (e_said e) (fels (fst (fst st)) (e_pre e)) -> rec1s (rstep E rc st (REscrows now)).
  Proof.
    intros st now B ST T1 T2 K F. cbn [rstep]. unfold rescrows.
    change [REv POO; RUW; RNT; RT; REv PPD; REv PPW; REv PPS] with ([REv POO; RUW] ++ RNT :: [RT; REv PPD; REv PPW; REv PPS]).
    rewrite fold_left_app. destruct (Jn_passes now [REv POO; RUW] st B ST T1 T2 K) as (B1 & ST1 & K1).
    assert (F1 : In (e_said e) (fels (fst (fst (fold_left (runPass E rc now) [REv POO; RUW] st))) (e_pre e))).
    { cbn [fold_left]. apply acc_pass; [apply base_pass; exact B|]. apply acc_pass; assumption. }
    set (st1 := fold_left (runPass E rc now) [REv POO; RUW] st) in *. clearbody st1. clear B ST K F st.
    change (fold_left ?f (RNT :: ?l) st1) with (fold_left f l (f st1 RNT)).
    apply rec1s_passes; [apply base_pass; exact B1|].
    pose proof (ctx1_base st1 c LW B1 ST1) as C. destruct st1 as [[d x] r]. cbn [fst snd] in *.
    pose proof (klast_acc d x e (ri_inv _ _ _ _ (b_r _ B1)) RE AL F1) as KL.
    destruct (unNT_fold E rc t e c EN d now (ures r) (x, r) K1 C T2) as [_ A].
    unfold runPass, split, join, rec1s. cbn [fst snd]. destruct (fold_left _ _ _) as [x1 r1] eqn:Q. apply A; [exact KL|].
    destruct K1 as [_ [K1|K1]]; [right; exact K1|left; exact K1].
  Qed.
End Run.

Section RunT.
  Variables (E : env) (H : N -> option evt) (rc : rconf) (t : N) (e se : evt) (g : siger).
  Hypothesis WH : world H.
  Hypothesis RE : real H e.
  Hypothesis AL : alone H e.
  Hypothesis RS : real H se.
  Hypothesis AS : alone H se.
  Hypothesis VE : verified E (e_keys se) (e_raw e) g.
  Let Ri := rinv E H (Tweak E).
  Let Jt := Js true t (e_pre e) (e_said e) (R2 e se g).

  Lemma ri_pass : forall st now q, Ri st -> Ri (runPass E rc now st q) /\ micros E H (rc_conf rc) (fst st) (fst (runPass E rc now st q)).
  Proof.
    intros st now q B.
    assert (TV : forall d x p s o g, inv E H d x -> Vs E d (evts x) p s o g -> Tweak E (d, x) p s o g)
      by (intros; eapply Tweak_vw; eauto using Vs_Vw).
    exact (rinv_pass E H rc WH (Tweak E) (Tweak_mono E) TV now st q B).
  Qed.
  Lemma ctx2_ri : forall st, Ri st -> ctx2 e se (fst (fst st)) (snd (fst st)).
  Proof.
    intros [[d x] r] B. pose proof (ri_inv _ _ _ _ B) as I. cbn [fst snd] in *. constructor.
    - intros s' KL. destruct (at_alone E H WH d x e s' I AL KL) as [-> EV]. auto.
    - intros s' KL. exact (at_alone E H WH d x se s' I AS KL).
  Qed.
  Lemma Jt_pass : forall st now q, Ri st -> t <= now -> now <= t + 3600 -> Jt st -> Jt (runPass E rc now st q).
  Proof.
    intros st now q B T1 T2 K. destruct q as [q| | |].
    - eapply Js_kpass; [apply R2_x|exact WH|exact (ri_inv _ _ _ _ B)|exact T1|exact K].
    - apply Js_uwpass; [apply R2_x|apply R2_r|exact K].
    - destruct st as [[d x] r]. unfold runPass, split, join.
      assert (G : forall l w, J true t (e_pre e) (e_said e) (R2 e se g) w -> J true t (e_pre e) (e_said e) (R2 e se g) (fold_left (unNT E rc d now) l w)).
      { induction l as [|a l IH]; intros w K1; [exact K1|]. cbn [fold_left]. apply IH. apply J_unNT; [apply R2_x|apply R2_r|exact K1|]. intros x0 r0 A. exact A. }
      specialize (G (ures (snd (x, r))) (x, r) K). destruct (fold_left _ _ _) as [x1 r1]. exact G.
    - pose proof (ctx2_ri st B) as C. destruct st as [[d x] r]. unfold runPass, split, join. cbn [fst snd] in C.
      destruct (unT_fold E rc t e se g VE d now (vres (snd (x, r))) (x, r) K C T2) as [A _].
      destruct (fold_left _ _ _) as [x1 r1]. exact A.
  Qed.
  Lemma Jt_passes : forall now l st, Ri st -> t <= now -> now <= t + 3600 -> Jt st ->
    Ri (fold_left (runPass E rc now) l st) /\ Jt (fold_left (runPass E rc now) l st).
  Proof.
    intros now l. induction l as [|q l IH]; intros st B T1 T2 K; [auto|]. cbn [fold_left].
    apply IH; auto; [apply ri_pass; exact B|apply Jt_pass; auto].
  Qed.
  Lemma Jt_step : forall st o, Ri st -> rreal H o -> inHour t e o -> Jt st -> Ri (rstep E rc st o) /\ Jt (rstep E rc st o).
  Proof.
    intros st o B RO IH K. destruct (rinv_weak_step E H rc st o WH B RO) as [B1 _]. split; [exact B1|].
    destruct o as [m|m|now|]; cbn [inHour] in IH.
    - destruct IH as [T D]. cbn [rstep]. eapply Js_event; [apply R2_x|apply R2_r|exact WH|exact (ri_inv _ _ _ _ B)|exact RO|exact T| |exact K].
      intros P S dt Q. apply (D). 2: exact Q. cbn [rreal] in RO. unfold real in RO, RE. rewrite S in RO. congruence.
    - cbn [rstep]. apply Js_receipt; [apply R2_x|apply R2_r|exact K].
    - cbn [rstep]. unfold rescrows. apply Jt_passes; auto; apply IH.
    - apply Js_restart. exact K.
  Qed.
  Lemma Jt_run : forall ops st, Ri st -> Forall (rreal H) ops -> Forall (inHour t e) ops -> Jt st ->
    Ri (rrun E rc ops st) /\ Jt (rrun E rc ops st).
  Proof.
    induction ops as [|o ops IH]; intros st B F1 F2 K; [auto|]. inversion F1; subst. inversion F2; subst. cbn [rrun fold_left].
    destruct (Jt_step st o B H2 H4 K) as (A1 & A2). apply IH; auto.
  Qed.
  Definition rec2s (st : rdb) : Prop := rec2 e se g (snd (fst st), snd st).
  Lemma rec2s_kpasses : forall now l st, rec2s st -> rec2s (fold_left (runPass E rc now) (map REv l) st).
  Proof.
    intros now l. induction l as [|q l IH]; intros st K; [exact K|]. cbn [map fold_left]. apply IH.
    destruct st as [[d x] r]. exact K.
  Qed.
  Lemma acc_passes : forall now l e' st, Ri st -> In (e_said e') (fels (fst (fst st)) (e_pre e')) ->
    In (e_said e') (fels (fst (fst (fold_left (runPass E rc now) l st))) (e_pre e')).
  Proof.
    intros now l e'. induction l as [|q l IH]; intros st B F; [exact F|]. cbn [fold_left]. destruct (ri_pass st now q B) as [B1 M]. apply IH; [exact B1|].
    destruct (micros_grows _ _ _ _ _ WH (ri_inv _ _ _ _ B) M) as (G & _). destruct (G (e_pre e')) as (l1 & L). rewrite L. apply in_or_app. auto.
  Qed.
  Lemma Jt_final : forall st now, Ri st -> t <= now -> now <= t + 3600 -> Jt st ->
    In (e_said e) (fels (fst (fst st)) (e_pre e)) -> In (e_said se) (fels (fst (fst st)) (e_pre se)) ->
    rec2s (rstep E rc st (REscrows now)).
  Proof.
    intros st now B T1 T2 K F FS. cbn [rstep]. unfold rescrows.
    change [REv POO; RUW; RNT; RT; REv PPD; REv PPW; REv PPS] with ([REv POO; RUW; RNT] ++ RT :: map REv [PPD; PPW; PPS]).
    rewrite fold_left_app. destruct (Jt_passes now [REv POO; RUW; RNT] st B T1 T2 K) as (B1 & K1).
    pose proof (acc_passes now [REv POO; RUW; RNT] e st B F) as F1. pose proof (acc_passes now [REv POO; RUW; RNT] se st B FS) as F2.
    set (st1 := fold_left (runPass E rc now) [REv POO; RUW; RNT] st) in *. clearbody st1. clear B K F FS st.
    change (fold_left ?f (RT :: ?l) st1) with (fold_left f l (f st1 RT)).
    apply rec2s_kpasses.
    pose proof (ctx2_ri st1 B1) as C. destruct st1 as [[d x] r]. cbn [fst snd] in *.
    pose proof (klast_acc E H WH d x e (ri_inv _ _ _ _ B1) RE AL F1) as KL.
    pose proof (klast_acc E H WH d x se (ri_inv _ _ _ _ B1) RS AS F2) as KS.
    destruct (unT_fold E rc t e se g VE d now (vres r) (x, r) K1 C T2) as [_ A].
    unfold runPass, split, join, rec2s. cbn [fst snd]. destruct (fold_left _ _ _) as [x1 r1] eqn:Q. apply A; [exact KL|exact KS|].
    destruct K1 as [_ [K1|K1]]; [right; exact K1|left; exact K1].
  Qed.
End RunT.

(** ** A receipt that comes first waits *)
Lemma tab_add_In2 : forall A (eqb : A -> A -> bool) r tb, (forall q, trow_eqb eqb r q = true -> q = r) -> In r (tab_add eqb r tb).
Proof.
  intros A eqb r tb Q. unfold tab_add. destruct (existsb (trow_eqb eqb r) tb) eqn:X; [|apply tab_ins_In; auto].
  apply existsb_exists in X. destruct X as (q & I & Y). apply Q in Y. subst. exact I.
Qed.

(** the partial witness escrow only lists known events, always *)
Definition any (w : wst) : Prop := True.
Lemma pw_step : forall E H rc st o, world H -> rinv E H (Tweak E) st -> rreal H o -> Js false 0 0 0 any st -> Js false 0 0 0 any (rstep E rc st o).
Proof.
  intros E H rc st o W R RO K. pose proof (ri_inv _ _ _ _ R) as I.
  assert (X : forall x x' r, (forall a b, incl (getWigs x a b) (getWigs x' a b)) -> any (x, r) -> any (x', r)) by (intros; exact Logic.I).
  assert (Y : forall x r r', (forall a b, incl (getRcts r a b) (getRcts r' a b)) -> (forall a b, incl (getVrcs r a b) (getVrcs r' a b)) ->
    incl (ures r) (ures r') -> incl (vres r) (vres r') -> any (x, r) -> any (x, r')) by (intros; exact Logic.I).
  destruct o as [m|m|now|]; cbn [rstep].
  - eapply Js_event; [exact X|exact Y|exact W|exact I|exact RO|lia|intros; lia|exact K].
  - apply Js_receipt; [exact X|exact Y|exact K].
  - unfold rescrows. generalize [REv POO; RUW; RNT; RT; REv PPD; REv PPW; REv PPS]. intros l. revert st R I K.
    induction l as [|q l IH]; intros st R I K; [exact K|]. cbn [fold_left].
    assert (R1 : rinv E H (Tweak E) (runPass E rc now st q)) by (eapply ri_pass; eauto).
    apply IH; [exact R1|exact (ri_inv _ _ _ _ R1)|].
    destruct q as [q| | |].
    + eapply Js_kpass; [exact X|exact W|exact I|lia|exact K].
    + apply Js_uwpass; [exact X|exact Y|exact K].
    + destruct st as [[d x] r]. unfold runPass, split, join.
      assert (G : forall l w, J false 0 0 0 any w -> J false 0 0 0 any (fold_left (unNT E rc d now) l w)).
      { induction l0 as [|a l0 IH0]; intros w K1; [exact K1|]. cbn [fold_left]. apply IH0. apply J_unNT; [exact X|exact Y|exact K1|]. intros; exact Logic.I. }
      specialize (G (ures (snd (x, r))) (x, r) K). destruct (fold_left _ _ _) as [x1 r1]. exact G.
    + destruct st as [[d x] r]. unfold runPass, split, join.
      assert (G : forall l w, J false 0 0 0 any w -> J false 0 0 0 any (fold_left (unT E rc d now) l w)).
      { induction l0 as [|a l0 IH0]; intros w K1; [exact K1|]. cbn [fold_left]. apply IH0. apply J_unT; [exact Y|exact K1|]. intros; exact Logic.I. }
      specialize (G (vres (snd (x, r))) (x, r) K). destruct (fold_left _ _ _) as [x1 r1]. exact G.
  - destruct st as [[d x] r]. exact K.
Qed.
Lemma pw_reach : forall E H rc st, world H -> rreachable E H rc st -> Js false 0 0 0 any st.
Proof.
  intros E H rc st W (ops & F & ->). revert F.
  assert (G : forall s0, rinv E H (Tweak E) s0 -> Js false 0 0 0 any s0 -> Forall (rreal H) ops -> Js false 0 0 0 any (rrun E rc ops s0)).
  { induction ops as [|o ops IH]; intros s0 R K F; [exact K|]. inversion F; subst. cbn [rrun fold_left].
    apply IH; [exact (proj1 (rinv_weak_step E H rc s0 o W R H2))| |assumption]. eapply pw_step; eauto. }
  intros F. apply G; [apply rinv0| |exact F]. split; [|exact Logic.I]. split; [discriminate|]. cbn. intros a n b [].
Qed.

Lemma fr_put_on : forall t p s now x, fr false 0 0 0 x ->
  match dtss x p s with Some dt => t <= dt | None => t <= now end -> fr true t p s (set_dtss (aput (dtss x) p s now) x).
Proof.
  intros t p s now x (_ & PW) L. split; [|exact PW]. intros _. cbn [dtss set_dtss]. unfold aput.
  destruct (dtss x p s) as [dt|] eqn:Q; [rewrite Q; eauto|]. rewrite aset_same. eauto.
Qed.

Lemma each_reach : forall A (f : A -> act unit) (P Q : wst -> Prop) l a w,
  (forall b w, exists w', f b w = (w', Ok tt)) -> (forall b w, P w -> P (fst (f b w))) -> (forall b w, Q w -> Q (fst (f b w))) ->
  (forall w, P w -> Q (fst (f a w))) -> In a l -> P w -> Q (fst (each f l w)).
Proof.
  intros A f P Q l a. induction l as [|b l IH]; intros w OK KP KQ HIT I K; [destruct I|]. cbn [each]. unfold seqa.
  destruct (OK b w) as (w' & E1). rewrite E1. pose proof (KP b w K) as K1. rewrite E1 in K1. cbn [fst] in K1.
  destruct I as [->|I]; [|apply IH; auto].
  pose proof (HIT w K) as H1. rewrite E1 in H1. cbn [fst] in H1. clear - OK KQ H1.
  revert w' H1. induction l as [|b l IH]; intros w H1; [exact H1|]. cbn [each]. unfold seqa. destruct (OK b w) as (w2 & E2). rewrite E2.
  apply IH. pose proof (KQ b w H1) as H2. rewrite E2 in H2. exact H2.
Qed.

Lemma early_nt : forall E rc d m e c x r t, rm_pre m = e_pre e -> rm_sn m = e_sn e -> rm_said m = e_said e ->
  In c (rm_cigars m) -> transf E (cg_key c) = false -> klast (kels d (e_pre e)) (e_sn e) = None -> fr false 0 0 0 x ->
  match dtss x (e_pre e) (e_said e) with Some dt => t <= dt | None => t <= rm_now m end ->
  J true t (e_pre e) (e_said e) (R1 e c) (fst (processReceipt E rc d m (x, r))).
Proof.
  intros E rc d m e c x r t A1 A2 A3 IC NT KL PW L. unfold processReceipt. cbv zeta. rewrite A1, A2, A3, KL.
  assert (X := R1_x e c). assert (Y := R1_r e c).
  destruct (rm_cigars m) as [|c0 cs] eqn:CS; [destruct IC|]. cbn [isnil]. rewrite <- CS in *. clear c0 cs CS.
  match goal with |- J _ _ _ _ _ (fst (seqa ?a ?b (x, r))) => assert (G : J true t (e_pre e) (e_said e) (R1 e c) (fst (a (x, r))) /\ exists w', a (x, r) = (w', Ok tt)); [|assert (KB : kj true t (e_pre e) (e_said e) (R1 e c) b)] end.
  - unfold escrowU. unfold seqa, putDts, wra. cbn [fst].
    set (x1 := set_dtss (aput (dtss x) (e_pre e) (e_said e) (rm_now m)) x).
    assert (F1 : fr true t (e_pre e) (e_said e) x1) by (apply fr_put_on; assumption). clearbody x1.
    set (f := fun c0 => _). assert (OK : forall b w, exists w', f b w = (w', Ok tt)).
    { intros b [x2 r2]. unfold f. destruct (transf E (cg_key b)); eexists; reflexivity. }
    split.
    + apply (each_reach _ f (J true t (e_pre e) (e_said e) any) (J true t (e_pre e) (e_said e) (R1 e c)) (rm_cigars m) c); auto.
      * intros b [x2 r2] (F2 & _). split; [|exact Logic.I]. unfold f. destruct (transf E (cg_key b)); exact F2.
      * intros b. unfold f. destruct (transf E (cg_key b)); [apply kj_ok|]. apply kj_r; [exact Y|..]; intros; cbn; try apply incl_refl. apply tab_add_incl.
      * intros [x2 r2] (F2 & _). unfold f. rewrite NT. split; [exact F2|]. left. cbn. apply tab_add_In2. intros q Q. symmetry. apply ure_row_eq. exact Q.
      * split; [exact F1|exact Logic.I].
    + clear - OK. generalize (x1, r). generalize (rm_cigars m) as l. induction l as [|b l IH]; intros w; [eexists; reflexivity|]. cbn [each]. unfold seqa.
      destruct (OK b w) as (w1 & Q). rewrite Q. apply IH.
  - apply kj_seq; [destruct (isnil (rm_tsgs m)); [apply kj_ok|]; unfold escrowTRs; apply kj_each; intros tg; apply kj_escrowT; assumption|].
    apply kj_seq; [destruct (isnil (rm_wigers m)); [apply kj_ok|]; apply kj_escrowUW; assumption|apply kj_raise].
  - destruct G as (G & w' & Q). unfold seqa at 1. rewrite Q in *. apply KB. exact G.
Qed.

Lemma early_t : forall E rc d m e se tg g x r t, rm_pre m = e_pre e -> rm_sn m = e_sn e -> rm_said m = e_said e ->
  In tg (rm_tsgs m) -> In g (t_sigs tg) -> t_pre tg = e_pre se -> t_sn tg = e_sn se -> t_dig tg = e_said se ->
  klast (kels d (e_pre e)) (e_sn e) = None -> fr false 0 0 0 x ->
  match dtss x (e_pre e) (e_said e) with Some dt => t <= dt | None => t <= rm_now m end ->
  J true t (e_pre e) (e_said e) (R2 e se g) (fst (processReceipt E rc d m (x, r))).
Proof.
  intros E rc d m e se tg g x r t A1 A2 A3 IT IG B1 B2 B3 KL PW L. unfold processReceipt. cbv zeta. rewrite A1, A2, A3, KL.
  assert (X := R2_x e se g). assert (Y := R2_r e se g).
  set (p := e_pre e) in *. set (n := e_sn e) in *. set (s := e_said e) in *.
  (* before the groups: dates are fresh enough *)
  set (P0 := fun w : wst => fr false 0 0 0 (fst w) /\ match dtss (fst w) p s with Some dt => t <= dt | None => t <= rm_now m end).
  set (Q0 := J true t p s (R2 e se g)).
  assert (PP : forall w, P0 w -> P0 (fst (putDts p s (rm_now m) w))).
  { intros [x1 r1] (F & L1). split; cbn [fst putDts wra] in *; [apply fr_put; exact F|]. cbn [dtss set_dtss]. unfold aput.
    destruct (dtss x1 p s) as [dt|] eqn:Q; [rewrite Q; exact L1|]. rewrite aset_same. exact L1. }
  assert (PU : P0 (fst (escrowU E (rm_now m) p n s (rm_cigars m) (x, r))) /\ exists w', escrowU E (rm_now m) p n s (rm_cigars m) (x, r) = (w', Ok tt)).
  { unfold escrowU, seqa. pose proof (PP (x, r) (conj PW L)) as K. unfold putDts, wra in *. cbn [fst] in K. revert K.
    generalize (set_dtss (aput (dtss x) p s (rm_now m)) x) as x1. generalize r as r1. generalize (rm_cigars m) as l.
    induction l as [|c l IH]; intros r1 x1 K; cbn [each]; [split; [exact K|eexists; reflexivity]|]. unfold seqa.
    destruct (transf E (cg_key c)); unfold ok, wr; apply IH; exact K. }
  assert (G : forall w, P0 w -> Q0 (fst (escrowTRs (rm_now m) p n s (rm_tsgs m) w)) /\ exists w', escrowTRs (rm_now m) p n s (rm_tsgs m) w = (w', Ok tt)).
  { intros w K. unfold escrowTRs.
    assert (OK1 : forall tg0 w, exists w', escrowT (rm_now m) p n s tg0 w = (w', Ok tt)).
    { intros tg0 [x1 r1]. unfold escrowT, seqa, putDts, wra. generalize (set_dtss (aput (dtss x1) p s (rm_now m)) x1) as x2. revert r1.
      induction (t_sigs tg0) as [|g0 l IH]; intros r1 x2; [eexists; reflexivity|]. cbn [each]. unfold seqa, wr. apply IH. }
    split.
    - apply (each_reach _ _ P0 Q0 (rm_tsgs m) tg); auto.
      + intros tg0 w0 K0. unfold escrowT. unfold seqa. pose proof (PP w0 K0) as K1. destruct w0 as [x1 r1]. unfold putDts, wra in *. cbn [fst] in *. revert K1.
        generalize (set_dtss (aput (dtss x1) p s (rm_now m)) x1) as x2. clear. revert r1. induction (t_sigs tg0) as [|g0 l IH]; intros r1 x2 K1; [exact K1|].
        cbn [each]. unfold seqa, wr. apply IH. exact K1.
      + intros tg0. apply kj_escrowT; assumption.
      + intros [x1 r1] (F & L1). cbn [fst] in *. unfold escrowT, seqa, putDts, wra. cbn [fst].
        assert (F1 : fr true t p s (set_dtss (aput (dtss x1) p s (rm_now m)) x1)) by (apply fr_put_on; assumption).
        apply (each_reach _ _ (J true t p s any) Q0 (t_sigs tg) g); auto.
        * intros g0 [x2 r2]. eexists. reflexivity.
        * intros g0 [x2 r2] (F2 & _). split; [exact F2|exact Logic.I].
        * intros g0. apply kj_r; [exact Y|..]; intros; cbn; try apply incl_refl. apply tab_add_incl.
        * intros [x2 r2] (F2 & _). split; [exact F2|]. left. cbn. rewrite B1, B2, B3. apply tab_add_In2. intros q Q. symmetry. apply vre_row_eq. exact Q.
        * split; [exact F1|exact Logic.I].
    - clear K. revert w. generalize (rm_tsgs m) as l. induction l as [|b l IH]; intros w; [eexists; reflexivity|]. cbn [each]. unfold seqa.
      destruct (OK1 b w) as (w1 & Q). rewrite Q. apply IH. }
  destruct (rm_tsgs m) as [|t0 ts] eqn:TS; [destruct IT|]. cbn [isnil]. rewrite <- TS in *. clear t0 ts TS.
  assert (PRE : forall w, P0 w -> J true t p s (R2 e se g)
    (fst (seqa (escrowTRs (rm_now m) p n s (rm_tsgs m)) (seqa (if isnil (rm_wigers m) then ok else escrowUW (rm_now m) p n s (rm_wigers m)) (raise (T:=unit) UnverifiedReceiptError)) w))).
  { intros w K. destruct (G w K) as (Z & w' & Q). unfold seqa at 1. rewrite Q in *.
    apply kj_seq; [destruct (isnil (rm_wigers m)); [apply kj_ok|]; apply kj_escrowUW; assumption|apply kj_raise|exact Z]. }
  destruct (isnil (rm_cigars m)).
  - unfold seqa at 1. unfold ok at 1. apply PRE. split; assumption.
  - destruct PU as (PU & w' & Q). unfold seqa at 1. rewrite Q in *. apply PRE. exact PU.
Qed.
