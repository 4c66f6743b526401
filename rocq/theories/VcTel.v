(** More invariants of transaction event logs: every entry has its anchor, and the kind of a registry
    is that of an inception. *)
From Verif Require Import Prelude B64Model MatterModel SubsModel ThModel ThProofs KelModel TlModel TlSpec TlProofs TlInv.
Open Scope N_scope.
Ltac Zify.zify_post_hook ::= Z.div_mod_to_equations.

Section A.
  Context (E : tenv) (cf : tconf).

  Definition anchors (d : tdb) : Prop := forall p sn g, telAt d p sn = Some g -> ancs d p g <> None.
  Definition astep (d d' : tdb) : Prop :=
    (forall p g, ancs d p g <> None -> ancs d' p g <> None)
    /\ (forall p sn g, telAt d' p sn = Some g -> telAt d p sn = Some g \/ ancs d' p g <> None).
  Lemma astep_refl : forall d, astep d d.
  Proof. intros d. split; auto. Qed.
  Lemma astep_same : forall d d' d'', astep d d' -> tels d'' = tels d' -> ancs d'' = ancs d' -> astep d d''.
  Proof. intros d d' d'' [A B] C D. split; [rewrite D; exact A|]. intros p sn g H. rewrite D. apply (B p sn g). unfold telAt in *. rewrite <- C. exact H. Qed.
  Lemma aput_mono : forall A (m : amap A) p g x q k, m q k <> None -> aput m p g x q k <> None.
  Proof. intros A m p g x q k H. unfold aput. destruct (m p g); [exact H|]. unfold aset. destruct ((q =? p) && (k =? g)); [discriminate|exact H]. Qed.
  Lemma aput_self : forall A (m : amap A) p g x, aput m p g x p g <> None.
  Proof. intros A m p g x. unfold aput. destruct (m p g) eqn:M; [congruence|]. unfold aset. rewrite !N.eqb_refl. discriminate. Qed.
  Lemma astep_anc : forall e a d d', ancs d' = ancs (putAnc e a d) -> tels d' = tels d -> astep d d'.
  Proof.
    intros e a d d' A B. split.
    - intros p g H. rewrite A. apply aput_mono. exact H.
    - intros p sn g H. left. unfold telAt in *. rewrite <- B. exact H.
  Qed.
  Lemma astep_AL : forall e a bs bk d, astep d (escrowAL e a bs bk d).
  Proof. intros e [a|] bs bk d; [apply (astep_anc e a)|split; auto]; unfold escrowAL; destruct bs, bk; try reflexivity; auto. Qed.
  Lemma astep_PW : forall e a bs d, astep d (escrowPW e a bs d).
  Proof. intros e a bs d. apply (astep_anc e a); unfold escrowPW; destruct bs; reflexivity. Qed.
  Lemma astep_OO : forall e a d d' x, escrowOO e a d = (d', x) -> astep d d'.
  Proof. intros e [a|] d d' x H; unfold escrowOO in H; injection H as <- <-; [apply (astep_anc e a); reflexivity|split; auto]. Qed.
  Lemma astep_log : forall sn e a bs bk d, astep d (tlog (t_pre e) sn e a bs bk d).
  Proof.
    intros sn e a bs bk d. destruct (tlog_fr (t_pre e) sn e a bs bk d) as (_ & _ & _ & _ & T & _).
    assert (A : ancs (tlog (t_pre e) sn e a bs bk d) = ancs (putAnc e a d)).
    { unfold tlog, telPut, telAt. destruct bs, bk; cbn; destruct (find _ _); reflexivity. }
    split.
    - intros p g H. rewrite A. apply aput_mono. exact H.
    - intros p s g H. rewrite A. unfold telAt in H. rewrite T in H. fold (telAt (telPut (t_pre e) sn (t_said e) d) p s) in H. apply put_at in H.
      destruct H as [H|(-> & -> & ->)]; [left; exact H|right; apply aput_self].
  Qed.
  Lemma vab_astep : forall v tv e a bs toad bk d d' r, valAnchorBigs E v tv e a bs toad bk d = (d', r) -> astep d d' /\ (forall vs, r = Ok vs -> d' = d).
  Proof.
    intros v tv e a bs toad bk d d' r H. unfold valAnchorBigs in H.
    match type of H with (if ?b then _ else _) = _ => destruct b end; [injection H as <- <-; split; [apply astep_refl|intros; discriminate]|].
    destruct (verifySigs _ _ _ _ _) as (vs, is). destruct (verifyAnchor v (v_ii tv) a e) as [[|]|x].
    - repeat match type of H with (if ?b then _ else _) = _ => destruct b end; try (injection H as <- <-; split; [apply astep_refl|intros; first [reflexivity|discriminate]]).
      injection H as <- <-. destruct a; split; try apply astep_refl; try apply astep_PW; intros; discriminate.
    - injection H as <- <-. split; [apply astep_AL|intros; discriminate].
    - injection H as <- <-. split; [apply astep_refl|intros; discriminate].
  Qed.
  Lemma simple_astep : forall v tv e a d d' r, simple v tv e a d = (d', r) -> astep d d'.
  Proof.
    intros v tv e a d d' r H. unfold simple in H. destruct (verifyAnchor _ _ _ _) as [[|]|]; try destruct a; injection H as <- <-;
      first [apply astep_refl | apply astep_AL | apply astep_log].
  Qed.
  Lemma backed_astep : forall v tv e a bs d d' r, backed E v tv e a bs d = (d', r) -> astep d d'.
  Proof.
    intros v tv e a bs d d' r H. unfold backed in H. destruct (getBackerState _ _ _) as [[toad bk]|]; [|injection H as <- <-; apply astep_refl].
    destruct (valAnchorBigs _ _ _ _ _ _ _ _ _) as (d1, r1) eqn:V. apply vab_astep in V. destruct V as [V1 V2]. destruct r1 as [vs|x]; [|injection H as <- <-; exact V1].
    rewrite (V2 vs eq_refl) in H. destruct a; injection H as <- <-; [apply astep_log|apply astep_refl].
  Qed.
  Lemma tupdate_astep : forall v tv e a bs d d' r, tupdate E v tv e a bs d = (d', r) -> astep d d'.
  Proof.
    intros v tv e a bs d d' r H. unfold tupdate in H.
    assert (I : tissue E v tv e a bs d = (d', r) -> astep d d').
    { clear H. unfold tissue. intros H. destruct (t_ilk e);
      repeat match type of H with (if ?b then _ else _) = _ => destruct b end; try (injection H as <- <-; apply astep_refl);
      first [eapply simple_astep; exact H | eapply backed_astep; exact H]. }
    assert (R : trevoke E v tv e a bs d = (d', r) -> astep d d').
    { clear H I. unfold trevoke. intros H. destruct (telAt _ _ _); [|injection H as <- <-; apply astep_refl]. destruct (tvts _ _ _); [|injection H as <- <-; apply astep_refl].
      match type of H with (if ?b then _ else _) = _ => destruct b end; [injection H as <- <-; apply astep_refl|]. destruct (t_ilk e);
      match type of H with (if ?b then _ else _) = _ => destruct b end; try (injection H as <- <-; apply astep_refl);
      first [eapply simple_astep; exact H | eapply backed_astep; exact H]. }
    destruct (t_ilk e); auto; try (injection H as <- <-; apply astep_refl).
    destruct (v_nob tv); [injection H as <- <-; apply astep_refl|]. destruct (trotate tv e) as [[toad bk]|] eqn:T; [|injection H as <- <-; apply astep_refl].
    destruct (valAnchorBigs _ _ _ _ _ _ _ _ _) as (d1, r1) eqn:V. apply vab_astep in V. destruct V as [V1 V2]. destruct r1 as [vs|x]; [|injection H as <- <-; exact V1].
    rewrite (V2 vs eq_refl) in H. apply trotate_ok in T. destruct T as (T & _). rewrite <- T in H.
    destruct a; injection H as <- <-; [|eapply astep_same; [apply astep_refl|reflexivity|reflexivity]].
    match goal with |- astep d (tlog _ _ _ _ _ _ ?d2) => pose proof (astep_log (t_sn e) e p vs bk d2) as Q end. exact Q.
  Qed.
  Lemma tprocess_astep : forall v e a bs d d' r, tprocess E cf v e a bs d = (d', r) -> astep d d'.
  Proof.
    intros v e a bs d d' r H. unfold tprocess in H.
    match type of H with (if ?b then _ else _) = _ => destruct b end; [injection H as <- <-; apply astep_refl|].
    destruct (registryKey e) as [regk|]; [|injection H as <- <-; apply astep_refl].
    match type of H with (if ?b then _ else _) = _ => destruct b end; [injection H as <- <-; apply astep_refl|].
    match type of H with (if ?b then _ else _) = _ => destruct b end; [injection H as <- <-; apply astep_refl|].
    destruct (tget d regk) as [tv|].
    - destruct (t_ilk e); try (injection H as <- <-; apply astep_refl);
        repeat match type of H with (if ?b then _ else _) = _ => destruct b end;
        try (injection H as <- <-; apply astep_refl);
        try (destruct (escrowOO e a d) as (d1, x) eqn:O; injection H as <- <-; eapply astep_OO; exact O);
        eapply tupdate_astep; exact H.
    - destruct (t_ilk e); try (destruct (escrowOO e a d) as (d1, x) eqn:O; injection H as <- <-; eapply astep_OO; exact O).
      destruct (tincept e regk (c_tlocal cf)) as [tv|]; [|injection H as <- <-; apply astep_refl].
      destruct (valAnchorBigs _ _ _ _ _ _ _ _ _) as (d1, r1) eqn:V. apply vab_astep in V. destruct V as [V1 V2]. destruct r1 as [vs|x]; [|injection H as <- <-; exact V1].
      rewrite (V2 vs eq_refl) in H. injection H as <- <-. destruct a as [a|]; [|eapply astep_same; [apply astep_refl|reflexivity|reflexivity]].
      eapply astep_same; [apply (astep_log 0 e a vs (v_baks tv) d)|reflexivity|reflexivity].
  Qed.
  Lemma astep_anchors : forall d d', anchors d -> astep d d' -> anchors d'.
  Proof. intros d d' A [B C] p sn g H. destruct (C p sn g H) as [K|K]; [apply B, (A p sn g K)|exact K]. Qed.
  Lemma anchors_ext : forall d d', tels d' = tels d -> ancs d' = ancs d -> anchors d -> anchors d'.
  Proof. intros d d' A B C p sn g H. rewrite B. apply (C p sn g). unfold telAt in *. rewrite <- A. exact H. Qed.
  Lemma truns_anchors : forall h, anchors (truns E cf h tdb0).
  Proof.
    induction h as [|y h IH] using rev_ind; [intros p sn g; discriminate|]. rewrite truns_app. destruct y as [v e a bs|v|]; cbn [tdo].
    - destruct (tprocess E cf v e a bs (truns E cf h tdb0)) as (d', r) eqn:T. eapply astep_anchors; [exact IH|eapply tprocess_astep; exact T].
    - apply (tsweep_P E cf anchors v); [| | |exact IH].
      + intros d0 p g e a bs d' r B0 V T. eapply astep_anchors; [exact B0|eapply tprocess_astep; exact T].
      + intros d0 t B0. apply (anchors_ext d0); auto.
      + intros d0 t B0. apply (anchors_ext d0); auto.
    - apply (anchors_ext (truns E cf h tdb0)); auto.
  Qed.

  (** the kind of a registry is that of an inception that was delivered *)
  Record kinv (h : list tact) (d : tdb) : Prop := mkK {
    k_tev : forall k tv, tevers d k = Some tv -> exists r, delivered h r /\ t_ilk r = Vcp /\ t_pre r = k /\ v_nob tv = t_nob r;
    k_st : forall k s, tstates d k = Some s -> exists r, delivered h r /\ t_ilk r = Vcp /\ t_pre r = k /\ r_nob s = t_nob r;
    k_tvts : forall p g e, tvts d p g = Some e -> delivered h e }.
  Lemma kinv_get : forall h d k tv, kinv h d -> tget d k = Some tv -> exists r, delivered h r /\ t_ilk r = Vcp /\ t_pre r = k /\ v_nob tv = t_nob r.
  Proof.
    intros h d k tv K H. unfold tget in H. destruct (tevers d k) as [t|] eqn:T; [injection H as <-; apply (k_tev h d K k t T)|].
    destruct (tstates d k) as [s|] eqn:S; [|discriminate]. destruct (tvts d (r_i s) (r_d s)); [|discriminate]. injection H as <-. apply (k_st h d K k s S).
  Qed.
  Lemma kinv_more : forall h x d, kinv h d -> kinv (h ++ x) d.
  Proof.
    intros h x d [A B C]. constructor.
    - intros k tv H. destruct (A k tv H) as (r & R & Q). exists r. split; [apply delivered_app'; exact R|exact Q].
    - intros k s H. destruct (B k s H) as (r & R & Q). exists r. split; [apply delivered_app'; exact R|exact Q].
    - intros p g e H. apply delivered_app'. apply (C p g e H).
  Qed.
  Lemma tstep_k : forall h v e d d' r, kinv h d -> delivered h e -> tstep E cf v e d d' r -> kinv h d'.
  Proof.
    intros h v e d d' r K De [x (A & B & C & D & _) | tv T K1 S1 An Pr _ A B C D _ | tv toad bk T K1 Nb P S1 Pd An _ _ A B C D _ | tv T K1 TI An _ A B C D _].
    all: assert (V : forall p g e', tvts d' p g = Some e' -> delivered h e').
    1: { intros p g e' H. destruct D as [D|D]; rewrite D in H; [apply (k_tvts h d K _ _ _ H)|]. destruct (putTvt_get e d p g) as [Q|(_ & _ & _ & Q)]; rewrite Q in H; [apply (k_tvts h d K _ _ _ H)|congruence]. }
    2,4,6: intros p g e' H; rewrite D in H; destruct (putTvt_get e d p g) as [Q|(_ & _ & _ & Q)]; rewrite Q in H; [apply (k_tvts h d K _ _ _ H)|congruence].
    - constructor; [rewrite B; apply (k_tev h d K)|rewrite C; apply (k_st h d K)|exact V].
    - constructor; [rewrite B; apply (k_tev h d K)|rewrite C; apply (k_st h d K)|exact V].
    - constructor; [|rewrite C; apply (k_st h d K)|exact V]. intros k t H. rewrite B in H. unfold fset in H. destruct (k =? t_pre e) eqn:Bk; [|apply (k_tev h d K k t H)].
      apply N.eqb_eq in Bk. subst k. injection H as <-. cbn [v_nob]. apply (kinv_get h d _ tv K T).
    - destruct (tincept_ok _ _ _ _ TI) as [-> _]. constructor; [| |exact V].
      + intros k t H. rewrite B in H. unfold fset in H. destruct (k =? t_pre e) eqn:Bk; [|apply (k_tev h d K k t H)]. apply N.eqb_eq in Bk. subst k. injection H as <-. exists e. repeat split; auto.
      + intros k t H. rewrite C in H. unfold fset in H. destruct (k =? t_pre e) eqn:Bk; [|apply (k_st h d K k t H)]. apply N.eqb_eq in Bk. subst k. injection H as <-. exists e. repeat split; auto.
  Qed.
  Lemma kinv_ext : forall h d d', tvts d' = tvts d -> tstates d' = tstates d -> (tevers d' = tevers d \/ forall k, tevers d' k = None) -> kinv h d -> kinv h d'.
  Proof.
    intros h d d' A B C [K1 K2 K3]. constructor; [|rewrite B; exact K2|rewrite A; exact K3]. intros k tv H. destruct C as [C|C]; rewrite C in H; [apply K1; exact H|discriminate].
  Qed.
  Lemma truns_k : forall h, kinv h (truns E cf h tdb0).
  Proof.
    induction h as [|y h IH] using rev_ind; [constructor; intros; discriminate|]. rewrite truns_app. apply (kinv_more h [y]) in IH. destruct y as [v e a bs|v|]; cbn [tdo].
    - destruct (tprocess E cf v e a bs (truns E cf h tdb0)) as (d', r) eqn:T. apply tprocess_step in T. eapply tstep_k; [exact IH| |exact T].
      exists v, a, bs. apply in_or_app. right. left. reflexivity.
    - apply (tsweep_P E cf (kinv (h ++ [TSweep v])) v); [| | |exact IH].
      + intros d0 p g e a bs d' r B0 V T. apply tprocess_step in T. eapply tstep_k; [exact B0|apply (k_tvts _ _ B0 _ _ _ V)|exact T].
      + intros d0 t B0. apply (kinv_ext _ d0); auto.
      + intros d0 t B0. apply (kinv_ext _ d0); auto.
    - apply (kinv_ext _ (truns E cf h tdb0)); auto.
  Qed.
End A.
