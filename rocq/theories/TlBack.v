(** Backer signatures of logged registry and credential events. *)
From Verif Require Import Prelude B64Model MatterModel SubsModel ThModel ThProofs KelModel TlModel TlSpec TlProofs TlInv.
Open Scope N_scope.
Ltac Zify.zify_post_hook ::= Z.div_mod_to_equations.

Section B.
  Context (E : tenv) (cf : tconf) (H : list tact).
  Hypothesis One : oneEvent H.
  Hypothesis Self : selfNamed H.
  Hypothesis Rem : c_tlocal cf = false.

  Definition ebacked (e : tev) : Prop :=
    (t_ilk e = Vcp -> t_baks e <> [] -> ~ In (t_pre e) (t_baks e) -> wellBacked E e (t_toad e) (t_baks e))
    /\ (t_ilk e = Bis \/ t_ilk e = Brv -> forall r, delivered H r -> t_ilk r = Vcp -> t_ra e = (t_pre r, t_said r) ->
          t_baks r <> [] -> ~ In (t_pre r) (t_baks r) -> wellBacked E e (t_toad r) (t_baks r)).
  Record binv (d : tdb) : Prop := mkB {
    b_tvts : forall p g e, tvts d p g = Some e -> delivered H e /\ t_pre e = p /\ t_said e = g;
    b_baks : forall r, delivered H r -> t_ilk r = Vcp -> baks d (t_pre r) (t_said r) = [] \/ baks d (t_pre r) (t_said r) = t_baks r;
    b_known : forall r, delivered H r -> t_ilk r = Vcp -> tevers d (t_pre r) <> None \/ tstates d (t_pre r) <> None -> baks d (t_pre r) (t_said r) = t_baks r;
    b_tev : forall k tv, tevers d k = Some tv -> v_regk tv = k /\ v_local tv = false;
    b_st : forall k s, tstates d k = Some s -> r_i s = k;
    b_ent : forall p sn g e, telAt d p sn = Some g -> delivered H e -> t_pre e = p -> t_said e = g -> ebacked e }.

  Lemma binv_get : forall d k tv, binv d -> tget d k = Some tv -> v_regk tv = k /\ v_local tv = false /\ (tevers d k <> None \/ tstates d k <> None).
  Proof.
    intros d k tv B G. unfold tget in G. destruct (tevers d k) as [t|] eqn:T.
    - injection G as <-. destruct (b_tev d B k t T) as [A C]. repeat split; auto. left. discriminate.
    - destruct (tstates d k) as [s|] eqn:S; [|discriminate]. destruct (tvts d (r_i s) (r_d s)) as [e|]; [|discriminate]. injection G as <-. cbn. repeat split; [apply (b_st d B); exact S|]. right. discriminate.
  Qed.
  Lemma pin_get : forall e bk d p g, baks (pinBaks e bk d) p g = baks d p g \/ (p = t_pre e /\ g = t_said e /\ baks (pinBaks e bk d) p g = bk).
  Proof.
    intros e [|b bk] d p g; [left; reflexivity|]. cbn [pinBaks baks set_baks]. unfold set2. destruct ((p =? t_pre e) && (g =? t_said e)) eqn:B; [|left; reflexivity].
    apply andb_prop in B. destruct B as [B1 B2]. apply N.eqb_eq in B1, B2. right. repeat split; assumption.
  Qed.
  Lemma pin_self : forall e bk d, baks d (t_pre e) (t_said e) = [] \/ baks d (t_pre e) (t_said e) = bk -> baks (pinBaks e bk d) (t_pre e) (t_said e) = bk.
  Proof.
    intros e [|b bk] d [K|K]; try exact K; cbn [pinBaks baks set_baks]; unfold set2; rewrite !N.eqb_refl; reflexivity.
  Qed.
  Lemma pinned_ok : forall e d d', binv d -> delivered H e -> pinned e d d' -> forall r, delivered H r -> t_ilk r = Vcp ->
    baks d' (t_pre r) (t_said r) = baks d (t_pre r) (t_said r) \/ baks d' (t_pre r) (t_said r) = t_baks r.
  Proof.
    intros e d d' B De [P|(bk & P & Q)] r Dr Kr; rewrite P; [left; reflexivity|]. destruct (pin_get e bk d (t_pre r) (t_said r)) as [K|(K1 & K2 & K3)]; [left; exact K|].
    right. rewrite K3. assert (X : r = e) by (apply One; assumption). subst r. apply Q. exact Kr.
  Qed.
  Lemma put_ok : forall e d d', binv d -> delivered H e -> tvts d' = tvts (putTvt e d) -> forall p g e', tvts d' p g = Some e' -> delivered H e' /\ t_pre e' = p /\ t_said e' = g.
  Proof.
    intros e d d' B De Hp p g e' G. rewrite Hp in G. destruct (putTvt_get e d p g) as [K|(K1 & K2 & K3 & K4)].
    - rewrite K in G. apply (b_tvts d B). exact G.
    - rewrite K4 in G. injection G as <-. subst. repeat split. exact De.
  Qed.
  Lemma memN_In : forall x l, memN x l = true <-> In x l.
  Proof.
    intros x l. unfold memN. rewrite existsb_exists. split; [intros (y & J & K); apply N.eqb_eq in K; subst; exact J|intros J; exists x; split; [exact J|apply N.eqb_refl]].
  Qed.

  Lemma tstep_b : forall v e d d' r, binv d -> delivered H e -> tstep E cf v e d d' r -> binv d'.
  Proof.
    intros v e d d' rr B De [x (A & Bt & C & D & P) | tv T K S1 An Pr Bk A Bt C D P | tv toad bk T K Nb Pe S1 Pd An Ro Bk A Bt C D P | tv T K TI An Bk A Bt C D P].
    - constructor.
      + destruct D as [D|D]; [rewrite D; apply (b_tvts d B)|apply (put_ok e d d' B De D)].
      + intros r Dr Kr. destruct (pinned_ok e d d' B De P r Dr Kr) as [X|X]; rewrite X; [apply (b_baks d B); assumption|right; reflexivity].
      + intros r Dr Kr Kn. rewrite Bt, C in Kn. destruct (pinned_ok e d d' B De P r Dr Kr) as [X|X]; rewrite X; [apply (b_known d B); assumption|reflexivity].
      + rewrite Bt. apply (b_tev d B).
      + rewrite C. apply (b_st d B).
      + intros p sn g e' J. rewrite (telAt_tels d d' p sn A) in J. apply (b_ent d B _ _ _ _ J).
    - destruct (binv_get d _ tv B T) as (G1 & G2 & G3). constructor.
      + apply (put_ok e d d' B De D).
      + intros r Dr Kr. rewrite P. apply (b_baks d B); assumption.
      + intros r Dr Kr Kn. rewrite Bt, C in Kn. rewrite P. apply (b_known d B); assumption.
      + rewrite Bt. apply (b_tev d B).
      + rewrite C. apply (b_st d B).
      + intros p sn g e' J De' P1 P2. rewrite (telAt_tels _ d' p sn A) in J. apply put_at in J. destruct J as [J|(-> & -> & ->)]; [apply (b_ent d B _ _ _ _ J De' P1 P2)|].
        assert (X : e' = e) by (apply One; assumption). subst e'. split; [intros X; rewrite X in K; destruct K as [K|[K|[K|K]]]; discriminate|].
        intros Kb r Dr Kr Ra Nn Ni. destruct (Bk Kb) as (toad & bk & Gb & Bb). unfold getBackerState in Gb. destruct (fst (t_ra e) =? v_regk tv) eqn:Fr; [|discriminate]. cbn [negb] in Gb.
        rewrite Ra in *. cbn [fst snd] in *. apply N.eqb_eq in Fr. destruct (tvts d (t_pre r) (t_said r)) as [r'|] eqn:Tr; [|discriminate].
        destruct (b_tvts d B _ _ _ Tr) as (R1 & R2 & R3). assert (X : r' = r) by (apply One; assumption). subst r'. rewrite Kr in Gb. injection Gb as <- <-.
        assert (Bq : baks d (t_pre r) (t_said r) = t_baks r).
        { apply (b_known d B); auto. rewrite Fr, G1. exact G3. }
        rewrite Bq in Bb. destruct Bb as [Bb|[Bb|[Bb|Bb]]]; [contradiction|congruence| |exact Bb]. exfalso. apply Ni. rewrite Fr. apply memN_In. exact Bb.
    - destruct (binv_get d _ tv B T) as (G1 & G2 & G3).
      assert (Pp : pinned e d d') by (right; exists bk; split; [exact P|rewrite K; discriminate]). constructor.
      + apply (put_ok e d d' B De D).
      + intros r Dr Kr. destruct (pinned_ok e d d' B De Pp r Dr Kr) as [X|X]; rewrite X; [apply (b_baks d B); assumption|right; reflexivity].
      + intros r Dr Kr Kn. destruct (pinned_ok e d d' B De Pp r Dr Kr) as [X|X]; rewrite X; [|reflexivity]. apply (b_known d B); auto.
        rewrite Bt, C in Kn. unfold fset in Kn. destruct (t_pre r =? t_pre e) eqn:Bp; [|exact Kn]. apply N.eqb_eq in Bp. rewrite Bp. exact G3.
      + intros k tv' J. rewrite Bt in J. unfold fset in J. destruct (k =? t_pre e) eqn:Bp; [|apply (b_tev d B); exact J]. apply N.eqb_eq in Bp. injection J as <-. cbn. subst k. split; assumption.
      + rewrite C. apply (b_st d B).
      + intros p sn g e' J De' P1 P2. rewrite (telAt_tels _ d' p sn A) in J. apply put_at in J. destruct J as [J|(-> & -> & ->)]; [apply (b_ent d B _ _ _ _ J De' P1 P2)|].
        assert (X : e' = e) by (apply One; assumption). subst e'. split; [intros X; congruence|intros [X|X]; congruence].
    - destruct (tincept_ok _ _ _ _ TI) as [-> S0].
      assert (Pp : pinned e d d') by (right; exists (t_baks e); split; [exact P|reflexivity]).
      assert (Uq : forall r, delivered H r -> t_ilk r = Vcp -> t_pre r = t_pre e -> r = e).
      { intros r Dr Kr Pr. apply One; auto. rewrite <- (Self r Dr Kr), <- (Self e De K). exact Pr. }
      constructor.
      + apply (put_ok e d d' B De D).
      + intros r Dr Kr. destruct (pinned_ok e d d' B De Pp r Dr Kr) as [X|X]; rewrite X; [apply (b_baks d B); assumption|right; reflexivity].
      + intros r Dr Kr Kn. rewrite Bt, C in Kn. unfold fset in Kn. destruct (t_pre r =? t_pre e) eqn:Bp.
        * apply N.eqb_eq in Bp. pose proof (Uq r Dr Kr Bp). subst r. rewrite P. apply pin_self. apply (b_baks d B); assumption.
        * destruct (pinned_ok e d d' B De Pp r Dr Kr) as [X|X]; rewrite X; [|reflexivity]. apply (b_known d B); auto.
      + intros k tv' J. rewrite Bt in J. unfold fset in J. destruct (k =? t_pre e) eqn:Bp; [|apply (b_tev d B); exact J]. apply N.eqb_eq in Bp. injection J as <-. cbn. subst k. split; [reflexivity|exact Rem].
      + intros k s J. rewrite C in J. unfold fset in J. destruct (k =? t_pre e) eqn:Bp; [|apply (b_st d B); exact J]. apply N.eqb_eq in Bp. injection J as <-. symmetry. exact Bp.
      + intros p sn g e' J De' P1 P2. rewrite (telAt_tels _ d' p sn A) in J. apply put_at in J. destruct J as [J|(-> & -> & ->)]; [apply (b_ent d B _ _ _ _ J De' P1 P2)|].
        assert (X : e' = e) by (apply One; assumption). subst e'. split; [|intros [X|X]; congruence]. intros _ Nn Ni. unfold backing in Bk. cbn [v_local v_regk] in Bk.
        destruct Bk as [Bk|[Bk|[Bk|Bk]]]; [contradiction|congruence| |exact Bk]. exfalso. apply Ni. apply memN_In. exact Bk.
  Qed.

  Lemma binv_ext : forall d d', tvts d' = tvts d -> tels d' = tels d -> tstates d' = tstates d -> baks d' = baks d ->
    (tevers d' = tevers d \/ forall k, tevers d' k = None) -> binv d -> binv d'.
  Proof.
    intros d d' A Bt C P T B. constructor.
    - rewrite A. apply (b_tvts d B).
    - rewrite P. apply (b_baks d B).
    - intros r Dr Kr Kn. rewrite P. apply (b_known d B); auto. rewrite C in Kn. destruct T as [T|T]; [rewrite T in Kn; exact Kn|rewrite T in Kn]. destruct Kn as [Kn|Kn]; [congruence|right; exact Kn].
    - intros k tv J. destruct T as [T|T]; rewrite T in J; [apply (b_tev d B); exact J|discriminate].
    - rewrite C. apply (b_st d B).
    - intros p sn g e J. rewrite (telAt_tels d d' p sn Bt) in J. apply (b_ent d B _ _ _ _ J).
  Qed.
  Lemma truns_b : forall h x, H = h ++ x -> binv (truns E cf h tdb0).
  Proof.
    induction h as [|y h IH] using rev_ind; intros x Hx.
    - constructor; try (intros; discriminate); intros; try (left; reflexivity). destruct H2 as [J|J]; exfalso; apply J; reflexivity.
    - assert (B : binv (truns E cf h tdb0)) by (apply (IH ([y] ++ x)); rewrite app_assoc; exact Hx). rewrite truns_app. destruct y as [v e a bs|v|]; cbn [tdo].
      + destruct (tprocess E cf v e a bs (truns E cf h tdb0)) as (d', r) eqn:T. apply tprocess_step in T. eapply tstep_b; [exact B| |exact T].
        exists v, a, bs. rewrite Hx, <- app_assoc. apply in_or_app. right. left. reflexivity.
      + apply (tsweep_P E cf binv v); [| | |exact B].
        * intros d0 p g e a bs d' r B0 V T. apply tprocess_step in T. eapply tstep_b; [exact B0| |exact T]. apply (b_tvts d0 B0 _ _ _ V).
        * intros d0 t B0. apply (binv_ext d0); auto.
        * intros d0 t B0. apply (binv_ext d0); auto.
      + apply (binv_ext (truns E cf h tdb0)); auto.
  Qed.
  Lemma logged_backed : forall p sn g e, telAt (truns E cf H tdb0) p sn = Some g -> delivered H e -> t_pre e = p -> t_said e = g -> ebacked e.
  Proof. intros p sn g e J D P G. eapply b_ent; try eassumption. apply (truns_b H []). symmetry. apply app_nil_r. Qed.
End B.
