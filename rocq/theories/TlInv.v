(** Invariant of transaction event logs over whole histories. *)
From Verif Require Import Prelude B64Model MatterModel SubsModel ThModel ThProofs KelModel TlModel TlSpec TlProofs.
Open Scope N_scope.
Ltac Zify.zify_post_hook ::= Z.div_mod_to_equations.

Section I.
  Context (E : tenv) (cf : tconf).

  (** what is known of the event behind a log entry *)
  Definition entryOk (h : list tact) (d : tdb) (p sn g : N) : Prop :=
    exists e ii, delivered h e /\ t_pre e = p /\ t_sn e = sn /\ t_said e = g /\ t_ilk e <> OtherT
      /\ controls h (registryOf e) ii /\ anchoredIn h ii e
      /\ (sn = 0 <-> t_ilk e = Vcp \/ t_ilk e = Iss \/ t_ilk e = Bis)
      /\ (t_ilk e = Rev \/ t_ilk e = Brv -> telAt d p (sn - 1) = Some (t_prior e)).
  Definition headOk (h : list tact) (d : tdb) (regk ii sn said : N) : Prop :=
    controls h regk ii /\ sn + 1 <= len (tels d regk)
    /\ exists e, delivered h e /\ t_pre e = regk /\ t_sn e = sn /\ t_said e = said /\ (t_ilk e = Vcp \/ t_ilk e = Vrt) /\ anchoredIn h ii e.
  Record tinv (h : list tact) (d : tdb) : Prop := mkInv {
    i_tvts : forall p g e, tvts d p g = Some e -> delivered h e /\ t_pre e = p /\ t_said e = g;
    i_num : wellNumbered d;
    i_ent : forall p sn g, telAt d p sn = Some g -> entryOk h d p sn g;
    i_tev : forall k tv, tevers d k = Some tv -> v_regk tv = k /\ headOk h d k (v_ii tv) (v_sn tv) (v_said tv);
    i_st : forall k s, tstates d k = Some s -> r_i s = k /\ headOk h d k (r_ii s) (r_s s) (r_d s) }.

  Lemma tinv_get : forall h d k tv, tinv h d -> tget d k = Some tv -> v_regk tv = k /\ headOk h d k (v_ii tv) (v_sn tv) (v_said tv).
  Proof.
    intros h d k tv I H. unfold tget in H. destruct (tevers d k) as [t|] eqn:T.
    - injection H as <-. apply (i_tev h d I). exact T.
    - destruct (tstates d k) as [s|] eqn:Q; [|discriminate]. destruct (tvts d (r_i s) (r_d s)) as [e|] eqn:V; [|discriminate]. injection H as <-. cbn [v_regk v_ii v_sn v_said].
      destruct (i_st h d I k s Q) as [A B]. destruct (i_tvts h d I _ _ _ V) as (_ & _ & G). rewrite G. split; assumption.
  Qed.

  (** preservation of the pieces *)
  Lemma entryOk_mono : forall h x d d' p sn g, (forall p sn g, telAt d p sn = Some g -> telAt d' p sn = Some g) -> entryOk h d p sn g -> entryOk (h ++ x) d' p sn g.
  Proof.
    intros h x d d' p sn g M (e & ii & A1 & A2 & A3 & A4 & A5 & A6 & A7 & A8 & A9). revert d M A9. induction x as [|y x IH] using rev_ind; intros d M A9.
    - rewrite app_nil_r. exists e, ii. repeat (split; [assumption|]). intros J. apply M, A9, J.
    - destruct (IH d M A9) as (e' & ii' & B1 & B2 & B3 & B4 & B5 & B6 & B7 & B8 & B9). rewrite app_assoc. exists e', ii'.
      split; [apply delivered_app; exact B1|]. repeat (split; [assumption|]). split; [apply controls_app; exact B6|]. split; [apply anchoredIn_app; exact B7|]. split; assumption.
  Qed.
  Lemma delivered_app' : forall x h e, delivered h e -> delivered (h ++ x) e.
  Proof. induction x as [|y x IH] using rev_ind; intros h e H; [rewrite app_nil_r; exact H|]. rewrite app_assoc. apply delivered_app, IH, H. Qed.
  Lemma anchoredIn_app' : forall x h ii e, anchoredIn h ii e -> anchoredIn (h ++ x) ii e.
  Proof. induction x as [|y x IH] using rev_ind; intros h ii e H; [rewrite app_nil_r; exact H|]. rewrite app_assoc. apply anchoredIn_app, IH, H. Qed.
  Lemma controls_app' : forall x h k ii, controls h k ii -> controls (h ++ x) k ii.
  Proof. induction x as [|y x IH] using rev_ind; intros h k ii H; [rewrite app_nil_r; exact H|]. rewrite app_assoc. apply controls_app, IH, H. Qed.
  Lemma headOk_mono : forall h x d d' k ii sn said, len (tels d k) <= len (tels d' k) -> headOk h d k ii sn said -> headOk (h ++ x) d' k ii sn said.
  Proof.
    intros h x d d' k ii sn said L (A & B & e & C1 & C2 & C3 & C4 & C5 & C6). split; [apply controls_app'; exact A|]. split; [lia|].
    exists e. split; [apply delivered_app'; exact C1|]. repeat (split; [assumption|]). apply anchoredIn_app'. exact C6.
  Qed.
  Lemma tinv_more : forall h x d, tinv h d -> tinv (h ++ x) d.
  Proof.
    intros h x d [A B C D F]. constructor.
    - intros p g e H. destruct (A p g e H) as (A1 & A2 & A3). split; [apply delivered_app'; exact A1|split; assumption].
    - exact B.
    - intros p sn g H. apply (entryOk_mono h x d d); [auto|]. apply C. exact H.
    - intros k tv H. destruct (D k tv H) as [D1 D2]. split; [exact D1|]. apply (headOk_mono h x d d); [lia|exact D2].
    - intros k s H. destruct (F k s H) as [D1 D2]. split; [exact D1|]. apply (headOk_mono h x d d); [lia|exact D2].
  Qed.

  Lemma headOk_same : forall h d d' k ii sn said, len (tels d k) <= len (tels d' k) -> headOk h d k ii sn said -> headOk h d' k ii sn said.
  Proof. intros h d d' k ii sn said L H. rewrite <- (app_nil_r h). apply (headOk_mono h [] d d'); assumption. Qed.
  Lemma entryOk_same : forall h d d' p sn g, (forall p sn g, telAt d p sn = Some g -> telAt d' p sn = Some g) -> entryOk h d p sn g -> entryOk h d' p sn g.
  Proof. intros h d d' p sn g L H. rewrite <- (app_nil_r h). apply (entryOk_mono h [] d d'); assumption. Qed.

  Lemma telAt_tels : forall d d' p sn, tels d' = tels d -> telAt d' p sn = telAt d p sn.
  Proof. intros d d' p sn H. unfold telAt. rewrite H. reflexivity. Qed.

  Lemma putTvt_inv : forall h e d d', tinv h d -> delivered h e -> tvts d' = tvts (putTvt e d) ->
    forall p g e', tvts d' p g = Some e' -> delivered h e' /\ t_pre e' = p /\ t_said e' = g.
  Proof.
    intros h e d d' I De H p g e' G. rewrite H in G. destruct (putTvt_get e d p g) as [K|(K1 & K2 & K3 & K4)].
    - rewrite K in G. apply (i_tvts h d I). exact G.
    - rewrite K4 in G. injection G as <-. subst. repeat split. exact De.
  Qed.
  Lemma quiet_inv : forall h e d d', tinv h d -> delivered h e -> quiet e d d' -> tinv h d'.
  Proof.
    intros h e d d' I De (A & B & C & D & _). constructor.
    - destruct D as [D|D]; [rewrite D; apply (i_tvts h d I)|]. apply (putTvt_inv h e d d' I De D).
    - intros p. rewrite A. apply (i_num h d I).
    - intros p sn g H. rewrite (telAt_tels d d' p sn A) in H. apply (entryOk_same h d d'); [|apply (i_ent h d I); exact H]. intros. rewrite (telAt_tels d d' _ _ A). assumption.
    - intros k tv H. rewrite B in H. destruct (i_tev h d I k tv H) as [D1 D2]. split; [exact D1|]. apply (headOk_same h d d'); [rewrite A; lia|exact D2].
    - intros k tv H. rewrite C in H. destruct (i_st h d I k tv H) as [D1 D2]. split; [exact D1|]. apply (headOk_same h d d'); [rewrite A; lia|exact D2].
  Qed.

  (** the log after one put *)
  Lemma put_len : forall p sn g d k, len (tels d k) <= len (tels (telPut p sn g d) k).
  Proof.
    intros p sn g d k. rewrite telPut_get. destruct (k =? p) eqn:B; [|lia]. apply N.eqb_eq in B. subst. destruct (telAt d p sn); [lia|]. rewrite len_app1. lia.
  Qed.
  Lemma put_num : forall p sn g d, wellNumbered d -> sn <= len (tels d p) -> wellNumbered (telPut p sn g d).
  Proof.
    intros p sn g d W L k. rewrite telPut_get. destruct (k =? p) eqn:B; [|apply W]. destruct (telAt d p sn) eqn:T; [apply W|]. apply (telAt_none d p sn W) in T.
    replace sn with (0 + len (tels d p)) by lia. apply numbered_app. apply W.
  Qed.
  Lemma put_at : forall p sn g d q s y, telAt (telPut p sn g d) q s = Some y -> telAt d q s = Some y \/ (q = p /\ s = sn /\ y = g).
  Proof.
    intros p sn g d q s y H. unfold telAt in H. rewrite telPut_get in H. destruct (q =? p) eqn:B; [|left; exact H]. apply N.eqb_eq in B. subst q.
    destruct (telAt d p sn) eqn:T; [left; exact H|]. unfold telAt. destruct (find (fun r => fst r =? s) (tels d p)) as [r|] eqn:F.
    - rewrite (find_app_l _ _ _ _ F) in H. left. exact H.
    - rewrite (find_app_none _ _ _ F) in H. cbn [find fst] in H. destruct (sn =? s) eqn:B; [|discriminate]. apply N.eqb_eq in B. injection H as <-. right. repeat split. symmetry. exact B.
  Qed.
  Lemma put_keep : forall p sn g d q s y, telAt d q s = Some y -> telAt (telPut p sn g d) q s = Some y.
  Proof.
    intros p sn g d q s y H. unfold telAt in *. rewrite telPut_get. destruct (q =? p) eqn:B; [|exact H]. apply N.eqb_eq in B. subst q. destruct (telAt d p sn); [exact H|].
    destruct (find (fun r => fst r =? s) (tels d p)) as [r|] eqn:F; [|discriminate]. rewrite (find_app_l _ _ _ _ F). exact H.
  Qed.
  Lemma put_grows : forall p sn g d, wellNumbered d -> sn <= len (tels d p) -> sn + 1 <= len (tels (telPut p sn g d) p).
  Proof.
    intros p sn g d W L. rewrite telPut_get, N.eqb_refl. destruct (telAt d p sn) eqn:T; [apply (telAt_some d p sn _ W) in T; lia|]. rewrite len_app1. lia.
  Qed.

  Lemma tstep_inv : forall h v e d d' r, tinv h d -> delivered h e -> viewIn h v -> snOk e = true -> tstep E cf v e d d' r -> tinv h d'.
  Proof.
    intros h v e d d' r I De Vi Sn [x Q | tv T K S1 An Pr _ A B C D _ | tv toad bk T K Nb P S1 Pd An _ _ A B C D _ | tv T K TI An _ A B C D _].
    - apply (quiet_inv h e d d' I De Q).
    - destruct (tinv_get h d _ tv I T) as [R1 (R2 & R3 & R4)].
      assert (Aa : forall q s, telAt d' q s = telAt (telPut (t_pre e) (t_sn e) (t_said e) d) q s) by (intros; apply telAt_tels; exact A).
      assert (Kp : forall q s y, telAt d q s = Some y -> telAt d' q s = Some y) by (intros; rewrite Aa; apply put_keep; assumption).
      assert (Ln : forall k, len (tels d k) <= len (tels d' k)) by (intros; rewrite A; apply put_len).
      constructor.
      + apply (putTvt_inv h e d d' I De D).
      + intros p. rewrite A. apply put_num; [apply (i_num h d I)|lia].
      + intros p sn g H. rewrite Aa in H. apply put_at in H. destruct H as [H|(-> & -> & ->)].
        * apply (entryOk_same h d d' _ _ _ Kp). apply (i_ent h d I). exact H.
        * exists e, (v_ii tv). split; [exact De|]. split; [reflexivity|]. split; [reflexivity|]. split; [reflexivity|].
          split; [destruct K as [K|[K|[K|K]]]; rewrite K; discriminate|]. split; [exact R2|]. split; [exists v; split; assumption|]. split.
          { unfold snOk in Sn. apply andb_prop in Sn. destruct Sn as [_ Sn]. destruct K as [K|[K|[K|K]]]; rewrite K in *; (apply N.eqb_eq in Sn || apply N.leb_le in Sn); split; intros J; try lia; auto; destruct J as [J|[J|J]]; discriminate. }
          { intros J. destruct (Pr J) as (dig & ie & P1 & P2 & P3). apply Kp. destruct (i_tvts h d I _ _ _ P2) as (_ & _ & G). rewrite <- P3, G. exact P1. }
      + intros k tv' H. rewrite B in H. destruct (i_tev h d I k tv' H) as [D1 D2]. split; [exact D1|]. apply (headOk_same h d d'); [apply Ln|exact D2].
      + intros k s H. rewrite C in H. destruct (i_st h d I k s H) as [D1 D2]. split; [exact D1|]. apply (headOk_same h d d'); [apply Ln|exact D2].
    - destruct (tinv_get h d _ tv I T) as [R1 (R2 & R3 & R4)].
      assert (Aa : forall q s, telAt d' q s = telAt (telPut (t_pre e) (t_sn e) (t_said e) d) q s) by (intros; apply telAt_tels; exact A).
      assert (Kp : forall q s y, telAt d q s = Some y -> telAt d' q s = Some y) by (intros; rewrite Aa; apply put_keep; assumption).
      assert (Ln : forall k, len (tels d k) <= len (tels d' k)) by (intros; rewrite A; apply put_len).
      assert (Re : registryOf e = t_pre e) by (unfold registryOf; rewrite K; reflexivity).
      constructor.
      + apply (putTvt_inv h e d d' I De D).
      + intros p. rewrite A. apply put_num; [apply (i_num h d I)|lia].
      + intros p sn g H. rewrite Aa in H. apply put_at in H. destruct H as [H|(-> & -> & ->)].
        * apply (entryOk_same h d d' _ _ _ Kp). apply (i_ent h d I). exact H.
        * exists e, (v_ii tv). split; [exact De|]. split; [reflexivity|]. split; [reflexivity|]. split; [reflexivity|].
          split; [rewrite K; discriminate|]. split; [rewrite Re; exact R2|]. split; [exists v; split; assumption|]. rewrite K. split; [split; [lia|intros [J|[J|J]]; discriminate]|intros [J|J]; discriminate].
      + intros k tv' H. rewrite B in H. unfold fset in H. destruct (k =? t_pre e) eqn:Bk.
        * apply N.eqb_eq in Bk. subst k. injection H as <-. cbn [v_regk v_ii v_sn v_said]. split; [exact R1|]. split; [exact R2|]. split.
          { rewrite A. apply put_grows; [apply (i_num h d I)|lia]. }
          exists e. repeat split; auto. exists v. split; assumption.
        * destruct (i_tev h d I k tv' H) as [D1 D2]. split; [exact D1|]. apply (headOk_same h d d'); [apply Ln|exact D2].
      + intros k s H. rewrite C in H. destruct (i_st h d I k s H) as [D1 D2]. split; [exact D1|]. apply (headOk_same h d d'); [apply Ln|exact D2].
    - destruct (tincept_ok _ _ _ _ TI) as [-> S0].
      assert (Aa : forall q s, telAt d' q s = telAt (telPut (t_pre e) 0 (t_said e) d) q s) by (intros; apply telAt_tels; exact A).
      assert (Kp : forall q s y, telAt d q s = Some y -> telAt d' q s = Some y) by (intros; rewrite Aa; apply put_keep; assumption).
      assert (Ln : forall k, len (tels d k) <= len (tels d' k)) by (intros; rewrite A; apply put_len).
      assert (Re : registryOf e = t_pre e) by (unfold registryOf; rewrite K; reflexivity).
      assert (Co : controls h (t_pre e) (t_ii e)) by (exists e; repeat split; auto; exists v; split; assumption).
      assert (Hd : headOk h d' (t_pre e) (t_ii e) 0 (t_said e)).
      { split; [exact Co|]. split; [rewrite A; apply put_grows; [apply (i_num h d I)|lia]|]. exists e. repeat split; auto. exists v. split; assumption. }
      constructor.
      + apply (putTvt_inv h e d d' I De D).
      + intros p. rewrite A. apply put_num; [apply (i_num h d I)|lia].
      + intros p sn g H. rewrite Aa in H. apply put_at in H. destruct H as [H|(-> & -> & ->)].
        * apply (entryOk_same h d d' _ _ _ Kp). apply (i_ent h d I). exact H.
        * exists e, (t_ii e). split; [exact De|]. split; [reflexivity|]. split; [exact S0|]. split; [reflexivity|].
          split; [rewrite K; discriminate|]. split; [rewrite Re; exact Co|]. split; [exists v; split; assumption|]. rewrite K. split; [split; [auto|reflexivity]|intros [J|J]; discriminate].
      + intros k tv' H. rewrite B in H. unfold fset in H. destruct (k =? t_pre e) eqn:Bk.
        * apply N.eqb_eq in Bk. subst k. injection H as <-. split; [reflexivity|exact Hd].
        * destruct (i_tev h d I k tv' H) as [D1 D2]. split; [exact D1|]. apply (headOk_same h d d'); [apply Ln|exact D2].
      + intros k s H. rewrite C in H. unfold fset in H. destruct (k =? t_pre e) eqn:Bk.
        * apply N.eqb_eq in Bk. subst k. injection H as <-. split; [reflexivity|exact Hd].
        * destruct (i_st h d I k s H) as [D1 D2]. split; [exact D1|]. apply (headOk_same h d d'); [apply Ln|exact D2].
  Qed.

  Lemma tprocess_sn : forall v e a bs d d' r, tprocess E cf v e a bs d = (d', r) -> d' = d \/ snOk e = true.
  Proof.
    intros v e a bs d d' r H. unfold tprocess in H. destruct (negb (goodPre E (t_pre e))); [injection H as <- _; left; reflexivity|].
    destruct (registryKey e); [|injection H as <- _; left; reflexivity]. destruct (snOk e); [right; reflexivity|]. injection H as <- _. left. reflexivity.
  Qed.
  Lemma process_inv : forall h v e a bs d d' r, tinv h d -> delivered h e -> viewIn h v -> tprocess E cf v e a bs d = (d', r) -> tinv h d'.
  Proof.
    intros h v e a bs d d' r I De Vi H. destruct (tprocess_sn _ _ _ _ _ _ _ H) as [-> |S1]; [exact I|]. eapply tstep_inv; try eassumption. eapply tprocess_step. exact H.
  Qed.

  (** removing escrow entries or forgetting memory keeps the invariant *)
  Lemma tinv_ext : forall h d d', tvts d' = tvts d -> tels d' = tels d -> tstates d' = tstates d ->
    (forall k tv, tevers d' k = Some tv -> tevers d k = Some tv) -> tinv h d -> tinv h d'.
  Proof.
    intros h d d' A B C D I. constructor.
    - rewrite A. apply (i_tvts h d I).
    - intros p. rewrite B. apply (i_num h d I).
    - intros p sn g H. rewrite (telAt_tels d d' p sn B) in H. apply (entryOk_same h d d'); [|apply (i_ent h d I); exact H]. intros. rewrite (telAt_tels d d' _ _ B). assumption.
    - intros k tv H. destruct (i_tev h d I k tv (D k tv H)) as [D1 D2]. split; [exact D1|]. apply (headOk_same h d d'); [rewrite B; lia|exact D2].
    - intros k tv H. rewrite C in H. destruct (i_st h d I k tv H) as [D1 D2]. split; [exact D1|]. apply (headOk_same h d d'); [rewrite B; lia|exact D2].
  Qed.

  (** A property of databases kept by processing stored events and by dropping escrow entries is
      kept by a sweep. *)
  Section Sweep.
    Context (P : tdb -> Prop) (v : kelview).
    Hypothesis Pp : forall d p g e a bs d' r, P d -> tvts d p g = Some e -> tprocess E cf v e a bs d = (d', r) -> P d'.
    Hypothesis Po : forall d t, P d -> P (set_oots t d).
    Hypothesis Pa : forall d t, P d -> P (set_taes t d).
    Lemma sweepOO1_P : forall r d, P d -> P (sweepOO1 E cf v r d).
    Proof.
      intros ((p, s), g) d H. unfold sweepOO1. destruct (tvts d p g) as [e|] eqn:V; [|apply Po; exact H]. destruct (ancs d p g) as [a|]; [|apply Po; exact H].
      destruct (tprocess E cf v e (Some a) (tibs d p g) d) as (d', r) eqn:T. assert (H' : P d') by (eapply Pp; eassumption). destruct r as [u|[]]; try (apply Po; exact H'); exact H'.
    Qed.
    Lemma sweepAL1_P : forall r d, P d -> P (sweepAL1 E cf v r d).
    Proof.
      intros ((p, s), g) d H. unfold sweepAL1. destruct (tvts d p g) as [e|] eqn:V; [|apply Pa; exact H]. destruct (ancs d p g) as [a|]; [|exact H].
      destruct (tprocess E cf v e (Some a) (tibs d p g) d) as (d', r) eqn:T. assert (H' : P d') by (eapply Pp; eassumption). destruct r as [u|[]]; try (apply Pa; exact H'); exact H'.
    Qed.
    Lemma tsweep_P : forall d, P d -> P (tsweep E cf v d).
    Proof.
      assert (F : forall (f : N * N * N -> tdb -> tdb) l d, (forall r d, P d -> P (f r d)) -> P d -> P (fold_left (fun d r => f r d) l d)).
      { intros f l. induction l as [|r l IH]; intros d Pf H; [exact H|]. cbn [fold_left]. apply IH; [exact Pf|]. apply Pf. exact H. }
      intros d H. unfold tsweep, sweepOO, sweepAL. apply (F (sweepOO1 E cf v)); [apply sweepOO1_P|]. apply (F (sweepAL1 E cf v)); [apply sweepAL1_P|exact H].
    Qed.
  End Sweep.

  Lemma tinv0 : tinv [] tdb0.
  Proof.
    constructor; try (intros; discriminate). intros p. exact Logic.I.
  Qed.
  Lemma tdo_inv : forall h d x, tinv h d -> tinv (h ++ [x]) (tdo E cf d x).
  Proof.
    intros h d x I. apply (tinv_more h [x]) in I. destruct x as [v e a bs|v|]; cbn [tdo].
    - destruct (tprocess E cf v e a bs d) as (d', r) eqn:T. cbn [fst]. eapply process_inv; [exact I| | |exact T].
      + exists v, a, bs. apply in_or_app. right. left. reflexivity.
      + left. exists e, a, bs. apply in_or_app. right. left. reflexivity.
    - apply (tsweep_P (tinv (h ++ [TSweep v])) v); [| | |exact I].
      + intros d0 p g e a bs d' r I0 V T. eapply process_inv; [exact I0| | |exact T].
        * apply (i_tvts _ _ I0 _ _ _ V).
        * right. apply in_or_app. right. left. reflexivity.
      + intros d0 t I0. apply (tinv_ext _ d0); auto.
      + intros d0 t I0. apply (tinv_ext _ d0); auto.
    - apply (tinv_ext _ d); auto. intros k tv H. discriminate.
  Qed.
  Lemma truns_inv : forall h, tinv h (truns E cf h tdb0).
  Proof.
    induction h as [|x h IH] using rev_ind; [exact tinv0|]. rewrite truns_app. apply tdo_inv. exact IH.
  Qed.

  (** logs only grow *)
  Definition ext (d d' : tdb) : Prop := forall p, exists l, tels d' p = tels d p ++ l.
  Lemma ext_refl : forall d, ext d d.
  Proof. intros d p. exists []. symmetry. apply app_nil_r. Qed.
  Lemma ext_trans : forall a b c, ext a b -> ext b c -> ext a c.
  Proof. intros a b c H K p. destruct (H p) as (l & A). destruct (K p) as (l' & B). exists (l ++ l'). rewrite B, A, app_assoc. reflexivity. Qed.
  Lemma ext_put : forall p sn g d, ext d (telPut p sn g d).
  Proof.
    intros p sn g d k. rewrite telPut_get. destruct (k =? p) eqn:B; [|exists []; symmetry; apply app_nil_r]. apply N.eqb_eq in B. subst.
    destruct (telAt d p sn); [exists []; symmetry; apply app_nil_r|eexists; reflexivity].
  Qed.
  Lemma ext_tels : forall d d' d0, tels d' = tels d0 -> ext d d0 -> ext d d'.
  Proof. intros d d' d0 H K p. rewrite H. apply K. Qed.
  Lemma process_ext : forall v e a bs d d' r, tprocess E cf v e a bs d = (d', r) -> ext d d'.
  Proof.
    intros v e a bs d d' r H. apply tprocess_step in H. destruct H as [x Q | tv T K S1 An Pr _ A B C D _ | tv toad bk T K Nb P S1 Pd An _ _ A B C D _ | tv T K TI An _ A B C D _].
    - apply (ext_tels d d' d); [apply Q|apply ext_refl].
    - eapply ext_tels; [exact A|apply ext_put].
    - eapply ext_tels; [exact A|apply ext_put].
    - eapply ext_tels; [exact A|apply ext_put].
  Qed.
  Lemma tdo_ext : forall d x, ext d (tdo E cf d x).
  Proof.
    intros d [v e a bs|v|]; cbn [tdo].
    - destruct (tprocess E cf v e a bs d) as (d', r) eqn:T. eapply process_ext. exact T.
    - apply (tsweep_P (ext d) v).
      + intros d0 p g e a bs d' r X _ T. eapply ext_trans; [exact X|]. eapply process_ext. exact T.
      + intros d0 t X. exact X.
      + intros d0 t X. exact X.
      + apply ext_refl.
    - apply (ext_tels d (trestart d) d); [reflexivity|apply ext_refl].
  Qed.
  Lemma truns_ext : forall h d, ext d (truns E cf h d).
  Proof.
    induction h as [|x h IH] using rev_ind; intros d; [apply ext_refl|]. rewrite truns_app. eapply ext_trans; [apply IH|apply tdo_ext].
  Qed.
  Lemma ext_at : forall d d' p sn g, ext d d' -> telAt d p sn = Some g -> telAt d' p sn = Some g.
  Proof.
    intros d d' p sn g X H. destruct (X p) as (l & A). unfold telAt in *. rewrite A. destruct (find _ (tels d p)) as [r|] eqn:F; [|discriminate]. rewrite (find_app_l _ _ _ _ F). exact H.
  Qed.
End I.

(** ** What survives a restart *)
Section S.
  Context (E : tenv) (cf : tconf).
  Record sinv (d : tdb) : Prop := mkS {
    s_log : forall p sn g, telAt d p sn = Some g -> tvts d p g <> None;
    s_st : forall k s, tstates d k = Some s -> tvts d (r_i s) (r_d s) <> None;
    s_mem : forall k tv, tevers d k = Some tv -> exists s, tstates d k = Some s /\ r_ii s = v_ii tv /\ r_nob s = v_nob tv }.
  Lemma put_mono : forall e d p g, tvts d p g <> None -> tvts (putTvt e d) p g <> None.
  Proof. intros e d p g H. destruct (putTvt_get e d p g) as [K|(K & _)]; congruence. Qed.
  Lemma put_self : forall e d, tvts (putTvt e d) (t_pre e) (t_said e) <> None.
  Proof. intros e d. destruct (putTvt_has e d) as (e' & ->). discriminate. Qed.

  Lemma tstep_s : forall v e d d' r, sinv d -> tstep E cf v e d d' r -> sinv d'.
  Proof.
    intros v e d d' r Iv [x (A & B & C & D & _) | tv T K S1 An Pr _ A B C D _ | tv toad bk T K Nb P S1 Pd An _ _ A B C D _ | tv T K TI An _ A B C D _].
    - assert (M : forall p g, tvts d p g <> None -> tvts d' p g <> None) by (intros p g H; destruct D as [-> | ->]; [exact H|apply put_mono; exact H]). constructor.
      + intros p sn g H. rewrite (telAt_tels d d' p sn A) in H. apply M. apply (s_log d Iv _ _ _ H).
      + intros k s H. rewrite C in H. apply M. apply (s_st d Iv _ _ H).
      + rewrite B, C. apply (s_mem d Iv).
    - assert (M : forall p g, tvts d p g <> None -> tvts d' p g <> None) by (intros p g H; rewrite D; apply put_mono; exact H). constructor.
      + intros p sn g H. rewrite (telAt_tels _ d' p sn A) in H. apply put_at in H. destruct H as [H|(-> & -> & ->)]; [apply M; apply (s_log d Iv _ _ _ H)|rewrite D; apply put_self].
      + intros k s H. rewrite C in H. apply M. apply (s_st d Iv _ _ H).
      + rewrite B, C. apply (s_mem d Iv).
    - assert (M : forall p g, tvts d p g <> None -> tvts d' p g <> None) by (intros p g H; rewrite D; apply put_mono; exact H). constructor.
      + intros p sn g H. rewrite (telAt_tels _ d' p sn A) in H. apply put_at in H. destruct H as [H|(-> & -> & ->)]; [apply M; apply (s_log d Iv _ _ _ H)|rewrite D; apply put_self].
      + intros k s H. rewrite C in H. apply M. apply (s_st d Iv _ _ H).
      + intros k tv' H. rewrite B in H. rewrite C. unfold fset in H. destruct (k =? t_pre e) eqn:Bk; [|apply (s_mem d Iv); exact H]. apply N.eqb_eq in Bk. subst k. injection H as <-. cbn [v_ii v_nob].
        unfold tget in T. destruct (tevers d (t_pre e)) as [t|] eqn:Tv; [injection T as <-; apply (s_mem d Iv); exact Tv|].
        destruct (tstates d (t_pre e)) as [s|] eqn:Q; [|discriminate]. destruct (tvts d (r_i s) (r_d s)); [|discriminate]. injection T as <-. exists s. repeat split.
    - destruct (tincept_ok _ _ _ _ TI) as [-> S0].
      assert (M : forall p g, tvts d p g <> None -> tvts d' p g <> None) by (intros p g H; rewrite D; apply put_mono; exact H). constructor.
      + intros p sn g H. rewrite (telAt_tels _ d' p sn A) in H. apply put_at in H. destruct H as [H|(-> & -> & ->)]; [apply M; apply (s_log d Iv _ _ _ H)|rewrite D; apply put_self].
      + intros k s H. rewrite C in H. unfold fset in H. destruct (k =? t_pre e) eqn:Bk; [|apply M; apply (s_st d Iv _ _ H)]. injection H as <-. cbn. rewrite D. apply put_self.
      + intros k tv' H. rewrite B in H. rewrite C. unfold fset in *. destruct (k =? t_pre e) eqn:Bk; [|apply (s_mem d Iv); exact H]. injection H as <-. eexists. split; [reflexivity|]. split; reflexivity.
  Qed.
  Lemma sinv_ext : forall d d', tvts d' = tvts d -> tels d' = tels d -> tstates d' = tstates d ->
    (tevers d' = tevers d \/ forall k, tevers d' k = None) -> sinv d -> sinv d'.
  Proof.
    intros d d' A B C D [P Q R]. constructor.
    - intros p sn g H. rewrite (telAt_tels d d' p sn B) in H. rewrite A. eapply P. exact H.
    - rewrite C, A. exact Q.
    - intros k tv H. rewrite C. destruct D as [D|D]; rewrite D in H; [apply R; exact H|discriminate].
  Qed.
  Lemma truns_s : forall h, sinv (truns E cf h tdb0).
  Proof.
    induction h as [|y h IH] using rev_ind; [constructor; intros; discriminate|]. rewrite truns_app. destruct y as [v e a bs|v|]; cbn [tdo].
    - destruct (tprocess E cf v e a bs (truns E cf h tdb0)) as (d', r) eqn:T. apply tprocess_step in T. eapply tstep_s; [exact IH|exact T].
    - apply (tsweep_P E cf sinv v); [| | |exact IH].
      + intros d0 p g e a bs d' r B0 V T. apply tprocess_step in T. eapply tstep_s; [exact B0|exact T].
      + intros d0 t B0. apply (sinv_ext d0); auto.
      + intros d0 t B0. apply (sinv_ext d0); auto.
    - apply (sinv_ext (truns E cf h tdb0)); auto.
  Qed.
  Lemma restart_keeps : forall h k tv, tget (truns E cf h tdb0) k = Some tv ->
    exists tv', tget (trestart (truns E cf h tdb0)) k = Some tv' /\ v_ii tv' = v_ii tv /\ v_nob tv' = v_nob tv.
  Proof.
    intros h k tv H. pose proof (truns_s h) as S. set (d := truns E cf h tdb0) in *. clearbody d.
    assert (X : exists s, tstates d k = Some s /\ r_ii s = v_ii tv /\ r_nob s = v_nob tv).
    { unfold tget in H. destruct (tevers d k) as [t|] eqn:T; [injection H as <-; apply (s_mem d S); exact T|].
      destruct (tstates d k) as [s|]; [|discriminate]. destruct (tvts d (r_i s) (r_d s)); [|discriminate]. injection H as <-. exists s. repeat split. }
    destruct X as (s & A & B & C). pose proof (s_st d S k s A) as V. unfold tget. cbn [tevers trestart set_tevers tstates tvts]. rewrite A.
    destruct (tvts d (r_i s) (r_d s)) as [e|]; [|contradiction]. eexists. split; [reflexivity|]. split; assumption.
  Qed.
End S.
