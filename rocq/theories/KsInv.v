(** Invariants of the key store over all histories *)
From Coq Require Import Lia.
From Verif Require Import Prelude B64Model MatterModel SubsModel ThModel JsonModel KsModel KsSpec JsonProofs KsProofs.
Open Scope N_scope.
Ltac Zify.zify_post_hook ::= Z.div_mod_to_equations.

Lemma bindM_inv : forall A B (p : M A) (f : A -> M B) m t m' r, bindM p f m = (t, (m', r)) ->
  (exists t1 m1 a t2, p m = (t1, (m1, Ok a)) /\ f a m1 = (t2, (m', r)) /\ t = t1 ++ t2) \/
  (exists e, p m = (t, (m', Err e)) /\ r = Err e).
Proof.
  intros A B p f m t m' r. unfold bindM. destruct (p m) as [t1 [m1 [a|e]]] eqn:E.
  - destruct (f a m1) as [t2 [m2 r2]] eqn:E2. intros H; injection H; intros; subst. left. exists t1, m1, a, t2. auto.
  - intros H; injection H; intros; subst. right; eauto.
Qed.
Lemma bindM_ok : forall A B (p : M A) (f : A -> M B) m t m' b, bindM p f m = (t, (m', Ok b)) ->
  exists t1 m1 a t2, p m = (t1, (m1, Ok a)) /\ f a m1 = (t2, (m', Ok b)) /\ t = t1 ++ t2.
Proof. intros A B p f m t m' b H. destruct (bindM_inv _ _ _ _ _ _ _ _ H) as [X|(e & _ & X)]; [exact X|discriminate]. Qed.

Lemma dget_krem : forall V (l : list (bytes * V)) k k', dget (krem l k) k' = if beq k' k then None else dget l k'.
Proof.
  induction l as [|[a v] l IH]; intros k k'; cbn.
  - destruct (beq k' k); auto.
  - unfold krem in *. cbn. destruct (beq k a) eqn:E1; cbn.
    + rewrite IH. apply beq_eq in E1; subst. destruct (beq k' a); auto.
    + rewrite IH. destruct (beq k' a) eqn:E2; auto. apply beq_eq in E2; subst.
      destruct (beq a k) eqn:E3; auto. apply beq_eq in E3; subst. rewrite beq_refl in E1. discriminate.
Qed.
Lemma In_krem : forall V (l : list (bytes * V)) k x, In x (krem l k) -> In x l.
Proof. intros V l k x H. apply filter_In in H; tauto. Qed.
Lemma In_dset : forall V (l : list (bytes * V)) k v x, In x (dset l k v) -> x = (k, v) \/ In x l.
Proof.
  induction l as [|[a w] l IH]; cbn; intros k v x; [intros [H|[]]; auto|].
  destruct (beq k a) eqn:E.
  - intros [H|H]; auto.
  - intros [H|H]; auto. destruct (IH _ _ _ H); auto.
Qed.

Section Inv.
Variable c : kcfg.
(** the transferability of a key pair is that of its public key's code *)
Hypothesis TR : forall cd sd tr, trans c (vk c cd sd tr) = tr.

Definition content (v : stored secret) : option secret := match v with Plain x | Sealed _ x => Some x | Junk => None end.
Definition priOk (d : ksdb) : Prop := forall pub v cd sd, In (pub, v) (pris d) -> content v = Some (cd, sd) ->
  memB cd SeedDex = true /\ vk c cd sd (trans c pub) = pub.
Definition anyK : mem -> Prop := fun _ => True.

Lemma priOk_put : forall d pub v, priOk d -> (forall cd sd, content v = Some (cd, sd) -> memB cd SeedDex = true /\ vk c cd sd (trans c pub) = pub) ->
  priOk (setPris d (dset (pris d) pub v)).
Proof.
  intros d pub v H Hv p w cd sd Hin Hc. cbn in Hin. apply In_dset in Hin. destruct Hin as [E|Hin].
  - injection E; intros; subst. auto.
  - eapply H; eauto.
Qed.
Lemma signer_content : forall e tr sg v, signerOk c tr sg -> encSecret e (fst sg) = Ok v ->
  forall cd sd, content v = Some (cd, sd) -> memB cd SeedDex = true /\ vk c cd sd (trans c (snd sg)) = snd sg.
Proof.
  intros e tr [[cd0 sd0] p] v [H1 H2] E cd sd Hc. cbn in *. subst p.
  assert (X : (cd, sd) = (cd0, sd0)).
  { unfold encSecret in E. destruct e as [a|].
    - destruct (beq _ _); [|discriminate]. injection E; intros; subst. cbn in Hc. congruence.
    - injection E; intros; subst. cbn in Hc. congruence. }
  injection X; intros; subst. rewrite TR. auto.
Qed.
Lemma priOk_stable : stable c anyK priOk (fun _ => True).
Proof.
  constructor; intros; try exact H; try exact H0.
  - apply priOk_put; [assumption|eapply signer_content; eauto].
  - intros p w cd sd Hin Hc. cbn in Hin. apply In_krem in Hin. eapply H; eauto.
Qed.

Lemma any_reads : forall J A (f : mgr -> A), holds anyK J (reads f) (fun _ => True).
Proof. intros. apply holds_reads; auto. Qed.
Lemma any_mem : forall J f, (forall m, ks (f m) = ks m) -> holds anyK J (memory f) (fun _ => True).
Proof. intros J f H. apply holds_memory; auto. Qed.

(** properties kept by the writes of updateAeid and setup *)
Record ustable (J : ksdb -> Prop) : Prop := {
  us_aeid : forall d x, J d -> J (setAeid d x);
  us_pidx : forall d x, J d -> J (setPidx d x);
  us_algo : forall d x, J d -> J (setAlgo d x);
  us_salt : forall d x, J d -> J (setSalt d x);
  us_tier : forall d x, J d -> J (setTier d x);
  us_prms : forall d k x, J d -> J (setPrms d (dset (prms d) k x));
  us_pris : forall d d0 k v v' cd sd e, J d -> J d0 -> In (k, v) (pris d0) -> content v = Some (cd, sd) ->
     encSecret e (cd, sd) = Ok v' -> J (setPris d (dset (pris d) k v')) }.

Lemma setSaltM_us : forall J s, ustable J -> holds anyK J (setSaltM s) (fun _ => True).
Proof.
  intros J s U. unfold setSaltM. eapply holds_bind; [apply any_reads|]. intros m _.
  apply holds_write. intros; apply (us_salt _ U); auto.
Qed.
Lemma updateAeid_us : forall J ae seed, ustable J -> holds anyK J (updateAeid c ae seed) (fun _ => True).
Proof.
  intros J ae seed U. unfold updateAeid.
  eapply holds_bind; [apply any_reads|]. intros m _. cbv zeta.
  eapply holds_bind; [apply holds_guard|]. intros _ _.
  apply holds_bind with (Q1 := fun _ => True).
  { destruct (isEmpty ae); [apply any_mem; auto|]. destruct (negb _); [|apply holds_ret; auto].
    eapply holds_bind; [apply any_mem; auto|]. intros _ _. eapply holds_true; apply holds_guard. }
  intros _ _. eapply holds_bind; [apply getSalt_st|]. intros salt _.
  apply holds_bind with (Q1 := fun _ => True).
  { destruct salt; [apply setSaltM_us; auto|apply holds_ret; auto]. }
  intros _ _. eapply holds_bind; [apply holds_reads with (Q := fun m => J (ks m)); auto|]. intros m1 J1. cbn in J1.
  apply holds_bind with (Q1 := fun _ => True).
  { destruct (m_dec m1) as [old|]; [|apply holds_ret; auto].
    eapply holds_bind; [apply holds_forM|].
    { intros x _. destruct (p_salt (snd x)); [|apply holds_ret; auto].
      eapply holds_bind; [apply opened_lift|]. intros y _. apply holds_pin. intros; apply (us_prms _ U); auto. }
    intros _ _. apply holds_forM. intros [k v] Hin.
    eapply holds_bind; [apply opened_lift|]. intros [cd sd] Hx.
    eapply holds_bind; [apply holds_lift; intros a Ha; exact (mkSigner_ok _ _ _ _ _ Ha)|]. intros sg [Hs1 Hs2].
    eapply holds_bind; [apply opened_lift|]. intros v' Hv. apply holds_pin. intros d Hd. cbn [fst snd] in *.
    eapply (us_pris _ U) with (d0 := ks m1) (v := v); eauto.
    - destruct v; cbn in Hx; try discriminate. destruct (seedOk c a old); [|discriminate]. injection Hx; intros; subst; reflexivity.
    - rewrite Hs2 in Hv. exact Hv. }
  intros _ _. eapply holds_bind; [apply holds_write; intros; apply (us_aeid _ U); auto|]. intros _ _.
  apply any_mem; auto.
Qed.
Lemma setup_us : forall J ae p al s t, ustable J -> holds anyK J (setup c ae p al s t) (fun _ => True).
Proof.
  intros J ae p al s t U. unfold setup.
  eapply holds_bind; [apply any_reads|]. intros d _.
  apply holds_bind with (Q1 := fun _ => True).
  { destruct (g_pidx d); [apply holds_ret; auto|]. apply holds_write; intros; apply (us_pidx _ U); auto. }
  intros _ _. apply holds_bind with (Q1 := fun _ => True).
  { destruct (g_algo d); [apply holds_ret; auto|]. apply holds_write; intros; apply (us_algo _ U); auto. }
  intros _ _. eapply holds_bind; [apply getSalt_st|]. intros salt _.
  apply holds_bind with (Q1 := fun _ => True).
  { destruct salt; [apply holds_ret; auto|]. apply setSaltM_us; auto. }
  intros _ _. apply holds_bind with (Q1 := fun _ => True).
  { destruct (g_tier d); [apply holds_ret; auto|]. apply holds_write; intros; apply (us_tier _ U); auto. }
  intros _ _. eapply holds_bind; [apply any_reads|]. intros m _.
  destruct (isEmpty _).
  - eapply holds_true. apply updateAeid_us; auto.
  - eapply holds_bind; [apply any_mem; auto|]. intros _ _.
    eapply holds_bind; [apply holds_guard|]. intros _ _. apply any_mem; auto.
Qed.
Lemma priOk_ustable : ustable priOk.
Proof.
  constructor; intros; try exact H.
  apply priOk_put; auto. intros cd0 sd0 Hc.
  assert (X : (cd0, sd0) = (cd, sd)).
  { unfold encSecret in H3. destruct e as [a|].
    - destruct (beq _ _); [|discriminate]. injection H3; intros; subst. cbn in Hc. congruence.
    - injection H3; intros; subst. cbn in Hc. congruence. }
  injection X; intros; subst. eapply H0; eauto.
Qed.

(** every call, for properties that hold whatever prefix is touched *)
Lemma exec_holds : forall J (touch : bytes -> Prop) o, stable c anyK J touch -> ustable J ->
  (forall d sg tr, J d -> signerOk c tr sg -> J (setPris d (dset (pris d) (snd sg) (Plain (fst sg))))) ->
  (forall k d, J d -> dget (prms d) k = None -> touch k) ->
  match o with ORotate p _ | OReplay p _ _ _ | OHabRotate p _ _ | OMove p _ => touch p | _ => True end ->
  holds anyK J (exec c o) (fun _ => True).
Proof.
  intros J touch o S U P F T. destruct o; cbn [exec];
    (eapply holds_bind; [|intros; apply holds_ret; exact Logic.I]).
  - apply setup_us; auto.
  - apply updateAeid_us; auto.
  - eapply incept_st; eauto.
  - eapply move_st; eauto.
  - eapply rotate_st; eauto.
  - eapply replay_st; eauto.
  - eapply habRotate_st; eauto.
  - eapply ingest_st; eauto.
Qed.

Lemma exec_priOk : forall o, holds anyK priOk (exec c o) (fun _ => True).
Proof.
  intros o. apply exec_holds with (touch := fun _ => True); auto using priOk_stable, priOk_ustable.
  - intros d sg tr Jd Hs. apply priOk_put; auto. eapply (signer_content None); eauto.
  - destruct o; auto.
Qed.

(** the situation of one prefix, kept by calls that touch others *)
Definition frame (pre : bytes) (ps : presit) (d : ksdb) : Prop :=
  dget (prms d) pre <> None /\ dget (sits d) pre = Some ps.
Lemma frame_stable : forall pre ps, stable c anyK (frame pre ps) (fun k => k <> pre).
Proof.
  intros pre ps. constructor; unfold frame; cbn; intros; try tauto.
  - destruct H; split; auto. rewrite dget_dset. destruct (beq pre k); auto; discriminate.
  - destruct H0; split; auto. rewrite dget_krem. destruct (beq pre k) eqn:E; auto. apply beq_eq in E; subst. congruence.
  - destruct H; split; auto. rewrite dget_dset. destruct (beq pre k) eqn:E; auto. apply beq_eq in E; subst. congruence.
  - destruct H0; split; auto. rewrite dget_dset. destruct (beq pre k) eqn:E; auto. apply beq_eq in E; subst. congruence.
  - destruct H0; split; auto. rewrite dget_krem. destruct (beq pre k) eqn:E; auto. apply beq_eq in E; subst. congruence.
Qed.
Lemma frame_ustable : forall pre ps, ustable (frame pre ps).
Proof.
  intros; constructor; intros; try exact H. destruct H; split; auto. cbn. rewrite dget_dset. destruct (beq pre k); auto; discriminate.
Qed.
Lemma exec_frame : forall o pre ps,
  match o with ORotate p _ | OReplay p _ _ _ | OHabRotate p _ _ | OMove p _ => p <> pre | _ => True end ->
  holds anyK (frame pre ps) (exec c o) (fun _ => True).
Proof.
  intros o pre ps H. eapply exec_holds with (touch := fun k => k <> pre); auto using frame_stable, frame_ustable.
  intros k d [A B] N E; subst. auto.
Qed.
End Inv.
