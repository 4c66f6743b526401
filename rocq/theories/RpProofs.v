(** Proofs about reply messages. *)
From Verif Require Import Prelude SubsModel ThModel ThProofs ThThms JsonModel JsonProofs Lex SerProofs RpModel RpSpec.
Open Scope N_scope.
Ltac Zify.zify_post_hook ::= Z.div_mod_to_equations.

(** ** tables *)
Lemma dget_dput : forall {V} (d : list (bytes * V)) k v k',
  dget (dput d k v) k' = match dget d k' with Some x => Some x | None => if beq k' k then Some v else None end.
Proof.
  intros V d k v k'. unfold dput. destruct (dget d k) as [x|] eqn:E.
  - destruct (dget d k') eqn:E'; [reflexivity|]. destruct (beq k' k) eqn:B; [|reflexivity]. apply beq_eq in B. subst. congruence.
  - rewrite dget_dset. destruct (beq k' k) eqn:B; [apply beq_eq in B; subst; rewrite E; reflexivity|].
    destruct (dget d k'); reflexivity.
Qed.

Lemma dget_drem : forall {V} (d : list (bytes * V)) k k', dget (drem d k) k' = if beq k' k then None else dget d k'.
Proof.
  intros V d k k'. unfold drem. induction d as [|[a v] d IH]; cbn [filter dget fst].
  - destruct (beq k' k); reflexivity.
  - destruct (beq a k) eqn:A; cbn [negb].
    + apply beq_eq in A. subst a. rewrite IH. destruct (beq k' k); reflexivity.
    + cbn [dget]. rewrite IH. destruct (beq k' a) eqn:B; [|reflexivity].
      apply beq_eq in B. subst a. rewrite A. reflexivity.
Qed.

(** ** splitting routes *)
Lemma splitb_nil : forall sep s, splitb sep s <> [].
Proof. intros sep s. destruct s as [|x s]; cbn; [discriminate|]. destruct (x =? sep); [discriminate|]. destruct (splitb sep s); discriminate. Qed.
Lemma splitb_join : forall sep s, joinb sep (splitb sep s) = s.
Proof.
  intros sep s. induction s as [|x s IH]; [reflexivity|]. cbn [splitb]. destruct (x =? sep) eqn:E.
  - apply N.eqb_eq in E. subst x. pose proof (splitb_nil sep s) as NE. destruct (splitb sep s) as [|a r] eqn:P; [congruence|].
    cbn [joinb app]. cbn [joinb] in IH. rewrite IH. reflexivity.
  - pose proof (splitb_nil sep s) as NE. destruct (splitb sep s) as [|a r] eqn:P; [congruence|].
    destruct r as [|b r]; cbn [joinb app] in *; rewrite IH; reflexivity.
Qed.
Lemma splitb_free : forall sep s, Forall (fun p => ~ In sep p) (splitb sep s).
Proof.
  intros sep s. induction s as [|x s IH]; cbn [splitb]; [constructor; [intros []|constructor]|].
  destruct (x =? sep) eqn:E.
  - constructor; [intros []|exact IH].
  - apply N.eqb_neq in E. destruct (splitb sep s) as [|a r]; [constructor; [|constructor]; intros [X|[]]; congruence|].
    inversion IH as [|? ? H1 H2]; subst. constructor; [|exact H2]. intros [X|X]; [congruence|exact (H1 X)].
Qed.

Lemma startswith_ok : forall p s, startswith p s = true <-> exists t, s = p ++ t.
Proof.
  induction p as [|x p IH]; intros s; cbn [startswith].
  - split; [intros _; exists s; reflexivity|reflexivity].
  - destruct s as [|y s]; [split; [discriminate|intros (t & H); discriminate]|].
    rewrite andb_true_iff, N.eqb_eq, IH. split.
    + intros [-> (t & ->)]. exists t. reflexivity.
    + intros (t & H). cbn in H. injection H as -> ->. split; [reflexivity|exists t; reflexivity].
Qed.

Lemma route_end : forall route, findRoute route = Some HEnd ->
  exists x, route = s2b "/end/role/" ++ x /\ ~ In 47 x.
Proof.
  intros route H. unfold findRoute in H. pose proof (splitb_join 47 route) as J. pose proof (splitb_free 47 route) as F.
  destruct (splitb 47 route) as [|z [|a [|b [|x [|y l]]]]]; try discriminate.
  - destruct (nonempty z); [discriminate|]. destruct (beq a (s2b "loc") && beq b (s2b "scheme")); [discriminate|].
    destruct (beq a (s2b "ksn") && nonempty b); discriminate.
  - destruct z as [|z0 z]; cbn [nonempty] in H; [|discriminate].
    destruct (beq a (s2b "end") && beq b (s2b "role") && nonempty x) eqn:E.
    + rewrite !andb_true_iff, !beq_eq in E. destruct E as ((-> & ->) & _). exists x. split; [rewrite <- J; reflexivity|].
      inversion F as [|? ? _ F1]; subst. inversion F1 as [|? ? _ F2]; subst. inversion F2 as [|? ? _ F3]; subst. inversion F3; subst. assumption.
    + destruct (beq a (s2b "watcher") && nonempty b && nonempty x); discriminate.
Qed.
Lemma route_loc : forall route, findRoute route = Some HLoc -> route = s2b "/loc/scheme".
Proof.
  intros route H. unfold findRoute in H. pose proof (splitb_join 47 route) as J.
  destruct (splitb 47 route) as [|z [|a [|b [|x [|y l]]]]]; try discriminate.
  - destruct z as [|z0 z]; cbn [nonempty] in H; [|discriminate].
    destruct (beq a (s2b "loc") && beq b (s2b "scheme")) eqn:E.
    + rewrite !andb_true_iff, !beq_eq in E. destruct E as (-> & ->). rewrite <- J. reflexivity.
    + destruct (beq a (s2b "ksn") && nonempty b); discriminate.
  - destruct (nonempty z); [discriminate|].
    destruct (beq a (s2b "end") && beq b (s2b "role") && nonempty x); [discriminate|].
    destruct (beq a (s2b "watcher") && nonempty b && nonempty x); discriminate.
Qed.
Lemma route_wat : forall route aid act, findRoute route = Some (HWat aid act) ->
  route = s2b "/watcher/" ++ aid ++ 47 :: act /\ ~ In 47 aid /\ aid <> [].
Proof.
  intros route aid act H. unfold findRoute in H. pose proof (splitb_join 47 route) as J. pose proof (splitb_free 47 route) as F.
  destruct (splitb 47 route) as [|z [|a [|b [|x [|y l]]]]]; try discriminate.
  - destruct (nonempty z); [discriminate|]. destruct (beq a (s2b "loc") && beq b (s2b "scheme")); [discriminate|].
    destruct (beq a (s2b "ksn") && nonempty b); discriminate.
  - destruct z as [|z0 z]; cbn [nonempty] in H; [|discriminate].
    destruct (beq a (s2b "end") && beq b (s2b "role") && nonempty x); [discriminate|].
    destruct (beq a (s2b "watcher") && nonempty b && nonempty x) eqn:E; [|discriminate].
    injection H as -> ->. rewrite !andb_true_iff, !beq_eq in E. destruct E as ((-> & NB) & _).
    split; [rewrite <- J; cbn [joinb]; rewrite <- ?app_assoc; reflexivity|]. split.
    + inversion F as [|? ? _ F1]; subst. inversion F1 as [|? ? _ F2]; subst. inversion F2; subst. assumption.
    + intros ->. discriminate.
Qed.

Lemma field_ok : forall d k x v, field d k x = Ok v -> dget d (s2b k) = Some v.
Proof. intros d k x v H. unfold field in H. destruct (dget d (s2b k)); [injection H as ->; reflexivity|discriminate]. Qed.

Ltac step_res H :=
  match type of H with
  | bind ?m _ = Ok _ => let x := fresh "x" in let E := fresh "E" in destruct m as [x|x] eqn:E; cbn [bind] in H; [|discriminate]
  | (if ?b then Err _ else _) = Ok _ => let E := fresh "E" in destruct b eqn:E; [discriminate|]
  end.

Lemma parse_says : forall e r p, parse e r = Ok p -> says e r (p_aid p) (p_key p) (p_val p).
Proof.
  intros e r p H. unfold parse in H. destruct (findRoute (q_route r)) as [[| |aid|aid action]|] eqn:R; try discriminate.
  - destruct (route_end _ R) as (x & RX & NX). unfold parseEnd in H. do 7 step_res H.
    injection H as <-. cbn [p_aid p_key p_val].
    apply field_ok in E0, E1, E2. apply negb_false_iff in E3, E4, E5. apply memB_In in E4.
    destruct (startswith (s2b "/end/role/add") (q_route r)) eqn:SA.
    + injection E as <-. apply startswith_ok in SA. destruct SA as (t & SA).
      apply (says_role e r true t); auto. intros I. apply NX. rewrite SA in RX.
      change (s2b "/end/role/add") with (s2b "/end/role/" ++ s2b "add") in RX. rewrite <- app_assoc in RX.
      apply app_inv_head in RX. subst x. apply in_or_app. right. exact I.
    + destruct (startswith (s2b "/end/role/cut") (q_route r)) eqn:SC; [|discriminate].
      injection E as <-. apply startswith_ok in SC. destruct SC as (t & SC).
      apply (says_role e r false t); auto. intros I. apply NX. rewrite SC in RX.
      change (s2b "/end/role/cut") with (s2b "/end/role/" ++ s2b "cut") in RX. rewrite <- app_assoc in RX.
      apply app_inv_head in RX. subst x. apply in_or_app. right. exact I.
  - unfold parseLoc in H. do 7 step_res H. injection H as <-. cbn [p_aid p_key p_val].
    apply field_ok in E0, E1, E2. apply negb_false_iff in E3, E4. apply memB_In in E4.
    apply (says_loc e r x x0 x1); auto using route_loc. destruct (urlScheme e x1) as [|u0 u]; [left; reflexivity|right].
    apply negb_false_iff, beq_eq in E5. exact E5.
  - destruct (route_wat _ _ _ R) as (RX & NX & NA). unfold parseWat in H. do 4 step_res H. injection H as <-. cbn [p_aid p_key p_val].
    apply field_ok in E1, E2. destruct (beq action (s2b "add")) eqn:A1.
    + apply beq_eq in A1. subst action. injection E0 as <-. apply (says_watch e r true aid); auto.
    + destruct (beq action (s2b "cut")) eqn:A2; [|discriminate]. apply beq_eq in A2. subst action. injection E0 as <-.
      apply (says_watch e r false aid); auto.
Qed.

Lemma says_ksn : forall e r aid k v, says e r aid k v -> isKsn k = false.
Proof. intros e r aid k v H. destruct H; reflexivity. Qed.

(** ** stored groups *)
Lemma fetch_tput_other : forall l t s, t_said t <> s -> fetchTsgs (tput l t) s None = fetchTsgs l s None.
Proof.
  intros l t s N. unfold fetchTsgs. induction l as [|x l IH]; cbn [tput]; destruct (t_sigs t) as [|sg sgs] eqn:T; try reflexivity.
  - cbn [filter]. unfold t_said at 1. apply beq_neq in N. rewrite N. reflexivity.
  - destruct (sameT x t) eqn:S1.
    + cbn [filter]. change (t_said (mkT (t_said x) (t_pre x) (t_sn x) (t_dig x) (addSigs (t_sigs x) (sg :: sgs)))) with (t_said x).
      unfold sameT in S1. rewrite !andb_true_iff, !beq_eq in S1. destruct S1 as (((E & _) & _) & _). rewrite E.
      apply beq_neq in N. rewrite N. reflexivity.
    + destruct (bltb (tkey t) (tkey x)).
      * cbn [filter]. change (t_said (mkT (t_said t) (t_pre t) (t_sn t) (t_dig t) (addSigs [] (sg :: sgs)))) with (t_said t).
        apply beq_neq in N. rewrite N. reflexivity.
      * cbn [filter]. rewrite IH. reflexivity.
Qed.

Lemma fetch_In : forall l s t, In t (fetchTsgs l s None) <-> In t l /\ t_said t = s.
Proof. intros l s t. unfold fetchTsgs. rewrite filter_In, beq_eq. reflexivity. Qed.
Lemma fetch_cut_In : forall l s h t, In t (fetchTsgs l s h) -> In t l /\ t_said t = s.
Proof.
  intros l s h t H. unfold fetchTsgs in H. destruct h as [h|].
  - apply fetch_In. unfold fetchTsgs. revert H. generalize (filter (fun x => beq (t_said x) s) l).
    intros m. induction m as [|x m IH]; cbn [takeWhile]; [intros []|]. destruct (negb _); intros H; [|destruct H].
    destruct H as [->|H]; [left; reflexivity|right; exact (IH H)].
  - apply fetch_In. exact H.
Qed.

(** membership after a put: an old group, possibly with more signatures, or the new one *)
Lemma tput_In : forall l t y, In y (tput l t) ->
  In y l \/ (t_sigs t <> [] /\ t_said y = t_said t /\ t_pre y = t_pre t /\ t_sn y = t_sn t /\ t_dig y = t_dig t /\
             (t_sigs y = addSigs [] (t_sigs t) \/ exists x, In x l /\ sameT x t = true /\ t_sigs y = addSigs (t_sigs x) (t_sigs t))).
Proof.
  intros l t. induction l as [|x l IH]; intros y; cbn [tput]; destruct (t_sigs t) as [|sg sgs] eqn:T; try (intros H; left; exact H).
  - intros [<-|[]]. right. split; [discriminate|]. cbn. auto 10.
  - destruct (sameT x t) eqn:S1.
    + intros [<-|H]; [|left; right; exact H]. right. pose proof S1 as S2. unfold sameT in S1.
      rewrite !andb_true_iff, !beq_eq, N.eqb_eq in S1. destruct S1 as (((E1 & E2) & E3) & E4).
      cbn [t_said t_pre t_sn t_dig t_sigs]. split; [discriminate|]. do 4 (split; [assumption|]). right. exists x. cbn. auto.
    + destruct (bltb (tkey t) (tkey x)).
      * intros [<-|H]; [|left; exact H]. right. split; [discriminate|]. cbn. auto 10.
      * intros [<-|H]; [left; left; reflexivity|]. destruct (IH y H) as [H1|(H0 & H1 & H2 & H3 & H4 & H5)]; [left; right; exact H1|].
        right. split; [discriminate|]. do 4 (split; [assumption|]). destruct H5 as [H5|(z & Z1 & Z2 & Z3)]; [left; exact H5|right; exists z; cbn; auto].
Qed.

(** and old groups are kept *)
Lemma tput_keeps : forall l t x, In x l -> exists y, In y (tput l t) /\ t_said y = t_said x /\ t_pre y = t_pre x /\ t_sn y = t_sn x /\ t_dig y = t_dig x.
Proof.
  intros l t. induction l as [|z l IH]; intros x H; [destruct H|]. cbn [tput]. destruct (t_sigs t) as [|sg sgs].
  - exists x. auto.
  - destruct (sameT z t).
    + destruct H as [->|H]; [eexists; split; [left; reflexivity|cbn; auto]|exists x; cbn; auto].
    + destruct (bltb (tkey t) (tkey z)); [exists x; cbn; auto|].
      destruct H as [->|H]; [exists x; cbn; auto|]. destruct (IH x H) as (y & Y & R). exists y. cbn. auto.
Qed.
Lemma tput_new : forall l t, t_sigs t <> [] -> exists y, In y (tput l t) /\ sameT y t = true.
Proof.
  intros l t NE. assert (SR : forall s, sameT (mkT (t_said t) (t_pre t) (t_sn t) (t_dig t) s) t = true).
  { intros s. unfold sameT. cbn. rewrite !beq_refl, N.eqb_refl. reflexivity. }
  induction l as [|z l IH]; cbn [tput]; destruct (t_sigs t) as [|sg sgs] eqn:T; try congruence.
  - eexists. split; [left; reflexivity|apply SR].
  - destruct (sameT z t) eqn:S1.
    + eexists. split; [left; reflexivity|]. exact S1.
    + destruct (bltb (tkey t) (tkey z)); [eexists; split; [left; reflexivity|apply SR]|].
      destruct IH as (y & Y & R). exists y. cbn. auto.
Qed.

Lemma addSigs_In : forall new old s, In s (addSigs old new) -> In s old \/ In s new.
Proof.
  induction new as [|x new IH]; intros old s H; cbn [addSigs] in H; [left; exact H|].
  destruct (memB (sg_qb64 x) (map sg_qb64 old)).
  - destruct (IH _ _ H); [left|right; right]; assumption.
  - destruct (IH _ _ H) as [H1|H1]; [|right; right; exact H1]. apply in_app_or in H1. destruct H1 as [H1|[<-|[]]]; [left; exact H1|right; left; reflexivity].
Qed.
Lemma addSigs_old : forall new old s, In s old -> In s (addSigs old new).
Proof.
  induction new as [|x new IH]; intros old s H; cbn [addSigs]; [exact H|].
  destruct (memB (sg_qb64 x) (map sg_qb64 old)); apply IH; [exact H|apply in_or_app; left; exact H].
Qed.
Lemma addSigs_text : forall new old s, In s new -> In (sg_qb64 s) (map sg_qb64 (addSigs old new)).
Proof.
  induction new as [|x new IH]; intros old s H; [destruct H|]. cbn [addSigs]. destruct H as [->|H].
  - destruct (memB (sg_qb64 s) (map sg_qb64 old)) eqn:M.
    + apply memB_In in M. apply in_map_iff in M. destruct M as (z & Z1 & Z2). rewrite <- Z1. apply in_map. apply addSigs_old. exact Z2.
    + apply in_map. apply addSigs_old. apply in_or_app. right. left. reflexivity.
  - destruct (memB (sg_qb64 x) (map sg_qb64 old)); apply IH; exact H.
Qed.

(** ** verification of a group *)
Lemma dedupB_In : forall l seen s, In s (dedupB seen l) -> In s l.
Proof.
  induction l as [|x l IH]; intros seen s H; cbn [dedupB] in H; [destruct H|].
  destruct (memB (sg_qb64 x) seen); [right; exact (IH _ _ H)|]. destruct H as [->|H]; [left; reflexivity|right; exact (IH _ _ H)].
Qed.
Lemma dedupB_seen : forall l seen s, In s (dedupB seen l) -> ~ In (sg_qb64 s) seen.
Proof.
  induction l as [|x l IH]; intros seen s H; cbn [dedupB] in H; [destruct H|].
  destruct (memB (sg_qb64 x) seen) eqn:M; [exact (IH _ _ H)|]. destruct H as [->|H].
  - rewrite <- memB_In. congruence.
  - intros I. apply (IH _ _ H). right. exact I.
Qed.
Lemma dedupB_NoDup : forall l seen, NoDup (map sg_qb64 (dedupB seen l)).
Proof.
  induction l as [|x l IH]; intros seen; cbn [dedupB]; [constructor|].
  destruct (memB (sg_qb64 x) seen) eqn:M; [apply IH|]. cbn [map]. constructor; [|apply IH].
  intros I. apply in_map_iff in I. destruct I as (z & Z1 & Z2). apply dedupB_seen in Z2. apply Z2. left. symmetry. exact Z1.
Qed.
Lemma dedupB_text : forall l seen s, In s l -> ~ In (sg_qb64 s) seen -> exists s', In s' (dedupB seen l) /\ sg_qb64 s' = sg_qb64 s.
Proof.
  induction l as [|x l IH]; intros seen s H NI; [destruct H|]. cbn [dedupB]. destruct H as [->|H].
  - destruct (memB (sg_qb64 s) seen) eqn:M; [apply memB_In in M; contradiction|]. exists s. cbn. auto.
  - destruct (memB (sg_qb64 x) seen) eqn:M; [exact (IH _ _ H NI)|].
    destruct (list_N_dec (sg_qb64 x) (sg_qb64 s)) as [E|NE]; [exists x; cbn; auto|].
    destruct (IH (sg_qb64 x :: seen) s H) as (s' & S1 & S2); [intros [X|X]; [exact (NE X)|exact (NI X)]|]. exists s'. cbn. auto.
Qed.

Lemma NoDup_map_filter : forall {A B} (f : A -> B) p l, NoDup (map f l) -> NoDup (map f (filter p l)).
Proof.
  intros A B f p l. induction l as [|x l IH]; intros H; cbn [filter map] in *; [constructor|].
  inversion H as [|? ? H1 H2]; subst. destruct (p x); [|apply IH; exact H2]. cbn [map]. constructor; [|apply IH; exact H2].
  intros I. apply H1. apply in_map_iff in I. destruct I as (z & Z1 & Z2). apply filter_In in Z2. rewrite <- Z1. apply in_map. exact (proj1 Z2).
Qed.

Definition verifies (e : renv) (raw : bytes) (keys : list bytes) (s : siger) : Prop :=
  exists k, nth_error keys (N.to_nat (sg_index s)) = Some k /\ vrfy e k (sg_raw s) raw = true.

Lemma validate_ok : forall e raw sigs keys th vs b, validateSigs bytes (vrfy e) raw sigs keys th = Ok (vs, b) ->
  thsize th <= len keys /\ vs <> [] /\ NoDup (map sg_qb64 vs) /\ (forall s, In s vs -> In s sigs /\ verifies e raw keys s) /\
  b = satisfy th (map sg_index vs).
Proof.
  intros e raw sigs keys th vs b H. unfold validateSigs in H. destruct (len keys <? thsize th) eqn:L; [discriminate|].
  apply N.ltb_ge in L. unfold verifySigs in H.
  set (f := fun s => match nth_error keys (N.to_nat (sg_index s)) with Some k => vrfy e k (sg_raw s) raw | None => false end) in H.
  destruct (map sg_index (filter f (dedupB [] sigs))) eqn:M; [discriminate|]. rewrite <- M in H. injection H as <- <-.
  split; [exact L|]. split; [intros X; rewrite X in M; discriminate|]. split; [apply NoDup_map_filter, dedupB_NoDup|]. split; [|reflexivity].
  intros s I. apply filter_In in I. destruct I as [I V]. split; [exact (dedupB_In _ _ _ I)|].
  unfold f in V. destruct (nth_error keys (N.to_nat (sg_index s))) as [k|] eqn:K; [|discriminate]. exists k. auto.
Qed.

Lemma validate_some : forall e raw sigs keys th s, thsize th <= len keys -> In s sigs -> verifies e raw keys s ->
  (forall s', In s' sigs -> sg_qb64 s' = sg_qb64 s -> s' = s) ->
  exists vs b, validateSigs bytes (vrfy e) raw sigs keys th = Ok (vs, b).
Proof.
  intros e raw sigs keys th s L I (k & K1 & K2) U. unfold validateSigs. apply N.ltb_ge in L. rewrite L. unfold verifySigs.
  set (f := fun s => match nth_error keys (N.to_nat (sg_index s)) with Some k => vrfy e k (sg_raw s) raw | None => false end).
  destruct (dedupB_text sigs [] s I) as (s' & S1 & S2); [intros []|].
  assert (E : s' = s) by (apply U; [exact (dedupB_In _ _ _ S1)|exact S2]). subst s'.
  assert (F : In s (filter f (dedupB [] sigs))) by (apply filter_In; split; [exact S1|unfold f; rewrite K1; exact K2]).
  destruct (map sg_index (filter f (dedupB [] sigs))) eqn:M.
  - apply map_eq_nil in M. rewrite M in F. destruct F.
  - eauto.
Qed.

(** ** the loops of acceptReply *)
Section Loops.
  Variable e : renv.

  Lemma cigLoop_spec : forall cs r aid o odt d d' x, cigLoop e r aid o odt cs d = (d', x) ->
    (x = Ok false /\ d' = d) \/
    (x = Ok true /\ exists cg, In cg cs /\ c_key cg = aid /\ trans e aid = false /\ vrfy e aid (c_raw cg) (q_raw r) = true /\
      (forall y, odt = Some y -> y < q_dt r) /\ d' = removeReply o (updateCig r cg d)).
  Proof.
    induction cs as [|cg cs IH]; intros r aid o odt d d' x H; cbn [cigLoop] in H.
    - injection H as <- <-. left. auto.
    - assert (K : cigLoop e r aid o odt cs d = (d', x) -> (x = Ok false /\ d' = d) \/
        (x = Ok true /\ exists cg0, In cg0 (cg :: cs) /\ c_key cg0 = aid /\ trans e aid = false /\ vrfy e aid (c_raw cg0) (q_raw r) = true /\
          (forall y, odt = Some y -> y < q_dt r) /\ d' = removeReply o (updateCig r cg0 d))).
      { intros H1. destruct (IH _ _ _ _ _ _ _ H1) as [H2|(H2 & c0 & I & R)]; [left; exact H2|right]. split; [exact H2|].
        exists c0. split; [right; exact I|exact R]. }
      destruct (trans e (c_key cg)) eqn:T; [exact (K H)|]. destruct (skipOwn e (c_key cg)); [exact (K H)|].
      destruct (negb (beq aid (c_key cg))) eqn:A; [exact (K H)|]. apply negb_false_iff, beq_eq in A.
      destruct (match odt with Some x0 => q_dt r <=? x0 | None => false end) eqn:O; [exact (K H)|].
      destruct (negb (vrfy e (c_key cg) (c_raw cg) (q_raw r))) eqn:V; [exact (K H)|]. apply negb_false_iff in V.
      cbn in H. injection H as <- <-. right. split; [reflexivity|]. exists cg. subst aid.
      split; [left; reflexivity|]. split; [reflexivity|]. split; [exact T|]. split; [exact V|]. split; [|reflexivity].
      intros y ->. apply N.leb_gt in O. exact O.
  Qed.

  (** what changes only the artifacts of replies *)
  Definition keeps (d d' : rdb) : Prop := ans d' = ans d /\ vals d' = vals d.
  Lemma keeps_refl : forall d, keeps d d. Proof. split; reflexivity. Qed.
  Lemma keeps_trans : forall a b d, keeps a b -> keeps b d -> keeps a d.
  Proof. intros a b d [A1 A2] [B1 B2]. split; congruence. Qed.
  Lemma keeps_remove : forall o d, keeps d (removeReply o d).
  Proof. intros [s|] d; split; reflexivity. Qed.
  Lemma keeps_grp : forall r g s d, keeps d (updateGrp r g s d).
  Proof. intros; split; reflexivity. Qed.
  Lemma keeps_escrow : forall r route g s d, keeps d (escrowReply r route g s d).
  Proof. intros r route g [|x s] d; split; reflexivity. Qed.

  Lemma trim_spec : forall r g d d' x, trimLoop r g d = (d', x) -> d' = d /\ (x = Ok tt \/ x = Err ValueError).
  Proof. intros r g d d' x H. unfold trimLoop, bindM, rd in H. destruct (existsb _ _); cbn in H; injection H as <- <-; auto. Qed.

  (** One round of the loop over the groups, as a relation: how the round ends, and the state. *)
  Inductive round (kv : kview) (r : reply) (route aid : bytes) (o : option bytes) (odt : option N) (g : group) (d : rdb) :
    option bool -> rdb -> Prop :=
  | rd_skip : (g_pre g <> aid \/ skipOwn e (g_pre g) = true \/ staleGrp r g o odt d = true) -> round kv r route aid o odt g d (Some false) d
  | rd_unknown : g_pre g = aid -> staleGrp r g o odt d = false -> at_sn kv aid (g_sn g) = None ->
      round kv r route aid o odt g d (Some false) (escrowReply r route g (g_sigs g) d)
  | rd_bad : g_pre g = aid -> staleGrp r g o odt d = false -> forall ev, at_sn kv aid (g_sn g) = Some ev ->
      (e_said ev <> g_dig g \/ e_keys ev = [] \/
       exists x, validateSigs bytes (vrfy e) (q_raw r) (g_sigs g ++ tget (tsgs d) (q_said r) (g_pre g) (g_sn g) (g_dig g)) (e_keys ev) (e_th ev) = Err x) ->
      round kv r route aid o odt g d None d
  | rd_part : g_pre g = aid -> staleGrp r g o odt d = false -> forall ev vs, at_sn kv aid (g_sn g) = Some ev ->
      e_said ev = g_dig g -> e_keys ev <> [] ->
      validateSigs bytes (vrfy e) (q_raw r) (g_sigs g ++ tget (tsgs d) (q_said r) (g_pre g) (g_sn g) (g_dig g)) (e_keys ev) (e_th ev) = Ok (vs, false) ->
      round kv r route aid o odt g d (Some false) (escrowReply r route g vs d)
  | rd_full : g_pre g = aid -> skipOwn e (g_pre g) = false -> staleGrp r g o odt d = false -> forall ev vs, at_sn kv aid (g_sn g) = Some ev ->
      e_said ev = g_dig g -> e_keys ev <> [] ->
      validateSigs bytes (vrfy e) (q_raw r) (g_sigs g ++ tget (tsgs d) (q_said r) (g_pre g) (g_sn g) (g_dig g)) (e_keys ev) (e_th ev) = Ok (vs, true) ->
      forall q, (q = Some true \/ (q = None /\ exists t, In t (tsgs (removeReply o (updateGrp r g vs d))) /\ t_said t = q_said r /\
                                   (t_sn t < g_sn g \/ (t_sn t = g_sn g /\ t_dig t <> g_dig g)))) ->
      round kv r route aid o odt g d q (removeReply o (updateGrp r g vs d)).

  Lemma grpLoop_cons : forall kv r route aid o odt acc g gs d d' x,
    grpLoop e kv r route aid o odt acc (g :: gs) d = (d', x) ->
    exists q d1, round kv r route aid o odt g d q d1 /\
      match q with
      | None => d' = d1 /\ exists ex, x = Err ex /\ ex <> UnverifiedReplyError
      | Some b => grpLoop e kv r route aid o odt (acc || b) gs d1 = (d', x)
      end.
  Proof.
    intros kv r route aid o odt acc g gs d d' x H. cbn [grpLoop] in H. unfold bindM at 1, rd in H.
    destruct (skipOwn e (g_pre g)) eqn:SK; [exists (Some false), d; split; [apply rd_skip; auto|rewrite orb_false_r; exact H]|].
    destruct (negb (beq aid (g_pre g))) eqn:A.
    { exists (Some false), d. split; [|rewrite orb_false_r; exact H]. apply rd_skip. left. apply negb_true_iff, beq_neq in A. congruence. }
    apply negb_false_iff, beq_eq in A. symmetry in A.
    destruct (staleGrp r g o odt d) eqn:ST; [exists (Some false), d; split; [apply rd_skip; auto|rewrite orb_false_r; exact H]|].
    destruct (at_sn kv (g_pre g) (g_sn g)) as [ev|] eqn:AT.
    - destruct (negb (beq (e_said ev) (g_dig g))) eqn:DG.
      { injection H as <- <-. exists None, d. split; [|eauto using eq_refl; split; [reflexivity|eexists; split; [reflexivity|discriminate]]].
        rewrite A in AT. eapply rd_bad; eauto. left. apply negb_true_iff, beq_neq in DG. exact DG. }
      apply negb_false_iff, beq_eq in DG.
      destruct (e_keys ev) as [|k0 ks] eqn:KS.
      { injection H as <- <-. exists None, d. split; [|split; [reflexivity|eexists; split; [reflexivity|discriminate]]].
        rewrite A in AT. eapply rd_bad; eauto. }
      rewrite <- KS in H. unfold bindM at 1, lift in H.
      destruct (validateSigs bytes (vrfy e) (q_raw r) (g_sigs g ++ tget (tsgs d) (q_said r) (g_pre g) (g_sn g) (g_dig g)) (e_keys ev) (e_th ev)) as [[vs b]|ex] eqn:V.
      + cbn [fst snd] in H. assert (KN : e_keys ev <> []) by (rewrite KS; discriminate). rewrite A in AT. destruct b.
        * unfold bindM at 1, upd in H. unfold bindM at 1 in H. unfold bindM at 1 in H.
          destruct (trimLoop r g (removeReply o (updateGrp r g vs d))) as [d2 y] eqn:TR.
          unfold trimLoop, bindM, rd in TR.
          match type of TR with (if ?c then _ else _) _ = _ => destruct c eqn:EX end; cbn in TR; injection TR as <- <-.
          -- exists None, (removeReply o (updateGrp r g vs d)). split.
             ++ eapply rd_full; eauto. right. split; [reflexivity|]. apply existsb_exists in EX. destruct EX as (t & T1 & T2).
                apply fetch_cut_In in T1. destruct T1 as [T1 T3]. exists t. split; [exact T1|]. split; [exact T3|].
                apply orb_true_iff in T2. destruct T2 as [T2|T2]; [left; apply N.ltb_lt; exact T2|right].
                apply andb_true_iff in T2. destruct T2 as [T2 T4]. apply N.eqb_eq in T2. apply negb_true_iff, beq_neq in T4. auto.
             ++ injection H as <- <-. split; [reflexivity|]. eexists. split; [reflexivity|discriminate].
          -- exists (Some true), (removeReply o (updateGrp r g vs d)). split; [eapply rd_full; eauto|]. rewrite orb_true_r. exact H.
        * exists (Some false), (escrowReply r route g vs d). split; [eapply rd_part; eauto|]. rewrite orb_false_r. exact H.
      + injection H as <- <-. exists None, d. split.
        * rewrite A in AT. eapply rd_bad; eauto.
        * split; [reflexivity|]. exists ex. split; [reflexivity|]. intros ->. unfold validateSigs in V. destruct (len (e_keys ev) <? thsize (e_th ev)); [discriminate|].
          destruct (verifySigs bytes (vrfy e) (q_raw r) (g_sigs g ++ tget (tsgs d) (q_said r) (g_pre g) (g_sn g) (g_dig g)) (e_keys ev)) as [vs is]. destruct is; discriminate.
    - exists (Some false), (escrowReply r route g (g_sigs g) d). split; [|rewrite orb_false_r; exact H]. rewrite A in AT. apply rd_unknown; auto.
  Qed.

  Lemma round_keeps : forall kv r route aid o odt g d q d', round kv r route aid o odt g d q d' -> keeps d d'.
  Proof.
    intros. destruct H; auto using keeps_refl, keeps_escrow. eapply keeps_trans; [apply keeps_grp|apply keeps_remove].
  Qed.
  Lemma grpLoop_keeps : forall gs kv r route aid o odt acc d d' x, grpLoop e kv r route aid o odt acc gs d = (d', x) -> keeps d d'.
  Proof.
    induction gs as [|g gs IH]; intros kv r route aid o odt acc d d' x H.
    - injection H as <- <-. apply keeps_refl.
    - destruct (grpLoop_cons _ _ _ _ _ _ _ _ _ _ _ _ H) as (q & d1 & R & K). apply round_keeps in R. destruct q as [b|].
      + eapply keeps_trans; [exact R|]. eapply IH; exact K.
      + destruct K as [-> _]. exact R.
  Qed.

  (** groups of another said are not touched while nothing is accepted *)
  Lemma fetch_escrow : forall r route g s d s0, s0 <> q_said r -> fetchTsgs (tsgs (escrowReply r route g s d)) s0 None = fetchTsgs (tsgs d) s0 None.
  Proof.
    intros r route g s d s0 N. destruct s as [|x s]; [reflexivity|]. cbn [escrowReply setRpes tsgs updateGrp setTsgs].
    apply fetch_tput_other. cbn. congruence.
  Qed.
  Lemma escrow_sdts : forall r route g s d s0, s0 <> q_said r -> dget (sdts (escrowReply r route g s d)) s0 = dget (sdts d) s0.
  Proof.
    intros r route g s d s0 N. destruct s as [|x s]; [reflexivity|]. cbn [escrowReply setRpes sdts updateGrp setTsgs putReply setRpys setSdts].
    rewrite dget_dput. apply beq_neq in N. rewrite N. destruct (dget (sdts d) s0); reflexivity.
  Qed.

  Definition fresh (d0 : rdb) (odt : option N) (r : reply) (g : group) (s0 : bytes) : Prop :=
    forall t0, hd_error (fetchTsgs (tsgs d0) s0 None) = Some t0 ->
      t_sn t0 < g_sn g \/ (t_sn t0 = g_sn g /\ forall y, odt = Some y -> y < q_dt r).

  Lemma stale_false : forall r g s0 odt d, staleGrp r g (Some s0) odt d = false -> fresh d odt r g s0.
  Proof.
    intros r g s0 odt d H t0 T. unfold staleGrp in H. destruct (fetchTsgs (tsgs d) s0 None) as [|t l]; [discriminate|].
    injection T as ->. apply orb_false_iff in H. destruct H as [H1 H2]. apply N.ltb_ge in H1.
    destruct (g_sn g =? t_sn t0) eqn:E; [apply N.eqb_eq in E; right|apply N.eqb_neq in E; left; lia].
    split; [congruence|]. intros y ->. apply N.leb_gt in H2. exact H2.
  Qed.

  Lemma grpLoop_true : forall gs kv r route aid o odt acc d d' , grpLoop e kv r route aid o odt acc gs d = (d', Ok true) ->
    acc = true \/
    exists g, In g gs /\ g_pre g = aid /\ signedState e kv r aid (g_sn g) (g_dig g) /\
      (forall s0, o = Some s0 -> s0 <> q_said r -> fresh d odt r g s0).
  Proof.
    induction gs as [|g gs IH]; intros kv r route aid o odt acc d d' H.
    - injection H as <- <-. left. reflexivity.
    - destruct (grpLoop_cons _ _ _ _ _ _ _ _ _ _ _ _ H) as (q & d1 & R & K). destruct q as [b|]; [|destruct K as (_ & ex & X & _); discriminate].
      destruct b.
      + right. inversion R; subst; try (match goal with Hq : Some true = Some true \/ _ |- _ => idtac | _ => fail end).
        match goal with V : validateSigs _ _ _ _ _ _ = Ok _ |- _ => apply validate_ok in V; destruct V as (V1 & V2 & V3 & V4 & V5) end.
        exists g. split; [left; reflexivity|]. split; [reflexivity|]. split.
        * exists ev, vs. repeat (split; [first [assumption|reflexivity]|]). split; [|symmetry; exact V5]. intros s I. exact (proj2 (V4 s I)).
        * intros s0 E N. subst o. apply stale_false. assumption.
      + rewrite orb_false_r in K. destruct (IH _ _ _ _ _ _ _ _ _ K) as [A|(g' & I & P & S1 & F)]; [left; exact A|right].
        exists g'. split; [right; exact I|]. split; [exact P|]. split; [exact S1|]. intros s0 E N t0 T. apply (F s0 E N). rewrite <- T. f_equal.
        inversion R; subst; try reflexivity; try (apply fetch_escrow; exact N).
        match goal with Hq : Some false = Some true \/ _ |- _ => destruct Hq as [X|[X _]]; discriminate end.
  Qed.
End Loops.

(** ** one call *)
Section Calls.
  Variable e : renv.

  Definition odtOf (o : option bytes) (d : rdb) : option N := match o with Some s => dget (sdts d) s | None => None end.

  Lemma acceptReply_eq : forall kv r route aid o cs gs d,
    acceptReply e kv r route aid o cs gs d =
    match cigLoop e r aid o (odtOf o d) cs d with
    | (d1, Ok acc) => grpLoop e kv r route aid o (odtOf o d) acc gs d1
    | (d1, Err x) => (d1, Err x)
    end.
  Proof. reflexivity. Qed.

  Lemma keeps_cig : forall r cg d, keeps d (updateCig r cg d).
  Proof. intros; split; reflexivity. Qed.

  Lemma accept_keeps : forall kv r route aid o cs gs d d' x, acceptReply e kv r route aid o cs gs d = (d', x) -> keeps d d'.
  Proof.
    intros kv r route aid o cs gs d d' x H. rewrite acceptReply_eq in H.
    destruct (cigLoop e r aid o (odtOf o d) cs d) as [d1 y] eqn:C.
    destruct (cigLoop_spec _ _ _ _ _ _ _ _ _ C) as [(-> & ->)|(-> & cg & _ & _ & _ & _ & _ & ->)].
    - eapply grpLoop_keeps; exact H.
    - eapply keeps_trans; [|eapply grpLoop_keeps; exact H]. eapply keeps_trans; [apply keeps_cig|apply keeps_remove].
  Qed.

  (** accepted: signed, and not stale with respect to what is stored of the obsoleted reply *)
  Definition accepted (kv : kview) (r : reply) (aid : bytes) (o : option bytes) (cs : list cigar) (gs : list group) (d : rdb) : Prop :=
    (signedSingle e r aid cs /\ forall y, odtOf o d = Some y -> y < q_dt r) \/
    (exists g, In g gs /\ g_pre g = aid /\ signedState e kv r aid (g_sn g) (g_dig g) /\
       (forall s0, o = Some s0 -> s0 <> q_said r -> fresh d (odtOf o d) r g s0)).

  Lemma accept_true : forall kv r route aid o cs gs d d', acceptReply e kv r route aid o cs gs d = (d', Ok true) ->
    accepted kv r aid o cs gs d.
  Proof.
    intros kv r route aid o cs gs d d' H. rewrite acceptReply_eq in H.
    destruct (cigLoop e r aid o (odtOf o d) cs d) as [d1 y] eqn:C.
    destruct (cigLoop_spec _ _ _ _ _ _ _ _ _ C) as [(-> & ->)|(-> & cg & I & K & T & V & L & ->)].
    - right. destruct (grpLoop_true e _ _ _ _ _ _ _ _ _ _ H) as [X|X]; [discriminate|exact X].
    - left. split; [|exact L]. exists cg. auto.
  Qed.

  (** the obsoleted said that a handler passes *)
  Definition obsolete (p : preq) (r : reply) (d : rdb) : option bytes :=
    match dget (ans d) (p_key p) with
    | Some s => if (p_tag p =? tagEnd) && beq s (q_said r) then None else Some s
    | None => None
    end.

  Lemma finish_eq : forall kv r p cs gs d,
    finish e kv r p cs gs d =
    match acceptReply e kv r (p_route p) (p_aid p) (obsolete p r d) cs gs d with
    | (d1, Ok true) => (record (p_key p) (q_said r) (p_val p) d1, Ok tt)
    | (d1, Ok false) => (d1, Err UnverifiedReplyError)
    | (d1, Err x) => (d1, Err x)
    end.
  Proof.
    intros. unfold finish, bindM, rd. fold (obsolete p r d).
    destruct (acceptReply e kv r (p_route p) (p_aid p) (obsolete p r d) cs gs d) as [d1 [[|]|x]]; reflexivity.
  Qed.

  (** Outcomes of processReply *)
  Inductive outcome (kv : kview) (r : reply) (cs : list cigar) (gs : list group) (d : rdb) : rdb -> res unit -> Prop :=
  | oc_refused : forall x, x <> UnverifiedReplyError -> outcome kv r cs gs d d (Err x)
  | oc_reply : forall p d1, saidOk e r = true -> parse e r = Ok p ->
      acceptReply e kv r (p_route p) (p_aid p) (obsolete p r d) cs gs d = (d1, Ok true) ->
      outcome kv r cs gs d (record (p_key p) (q_said r) (p_val p) d1) (Ok tt)
  | oc_unver : forall p d1, saidOk e r = true -> parse e r = Ok p ->
      acceptReply e kv r (p_route p) (p_aid p) (obsolete p r d) cs gs d = (d1, Ok false) ->
      outcome kv r cs gs d d1 (Err UnverifiedReplyError)
  | oc_err : forall p d1 x, saidOk e r = true -> parse e r = Ok p ->
      acceptReply e kv r (p_route p) (p_aid p) (obsolete p r d) cs gs d = (d1, Err x) ->
      outcome kv r cs gs d d1 (Err x)
  | oc_ksn_err : forall aid k d1 y x, saidOk e r = true -> findRoute (q_route r) = Some (HKsn aid) -> q_ksr r = Some k ->
      acceptReply e kv r (q_route r) aid (dget (ans d) (key tagKsn [ks_i k; aid])) cs gs d = (d1, y) ->
      outcome kv r cs gs d d1 (Err x)
  | oc_ksn : forall aid k d1, saidOk e r = true -> findRoute (q_route r) = Some (HKsn aid) -> q_ksr r = Some k ->
      acceptReply e kv r (q_route r) aid (dget (ans d) (key tagKsn [ks_i k; aid])) cs gs d = (d1, Ok true) ->
      (forall ev, at_sn kv (ks_i k) (ks_s k) = Some ev -> e_said ev = ks_d k) ->
      (forall n, cur_sn kv (ks_i k) = Some n -> n <= ks_s k) ->
      (lax e = true \/ aid = ks_i k \/ In aid (ks_b k) \/ In aid (wats e)) ->
      outcome kv r cs gs d (setVals (setAns d1 (dset (ans d1) (key tagKsn [ks_i k; aid]) (ks_d k)))
                                    (dset (vals d1) (key tagKsn [ks_d k]) (ks_rec k))) (Ok tt).

  Lemma parse_not_unverified : forall r x, parse e r = Err x -> x <> UnverifiedReplyError.
  Proof.
    intros r x H ->. unfold parse in H. destruct (findRoute (q_route r)) as [[| |aid|aid action]|]; try discriminate.
    - unfold parseEnd, field in H.
      destruct (startswith (s2b "/end/role/add") (q_route r)); [|destruct (startswith (s2b "/end/role/cut") (q_route r)); [|discriminate]];
        cbn [bind] in H; destruct (dget (q_data r) (s2b "cid")); try discriminate; cbn [bind] in H;
        destruct (dget (q_data r) (s2b "role")); try discriminate; cbn [bind] in H;
        destruct (dget (q_data r) (s2b "eid")); try discriminate; cbn [bind] in H;
        destruct (negb (pfxOk e b)); try discriminate; destruct (negb (memB b0 roles)); try discriminate; destruct (negb (pfxOk e b1)); discriminate.
    - unfold parseLoc, field in H. destruct (negb (startswith (s2b "/loc/scheme") (q_route r))); [discriminate|].
      destruct (dget (q_data r) (s2b "eid")); try discriminate; cbn [bind] in H;
        destruct (dget (q_data r) (s2b "scheme")); try discriminate; cbn [bind] in H;
        destruct (dget (q_data r) (s2b "url")); try discriminate; cbn [bind] in H.
      destruct (negb (pfxOk e b)); try discriminate. destruct (negb (memB b0 schemes)); try discriminate.
      match type of H with (if ?c then _ else _) = _ => destruct c end; discriminate.
    - unfold parseWat, field in H. destruct (negb (startswith (s2b "/watcher") (q_route r))); [discriminate|].
      destruct (beq action (s2b "add")); [|destruct (beq action (s2b "cut")); [|discriminate]]; cbn [bind] in H;
        destruct (dget (q_data r) (s2b "cid")); try discriminate; cbn [bind] in H;
        destruct (dget (q_data r) (s2b "oid")); discriminate.
  Qed.

  Lemma process_outcome : forall kv r cs gs d d' x, processReply e kv r cs gs d = (d', x) -> outcome kv r cs gs d d' x.
  Proof.
    intros kv r cs gs d d' x H. unfold processReply in H.
    destruct (negb (saidOk e r)) eqn:SO; [injection H as <- <-; apply oc_refused; discriminate|]. apply negb_false_iff in SO.
    assert (F : forall p, parse e r = Ok p -> finish e kv r p cs gs d = (d', x) -> outcome kv r cs gs d d' x).
    { intros p P F. rewrite finish_eq in F.
      destruct (acceptReply e kv r (p_route p) (p_aid p) (obsolete p r d) cs gs d) as [d1 [[|]|y]] eqn:A; injection F as <- <-.
      - eapply oc_reply; eauto. - eapply oc_unver; eauto. - eapply oc_err; eauto. }
    assert (G : (p <~ lift (parse e r);; finish e kv r p cs gs) d = (d', x) -> outcome kv r cs gs d d' x).
    { intros G. unfold bindM, lift in G. destruct (parse e r) as [p|y] eqn:P; [exact (F p eq_refl G)|].
      injection G as <- <-. apply oc_refused. exact (parse_not_unverified r y P). }
    destruct (findRoute (q_route r)) as [[| |aid|aid action]|] eqn:R; [exact (G H)|exact (G H)| |exact (G H)|].
    2: { injection H as <- <-. apply oc_refused; discriminate. }
    unfold handleKsn in H. destruct (negb (startswith (s2b "/ksn") (q_route r))); [injection H as <- <-; apply oc_refused; discriminate|].
    destruct (q_ksr r) as [k|] eqn:Q; [|injection H as <- <-; apply oc_refused; discriminate].
    destruct (negb (lax e) && negb (beq aid (ks_i k)) && negb (memB aid (ks_b k)) && negb (memB aid (wats e))) eqn:UN;
      [injection H as <- <-; apply oc_refused; discriminate|].
    destruct (match cur_sn kv (ks_i k) with Some n => ks_s k <? n | None => false end) eqn:CS;
      [injection H as <- <-; apply oc_refused; discriminate|].
    unfold bindM, rd in H.
    destruct (acceptReply e kv r (q_route r) aid (dget (ans d) (key tagKsn [ks_i k; aid])) cs gs d) as [d1 [[|]|y]] eqn:A; cbn [negb] in H.
    - destruct (match at_sn kv (ks_i k) (ks_s k) with Some ev => negb (beq (e_said ev) (ks_d k)) | None => false end) eqn:AT.
      + injection H as <- <-. eapply oc_ksn_err; eauto.
      + unfold upd in H. injection H as <- <-. eapply oc_ksn; eauto.
        * intros ev EV. rewrite EV in AT. apply negb_false_iff, beq_eq in AT. exact AT.
        * intros n N. rewrite N in CS. apply N.ltb_ge in CS. exact CS.
        * destruct (lax e); [left; reflexivity|right]. cbn [negb andb] in UN.
          destruct (beq aid (ks_i k)) eqn:B1; [left; apply beq_eq; exact B1|right].
          destruct (memB aid (ks_b k)) eqn:B2; [left; apply memB_In; exact B2|right].
          destruct (memB aid (wats e)) eqn:B3; [apply memB_In; exact B3|discriminate].
    - injection H as <- <-. eapply oc_ksn_err; eauto.
    - injection H as <- <-. eapply oc_ksn_err; eauto.
  Qed.

  (** ** A record changes only by an accepted reply about it *)
  Lemma key_ksn : forall parts, isKsn (key tagKsn parts) = true.
  Proof. reflexivity. Qed.

  Lemma process_changes : forall kv r cs gs d d' x k, processReply e kv r cs gs d = (d', x) -> isKsn k = false ->
    dget (ans d') k <> dget (ans d) k \/ dget (vals d') k <> dget (vals d) k ->
    x = Ok tt /\ exists p, saidOk e r = true /\ parse e r = Ok p /\ k = p_key p /\ dget (ans d') k = Some (q_said r) /\
      dget (vals d') k = Some (p_val p) /\ accepted kv r (p_aid p) (obsolete p r d) cs gs d.
  Proof.
    intros kv r cs gs d d' x k H NK CH. apply process_outcome in H. destruct H.
    - destruct CH as [C|C]; elim C; reflexivity.
    - destruct (accept_keeps _ _ _ _ _ _ _ _ _ _ H1) as [K1 K2]. unfold record in *. cbn [ans vals setVals setAns] in *.
      rewrite K1, K2, !dget_dset in *. destruct (beq k (p_key p)) eqn:B.
      + apply beq_eq in B. split; [reflexivity|]. exists p. repeat (split; [first [assumption|reflexivity]|]). eapply accept_true; exact H1.
      + destruct CH as [C|C]; elim C; reflexivity.
    - destruct (accept_keeps _ _ _ _ _ _ _ _ _ _ H1) as [K1 K2]. rewrite K1, K2 in CH. destruct CH as [C|C]; elim C; reflexivity.
    - destruct (accept_keeps _ _ _ _ _ _ _ _ _ _ H1) as [K1 K2]. rewrite K1, K2 in CH. destruct CH as [C|C]; elim C; reflexivity.
    - destruct (accept_keeps _ _ _ _ _ _ _ _ _ _ H2) as [K1 K2]. rewrite K1, K2 in CH. destruct CH as [C|C]; elim C; reflexivity.
    - destruct (accept_keeps _ _ _ _ _ _ _ _ _ _ H2) as [K1 K2]. cbn [ans vals setVals setAns] in CH. rewrite K1, K2, !dget_dset in CH.
      assert (B : forall parts, beq k (key tagKsn parts) = false).
      { intros parts. apply beq_neq. intros ->. rewrite key_ksn in NK. discriminate. }
      rewrite !B in CH. destruct CH as [C|C]; elim C; reflexivity.
  Qed.

  Lemma unescrow_changes : forall kv now route said d k, isKsn k = false ->
    let d' := unescrow e kv now route said d in
    dget (ans d') k <> dget (ans d) k \/ dget (vals d') k <> dget (vals d) k ->
    exists r p gs, dget (rpys d) said = Some r /\ saidOk e r = true /\ parse e r = Ok p /\ k = p_key p /\ dget (ans d') k = Some (q_said r) /\
      dget (vals d') k = Some (p_val p) /\ accepted kv r (p_aid p) (obsolete p r d) [] gs d /\
      gs = map (fun t => mkG (t_pre t) (t_sn t) (t_dig t) (t_sigs t)) (fetchTsgs (tsgs d) said None).
  Proof.
    intros kv now route said d k NK d' CH. unfold d', unescrow in *. clear d'.
    assert (DR : forall y, (dget (ans (removeReply (Some said) (remRpe route said y))) k = dget (ans y) k) /\
                           (dget (vals (removeReply (Some said) (remRpe route said y))) k = dget (vals y) k)) by (intros; split; reflexivity).
    assert (ND : ~ (dget (ans (removeReply (Some said) (remRpe route said d))) k <> dget (ans d) k \/
                    dget (vals (removeReply (Some said) (remRpe route said d))) k <> dget (vals d) k)).
    { destruct (DR d) as [X Y]. rewrite X, Y. intros [C|C]; apply C; reflexivity. }
    destruct (dget (sdts d) said) as [dt|]; [|contradiction]. destruct (dget (rpys d) said) as [r|]; [|contradiction].
    destruct (fetchTsgs (tsgs d) said None) as [|t ts]; [contradiction|]. set (gs := map _ (t :: ts)) in *.
    destruct (timeoutRPE <? now - dt); [contradiction|].
    destruct (processReply e kv r [] gs d) as [d1 x] eqn:P.
    assert (OK : dget (ans d1) k <> dget (ans d) k \/ dget (vals d1) k <> dget (vals d) k).
    { destruct x as [u|x]; [exact CH|]. destruct (DR d1) as [X Y]. destruct x; try (rewrite X, Y in CH); exact CH. }
    destruct (process_changes _ _ _ _ _ _ _ k P NK OK) as (-> & p & A1 & A2 & A3 & A4 & A5 & A6).
    exists r, p, gs. repeat (split; [first [assumption|reflexivity]|]). reflexivity.
  Qed.

  (** ** stored replies were delivered *)
  Lemma dget_rem_rpys : forall o d s r, dget (rpys (removeReply o d)) s = Some r -> dget (rpys d) s = Some r.
  Proof. intros [o|] d s r H; [|exact H]. cbn in H. rewrite dget_drem in H. destruct (beq s o); [discriminate|exact H]. Qed.
  Lemma put_rpys : forall r d s r', dget (rpys (putReply r d)) s = Some r' -> dget (rpys d) s = Some r' \/ (s = q_said r /\ r' = r).
  Proof.
    intros r d s r' H. cbn [putReply rpys setRpys setSdts] in H. rewrite dget_dput in H. destruct (dget (rpys d) s); [left; exact H|].
    destruct (beq s (q_said r)) eqn:B; [|discriminate]. apply beq_eq in B. injection H as <-. auto.
  Qed.
  Lemma escrow_rpys : forall r route g s d k r', dget (rpys (escrowReply r route g s d)) k = Some r' -> dget (rpys d) k = Some r' \/ (k = q_said r /\ r' = r).
  Proof. intros r route g [|x s] d k r' H; [left; exact H|]. apply put_rpys. exact H. Qed.
  Lemma grpLoop_rpys : forall gs kv r route aid o odt acc d d' x, grpLoop e kv r route aid o odt acc gs d = (d', x) ->
    forall s r', dget (rpys d') s = Some r' -> dget (rpys d) s = Some r' \/ (s = q_said r /\ r' = r).
  Proof.
    induction gs as [|g gs IH]; intros kv r route aid o odt acc d d' x H s r' G.
    - injection H as <- <-. left. exact G.
    - destruct (grpLoop_cons _ _ _ _ _ _ _ _ _ _ _ _ _ H) as (q & d1 & R & K).
      assert (G1 : dget (rpys d1) s = Some r' \/ (s = q_said r /\ r' = r)).
      { destruct q as [b|]; [exact (IH _ _ _ _ _ _ _ _ _ _ K s r' G)|]. destruct K as [-> _]. left. exact G. }
      destruct G1 as [G1|G1]; [|right; exact G1].
      destruct R; try (left; exact G1); try (eapply escrow_rpys; exact G1). apply dget_rem_rpys in G1. apply put_rpys. exact G1.
  Qed.
  Lemma accept_rpys : forall kv r route aid o cs gs d d' x, acceptReply e kv r route aid o cs gs d = (d', x) ->
    forall s r', dget (rpys d') s = Some r' -> dget (rpys d) s = Some r' \/ (s = q_said r /\ r' = r).
  Proof.
    intros kv r route aid o cs gs d d' x H s r' G. rewrite acceptReply_eq in H.
    destruct (cigLoop e r aid o (odtOf o d) cs d) as [d1 y] eqn:C.
    destruct (cigLoop_spec _ _ _ _ _ _ _ _ _ C) as [(-> & ->)|(-> & cg & _ & _ & _ & _ & _ & ->)].
    - eapply grpLoop_rpys; eauto.
    - destruct (grpLoop_rpys _ _ _ _ _ _ _ _ _ _ _ H s r' G) as [G1|G1]; [|right; exact G1].
      apply dget_rem_rpys in G1. apply put_rpys. exact G1.
  Qed.
  Lemma process_rpys : forall kv r cs gs d d' x, processReply e kv r cs gs d = (d', x) ->
    forall s r', dget (rpys d') s = Some r' -> dget (rpys d) s = Some r' \/ (s = q_said r /\ r' = r).
  Proof.
    intros kv r cs gs d d' x H s r' G. apply process_outcome in H. destruct H; try (left; exact G); eapply accept_rpys; eauto.
  Qed.

  Definition delivered (l : list act) (r : reply) : Prop := exists kv cs gs, In (Msg kv r cs gs) l.

  Lemma hist_rpys : forall l d, hist e l d -> forall s r, dget (rpys d) s = Some r -> q_said r = s /\ delivered l r.
  Proof.
    intros l d H. induction H as [|l d a H IH]; intros s r G; [discriminate|].
    assert (W : forall r, delivered l r -> delivered (a :: l) r) by (intros r0 (kv & cs & gs & I); exists kv, cs, gs; right; exact I).
    assert (OLD : dget (rpys d) s = Some r -> q_said r = s /\ delivered (a :: l) r).
    { intros X. destruct (IH s r X) as [A B]. auto. }
    destruct a as [kv r0 cs gs|kv now route said]; cbn [run] in G.
    - destruct (processReply e kv r0 cs gs d) as [d' x] eqn:P. cbn [fst] in G.
      destruct (process_rpys _ _ _ _ _ _ _ P s r G) as [G1|(-> & ->)]; [exact (OLD G1)|]. split; [reflexivity|]. exists kv, cs, gs. left. reflexivity.
    - unfold unescrow in G.
      assert (DR : forall y, dget (rpys (removeReply (Some said) (remRpe route said y))) s = Some r -> dget (rpys y) s = Some r).
      { intros y Y. apply dget_rem_rpys in Y. exact Y. }
      destruct (dget (sdts d) said) as [dt|]; [|exact (OLD (DR _ G))]. destruct (dget (rpys d) said) as [r1|] eqn:R1; [|exact (OLD (DR _ G))].
      destruct (fetchTsgs (tsgs d) said None) as [|t ts]; [exact (OLD (DR _ G))|].
      destruct (timeoutRPE <? now - dt); [exact (OLD (DR _ G))|].
      destruct (processReply e kv r1 [] _ d) as [d1 x] eqn:P.
      assert (G1 : dget (rpys d1) s = Some r). { destruct x as [u|x]; [exact G|]. destruct x; first [exact (DR _ G)|exact G]. }
      destruct (process_rpys _ _ _ _ _ _ _ P s r G1) as [G2|(-> & ->)]; [exact (OLD G2)|].
      destruct (IH _ _ R1) as [A B]. auto.
  Qed.

  Lemma authentic : forall l d, hist e l d -> forall k, isKsn k = false ->
    (dget (ans d) k = None /\ dget (vals d) k = None) \/
    exists r aid v kv, dget (ans d) k = Some (q_said r) /\ dget (vals d) k = Some v /\ says e r aid k v /\ saidOk e r = true /\
      delivered l r /\ In kv (map viewOf l) /\
      ((exists cs gs kv', In (Msg kv' r cs gs) l /\ signedSingle e r aid cs) \/ exists sn dig, signedState e kv r aid sn dig).
  Proof.
    intros l d H. induction H as [|l d a H IH]; intros k NK; [left; split; reflexivity|].
    assert (OLD : dget (ans (run e a d)) k = dget (ans d) k -> dget (vals (run e a d)) k = dget (vals d) k ->
      (dget (ans (run e a d)) k = None /\ dget (vals (run e a d)) k = None) \/
      exists r aid v kv, dget (ans (run e a d)) k = Some (q_said r) /\ dget (vals (run e a d)) k = Some v /\ says e r aid k v /\ saidOk e r = true /\
        delivered (a :: l) r /\ In kv (map viewOf (a :: l)) /\
        ((exists cs gs kv', In (Msg kv' r cs gs) (a :: l) /\ signedSingle e r aid cs) \/ exists sn dig, signedState e kv r aid sn dig)).
    { intros -> ->. destruct (IH k NK) as [X|(r & aid & v & kv & A1 & A2 & A3 & A4 & (kv1 & cs1 & gs1 & A5) & A6 & A7)]; [left; exact X|right].
      exists r, aid, v, kv. do 4 (split; [assumption|]). split; [exists kv1, cs1, gs1; right; exact A5|]. split; [right; exact A6|].
      destruct A7 as [(cs & gs & kv' & I & S1)|S1]; [left; exists cs, gs, kv'; split; [right; exact I|exact S1]|right; exact S1]. }
    assert (DEC : (dget (ans (run e a d)) k = dget (ans d) k /\ dget (vals (run e a d)) k = dget (vals d) k) \/
                  (dget (ans (run e a d)) k <> dget (ans d) k \/ dget (vals (run e a d)) k <> dget (vals d) k)).
    { assert (D : forall x y : option bytes, {x = y} + {x <> y}) by (decide equality; apply list_N_dec).
      destruct (D (dget (ans (run e a d)) k) (dget (ans d) k)); [|right; left; assumption].
      destruct (D (dget (vals (run e a d)) k) (dget (vals d) k)); [left; auto|right; right; assumption]. }
    destruct DEC as [[E1 E2]|CH]; [exact (OLD E1 E2)|]. right.
    destruct a as [kv r cs gs|kv now route said]; cbn [run] in *.
    - destruct (processReply e kv r cs gs d) as [d' x] eqn:P. cbn [fst] in *.
      destruct (process_changes _ _ _ _ _ _ _ k P NK CH) as (-> & p & A1 & A2 & A3 & A4 & A5 & A6).
      exists r, (p_aid p), (p_val p), kv. do 2 (split; [assumption|]). split; [rewrite A3; apply parse_says; exact A2|].
      split; [exact A1|]. split; [exists kv, cs, gs; left; reflexivity|]. split; [left; reflexivity|].
      destruct A6 as [(S1 & _)|(g & _ & _ & S1 & _)]; [left; exists cs, gs, kv; split; [left; reflexivity|exact S1]|right; eauto].
    - destruct (unescrow_changes kv now route said d k NK CH) as (r & p & gs & A0 & A1 & A2 & A3 & A4 & A5 & A6 & A7).
      destruct (hist_rpys _ _ H _ _ A0) as (_ & kv1 & cs1 & gs1 & A8).
      exists r, (p_aid p), (p_val p), kv. do 2 (split; [assumption|]). split; [rewrite A3; apply parse_says; exact A2|].
      split; [exact A1|]. split; [exists kv1, cs1, gs1; right; exact A8|]. split; [left; reflexivity|].
      destruct A6 as [((cg & [] & _) & _)|(g & _ & _ & S1 & _)]. right. eauto.
  Qed.
End Calls.
