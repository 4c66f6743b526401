From Verif Require Import Prelude B64Model MatterModel SubsModel ThModel ThProofs KelModel TlModel TlSpec TlProofs TlInv TlBack TlLive.
Open Scope N_scope.
Ltac Zify.zify_post_hook ::= Z.div_mod_to_equations.

(** ** Concrete events *)
(** signatures of this environment are the key followed by the message *)
Definition xE : tenv := mkTenv (fun _ => true) (fun _ => true) (fun b s m => beq s (b :: m)).
Definition xCf : tconf := mkTc [] false false.
Definition xvcp (reg ii : N) : tev := mkTv [reg] reg reg 0 Vcp ii 0 [] [] [] true 0 (0, 0) 0.
Definition xvcpB (reg ii toad : N) (bk : list N) : tev := mkTv [reg] reg reg 0 Vcp ii toad bk [] [] false 0 (0, 0) 0.
Definition xvrt (reg sn said prior toad : N) (cuts adds : list N) : tev := mkTv [said] said reg sn Vrt 0 toad [] cuts adds false 0 (0, 0) prior.
Definition xiss (c said reg : N) : tev := mkTv [said] said c 0 Iss 0 0 [] [] [] false reg (0, 0) 0.
Definition xrev (c sn said reg prior : N) : tev := mkTv [said] said c sn Rev 0 0 [] [] [] false reg (0, 0) prior.
Definition xbis (c said reg regd : N) : tev := mkTv [said] said c 0 Bis 0 0 [] [] [] false 0 (reg, regd) 0.
Definition xsig (b idx : N) (e : tev) : siger := mkSiger [b; t_said e] idx (b :: t_raw e).
(** event [k] of [ii] with said [1000 + k] seals [e] *)
Definition sealv (l : list (N * N * tev)) : kelview := fun ii k =>
  option_map (fun r : N * N * tev => let e := snd r in (1000 + k, [SealEvt (t_pre e) (t_sn e) (t_said e)]))
    (find (fun r => (fst (fst r) =? ii) && (snd (fst r) =? k)) l).
Definition at_ (k : N) : option (N * N) := Some (k, 1000 + k).

(** the issuer 1 with registry 10 issues credential 100 and revokes it *)
Definition vOk : kelview := sealv [(1, 1, xvcp 10 1); (1, 2, xiss 100 101 10); (1, 3, xrev 100 1 102 10 101)].
Definition hOk : list tact :=
  [TDeliver vOk (xvcp 10 1) (at_ 1) []; TDeliver vOk (xiss 100 101 10) (at_ 2) []; TDeliver vOk (xrev 100 1 102 10 101) (at_ 3) []].
Definition dOk : tdb := truns xE xCf hOk tdb0.

(** ** Safety *)
Lemma c36_anchored : forall E cf h p sn g, telAt (truns E cf h tdb0) p sn = Some g ->
  exists e ii, delivered h e /\ t_pre e = p /\ t_sn e = sn /\ t_said e = g /\ controls h (registryOf e) ii /\ anchoredIn h ii e.
Proof.
  intros E cf h p sn g H. destruct (i_ent _ _ (truns_inv E cf h) p sn g H) as (e & ii & A1 & A2 & A3 & A4 & _ & A6 & A7 & _). exists e, ii. repeat (split; [assumption|]). exact A7.
Qed.


Lemma c36_one_controller : forall h k ii ii', oneEvent h -> selfNamed h -> controls h k ii -> controls h k ii' -> ii = ii'.
Proof.
  intros h k ii ii' O S (r & A1 & A2 & A3 & A4 & _) (r' & B1 & B2 & B3 & B4 & _).
  assert (X : r = r') by (apply O; auto; [congruence|rewrite <- (S r A1 A2), <- (S r' B1 B2); congruence]). congruence.
Qed.

Lemma c36_log_shape : forall E cf h p, let d := truns E cf h tdb0 in
  (forall sn, telAt d p (sn + 1) <> None -> telAt d p sn <> None)
  /\ (forall sn g, telAt d p sn = Some g -> exists e, delivered h e /\ t_pre e = p /\ t_sn e = sn /\ t_said e = g
        /\ (sn = 0 -> t_ilk e = Vcp \/ t_ilk e = Iss \/ t_ilk e = Bis)
        /\ (sn <> 0 -> t_ilk e = Vrt \/ (t_ilk e = Rev \/ t_ilk e = Brv) /\ telAt d p (sn - 1) = Some (t_prior e))).
Proof.
  intros E cf h p d. pose proof (truns_inv E cf h) as I. fold d in I. split.
  - intros sn H. destruct (telAt d p (sn + 1)) as [g|] eqn:T; [|congruence]. apply (telAt_some d p _ _ (i_num _ _ I)) in T. intros N0. apply (telAt_none d p sn (i_num _ _ I)) in N0. lia.
  - intros sn g H. destruct (i_ent _ _ I p sn g H) as (e & ii & A1 & A2 & A3 & A4 & A5 & A6 & A7 & A8 & A9). exists e. repeat (split; [assumption|]). split; [apply A8|].
    intros N0. destruct (t_ilk e) eqn:K; auto; try (exfalso; apply N0; apply A8; auto; fail); try congruence.
Qed.


Lemma c36_append_only : forall E cf h h' p sn g,
  telAt (truns E cf h tdb0) p sn = Some g -> telAt (truns E cf (h ++ h') tdb0) p sn = Some g.
Proof.
  intros E cf h h' p sn g H. unfold truns. rewrite fold_left_app. eapply ext_at; [apply (truns_ext E cf h')|exact H].
Qed.
Lemma c36_stored : forall E cf h p sn g, telAt (truns E cf h tdb0) p sn = Some g ->
  exists e, tvts (truns E cf h tdb0) p g = Some e /\ delivered h e /\ t_pre e = p /\ t_said e = g.
Proof.
  intros E cf h p sn g H. pose proof (s_log _ (truns_s E cf h) p sn g H) as S. destruct (tvts _ p g) as [e|] eqn:T; [|contradiction].
  exists e. split; [reflexivity|]. apply (i_tvts _ _ (truns_inv E cf h)). exact T.
Qed.

Lemma state_iff : forall d p, wellNumbered d -> (vcState d p = NeverIssued <-> telAt d p 0 = None) /\ (vcState d p = Issued <-> telAt d p 0 <> None /\ telAt d p 1 = None)
  /\ (vcState d p = Revoked <-> telAt d p 1 <> None).
Proof.
  intros d p W. pose proof (W p) as N0. unfold vcState, telAt. destruct (tels d p) as [|(s, g) [|(s', g') l]]; cbn [numbered] in N0.
  - cbn. intuition (try discriminate; try congruence).
  - destruct N0 as [-> _]. cbn. intuition (try discriminate; try congruence).
  - destruct N0 as [-> [-> _]]. cbn. intuition (try discriminate; try congruence).
Qed.
Lemma c36_revoked_final : forall E cf h h' c, vcState (truns E cf h tdb0) c = Revoked -> vcState (truns E cf (h ++ h') tdb0) c = Revoked.
Proof.
  intros E cf h h' c H. apply (state_iff _ c (i_num _ _ (truns_inv E cf h))) in H. apply (state_iff _ c (i_num _ _ (truns_inv E cf (h ++ h')))).
  destruct (telAt (truns E cf h tdb0) c 1) as [g|] eqn:T; [|congruence]. rewrite (c36_append_only E cf h h' c 1 g T). discriminate.
Qed.

Lemma c36_issued_once : forall E cf h h' c, vcState (truns E cf h tdb0) c = Issued ->
  exists g, telAt (truns E cf h tdb0) c 0 = Some g /\ telAt (truns E cf (h ++ h') tdb0) c 0 = Some g
    /\ vcState (truns E cf (h ++ h') tdb0) c <> NeverIssued.
Proof.
  intros E cf h h' c H. apply (state_iff _ c (i_num _ _ (truns_inv E cf h))) in H. destruct H as [H _]. destruct (telAt (truns E cf h tdb0) c 0) as [g|] eqn:T; [|congruence].
  exists g. split; [reflexivity|]. pose proof (c36_append_only E cf h h' c 0 g T) as K. split; [exact K|]. intros X. apply (state_iff _ c (i_num _ _ (truns_inv E cf (h ++ h')))) in X. congruence.
Qed.
Lemma c36_revoked_meaning : forall E cf h c, vcState (truns E cf h tdb0) c = Revoked ->
  (forall e, delivered h e -> t_pre e = c -> t_ilk e <> Vcp) ->
  exists e r ii ri, delivered h e /\ t_pre e = c /\ t_sn e = 0 /\ (t_ilk e = Iss \/ t_ilk e = Bis) /\ controls h (registryOf e) ii /\ anchoredIn h ii e
    /\ delivered h r /\ t_pre r = c /\ t_sn r = 1 /\ (t_ilk r = Rev \/ t_ilk r = Brv) /\ t_prior r = t_said e /\ controls h (registryOf r) ri /\ anchoredIn h ri r.
Proof.
  intros E cf h c H Nv. pose proof (truns_inv E cf h) as I. set (d := truns E cf h tdb0) in *. apply (state_iff _ c (i_num _ _ I)) in H.
  destruct (telAt d c 1) as [g|] eqn:T; [|congruence]. destruct (i_ent _ _ I c 1 g T) as (r & ri & A1 & A2 & A3 & A4 & A5 & A6 & A7 & A8 & A9).
  assert (L : 0 < len (tels d c)) by (apply (telAt_some d c _ _ (i_num _ _ I)) in T; lia). apply (telAt_iff d c 0 (i_num _ _ I)) in L. destruct L as (g0 & T0).
  destruct (i_ent _ _ I c 0 g0 T0) as (e & ii & B1 & B2 & B3 & B4 & B5 & B6 & B7 & B8 & B9).
  assert (Ke : t_ilk e = Iss \/ t_ilk e = Bis) by (destruct (proj1 B8 eq_refl) as [K|[K|K]]; auto; exfalso; apply (Nv e); assumption).
  assert (Kr : t_ilk r = Rev \/ t_ilk r = Brv).
  { destruct (t_ilk r) eqn:K; auto; exfalso; try (assert (X : 1 = 0) by (apply A8; auto); lia); try congruence.
    assert (Rk : registryOf r = c) by (unfold registryOf; rewrite K; exact A2). rewrite Rk in A6. destruct A6 as (q & Q1 & Q2 & Q3 & _). apply (Nv q); assumption. }
  specialize (A9 Kr). change (1 - 1) with 0 in A9. rewrite T0 in A9. injection A9 as A9.
  exists e, r, ii, ri. repeat (split; [assumption|]). split; [congruence|]. split; assumption.
Qed.

Lemma c36_revoked_by_issuer_partial : forall E cf h c sn g g', oneEvent h -> selfNamed h ->
  telAt (truns E cf h tdb0) c 0 = Some g -> telAt (truns E cf h tdb0) c sn = Some g' ->
  (forall e e', delivered h e -> delivered h e' -> t_pre e = c -> t_pre e' = c -> registryOf e = registryOf e') ->
  exists e e' ii, delivered h e /\ delivered h e' /\ t_said e = g /\ t_said e' = g' /\ controls h (registryOf e) ii /\ anchoredIn h ii e /\ anchoredIn h ii e'.
Proof.
  intros E cf h c sn g g' O S T0 T Sm. destruct (c36_anchored E cf h c 0 g T0) as (e & ii & A1 & A2 & A3 & A4 & A5 & A6).
  destruct (c36_anchored E cf h c sn g' T) as (e' & ii' & B1 & B2 & B3 & B4 & B5 & B6). rewrite (Sm e' e B1 A1 B2 A2) in B5.
  rewrite (c36_one_controller h _ ii' ii O S B5 A5) in *. exists e, e', ii. repeat (split; [assumption|]). assumption.
Qed.
Lemma hOk_one : oneEvent hOk /\ selfNamed hOk.
Proof.
  split.
  - intros e e' (v & a & bs & J) (v' & a' & bs' & J') P G. unfold hOk in J, J'.
    destruct J as [J|[J|[J|[]]]]; injection J as <- <- <- <-; destruct J' as [J'|[J'|[J'|[]]]]; injection J' as <- <- <- <-; cbn in P, G; try reflexivity; discriminate.
  - intros e (v & a & bs & J) K. unfold hOk in J. destruct J as [J|[J|[J|[]]]]; injection J as <- <- <- <-; cbn in *; congruence.
Qed.


(** ** Backers *)
Lemma c36_backed_partial : forall E cf h p sn g e, c_tlocal cf = false -> oneEvent h -> selfNamed h ->
  telAt (truns E cf h tdb0) p sn = Some g -> delivered h e -> t_pre e = p -> t_said e = g ->
  (t_ilk e = Vcp -> t_baks e <> [] -> ~ In p (t_baks e) -> wellBacked E e (t_toad e) (t_baks e))
  /\ (t_ilk e = Bis \/ t_ilk e = Brv -> forall r, delivered h r -> t_ilk r = Vcp -> t_ra e = (t_pre r, t_said r) ->
        t_baks r <> [] -> ~ In (t_pre r) (t_baks r) -> wellBacked E e (t_toad r) (t_baks r)).
Proof.
  intros E cf h p sn g e L O S T D P G. subst p. exact (logged_backed E cf h O S L _ _ _ e T D eq_refl G).
Qed.
Definition vBk : kelview := sealv [(1, 1, xvcpB 10 1 2 [7; 8; 9]); (1, 2, xbis 100 101 10 10)].
Definition bVcp := xvcpB 10 1 2 [7; 8; 9].
Definition bBis := xbis 100 101 10 10.
Definition hBk : list tact := [TDeliver vBk bVcp (at_ 1) [xsig 7 0 bVcp; xsig 9 2 bVcp]; TDeliver vBk bBis (at_ 2) [xsig 8 1 bBis; xsig 9 2 bBis]].

Lemma c36_rotation_backed : forall E cf v e a bs d d', tprocess E cf v e a bs d = (d', Ok tt) -> t_ilk e = Vrt ->
  exists tv tv', tget d (t_pre e) = Some tv /\ tget d' (t_pre e) = Some tv' /\ t_sn e = v_sn tv + 1 /\ t_prior e = v_said tv /\ anchored v (v_ii tv) e
    /\ v_ii tv' = v_ii tv /\ v_sn tv' = t_sn e /\ v_said tv' = t_said e
    /\ (v_baks tv' <> [] -> v_local tv = false -> ~ In (v_regk tv) (v_baks tv') -> wellBacked E e (v_toad tv') (v_baks tv')).
Proof.
  intros E cf v e a bs d d' H K. apply tprocess_step in H. inversion H as [ | tv T Kk S1 An Pr Bk A B C D P | tv toad bk T Kk Nb Pe S1 Pd An Ro Bk A B C D P | tv T Kk TI An Bk A B C D P]; subst.
  - rewrite K in Kk. destruct Kk as [Kk|[Kk|[Kk|Kk]]]; discriminate.
  - eexists tv, _. split; [exact T|]. split; [unfold tget; rewrite B; unfold fset; rewrite N.eqb_refl; reflexivity|]. cbn [v_ii v_sn v_said v_baks v_toad]. repeat (split; [assumption || reflexivity|]).
    intros Nn Lc Ni. destruct Bk as [X|[X|[X|X]]]; [contradiction|congruence| |exact X]. exfalso. apply Ni. apply memN_In. exact X.
  - congruence.
Qed.
Definition bVrt := xvrt 10 1 11 10 2 [8] [6].
Definition vBr : kelview := sealv [(1, 1, bVcp); (1, 3, bVrt)].


(** ** Restart *)
Lemma c36_registry_survives_restart : forall E cf h k tv, tget (truns E cf h tdb0) k = Some tv ->
  exists tv', tget (truns E cf (h ++ [TRestart]) tdb0) k = Some tv' /\ v_ii tv' = v_ii tv /\ v_nob tv' = v_nob tv.
Proof. intros E cf h k tv H. rewrite truns_app. apply restart_keeps. exact H. Qed.


Lemma c36_registry_opens : forall E cf v e a bs d, goodPre E (t_pre e) = true -> t_ilk e = Vcp -> t_sn e = 0 -> allowed cf (t_pre e) -> tget d (t_pre e) = None ->
  NoDup (t_baks e) -> (forall b, In b (t_baks e) -> goodBak E b = true) -> fits (t_toad e) (t_baks e) ->
  sealedAt v (t_ii e) a e -> signedBy E e bs (t_baks e) -> t_toad e <= len bs ->
  exists d' tv, tprocess E cf v e (Some a) bs d = (d', Ok tt) /\ tget d' (t_pre e) = Some tv /\ v_ii tv = t_ii e /\ v_nob tv = t_nob e /\ telAt d' (t_pre e) 0 <> None.
Proof.
  intros E cf v e a bs d H1 H2 H3 H4 H5 H6 H7 H8 H9 H10 H11. destruct (opens E cf v e a bs d H1 H2 H3 H4 H5 H6 H7 H8 H9 H10 H11) as (d' & A & B & C).
  eexists d', _. split; [exact A|]. split; [exact B|]. repeat split. exact C.
Qed.

Lemma c36_issue_accepted : forall E cf h v e a bs tv, let d := truns E cf h tdb0 in
  goodPre E (t_pre e) = true -> t_ilk e = Iss -> t_sn e = 0 -> allowed cf (t_ri e) -> tget d (t_ri e) = Some tv -> v_nob tv = true ->
  vcState d (t_pre e) = NeverIssued -> sealedAt v (v_ii tv) a e ->
  exists d', tprocess E cf v e (Some a) bs d = (d', Ok tt) /\ vcState d' (t_pre e) = Issued /\ telAt d' (t_pre e) 0 = Some (t_said e).
Proof.
  intros E cf h v e a bs tv d G K S0 Al T Nb Ns Sa. pose proof (truns_inv E cf h) as I. fold d in I. destruct (tinv_get h d _ tv I T) as [Rk _].
  assert (Le : tels d (t_pre e) = []) by (unfold vcState in Ns; destruct (tels d (t_pre e)) as [|x [|y l]]; [reflexivity|discriminate|discriminate]).
  rewrite (simple_step E cf v e (Some a) bs d tv G Al T Nb Rk); [|rewrite S0; apply N.leb_le; reflexivity|rewrite Le, S0; reflexivity|left; split; assumption].
  destruct (simple_logs v tv e a d Sa) as (d' & A & B); [rewrite Le, S0; reflexivity|unfold telAt; rewrite Le; reflexivity|].
  exists d'. split; [exact A|]. unfold vcState, telAt. rewrite B, Le, S0. split; reflexivity.
Qed.
Lemma c36_revoke_accepted : forall E cf h v e a bs tv, let d := truns E cf h tdb0 in
  goodPre E (t_pre e) = true -> t_ilk e = Rev -> t_sn e = 1 -> allowed cf (t_ri e) -> tget d (t_ri e) = Some tv -> v_nob tv = true ->
  vcState d (t_pre e) = Issued -> telAt d (t_pre e) 0 = Some (t_prior e) -> sealedAt v (v_ii tv) a e ->
  exists d', tprocess E cf v e (Some a) bs d = (d', Ok tt) /\ vcState d' (t_pre e) = Revoked /\ telAt d' (t_pre e) 1 = Some (t_said e).
Proof.
  intros E cf h v e a bs tv d G K S1 Al T Nb Ns T0 Sa. pose proof (truns_inv E cf h) as I. fold d in I. destruct (tinv_get h d _ tv I T) as [Rk _].
  destruct (c36_stored E cf h (t_pre e) 0 (t_prior e) T0) as (ie & V & _ & _ & V2). fold d in V.
  assert (Le : exists x, tels d (t_pre e) = [x]) by (unfold vcState in Ns; destruct (tels d (t_pre e)) as [|x [|y l]]; [discriminate|exists x; reflexivity|discriminate]). destruct Le as (x & Le).
  rewrite (simple_step E cf v e (Some a) bs d tv G Al T Nb Rk); [|rewrite S1; apply N.leb_le; reflexivity|rewrite Le, S1; reflexivity|right; rewrite S1; split; [exact K|]; split; [lia|]; exists (t_prior e), ie; repeat split; assumption].
  destruct (simple_logs v tv e a d Sa) as (d' & A & B); [rewrite Le, S1; reflexivity| |].
  { destruct (telAt d (t_pre e) (t_sn e)) as [g|] eqn:Q; [|reflexivity]. apply (telAt_some d _ _ _ (i_num _ _ I)) in Q. rewrite Le, S1 in Q. unfold len in Q. cbn in Q. lia. }
  exists d'. split; [exact A|]. pose proof (i_num _ _ I (t_pre e)) as N0. rewrite Le in N0. destruct x as (s, g). destruct N0 as [-> _]. unfold vcState, telAt. rewrite B, Le, S1. split; reflexivity.
Qed.

Lemma c36_waits_for_anchor_partial : forall E cf h v0 v e a bs tv, let d := truns E cf h tdb0 in
  goodPre E (t_pre e) = true -> t_ilk e = Iss -> t_sn e = 0 -> allowed cf (t_ri e) -> tget d (t_ri e) = Some tv -> v_nob tv = true ->
  vcState d (t_pre e) = NeverIssued -> v0 (v_ii tv) (fst a) = None -> sealedAt v (v_ii tv) a e ->
  tvts d (t_pre e) (t_said e) = None -> ancs d (t_pre e) (t_said e) = None -> taes d = [] ->
  vcState (truns E cf (h ++ [TDeliver v0 e (Some a) bs]) tdb0) (t_pre e) = NeverIssued
  /\ telAt (truns E cf (h ++ [TDeliver v0 e (Some a) bs; TSweep v]) tdb0) (t_pre e) 0 = Some (t_said e).
Proof.
  intros E cf h v0 v e a bs tv d G K S0 Al T Nb Ns V0 Sa Tv An Ta. pose proof (truns_inv E cf h) as I. fold d in I. destruct (tinv_get h d _ tv I T) as [Rk _].
  assert (Le : tels d (t_pre e) = []) by (unfold vcState in Ns; destruct (tels d (t_pre e)) as [|x [|y l]]; [reflexivity|discriminate|discriminate]).
  destruct (waits E cf v0 v e a bs d tv G K S0 Al T Nb Rk Le V0 Sa Tv An Ta) as (d1 & A & B & C).
  unfold truns. rewrite !fold_left_app. cbn [fold_left tdo]. fold (truns E cf h tdb0). fold d. rewrite A. cbn [fst]. split; assumption.
Qed.


(** ** Refutations *)
(** A stranger with a registry of their own revokes somebody else's credential.
    The credential is issued in registry 10 of 1; the revocation names registry 20 of 66 and is
    sealed only by 66. *)
Definition fRev := xrev 100 1 102 20 101.
Definition vF : kelview := sealv [(1, 1, xvcp 10 1); (1, 2, xiss 100 101 10); (66, 1, xvcp 20 66); (66, 2, fRev)].
Definition hF : list tact := [TDeliver vF (xvcp 10 1) (at_ 1) []; TDeliver vF (xiss 100 101 10) (at_ 2) []; TDeliver vF (xvcp 20 66) (at_ 1) []; TDeliver vF fRev (at_ 2) []].
Lemma c36_foreign_revocation_refuted : exists E cf h c, oneEvent h /\ selfNamed h
  /\ (forall v, viewIn h v -> v = vF) /\ (forall k, 3 <= k -> vF 1 k = None)
  /\ vcState (truns E cf (firstn 3 h) tdb0) c = Issued /\ vcState (truns E cf h tdb0) c = Revoked
  /\ ~ (exists r, delivered h r /\ t_pre r = c /\ t_sn r = 1 /\ anchoredIn h 1 r).
Proof.
  exists xE, xCf, hF, 100.
  assert (V : forall v, viewIn hF v -> v = vF).
  { intros v [(e & a & bs & J)|J]; unfold hF in J; [destruct J as [J|[J|[J|[J|[]]]]]; injection J as <- _ _ _; reflexivity|destruct J as [J|[J|[J|[J|[]]]]]; discriminate]. }
  split; [|split; [|split; [exact V|split; [|split; [vm_compute; reflexivity|split; [vm_compute; reflexivity|]]]]]].
  - intros e e' (v & a & bs & J) (v' & a' & bs' & J') P G. unfold hF in J, J'.
    destruct J as [J|[J|[J|[J|[]]]]]; injection J as <- <- <- <-; destruct J' as [J'|[J'|[J'|[J'|[]]]]]; injection J' as <- <- <- <-; cbn in P, G; try reflexivity; discriminate.
  - intros e (v & a & bs & J) K. unfold hF in J. destruct J as [J|[J|[J|[J|[]]]]]; injection J as <- <- <- <-; cbn in *; congruence.
  - intros k L. unfold vF, sealv. cbn [find fst snd]. destruct (1 =? k) eqn:B1; [apply N.eqb_eq in B1; lia|]. destruct (2 =? k) eqn:B2; [apply N.eqb_eq in B2; lia|]. reflexivity.
  - intros (r & (v & a & bs & J) & P & S1 & (w & Vw & k & sd & An)). rewrite (V w Vw) in An. unfold hF in J.
    destruct J as [J|[J|[J|[J|[]]]]]; injection J as <- <- <- <-; cbn in P, S1; try discriminate.
    unfold vF, sealv in An. cbn [find fst snd] in An. destruct (1 =? k); [cbn in An; discriminate|]. destruct (2 =? k); cbn in An; discriminate.
Qed.
(** A stranger's issuance takes the place of the issuer's, whose own issuance is then refused. *)
Definition fIss := xiss 100 103 20.
Definition vG : kelview := sealv [(1, 1, xvcp 10 1); (1, 2, xiss 100 101 10); (66, 1, xvcp 20 66); (66, 2, fIss)].
Definition hG : list tact := [TDeliver vG (xvcp 10 1) (at_ 1) []; TDeliver vG (xvcp 20 66) (at_ 1) []; TDeliver vG fIss (at_ 2) []].
Lemma c36_foreign_issuance_refuted : exists E cf h v e a tv, let d := truns E cf h tdb0 in
  tget d (t_ri e) = Some tv /\ t_ilk e = Iss /\ sealedAt v (v_ii tv) a e
  /\ snd (tprocess E cf v e (Some a) [] d) = Err LikelyDuplicitousError /\ snd (tprocess E cf v e (Some a) [] (truns E cf (firstn 2 h) tdb0)) = Ok tt.
Proof. exists xE, xCf, hG, vG, (xiss 100 101 10), (2, 1002), (mkTever 1 10 0 10 0 [] true false). vm_compute. repeat split. Qed.
(** A stranger's event whose credential is named like a registry enters the log of that registry. *)
Definition pRev := xrev 10 1 104 20 10.
Definition vP : kelview := sealv [(1, 1, xvcp 10 1); (66, 1, xvcp 20 66); (66, 2, pRev)].
Definition hP : list tact := [TDeliver vP (xvcp 10 1) (at_ 1) []; TDeliver vP (xvcp 20 66) (at_ 1) []; TDeliver vP pRev (at_ 2) []].
Lemma c36_registry_log_polluted_refuted : exists E cf h k e, let d := truns E cf h tdb0 in
  controls h k 1 /\ telAt d k 1 = Some (t_said e) /\ tvts d k (t_said e) = Some e /\ registryOf e <> k.
Proof.
  exists xE, xCf, hP, 10, pRev. cbv zeta. split; [|split; [reflexivity|split; [reflexivity|vm_compute; discriminate]]].
  exists (xvcp 10 1). split; [eexists _, _, _; left; reflexivity|]. repeat (split; [reflexivity|]). exists vP. split; [left; eexists _, _, _; left; reflexivity|].
  exists 1, 1001. reflexivity.
Qed.
(** A second revocation of a revoked credential is accepted. *)
Definition hRR : list tact := hOk ++ [TDeliver (sealv [(1, 4, xrev 100 2 105 10 102)]) (xrev 100 2 105 10 102) (at_ 4) []].
Lemma c36_revoked_twice_refuted : exists E cf h e v a, vcState (truns E cf h tdb0) (t_pre e) = Revoked /\ t_ilk e = Rev /\
  snd (tprocess E cf v e a [] (truns E cf h tdb0)) = Ok tt.
Proof. exists xE, xCf, hOk, (xrev 100 2 105 10 102), (sealv [(1, 4, xrev 100 2 105 10 102)]), (at_ 4). vm_compute. repeat split. Qed.

(** A restart forgets registry rotations: a second, different rotation with the same number is
    then accepted, and the log keeps the first. *)
Definition rVcp := xvcpB 10 1 1 [7].
Definition rVrt1 := xvrt 10 1 11 10 1 [7] [8].
Definition rVrt2 := xvrt 10 1 12 10 1 [7] [9].
Definition vR : kelview := sealv [(1, 1, rVcp); (1, 2, rVrt1); (1, 3, rVrt2)].
Definition hR : list tact := [TDeliver vR rVcp (at_ 1) [xsig 7 0 rVcp]; TDeliver vR rVrt1 (at_ 2) [xsig 8 0 rVrt1]].
Lemma c36_rotation_lost_refuted : exists E cf h v e e' a bs, let d := truns E cf h tdb0 in
  e <> e' /\ t_sn e = t_sn e' /\ telAt d (t_pre e) (t_sn e) = Some (t_said e)
  /\ snd (tprocess E cf v e' a bs d) = Err LikelyDuplicitousError
  /\ snd (tprocess E cf v e' a bs (trestart d)) = Ok tt
  /\ telAt (fst (tprocess E cf v e' a bs (trestart d))) (t_pre e) (t_sn e) = Some (t_said e)
  /\ option_map v_said (tget (fst (tprocess E cf v e' a bs (trestart d))) (t_pre e)) = Some (t_said e').
Proof. exists xE, xCf, hR, vR, rVrt1, rVrt2, (at_ 3), [xsig 9 0 rVrt2]. split; [discriminate|]. vm_compute. repeat split. Qed.
(** A credential event may name a registry rotation that was never accepted.  If that rotation
    waits for its anchor, its backers count; here 6, who is no backer of the registry. *)
Definition uVrt := xvrt 10 1 11 10 1 [7; 8; 9] [6].
Definition uBis := xbis 100 101 10 11.
Definition vU : kelview := sealv [(1, 1, bVcp); (1, 2, uBis)].
Definition hU : list tact :=
  [TDeliver vU bVcp (at_ 1) [xsig 7 0 bVcp; xsig 9 2 bVcp]; TDeliver vU uVrt (at_ 5) []; TDeliver vU uBis (at_ 2) [xsig 6 0 uBis]].
Lemma c36_unaccepted_rotation_refuted : exists E cf h c, let d := truns E cf h tdb0 in
  vcState d c = Issued /\ tget d 10 = Some (mkTever 1 10 0 10 2 [7; 8; 9] false false) /\ telAt d 10 1 = None
  /\ exists e, telAt d c 0 = Some (t_said e) /\ tvts d c (t_said e) = Some e /\ fst (t_ra e) = 10
     /\ forall b, In b [7; 8; 9] -> forall v' a' bs s, In (TDeliver v' e a' bs) h -> In s bs -> tvrfy E b (sg_raw s) (t_raw e) = false.
Proof.
  exists xE, xCf, hU, 100. cbv zeta. split; [reflexivity|]. split; [reflexivity|]. split; [reflexivity|]. exists uBis. split; [reflexivity|]. split; [reflexivity|]. split; [reflexivity|].
  intros b Jb v' a' bs s J Js. unfold hU in J. destruct J as [J|[J|[J|[]]]]; [discriminate J|discriminate J|]. injection J as <- <- <-. destruct Js as [<- |[]].
  destruct Jb as [<- |[<- |[<- |[]]]]; reflexivity.
Qed.
(** If the rotation waits out of order no backers are stored for it, and the credential event
    needs no signature at all. *)
Definition oVrt := xvrt 10 5 15 14 1 [] [].
Definition oBis := xbis 100 101 10 15.
Definition vO : kelview := sealv [(1, 1, bVcp); (1, 2, oBis)].
Definition hO : list tact := [TDeliver vO bVcp (at_ 1) [xsig 7 0 bVcp; xsig 9 2 bVcp]; TDeliver vO oVrt (at_ 5) []; TDeliver vO oBis (at_ 2) []].
Lemma c36_no_signature_refuted : exists E cf h c, let d := truns E cf h tdb0 in
  vcState d c = Issued /\ tget d 10 = Some (mkTever 1 10 0 10 2 [7; 8; 9] false false)
  /\ forall v e a bs, In (TDeliver v e a bs) h -> t_pre e = c -> fst (t_ra e) = 10 /\ bs = [].
Proof.
  exists xE, xCf, hO, 100. cbv zeta. split; [reflexivity|]. split; [reflexivity|]. intros v e a bs J P. unfold hO in J.
  destruct J as [J|[J|[J|[]]]]; injection J as <- <- <- <-; cbn in P; try discriminate. split; reflexivity.
Qed.
(** One backer signing twice, with different signatures, meets a threshold of two. *)
Definition eTwo : tenv := mkTenv (fun _ => true) (fun _ => true) (fun b s m => beq (firstn 1 s) [b]).
Definition sTwo (k : N) : siger := mkSiger [7; k] 0 [7; k].
Lemma c36_backer_counted_twice_refuted : exists E cf v e a bs, t_toad e = 2 /\ NoDup (t_baks e) /\
  snd (tprocess E cf v e a bs tdb0) = Ok tt /\ forall s, In s bs -> sg_index s = 0.
Proof.
  exists eTwo, xCf, vBk, bVcp, (at_ 1), [sTwo 1; sTwo 2]. split; [reflexivity|]. split; [cbn; repeat constructor; cbn; intuition discriminate|]. split; [vm_compute; reflexivity|].
  intros s [<- |[<- |[]]]; reflexivity.
Qed.

Lemma c36_escrow_doubles_refuted : exists E cf v e a, forall n,
  len (oots (truns E cf (TDeliver v e (Some a) [] :: repeat (TSweep v) n) tdb0)) = 2 ^ N.of_nat n.
Proof.
  exists xE, xCf, vOk, (xrev 100 1 102 10 101), (3, 1003). intros n. apply doubles; try reflexivity; [right; reflexivity|]. cbn. split; [lia|]. apply N.leb_le. reflexivity.
Qed.
(** An unsealed event of a stranger's registry with the same credential and number makes the
    receiver drop the genuine issuance that waits for its registry. *)
Definition kIss := xiss 100 90 20.
Definition vN : kelview := sealv [(1, 1, xvcp 10 1)].
Definition vD : kelview := sealv [(1, 1, xvcp 10 1); (1, 2, xiss 100 101 10); (66, 1, xvcp 20 66)].
Definition hD (forged : list tact) : list tact :=
  [TDeliver vD (xiss 100 101 10) (at_ 2) []] ++ forged ++ [TDeliver vD (xvcp 20 66) (at_ 1) []; TSweep vD; TDeliver vD (xvcp 10 1) (at_ 1) []; TSweep vD; TSweep vD].
Lemma c36_waiting_event_dropped_refuted : exists E cf (h : list tact -> list tact) e' v a, 
  (forall f, exists l l', h f = l ++ f ++ l') /\ t_ri e' <> 10 /\
  vcState (truns E cf (h []) tdb0) 100 = Issued /\ vcState (truns E cf (h [TDeliver v e' a []]) tdb0) 100 = NeverIssued
  /\ oots (truns E cf (h [TDeliver v e' a []]) tdb0) = [].
Proof.
  exists xE, xCf, hD, kIss, vD, (at_ 9). split; [intros f; eexists _, _; reflexivity|]. split; [discriminate|]. split; [vm_compute; reflexivity|]. split; vm_compute; reflexivity.
Qed.
Lemma c36_wrong_anchor_kept_refuted : exists E cf v0 v e a a', sealedAt v 1 a' e /\
  let d := truns E cf [TDeliver v0 (xvcp 10 1) (at_ 1) []; TDeliver v0 e (Some a) []; TDeliver v0 e (Some a') []] tdb0 in
  vcState (truns E cf [TSweep v; TSweep v] d) (t_pre e) = NeverIssued /\ taes (truns E cf [TSweep v; TSweep v] d) <> [].
Proof.
  exists xE, xCf, vN, vOk, (xiss 100 101 10), (9, 1009), (2, 1002). split; [reflexivity|]. vm_compute. split; [reflexivity|discriminate].
Qed.
Lemma c36_partially_backed_stuck_refuted : exists E cf v e a bs, let d := truns E cf [TDeliver v e a bs] tdb0 in
  twes d <> [] /\ forall n, truns E cf (repeat (TSweep v) n) d = d.
Proof.
  exists xE, xCf, vBk, bVcp, (at_ 1), [xsig 7 0 bVcp]. cbv zeta. set (d := truns xE xCf _ tdb0). split; [vm_compute; discriminate|].
  assert (S : tsweep xE xCf vBk d = d) by reflexivity. induction n as [|n IH]; [reflexivity|]. cbn [repeat truns fold_left]. unfold truns in *. cbn [fold_left tdo]. rewrite S. exact IH.
Qed.
(** A key event that seals two events anchors neither. *)
Definition vTwo : kelview := fun ii k => if (ii =? 1) && (k =? 1) then Some (1001, [SealEvt 10 0 10; SealEvt 11 0 11]) else None.
Lemma c36_two_seals_refuted : exists E cf v e e' a, (exists said l, v 1 (fst a) = Some (said, l) /\ In (SealEvt (t_pre e) (t_sn e) (t_said e)) l /\ In (SealEvt (t_pre e') (t_sn e') (t_said e')) l)
  /\ snd (tprocess E cf v e (Some a) [] tdb0) = Err MissingAnchorError /\ snd (tprocess E cf v e' (Some a) [] tdb0) = Err MissingAnchorError.
Proof.
  exists xE, xCf, vTwo, (xvcp 10 1), (xvcp 11 1), (1, 1001). split; [exists 1001, [SealEvt 10 0 10; SealEvt 11 0 11]; cbn; auto|]. vm_compute. repeat split.
Qed.
