(** Proofs about transaction event logs. *)
From Verif Require Import Prelude B64Model MatterModel SubsModel ThModel ThProofs SerProofs KelModel TlModel TlSpec.
Open Scope N_scope.
Ltac Zify.zify_post_hook ::= Z.div_mod_to_equations.

Section P.
  Context (E : tenv) (cf : tconf).
  Notation tprocess := (tprocess E cf).
  Notation valAnchorBigs := (valAnchorBigs E).

  (** ** Histories *)
  Lemma delivered_app : forall h x e, delivered h e -> delivered (h ++ [x]) e.
  Proof. intros h x e (v & a & bs & H). exists v, a, bs. apply in_or_app. left. exact H. Qed.
  Lemma viewIn_app : forall h x v, viewIn h v -> viewIn (h ++ [x]) v.
  Proof. intros h x v [(e & a & bs & H)|H]; [left; exists e, a, bs|right]; apply in_or_app; left; exact H. Qed.
  Lemma anchoredIn_app : forall h x ii e, anchoredIn h ii e -> anchoredIn (h ++ [x]) ii e.
  Proof. intros h x ii e (v & H & A). exists v. split; [apply viewIn_app; exact H|exact A]. Qed.
  Lemma controls_app : forall h x r ii, controls h r ii -> controls (h ++ [x]) r ii.
  Proof.
    intros h x r ii (e & D & I & P & Q & A). exists e. split; [apply delivered_app; exact D|]. split; [exact I|]. split; [exact P|]. split; [exact Q|].
    apply anchoredIn_app. exact A.
  Qed.

  Lemma truns_app : forall h x d, truns E cf (h ++ [x]) d = tdo E cf (truns E cf h d) x.
  Proof. intros h x d. unfold truns. rewrite fold_left_app. reflexivity. Qed.

  (** ** Anchors and signatures *)
  Lemma verifyAnchor_ok : forall v ii a e, verifyAnchor v ii a e = Ok true -> anchored v ii e /\ a <> None.
  Proof.
    intros v ii a e H. unfold verifyAnchor in H. destruct a as [(k, sd)|]; [|discriminate]. split; [|discriminate].
    destruct (v ii k) as [(said, seals)|] eqn:V; [|discriminate]. destruct (negb (said =? sd)); [discriminate|].
    destruct seals as [|[i s g|x] [|]]; try discriminate. injection H as H. apply andb_prop in H. destruct H as [H G]. apply andb_prop in H. destruct H as [I S1].
    apply N.eqb_eq in I, S1, G. subst. exists k, said. exact V.
  Qed.
  Lemma verifyAnchor_yes : forall v ii e k sd, v ii k = Some (sd, [SealEvt (t_pre e) (t_sn e) (t_said e)]) -> verifyAnchor v ii (Some (k, sd)) e = Ok true.
  Proof. intros v ii e k sd H. unfold verifyAnchor. rewrite H, !N.eqb_refl. reflexivity. Qed.

  Lemma dedupB_spec : forall l seen, NoDup (map sg_qb64 (dedupB seen l)) /\ (forall s, In s (dedupB seen l) -> In s l /\ ~ In (sg_qb64 s) seen).
  Proof.
    induction l as [|x l IH]; intros seen; [split; [constructor|intros s []]|]. cbn [dedupB]. destruct (memB (sg_qb64 x) seen) eqn:M.
    - destruct (IH seen) as [A B]. split; [exact A|]. intros s J. destruct (B s J). split; [right; assumption|assumption].
    - destruct (IH (sg_qb64 x :: seen)) as [A B]. split.
      + cbn [map]. constructor; [|exact A]. intros J. apply in_map_iff in J. destruct J as (s & Es & J). destruct (B s J) as [_ N1]. apply N1. left. symmetry. exact Es.
      + intros s [<- |J]; [split; [left; reflexivity|]|].
        * intros J. apply SerProofs.memB_In in J. congruence.
        * destruct (B s J) as [B1 B2]. split; [right; exact B1|]. intros K. apply B2. right. exact K.
  Qed.
  Lemma nodup_filter : forall (f : siger -> bool) l, NoDup (map sg_qb64 l) -> NoDup (map sg_qb64 (filter f l)).
  Proof.
    intros f l. induction l as [|x l IH]; intros N0; [constructor|]. cbn [map filter] in *. inversion N0 as [|? ? A B]; subst. destruct (f x); [|apply IH; exact B].
    cbn [map]. constructor; [|apply IH; exact B]. intros J. apply A. apply in_map_iff in J. destruct J as (s & <- & J). apply filter_In in J. apply in_map. apply J.
  Qed.
  Lemma verifySigs_backed : forall e bs bk vs is, verifySigs N (tvrfy E) (t_raw e) bs bk = (vs, is) -> wellBacked E e (len is) bk.
  Proof.
    intros e bs bk vs is H. unfold verifySigs in H. injection H as <- <-. eexists. split; [|split].
    - apply nodup_filter. apply (dedupB_spec bs []).
    - unfold len. rewrite map_length. reflexivity.
    - intros s J. apply filter_In in J. destruct J as [_ J]. destruct (nth_error bk (N.to_nat (sg_index s))) as [b|]; [|discriminate]. exists b. split; [reflexivity|exact J].
  Qed.
  Lemma wellBacked_le : forall e t t' bk, t' <= t -> wellBacked E e t bk -> wellBacked E e t' bk.
  Proof. intros e t t' bk L (vs & A & B & C). exists vs. split; [exact A|]. split; [lia|exact C]. Qed.

  (** ** Frames *)
  (** databases that agree on logs and registries, with more events stored *)
  Definition grows (h : list tact) (e : tev) (d d' : tdb) : Prop :=
    tels d' = tels d /\ tevers d' = tevers d /\ tstates d' = tstates d
    /\ (forall p g, tvts d' p g = tvts d p g \/ (tvts d p g = None /\ p = t_pre e /\ g = t_said e /\ tvts d' p g = Some e)).

  Lemma putTvt_get : forall e d p g, tvts (putTvt e d) p g = tvts d p g \/ (tvts d p g = None /\ p = t_pre e /\ g = t_said e /\ tvts (putTvt e d) p g = Some e).
  Proof.
    intros e d p g. unfold putTvt. cbn [tvts set_tvts]. unfold aput. destruct (tvts d (t_pre e) (t_said e)) eqn:G; [left; reflexivity|]. unfold aset.
    destruct ((p =? t_pre e) && (g =? t_said e)) eqn:B; [|left; reflexivity]. apply andb_prop in B. destruct B as [B1 B2]. apply N.eqb_eq in B1, B2. subst. right. repeat split; assumption.
  Qed.
  Lemma putTvt_has : forall e d, exists e', tvts (putTvt e d) (t_pre e) (t_said e) = Some e'.
  Proof.
    intros e d. unfold putTvt. cbn [tvts set_tvts]. unfold aput. destruct (tvts d (t_pre e) (t_said e)) as [e'|] eqn:G; [exists e'; exact G|]. unfold aset. rewrite !N.eqb_refl. exists e. reflexivity.
  Qed.
  Lemma pinTibs_fr : forall e bs d, tels (pinTibs e bs d) = tels d /\ tevers (pinTibs e bs d) = tevers d /\ tstates (pinTibs e bs d) = tstates d /\ tvts (pinTibs e bs d) = tvts d /\ baks (pinTibs e bs d) = baks d
     /\ ancs (pinTibs e bs d) = ancs d /\ taes (pinTibs e bs d) = taes d /\ oots (pinTibs e bs d) = oots d.
  Proof. intros e [|b bs] d; repeat split. Qed.
  Lemma pinBaks_fr : forall e bs d, tels (pinBaks e bs d) = tels d /\ tevers (pinBaks e bs d) = tevers d /\ tstates (pinBaks e bs d) = tstates d /\ tvts (pinBaks e bs d) = tvts d
     /\ ancs (pinBaks e bs d) = ancs d /\ taes (pinBaks e bs d) = taes d /\ oots (pinBaks e bs d) = oots d /\ tibs (pinBaks e bs d) = tibs d.
  Proof. intros e [|b bs] d; repeat split. Qed.

  Lemma escrowAL_fr : forall e a bs bk d,
    tels (escrowAL e a bs bk d) = tels d /\ tevers (escrowAL e a bs bk d) = tevers d /\ tstates (escrowAL e a bs bk d) = tstates d
    /\ tvts (escrowAL e a bs bk d) = tvts (putTvt e d) /\ baks (escrowAL e a bs bk d) = baks (pinBaks e bk d) /\ oots (escrowAL e a bs bk d) = oots d.
  Proof. intros e a bs bk d. unfold escrowAL. destruct a, bs, bk; repeat split. Qed.
  Lemma escrowPW_fr : forall e a bs d,
    tels (escrowPW e a bs d) = tels d /\ tevers (escrowPW e a bs d) = tevers d /\ tstates (escrowPW e a bs d) = tstates d
    /\ tvts (escrowPW e a bs d) = tvts (putTvt e d) /\ baks (escrowPW e a bs d) = baks d /\ oots (escrowPW e a bs d) = oots d /\ taes (escrowPW e a bs d) = taes d.
  Proof. intros e a bs d. unfold escrowPW. destruct bs; repeat split. Qed.
  Lemma escrowOO_fr : forall e a d, let d' := fst (escrowOO e a d) in
    tels d' = tels d /\ tevers d' = tevers d /\ tstates d' = tstates d /\ tvts d' = tvts (putTvt e d) /\ baks d' = baks d /\ taes d' = taes d.
  Proof. intros e a d. unfold escrowOO. destruct a; repeat split. Qed.
  Lemma tlog_fr : forall p sn e a bs bk d,
    tevers (tlog p sn e a bs bk d) = tevers d /\ tstates (tlog p sn e a bs bk d) = tstates d
    /\ tvts (tlog p sn e a bs bk d) = tvts (putTvt e d) /\ baks (tlog p sn e a bs bk d) = baks (pinBaks e bk d)
    /\ tels (tlog p sn e a bs bk d) = tels (telPut p sn (t_said e) d) /\ taes (tlog p sn e a bs bk d) = taes d /\ oots (tlog p sn e a bs bk d) = oots d.
  Proof. intros p sn e a bs bk d. unfold tlog, telPut, telAt. destruct bs, bk; cbn; destruct (find _ _); repeat split. Qed.

  (** ** Logs *)
  Lemma telPut_get : forall p sn g d p', tels (telPut p sn g d) p' =
    if p' =? p then match telAt d p sn with Some _ => tels d p | None => tels d p ++ [(sn, g)] end else tels d p'.
  Proof.
    intros p sn g d p'. unfold telPut. destruct (telAt d p sn); cbn [tels set_tels].
    - destruct (p' =? p) eqn:B; [apply N.eqb_eq in B; subst; reflexivity|reflexivity].
    - unfold fset. reflexivity.
  Qed.

  Fixpoint numbered (k : N) (l : list (N * N)) : Prop :=
    match l with [] => True | (s, _) :: r => s = k /\ numbered (k + 1) r end.
  Lemma len_cons : forall A (x : A) l, len (x :: l) = 1 + len l.
  Proof. intros. unfold len. cbn [List.length]. lia. Qed.
  Lemma len_app1 : forall A (l : list A) x, len (l ++ [x]) = len l + 1.
  Proof. intros. unfold len. rewrite app_length. cbn [List.length]. lia. Qed.
  Lemma numbered_app : forall l k g, numbered k l -> numbered k (l ++ [(k + len l, g)]).
  Proof.
    induction l as [|(s, y) l IH]; intros k g H; cbn [app numbered] in *.
    - split; [|exact Logic.I]. unfold len; cbn [List.length]. lia.
    - destruct H as [-> H]. split; [reflexivity|]. replace (k + len ((k, y) :: l)) with ((k + 1) + len l) by (rewrite len_cons; lia). apply IH. exact H.
  Qed.
  Lemma numbered_find : forall l k sn, numbered k l -> (exists g, find (fun r => fst r =? sn) l = Some (sn, g)) <-> k <= sn /\ sn < k + len l.
  Proof.
    induction l as [|(s, y) l IH]; intros k sn H; cbn [find numbered] in *.
    - split; [intros (g & J); discriminate|]. unfold len; cbn [List.length]. lia.
    - destruct H as [-> H]. cbn [fst]. rewrite len_cons. destruct (k =? sn) eqn:B.
      + apply N.eqb_eq in B. subst. split; [lia|]. intros _. exists y. reflexivity.
      + apply N.eqb_neq in B. rewrite (IH (k + 1) sn H). lia.
  Qed.
  Lemma find_fst : forall (l : list (N * N)) sn r, find (fun r => fst r =? sn) l = Some r -> fst r = sn /\ In r l.
  Proof. intros l sn r H. apply find_some in H. destruct H as [A B]. apply N.eqb_eq in B. split; assumption. Qed.

  Definition wellNumbered (d : tdb) : Prop := forall p, numbered 0 (tels d p).
  Lemma telAt_iff : forall d p sn, wellNumbered d -> (exists g, telAt d p sn = Some g) <-> sn < len (tels d p).
  Proof.
    intros d p sn W. pose proof (numbered_find (tels d p) 0 sn (W p)) as H. unfold telAt. split.
    - intros (g & J). destruct (find _ _) as [r|] eqn:F; [|discriminate]. destruct (find_fst _ _ _ F) as [A _]. destruct r as (s, y). cbn [fst] in A. subst s.
      assert (exists g0, Some (sn, y) = Some (sn, g0)) as X by (exists y; reflexivity). apply H in X. lia.
    - intros L. assert (X : 0 <= sn /\ sn < 0 + len (tels d p)) by lia. apply H in X. destruct X as (g & ->). exists g. reflexivity.
  Qed.
  Lemma telAt_none : forall d p sn, wellNumbered d -> telAt d p sn = None -> len (tels d p) <= sn.
  Proof.
    intros d p sn W H. destruct (N.lt_ge_cases sn (len (tels d p))) as [L|L]; [|exact L]. apply (telAt_iff d p sn W) in L. destruct L as (g & L). congruence.
  Qed.
  Lemma telAt_some : forall d p sn g, wellNumbered d -> telAt d p sn = Some g -> sn < len (tels d p).
  Proof. intros d p sn g W H. apply (telAt_iff d p sn W). exists g. exact H. Qed.

  Lemma find_app_l : forall (l l' : list (N * N)) f r, find f l = Some r -> find f (l ++ l') = Some r.
  Proof. induction l as [|x l IH]; intros l' f r H; [discriminate|]. cbn [find app] in *. destruct (f x); [exact H|apply IH; exact H]. Qed.
  Lemma find_app_none : forall (l l' : list (N * N)) f, find f l = None -> find f (l ++ l') = find f l'.
  Proof. induction l as [|x l IH]; intros l' f H; [reflexivity|]. cbn [find app] in *. destruct (f x); [discriminate|apply IH; exact H]. Qed.
  Lemma telPut_keeps : forall p sn g d p' sn' g', telAt d p' sn' = Some g' -> telAt (telPut p sn g d) p' sn' = Some g'.
  Proof.
    intros p sn g d p' sn' g' H. unfold telAt in *. rewrite telPut_get. destruct (p' =? p) eqn:B; [|exact H]. apply N.eqb_eq in B. subst p'.
    destruct (telAt d p sn); [exact H|]. destruct (find _ (tels d p)) as [r|] eqn:F; [|discriminate]. erewrite find_app_l by exact F. exact H.
  Qed.
  Lemma telPut_new : forall p sn g d p' sn' g', telAt (telPut p sn g d) p' sn' = Some g' -> telAt d p' sn' = Some g' \/ (p' = p /\ sn' = sn /\ g' = g /\ telAt d p sn = None).
  Proof.
    intros p sn g d p' sn' g' H. unfold telAt in *. rewrite telPut_get in H. destruct (p' =? p) eqn:B; [|left; exact H]. apply N.eqb_eq in B. subst p'.
    unfold telAt in H. destruct (find (fun r => fst r =? sn) (tels d p)) as [q|] eqn:F0; cbn [option_map] in H; [left; exact H|].
    destruct (find (fun r => fst r =? sn') (tels d p)) as [r|] eqn:F.
    - left. erewrite find_app_l in H by exact F. exact H.
    - right. rewrite find_app_none in H by exact F. cbn [find fst] in H. destruct (sn =? sn') eqn:B; [|discriminate]. apply N.eqb_eq in B. cbn in H. injection H as <-. repeat split; auto.
  Qed.

  (** ** One step *)
  Definition pinned (e : tev) (d d' : tdb) : Prop :=
    baks d' = baks d \/ exists bk, baks d' = baks (pinBaks e bk d) /\ (t_ilk e = Vcp -> bk = t_baks e).
  Definition quiet (e : tev) (d d' : tdb) : Prop :=
    tels d' = tels d /\ tevers d' = tevers d /\ tstates d' = tstates d
    /\ (tvts d' = tvts d \/ tvts d' = tvts (putTvt e d)) /\ pinned e d d'.
  Definition backing (e : tev) (tv : tever) (toad : N) (bk : list N) : Prop :=
    bk = [] \/ v_local tv = true \/ memN (v_regk tv) bk = true \/ wellBacked E e toad bk.
  Inductive tstep (v : kelview) (e : tev) (d d' : tdb) : res unit -> Prop :=
  | SRefuse x : quiet e d d' -> tstep v e d d' (Err x)
  | SCred tv : tget d (registryOf e) = Some tv -> t_ilk e = Iss \/ t_ilk e = Rev \/ t_ilk e = Bis \/ t_ilk e = Brv ->
      t_sn e = len (tels d (t_pre e)) -> anchored v (v_ii tv) e ->
      (t_ilk e = Rev \/ t_ilk e = Brv -> exists dig ie, telAt d (t_pre e) (t_sn e - 1) = Some dig /\ tvts d (t_pre e) dig = Some ie /\ t_said ie = t_prior e) ->
      (t_ilk e = Bis \/ t_ilk e = Brv -> exists toad bk, getBackerState tv e d = Ok (toad, bk) /\ backing e tv toad bk) ->
      tels d' = tels (telPut (t_pre e) (t_sn e) (t_said e) d) -> tevers d' = tevers d -> tstates d' = tstates d ->
      tvts d' = tvts (putTvt e d) -> baks d' = baks d -> tstep v e d d' (Ok tt)
  | SRot tv toad bk : tget d (t_pre e) = Some tv -> t_ilk e = Vrt -> v_nob tv = false -> t_pre e = v_regk tv -> t_sn e = v_sn tv + 1 -> t_prior e = v_said tv ->
      anchored v (v_ii tv) e -> trotate tv e = Ok (toad, bk) -> backing e tv toad bk ->
      tels d' = tels (telPut (t_pre e) (t_sn e) (t_said e) d) ->
      tevers d' = fset (tevers d) (t_pre e) (Some (mkTever (v_ii tv) (v_regk tv) (t_sn e) (t_said e) toad bk (v_nob tv) (v_local tv))) ->
      tstates d' = tstates d -> tvts d' = tvts (putTvt e d) -> baks d' = baks (pinBaks e bk d) -> tstep v e d d' (Ok tt)
  | SInc tv : tget d (t_pre e) = None -> t_ilk e = Vcp -> tincept e (t_pre e) (c_tlocal cf) = Ok tv -> anchored v (t_ii e) e ->
      backing e tv (t_toad e) (t_baks e) ->
      tels d' = tels (telPut (t_pre e) 0 (t_said e) d) -> tevers d' = fset (tevers d) (t_pre e) (Some tv) ->
      tstates d' = fset (tstates d) (t_pre e) (Some (stateOf tv)) ->
      tvts d' = tvts (putTvt e d) -> baks d' = baks (pinBaks e (t_baks e) d) -> tstep v e d d' (Ok tt).

  Lemma quiet_refl : forall e d, quiet e d d.
  Proof. intros e d. repeat split; try (left; reflexivity). Qed.
  Lemma quiet_AL : forall e a bs bk d, (t_ilk e = Vcp -> bk = t_baks e) -> quiet e d (escrowAL e a bs bk d).
  Proof.
    intros e a bs bk d H. destruct (escrowAL_fr e a bs bk d) as (A & B & C & D & F & G). split; [exact A|]. split; [exact B|]. split; [exact C|]. split; [right; exact D|].
    right. exists bk. split; assumption.
  Qed.
  Lemma quiet_PW : forall e a bs d, quiet e d (escrowPW e a bs d).
  Proof.
    intros e a bs d. destruct (escrowPW_fr e a bs d) as (A & B & C & D & F & G). split; [exact A|]. split; [exact B|]. split; [exact C|]. split; [right; exact D|]. left. exact F.
  Qed.
  Lemma quiet_OO : forall e a d d' x, escrowOO e a d = (d', x) -> quiet e d d'.
  Proof.
    intros e a d d' x H. pose proof (escrowOO_fr e a d) as Q. rewrite H in Q. cbn [fst] in Q. destruct Q as (A & B & C & D & F & G).
    split; [exact A|]. split; [exact B|]. split; [exact C|]. split; [right; exact D|]. left. exact F.
  Qed.

  Lemma valAnchor_spec : forall v tv e a bs toad bk d d' r, valAnchorBigs v tv e a bs toad bk d = (d', r) -> (t_ilk e = Vcp -> bk = t_baks e) ->
    match r with
    | Err _ => quiet e d d'
    | Ok _ => d' = d /\ anchored v (v_ii tv) e /\ a <> None /\ backing e tv toad bk
    end.
  Proof.
    intros v tv e a bs toad bk d d' r H B. unfold TlModel.valAnchorBigs in H. destruct (negb (forallb (goodBak E) bk)); [injection H as <- <-; apply quiet_refl|].
    destruct (verifySigs N (tvrfy E) (t_raw e) bs bk) as (vs, is) eqn:V. destruct (verifyAnchor v (v_ii tv) a e) as [[|]|x] eqn:A.
    - destruct (verifyAnchor_ok _ _ _ _ A) as [A1 A2]. destruct (negb (isnil bk) && negb (v_local tv) && negb (memN (v_regk tv) bk)) eqn:C.
      + destruct (len bk <? toad); [injection H as <- <-; apply quiet_refl|]. destruct (len is <? toad) eqn:L.
        * injection H as <- <-. destruct a; [apply quiet_PW|apply quiet_refl].
        * injection H as <- <-. split; [reflexivity|]. split; [exact A1|]. split; [exact A2|]. right. right. right. apply N.ltb_ge in L. eapply wellBacked_le; [exact L|]. eapply verifySigs_backed. exact V.
      + injection H as <- <-. split; [reflexivity|]. split; [exact A1|]. split; [exact A2|]. unfold backing. apply andb_false_iff in C. destruct C as [C|C]; [apply andb_false_iff in C; destruct C as [C|C]|].
        * left. destruct bk; [reflexivity|discriminate].
        * right. left. destruct (v_local tv); [reflexivity|discriminate].
        * right. right. left. destruct (memN (v_regk tv) bk); [reflexivity|discriminate].
    - injection H as <- <-. apply quiet_AL. exact B.
    - injection H as <- <-. apply quiet_refl.
  Qed.

  Lemma simple_spec : forall v tv e a d d' r, simple v tv e a d = (d', r) -> t_ilk e <> Vcp ->
    match r with
    | Err _ => quiet e d d'
    | Ok _ => anchored v (v_ii tv) e /\ tels d' = tels (telPut (t_pre e) (t_sn e) (t_said e) d) /\ tevers d' = tevers d /\ tstates d' = tstates d
              /\ tvts d' = tvts (putTvt e d) /\ baks d' = baks d
    end.
  Proof.
    intros v tv e a d d' r H Nv. unfold simple in H. destruct (verifyAnchor v (v_ii tv) a e) as [[|]|x] eqn:A; injection H as <- <-.
    - destruct (verifyAnchor_ok _ _ _ _ A) as [A1 A2]. destruct a as [a|]; [|congruence]. split; [exact A1|].
      destruct (tlog_fr (t_pre e) (t_sn e) e a [] [] d) as (B1 & B2 & B3 & B4 & B5 & _). repeat split; assumption.
    - apply quiet_AL. intros X. contradiction.
    - apply quiet_refl.
  Qed.
  Lemma backed_spec : forall v tv e a bs d d' r, backed E v tv e a bs d = (d', r) -> t_ilk e <> Vcp ->
    match r with
    | Err _ => quiet e d d'
    | Ok _ => anchored v (v_ii tv) e /\ tels d' = tels (telPut (t_pre e) (t_sn e) (t_said e) d) /\ tevers d' = tevers d /\ tstates d' = tstates d
              /\ tvts d' = tvts (putTvt e d) /\ baks d' = baks d /\ exists toad bk, getBackerState tv e d = Ok (toad, bk) /\ backing e tv toad bk
    end.
  Proof.
    intros v tv e a bs d d' r H Nv. unfold backed in H. destruct (getBackerState tv e d) as [(toad, bk)|x] eqn:G; [|injection H as <- <-; apply quiet_refl].
    destruct (TlModel.valAnchorBigs E v tv e a bs toad bk d) as (d1, [vs|x]) eqn:V; injection H as <- <-.
    - destruct (valAnchor_spec _ _ _ _ _ _ _ _ _ _ V) as (-> & A1 & A2 & A3); [intros X; contradiction|]. destruct a as [a|]; [|congruence]. split; [exact A1|].
      destruct (tlog_fr (t_pre e) (t_sn e) e a vs [] d) as (B1 & B2 & B3 & B4 & B5 & _). repeat (split; [assumption|]). exists toad, bk. split; [reflexivity|exact A3].
    - apply (valAnchor_spec _ _ _ _ _ _ _ _ _ _ V). intros X. contradiction.
  Qed.

  Lemma trotate_ok : forall tv e r, trotate tv e = Ok r -> t_pre e = v_regk tv /\ t_sn e = v_sn tv + 1 /\ t_prior e = v_said tv.
  Proof.
    intros tv e r H. unfold trotate in H. destruct (t_pre e =? v_regk tv) eqn:A; [|discriminate]. destruct (t_sn e =? v_sn tv + 1) eqn:B; [|discriminate].
    destruct (t_prior e =? v_said tv) eqn:C; [|discriminate]. apply N.eqb_eq in A, B, C. repeat split; assumption.
  Qed.
  Lemma tincept_ok : forall e k l tv, tincept e k l = Ok tv -> tv = mkTever (t_ii e) k 0 (t_said e) (t_toad e) (t_baks e) (t_nob e) l /\ t_sn e = 0.
  Proof.
    intros e k l tv H. unfold tincept in H. destruct (t_sn e =? 0) eqn:A; [|discriminate]. cbn [negb] in H.
    destruct (negb (len (oset (t_baks e)) =? len (t_baks e))); [discriminate|]. destruct (if isnil (t_baks e) then _ else _); [discriminate|].
    injection H as <-. apply N.eqb_eq in A. split; [reflexivity|exact A].
  Qed.

  Lemma tprocess_step : forall v e a bs d d' r, tprocess v e a bs d = (d', r) -> tstep v e d d' r.
  Proof.
    intros v e a bs d d' r H. unfold TlModel.tprocess in H. destruct (negb (goodPre E (t_pre e))); [injection H as <- <-; apply SRefuse, quiet_refl|].
    destruct (registryKey e) as [regk|x] eqn:K; [|injection H as <- <-; apply SRefuse, quiet_refl].
    assert (Rk : regk = registryOf e /\ t_ilk e <> OtherT).
    { unfold registryKey in K. unfold registryOf. destruct (t_ilk e); try discriminate; injection K as <-; split; try reflexivity; discriminate. }
    destruct Rk as [Rk Ro].
    destruct (negb (snOk e)) eqn:SN; [injection H as <- <-; apply SRefuse, quiet_refl|].
    destruct (negb (c_lax cf) && _); [injection H as <- <-; apply SRefuse, quiet_refl|].
    destruct (tget d regk) as [tv|] eqn:T.
    - destruct (t_ilk e) eqn:I; try (injection H as <- <-; apply SRefuse, quiet_refl); try contradiction;
        (destruct (nextSn d tv e <? t_sn e) eqn:L;
         [destruct (escrowOO e a d) as (d1, x) eqn:Q; injection H as <- <-; apply SRefuse; eapply quiet_OO; exact Q|]);
        (destruct (t_sn e =? nextSn d tv e) eqn:L2; [|injection H as <- <-; apply SRefuse, quiet_refl]);
        apply N.eqb_eq in L2; unfold tupdate in H; rewrite I in H; unfold nextSn in L2; rewrite I in L2.
      + destruct (v_nob tv) eqn:Nb; [injection H as <- <-; apply SRefuse, quiet_refl|].
        destruct (trotate tv e) as [(toad, bk)|x] eqn:R; [|injection H as <- <-; apply SRefuse, quiet_refl].
        destruct (trotate_ok _ _ _ R) as (R1 & R2 & R3).
        destruct (TlModel.valAnchorBigs E v tv e a bs toad bk d) as (d1, [vs|x]) eqn:V.
        * destruct (valAnchor_spec _ _ _ _ _ _ _ _ _ _ V) as (-> & A1 & A2 & A3); [rewrite I; discriminate|]. destruct a as [a|]; [|congruence]. injection H as <- <-.
          assert (Re : registryOf e = t_pre e) by (unfold registryOf; rewrite I; reflexivity). rewrite Rk, Re in T.
          match goal with |- tstep _ _ _ (tlog ?p ?sn ?ee ?aa ?b ?k ?dd) _ => destruct (tlog_fr p sn ee aa b k dd) as (B1 & B2 & B3 & B4 & B5 & _) end.
          rewrite <- R1 in *.
          eapply SRot; try exact T; try exact I; try eassumption; try (symmetry; assumption); try reflexivity.
          { rewrite B5. unfold telPut, telAt. cbn [tels set_tevers]. destruct (find _ _); reflexivity. }
          { rewrite B1. cbn [tevers set_tevers]. rewrite Nb, R1. reflexivity. }
          { rewrite B4. destruct bk; reflexivity. }
        * injection H as <- <-. apply SRefuse. apply (valAnchor_spec _ _ _ _ _ _ _ _ _ _ V). rewrite I. discriminate.
      + unfold tissue in H. rewrite I in H. destruct (negb (v_nob tv)); [injection H as <- <-; apply SRefuse, quiet_refl|].
        destruct (negb (t_ri e =? v_regk tv)); [injection H as <- <-; apply SRefuse, quiet_refl|].
        pose proof (simple_spec _ _ _ _ _ _ _ H) as Q. rewrite I in Q. specialize (Q ltac:(discriminate)). destruct r as [[]|x]; [|apply SRefuse; exact Q].
        destruct Q as (Q1 & Q2 & Q3 & Q4 & Q5 & Q6). rewrite Rk in T. eapply SCred; try eassumption; auto; intros [X|X]; congruence.
      + unfold trevoke in H. destruct (telAt d (t_pre e) (t_sn e - 1)) as [dig|] eqn:TA; [|injection H as <- <-; apply SRefuse, quiet_refl].
        destruct (tvts d (t_pre e) dig) as [ie|] eqn:TV; [|injection H as <- <-; apply SRefuse, quiet_refl].
        destruct (t_said ie =? t_prior e) eqn:P; [|injection H as <- <-; apply SRefuse, quiet_refl]. cbn [negb] in H. rewrite I in H.
        destruct (negb (v_nob tv)); [injection H as <- <-; apply SRefuse, quiet_refl|].
        pose proof (simple_spec _ _ _ _ _ _ _ H) as Q. rewrite I in Q. specialize (Q ltac:(discriminate)). destruct r as [[]|x]; [|apply SRefuse; exact Q].
        destruct Q as (Q1 & Q2 & Q3 & Q4 & Q5 & Q6). rewrite Rk in T. apply N.eqb_eq in P. eapply SCred; try eassumption; auto; [|intros [X|X]; congruence].
        intros _. exists dig, ie. repeat split; assumption.
      + unfold tissue in H. rewrite I in H. destruct (v_nob tv); [injection H as <- <-; apply SRefuse, quiet_refl|].
        pose proof (backed_spec _ _ _ _ _ _ _ _ H) as Q. rewrite I in Q. specialize (Q ltac:(discriminate)). destruct r as [[]|x]; [|apply SRefuse; exact Q].
        destruct Q as (Q1 & Q2 & Q3 & Q4 & Q5 & Q6 & Q7). rewrite Rk in T. eapply SCred; try eassumption; auto; intros [X|X]; congruence.
      + unfold trevoke in H. destruct (telAt d (t_pre e) (t_sn e - 1)) as [dig|] eqn:TA; [|injection H as <- <-; apply SRefuse, quiet_refl].
        destruct (tvts d (t_pre e) dig) as [ie|] eqn:TV; [|injection H as <- <-; apply SRefuse, quiet_refl].
        destruct (t_said ie =? t_prior e) eqn:P; [|injection H as <- <-; apply SRefuse, quiet_refl]. cbn [negb] in H. rewrite I in H.
        destruct (v_nob tv); [injection H as <- <-; apply SRefuse, quiet_refl|].
        pose proof (backed_spec _ _ _ _ _ _ _ _ H) as Q. rewrite I in Q. specialize (Q ltac:(discriminate)). destruct r as [[]|x]; [|apply SRefuse; exact Q].
        destruct Q as (Q1 & Q2 & Q3 & Q4 & Q5 & Q6 & Q7). rewrite Rk in T. apply N.eqb_eq in P. eapply SCred; try eassumption; auto.
        intros _. exists dig, ie. repeat split; assumption.
    - destruct (t_ilk e) eqn:I; try contradiction;
        try (destruct (escrowOO e a d) as (d1, x) eqn:Q; injection H as <- <-; apply SRefuse; eapply quiet_OO; exact Q).
      assert (Re : registryOf e = t_pre e) by (unfold registryOf; rewrite I; reflexivity). rewrite Re in Rk. subst regk.
      destruct (tincept e (t_pre e) (c_tlocal cf)) as [tv|x] eqn:TI; [|injection H as <- <-; apply SRefuse, quiet_refl].
      destruct (tincept_ok _ _ _ _ TI) as [Tv S0]. subst tv. cbn [v_toad v_baks] in H.
      destruct (TlModel.valAnchorBigs E v _ e a bs (t_toad e) (t_baks e) d) as (d1, [vs|x]) eqn:V.
      + destruct (valAnchor_spec _ _ _ _ _ _ _ _ _ _ V) as (-> & A1 & A2 & A3); [reflexivity|]. destruct a as [a|]; [|congruence]. injection H as <- <-.
        destruct (tlog_fr (t_pre e) 0 e a vs (t_baks e) d) as (B1 & B2 & B3 & B4 & B5 & _).
        eapply SInc; try exact T; try exact I; try eassumption; unfold tset; cbn [tels tevers tstates tvts baks set_tstates set_tevers]; try assumption; rewrite ?B1, ?B2; reflexivity.
      + injection H as <- <-. apply SRefuse. apply (valAnchor_spec _ _ _ _ _ _ _ _ _ _ V). reflexivity.
  Qed.
End P.
