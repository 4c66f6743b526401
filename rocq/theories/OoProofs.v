(** Lemmas on out of order delivery: what processing one event can change on the escrow side. *)
From Coq Require Import Sorting.Sorted.
From Verif Require Import Prelude B64Model MatterModel SubsModel ThModel ThSpec ThProofs ThThms KelModel KelSpec KelProofs KelInv OoSpec.
Open Scope N_scope.
Ltac Zify.zify_post_hook ::= Z.div_mod_to_equations.

(** ** The rows of an escrow are sorted *)
Definition le_row (a b : N * N * N) : Prop := key_ltb b a = false.
Definition sorted (t : etab) : Prop := StronglySorted le_row t.

Lemma key_ltb_spec : forall p s a p' s' b, key_ltb (p, s, a) (p', s', b) = true <-> (p < p' \/ (p = p' /\ s < s')).
Proof.
  intros. unfold key_ltb. rewrite orb_true_iff, andb_true_iff, !N.ltb_lt, N.eqb_eq. tauto.
Qed.
Lemma le_row_spec : forall p s a p' s' b, le_row (p, s, a) (p', s', b) <-> (p < p' \/ (p = p' /\ s <= s')).
Proof.
  intros. unfold le_row. rewrite <- not_true_iff_false, key_ltb_spec. lia.
Qed.
Lemma le_row_trans : forall a b c, le_row a b -> le_row b c -> le_row a c.
Proof. intros [[p s] u] [[p' s'] v] [[p'' s''] w]. rewrite !le_row_spec. lia. Qed.
Lemma ltb_le_row : forall a b, key_ltb a b = true -> le_row a b.
Proof. intros [[p s] u] [[p' s'] v]. rewrite le_row_spec, key_ltb_spec. lia. Qed.

Lemma etab_ins_In : forall r t q, In q (etab_ins r t) <-> q = r \/ In q t.
Proof.
  induction t as [|a t IH]; intros q; cbn; [intuition|]. destruct (key_ltb r a); cbn; [intuition|]. rewrite IH. intuition.
Qed.
Lemma etab_ins_sorted : forall r t, sorted t -> sorted (etab_ins r t).
Proof.
  induction t as [|a t IH]; intros S; cbn; [repeat constructor|]. inversion S as [|? ? S1 S2]; subst.
  destruct (key_ltb r a) eqn:K.
  - constructor; [exact S|]. constructor; [apply ltb_le_row; exact K|].
    eapply Forall_impl; [|exact S2]. intros b Q. eapply le_row_trans; [apply ltb_le_row; exact K|exact Q].
  - constructor; [apply IH; exact S1|]. apply Forall_forall. intros q I. apply etab_ins_In in I.
    destruct I as [->|I]; [exact K|]. rewrite Forall_forall in S2. auto.
Qed.
Lemma etab_add_sorted : forall r t, sorted t -> sorted (etab_add r t).
Proof. intros r t S. unfold etab_add. destruct (etab_mem r t); [exact S|apply etab_ins_sorted; exact S]. Qed.
Lemma row_eqb_eq : forall a b, row_eqb a b = true <-> a = b.
Proof.
  intros [[p s] u] [[p' s'] v]. unfold row_eqb. rewrite !andb_true_iff, !N.eqb_eq. split.
  - intros [[-> ->] ->]. reflexivity.
  - intros X; inversion X; auto.
Qed.
Lemma etab_mem_In : forall r t, etab_mem r t = true <-> In r t.
Proof.
  intros. unfold etab_mem. rewrite existsb_exists. split.
  - intros (q & I & Q). apply row_eqb_eq in Q. subst. exact I.
  - intros I. exists r. split; [exact I|]. apply row_eqb_eq. reflexivity.
Qed.
Lemma etab_add_In : forall r t q, In q (etab_add r t) <-> q = r \/ In q t.
Proof.
  intros. unfold etab_add. destruct (etab_mem r t) eqn:M; [|apply etab_ins_In].
  apply etab_mem_In in M. split; [auto|]. intros [->|I]; auto.
Qed.
Lemma etab_rem_In : forall r t q, In q (etab_rem r t) <-> q <> r /\ In q t.
Proof.
  intros. unfold etab_rem. rewrite filter_In, negb_true_iff, <- not_true_iff_false, row_eqb_eq. intuition.
Qed.
Lemma filter_sorted : forall f t, sorted t -> sorted (filter f t).
Proof.
  intros f. induction t as [|a t IH]; intros S; cbn; [constructor|]. inversion S as [|? ? S1 S2]; subst.
  destruct (f a); [|apply IH; exact S1]. constructor; [apply IH; exact S1|]. apply Forall_forall. intros q I. apply filter_In in I.
  rewrite Forall_forall in S2. apply S2. tauto.
Qed.

(** ** What processing event [e] with signatures [sg], [wg] writes *)
Record fr (e : evt) (sg wg : list siger) (x x' : aux) : Prop := mkFr {
  fr_dt : forall p s, ~ (p = e_pre e /\ s = e_said e) -> dtss x' p s = dtss x p s;
  fr_ds : forall p s, dtss x p s <> None -> dtss x' p s <> None;
  fr_sr : forall p s, esrs x p s <> None -> esrs x' p s <> None;
  fr_oo : forall r, In r (ooes x) -> In r (ooes x');
  fr_so : sorted (ooes x) -> sorted (ooes x');
  fr_sg : forall p s, incl (getSigs x' p s) (getSigs x p s ++ sg);
  fr_wg : forall p s, incl (getWigs x' p s) (getWigs x p s ++ wg) }.
(** the date of [e] is kept, or set to [now] *)
Definition frd (now : N) (e : evt) (x x' : aux) : Prop :=
  forall t, dtss x' (e_pre e) (e_said e) = Some t ->
    dtss x (e_pre e) (e_said e) = Some t \/ t = now.

Lemma fr_refl : forall e sg wg x, fr e sg wg x x.
Proof. intros. constructor; auto; intros; apply incl_appl, incl_refl. Qed.
Lemma incl_step : forall A (a b c l : list A), incl b (a ++ l) -> incl c (b ++ l) -> incl c (a ++ l).
Proof.
  intros A a b c l X Y z I. apply Y in I. apply in_app_iff in I. destruct I as [I|I]; [auto|]. apply in_app_iff. auto.
Qed.
Lemma fr_trans : forall e sg wg x y z, fr e sg wg x y -> fr e sg wg y z -> fr e sg wg x z.
Proof.
  intros e sg wg x y z [] []. constructor; auto; intros.
  - rewrite fr_dt1, fr_dt0; auto.
  - eapply incl_step; eauto.
  - eapply incl_step; eauto.
Qed.
Lemma fr_incl : forall e sg wg sg' wg' x y, incl sg' sg -> incl wg' wg -> fr e sg' wg' x y -> fr e sg wg x y.
Proof.
  intros e sg wg sg' wg' x y A B []. constructor; auto; intros.
  - eapply incl_tran; [apply fr_sg0|]. apply incl_app; [apply incl_appl, incl_refl|apply incl_appr; exact A].
  - eapply incl_tran; [apply fr_wg0|]. apply incl_app; [apply incl_appl, incl_refl|apply incl_appr; exact B].
Qed.
Lemma frd_refl : forall now e x, frd now e x x.
Proof. intros now e x t X. auto. Qed.
Lemma frd_trans : forall now e x y z, frd now e x y -> frd now e y z -> frd now e x z.
Proof. intros now e x y z A B t X. apply B in X. destruct X as [X|X]; auto. Qed.
Lemma frd_same : forall now e x y, dtss y = dtss x -> frd now e x y.
Proof. intros now e x y A t X. rewrite A in X. auto. Qed.
Lemma fr_same : forall e sg wg x y, dtss y = dtss x -> (forall p s, esrs x p s <> None -> esrs y p s <> None) ->
  ooes y = ooes x -> sigs y = sigs x -> wigs y = wigs x -> fr e sg wg x y.
Proof.
  intros e sg wg x y A B C D F. constructor; unfold getSigs, getWigs; rewrite ?A, ?C, ?D, ?F; auto;
    intros; apply incl_appl, incl_refl.
Qed.

Definition both (now : N) (e : evt) (sg wg : list siger) (x x' : aux) : Prop := fr e sg wg x x' /\ frd now e x x'.
Lemma both_refl : forall now e sg wg x, both now e sg wg x x.
Proof. intros. split; [apply fr_refl|apply frd_refl]. Qed.
Lemma both_trans : forall now e sg wg x y z, both now e sg wg x y -> both now e sg wg y z -> both now e sg wg x z.
Proof. intros now e sg wg x y z [A B] [C D]. split; [eapply fr_trans; eauto|eapply frd_trans; eauto]. Qed.
Lemma both_same : forall now e sg wg x y, dtss y = dtss x -> (forall p s, esrs x p s <> None -> esrs y p s <> None) ->
  ooes y = ooes x -> sigs y = sigs x -> wigs y = wigs x -> both now e sg wg x y.
Proof. intros. split; [apply fr_same; auto|apply frd_same; auto]. Qed.
Lemma both_incl : forall now e sg wg sg' wg' x y, incl sg' sg -> incl wg' wg -> both now e sg' wg' x y -> both now e sg wg x y.
Proof. intros now e sg wg sg' wg' x y A B [C D]. split; [eapply fr_incl; eauto|exact D]. Qed.

Lemma both_dt : forall now e sg wg x, both now e sg wg x (set_dtss (aput (dtss x) (e_pre e) (e_said e) now) x).
Proof.
  intros. split.
  - constructor; cbn; auto; try (intros; apply incl_appl, incl_refl).
    + intros p s N. unfold aput.
    destruct (dtss x (e_pre e) (e_said e)); [reflexivity|].
    destruct (aset_cases _ (dtss x) (e_pre e) (e_said e) (Some now) p s) as [(-> & -> & _)|(_ & ->)]; [exfalso; auto|reflexivity].
    + intros p s N. unfold aput. destruct (dtss x (e_pre e) (e_said e)); [exact N|].
      destruct (aset_cases _ (dtss x) (e_pre e) (e_said e) (Some now) p s) as [(_ & _ & ->)|(_ & ->)]; [discriminate|exact N].
  - intros t. cbn. unfold aput. destruct (dtss x (e_pre e) (e_said e)) eqn:D; [rewrite D; auto|].
    rewrite aset_same. intros X; inversion X; auto.
Qed.
Lemma both_sg : forall now e sg wg x, both now e sg wg x (putSigs (e_pre e) (e_said e) sg x).
Proof.
  intros. unfold putSigs. destruct sg as [|g sg]; [apply both_refl|]. split; [|apply frd_same; reflexivity].
  constructor; cbn [dtss esrs ooes set_sigs]; auto; intros p s; unfold getSigs, getWigs; cbn [sigs wigs set_sigs];
    [|apply incl_appl, incl_refl].
  destruct (aset_cases _ (sigs x) (e_pre e) (e_said e) (Some (addSigs (olist (sigs x (e_pre e) (e_said e))) (g :: sg))) p s) as [(-> & -> & ->)|(_ & ->)];
    [|apply incl_appl, incl_refl]. cbn [olist]. intros z I. apply addSigs_In in I. apply in_app_iff. exact I.
Qed.
Lemma both_wg : forall now e sg wg x, both now e sg wg x (putWigs (e_pre e) (e_said e) wg x).
Proof.
  intros. unfold putWigs. destruct wg as [|g wg]; [apply both_refl|]. split; [|apply frd_same; reflexivity].
  constructor; cbn [dtss esrs ooes set_wigs]; auto; intros p s; unfold getSigs, getWigs; cbn [sigs wigs set_wigs];
    [apply incl_appl, incl_refl|].
  destruct (aset_cases _ (wigs x) (e_pre e) (e_said e) (Some (addSigs (olist (wigs x (e_pre e) (e_said e))) (g :: wg))) p s) as [(-> & -> & ->)|(_ & ->)];
    [|apply incl_appl, incl_refl]. cbn [olist]. intros z I. apply addSigs_In in I. apply in_app_iff. exact I.
Qed.
Lemma esrs_set : forall (x : aux) a b v p s, esrs x p s <> None -> aset (esrs x) a b (Some v) p s <> None.
Proof.
  intros x a b v p s X. destruct (aset_cases _ (esrs x) a b (Some v) p s) as [(-> & -> & ->)|(_ & ->)]; [discriminate|exact X].
Qed.
Lemma both_sr : forall now e sg wg x local, both now e sg wg x
  match esrs x (e_pre e) (e_said e) with
  | Some l => if local && negb l then set_esrs (aset (esrs x) (e_pre e) (e_said e) (Some true)) x else x
  | None => set_esrs (aset (esrs x) (e_pre e) (e_said e) (Some local)) x
  end.
Proof.
  intros. destruct (esrs x (e_pre e) (e_said e)) as [l|]; [destruct (local && negb l)|];
    first [apply both_refl|apply both_same; try reflexivity; intros; apply esrs_set; assumption].
Qed.
Lemma both_evts : forall now e sg wg v x, both now e sg wg x (set_evts v x).
Proof. intros. apply both_same; auto. Qed.
Lemma both_common : forall now e sg wg local x, both now e sg wg x (escCommon now e sg wg local x).
Proof.
  intros. unfold escCommon. cbv zeta. eapply both_trans; [|apply both_sr].
  eapply both_trans; [|apply both_evts].
  eapply both_trans; [|apply both_wg]. eapply both_trans; [|apply both_sg]. apply both_dt.
Qed.
Lemma both_udes : forall now e sg wg f sl x, both now e sg wg x (putUdes f sl x).
Proof. intros. destruct sl; [apply both_same; auto|apply both_refl]. Qed.
Ltac esc := intros now e sg wg sl local x; eapply both_trans; [apply (both_common now e sg wg local)|];
  eapply both_trans; [apply (both_udes now e sg wg e sl)|]; apply both_same; auto.
Ltac esc' local := intros; eapply both_trans; [apply (both_common _ _ _ _ local)|]; apply both_same; auto.
Lemma both_MF : forall now e sg wg sl local x, both now e sg wg x (escrowMF now e sg wg sl local x).
Proof. esc. Qed.
Lemma both_PS : forall now e sg wg sl local x, both now e sg wg x (escrowPS now e sg wg sl local x).
Proof. esc. Qed.
Lemma both_PW : forall now e sg wg sl local x, both now e sg wg x (escrowPW now e sg wg sl local x).
Proof. esc. Qed.
Lemma both_PD : forall now e sg wg sl local x, both now e sg wg x (escrowPD now e sg wg sl local x).
Proof. intros now e sg wg sl local x. esc' local. Qed.
Lemma both_Del : forall now e sg wg local x, both now e sg wg x (escrowDelegable now e sg wg local x).
Proof. intros now e sg wg local x. esc' local. Qed.
Lemma both_OO : forall now e sg wg sl local x, both now e sg wg x (escrowOO now e sg wg sl local x).
Proof.
  intros. eapply both_trans; [apply (both_common now e sg wg local)|].
  eapply both_trans; [apply (both_udes now e sg wg e sl)|].
  split; [|apply frd_same; reflexivity].
  constructor; cbn [dtss esrs ooes set_ooes]; auto; try (intros; apply incl_appl, incl_refl).
  - intros r I. apply etab_add_In. auto.
  - apply etab_add_sorted.
Qed.
Lemma both_LD : forall now e sg wg x, both now e sg wg x (escrowLD now e sg x).
Proof.
  intros. eapply both_incl; [apply incl_refl| |apply both_common]. intros z [].
Qed.
Lemma both_quiet : forall now e sg wg x x', quiet x x' -> both now e sg wg x x'.
Proof. intros now e sg wg x x' Q. rewrite Q. apply both_same; auto. Qed.

(** ** Delegation checks *)
Lemma both_bind : forall A B now e sg wg (m : M A) (f : A -> M B),
  (forall x, both now e sg wg x (fst (m x))) -> (forall a x, both now e sg wg x (fst (f a x))) ->
  forall x, both now e sg wg x (fst (bindm m f x)).
Proof.
  intros A B now e sg wg m f X Y x. unfold bindm. specialize (X x). destruct (m x) as [x1 [a|ex]]; [|exact X].
  eapply both_trans; [exact X|apply Y].
Qed.
Lemma fetchDelegating_both : forall now e sg wg d dp f eager x, both now e sg wg x (fst (fetchDelegating d dp f eager x)).
Proof.
  intros. unfold fetchDelegating.
  destruct (aess x (e_pre f) (e_said f)) as [[u dd]|].
  - destruct (fons d dp dd); [destruct (evts x dp dd)|]; cbn [fst]; first [apply both_refl|apply both_same; auto].
  - destruct eager; [|apply both_refl]. destruct (fetchLastSealing d x dp f); [|apply both_refl].
    destruct (fons d (e_pre f) (e_said f)); cbn [fst]; first [apply both_refl|apply both_same; auto].
Qed.
Lemma valdel_both : forall cf now d k e sg wg wits delpre sl eager local x,
  both now e sg wg x (fst (validateDelegation cf now d k e sg wg wits delpre sl eager local x)).
Proof.
  intros cf now d k e sg wg wits delpre sl eager local. unfold validateDelegation.
  destruct delpre as [dp|]; [|intros; apply both_refl].
  destruct (locallyOwned cf k || locallyMembered cf k || locallyWitnessed cf k wits); [intros; apply both_refl|].
  apply both_bind; [intros; apply both_refl|]. intros [dk|] x; [|apply both_PD].
  destruct (k_dnd dk); [apply both_refl|]. revert x. apply both_bind.
  - intros x. destruct sl as [[dsn dsaid]|].
    + destruct ((MaxON <? dsn) || (dsn <? 1)); [apply both_refl|]. destruct (klast (kels d dp) dsn) as [dd|].
      * revert x. apply both_bind; [intros; apply both_refl|]. intros [de|] x; [|apply both_refl].
        destruct (existsb (seal_is e) (e_seals de)); [apply both_refl|apply both_PD].
      * destruct (negb (k_cues k)); [apply both_refl|].
        destruct ((MaxON <? e_sn e) || (if isIncept (e_ilk e) then negb (e_sn e =? 0) else e_sn e <? 1)); [apply both_refl|apply both_PD].
    + revert x. apply both_bind.
      * intros x. destruct eager; apply both_refl.
      * intros [de|] x; [apply both_refl|apply both_PD].
  - intros [de cpl] x.
    match goal with |- context [if ?b then _ else _] => destruct b end; [apply both_refl|].
    revert x. apply both_bind; [intros; apply fetchDelegating_both|].
    intros [bo|] x; [destruct (e_sn bo <? e_sn de); apply both_refl|apply both_PD].
Qed.

Lemma verifySigs_incl : forall E raw sg keys vs is, verifySigs N (vrfy E) raw sg keys = (vs, is) -> incl vs sg.
Proof. intros. apply verifySigs_spec in H. tauto. Qed.

Lemma val_both : forall E cf now d k e sg0 verfers th wg0 toad wits sl eager local x,
  both now e sg0 wg0 x (fst (valSigsWigsDel E cf now d k e sg0 verfers th wg0 toad wits sl eager local x)).
Proof.
  intros. unfold valSigsWigsDel. destruct (len verfers <? thsize th); [apply both_refl|].
  unfold bindm at 1.
  assert (F1 : forall x1 o, (if negb local && locallyMembered cf k
      then fun x => (x, i <- contribIndex cf d x k verfers ;; Ok (filter (fun s => negb (sg_index s =? i)) sg0))
      else retm sg0) x = (x1, o) -> x1 = x /\ forall sg1, o = Ok sg1 -> incl sg1 sg0).
  { intros x1 o A. destruct (negb local && locallyMembered cf k).
    - inv A. split; [reflexivity|]. intros sg1 B. destruct (contribIndex cf d x1 k verfers); [|discriminate].
      apply ok_inj in B. subst. intros z I. apply filter_In in I. tauto.
    - inv A. split; [reflexivity|]. intros sg1 B. inv B. apply incl_refl. }
  match goal with |- both _ _ _ _ _ (fst (match ?t with pair _ _ => _ end)) => destruct t as [x1 [sg1|ex]] eqn:A end;
    destruct (F1 _ _ A) as (-> & I1); [|apply both_refl]. clear F1 A. specialize (I1 _ eq_refl).
  destruct (verifySigs N (vrfy E) (e_raw e) sg1 verfers) as [vs is] eqn:VS. apply verifySigs_incl in VS.
  assert (IV : incl vs sg0) by (eapply incl_tran; eauto).
  destruct (isnil is); [apply both_refl|].
  apply both_bind.
  - intros x0. destruct (e_ilk e); try apply both_refl. destruct (e_delpre e); apply both_refl.
  - intros delpre x0.
    destruct (negb local && (locallyOwned cf k || locallyWitnessed cf k wits || locallyDelegated cf delpre)).
    { eapply both_incl; [exact IV|apply incl_refl|apply both_MF]. }
    destruct (verifySigs N (vrfy E) (e_raw e) wg0 wits) as [ws wis] eqn:WS. apply verifySigs_incl in WS.
    destruct (negb (satisfy th is)); [eapply both_incl; [exact IV|exact WS|apply both_PS]|].
    match goal with |- context [if ?b then _ else _] => destruct b end; [eapply both_incl; [exact IV|exact WS|apply both_PS]|].
    revert x0. apply both_bind.
    { intros x0. destruct (isnil wits); [destruct (negb (toad =? 0)); apply both_refl|].
      match goal with |- context [if ?b then _ else _] => destruct b end; [|apply both_refl].
      destruct ((toad <? 1) || (len wits <? toad)); [apply both_refl|].
      destruct (len wis <? toad); [|apply both_refl]. cbn [fst]. eapply both_incl; [exact IV|exact WS|apply both_PW]. }
    intros u x0. match goal with |- context [if ?b then _ else _] => destruct b end.
    { eapply both_incl; [exact IV|exact WS|apply both_Del]. }
    revert x0. apply both_bind; [|intros; apply both_refl].
    intros x0. eapply both_incl; [exact IV|exact WS|apply valdel_both].
Qed.

(** ** Acceptance *)
Lemma log_both : forall cf now k e sg wg wits first cpl dater local d x,
  fr e sg wg x (snd (fst (logEvent cf now k e sg wg wits first cpl dater local (d, x)))) /\
  (first = false -> frd now e x (snd (fst (logEvent cf now k e sg wg wits first cpl dater local (d, x))))).
Proof.
  intros. unfold logEvent. cbv zeta.
  set (x1 := set_dtss (aput (dtss x) (e_pre e) (e_said e) now) x).
  set (x2 := putWigs (e_pre e) (e_said e) wg (putSigs (e_pre e) (e_said e) sg x1)).
  set (x3 := set_evts (aput (evts x2) (e_pre e) (e_said e) e) x2).
  set (x4 := match k_delpre k with Some _ => _ | None => x3 end).
  set (x5 := match esrs x4 (e_pre e) (e_said e) with Some _ => _ | None => _ end).
  assert (Q : both now e sg wg x x5).
  { eapply both_trans; [apply both_dt|]. fold x1. eapply both_trans; [apply both_sg|]. eapply both_trans; [apply both_wg|]. fold x2.
    eapply both_trans; [|subst x5; apply both_sr].
    eapply both_trans; [apply (both_same now e sg wg x2 x3); auto|].
    subst x4. destruct (k_delpre k); [|apply both_refl]. destruct cpl; [|apply both_refl].
    destruct (negb (ilk_eqb (e_ilk e) Ixn) && negb (locallyOwned cf k) && negb (locallyWitnessed cf k wits));
      [apply both_same; auto|apply both_refl]. }
  clearbody x5. destruct Q as [Q1 Q2]. destruct first; cbn [fst snd].
  - split; [|discriminate]. eapply fr_trans; [exact Q1|].
    constructor; cbn; auto; try (intros; apply incl_appl, incl_refl).
    + intros p s N.
      match goal with |- aset ?m ?a ?b ?v p s = _ => destruct (aset_cases _ m a b v p s) as [(-> & -> & _)|(_ & ->)] end; [exfalso; auto|reflexivity].
    + intros p s N.
      match goal with |- aset ?m ?a ?b ?v p s <> _ => destruct (aset_cases _ m a b v p s) as [(_ & _ & ->)|(_ & ->)] end; [discriminate|exact N].
  - auto.
Qed.

Lemma pin_snd : forall k d x, snd (fst (pinState k (d, x))) = x.
Proof. intros. unfold pinState. destruct (kstate k); reflexivity. Qed.
Lemma pin_fels : forall k d x, fels (fst (fst (pinState k (d, x)))) = fels d.
Proof. intros. unfold pinState. destruct (kstate k); reflexivity. Qed.

(** Processing a message either extends the first seen log of its prefix or keeps the date of
    its event. *)
Definition onto (m : msg) (d : acc) (x : aux) (dx' : db) : Prop :=
  fr (m_evt m) (m_sigers m) (m_wigers m) x (snd dx') /\
  (frd (m_now m) (m_evt m) x (snd dx') \/
   fels (fst dx') (e_pre (m_evt m)) = fels d (e_pre (m_evt m)) ++ [e_said (m_evt m)]).
Lemma onto_both : forall m d x d' x', both (m_now m) (m_evt m) (m_sigers m) (m_wigers m) x x' -> onto m d x (d', x').
Proof. intros m d x d' x' [A B]. split; auto. Qed.

Lemma onto_log : forall cf m k sg wg wits cpl dater local d x x1 dx r,
  both (m_now m) (m_evt m) (m_sigers m) (m_wigers m) x x1 ->
  incl sg (m_sigers m) -> incl wg (m_wigers m) ->
  logEvent cf (m_now m) k (m_evt m) sg wg wits true cpl dater local (d, x1) = (dx, r) ->
  fr (m_evt m) (m_sigers m) (m_wigers m) x (snd dx) /\
  fels (fst dx) (e_pre (m_evt m)) = fels d (e_pre (m_evt m)) ++ [e_said (m_evt m)].
Proof.
  intros cf m k sg wg wits cpl dater local d x x1 [d2 x2] r B I1 I2 L. split.
  - pose proof (log_both cf (m_now m) k (m_evt m) sg wg wits true cpl dater local d x1) as [A _]. rewrite L in A. cbn [fst snd] in *.
    eapply fr_trans; [apply B|]. eapply fr_incl; eauto.
  - apply logEvent_spec in L. destruct L as (_ & _ & _ & _ & _ & _ & _ & _ & L & _). cbn [fst]. rewrite L, fset_same. reflexivity.
Qed.

Lemma process_onto : forall E cf m d x, onto m d x (fst (processEvent E cf m (d, x))).
Proof.
  intros. unfold processEvent. cbv zeta.
  assert (SAME : onto m d x (d, x)) by (apply onto_both, both_refl).
  destruct (validPre E (e_pre (m_evt m))); cbn [negb]; [|exact SAME].
  assert (OO : onto m d x (d, escrowOO (m_now m) (m_evt m) (m_sigers m) (m_wigers m) (m_seal m) (m_local m) x)) by (apply onto_both, both_OO).
  assert (LD : onto m d x (d, escrowLD (m_now m) (m_evt m) (m_sigers m) x)) by (apply onto_both, both_LD).
  assert (DUP : forall k keys wits, onto m d x
     (fst (let '(sg, _) := verifySigs N (vrfy E) (e_raw (m_evt m)) (m_sigers m) keys in
      let '(wg, _) := verifySigs N (vrfy E) (e_raw (m_evt m)) (m_wigers m) wits in
      if isnil sg && isnil wg then ((d, x), Ok tt)
      else (fst (logEvent cf (m_now m) k (m_evt m) sg wg [] false None None true (d, x)), Ok tt)))).
  { intros k keys wits. destruct (verifySigs N (vrfy E) (e_raw (m_evt m)) (m_sigers m) keys) as [sg u] eqn:V1.
    destruct (verifySigs N (vrfy E) (e_raw (m_evt m)) (m_wigers m) wits) as [wg v] eqn:V2.
    apply verifySigs_incl in V1, V2. destruct (isnil sg && isnil wg); [exact SAME|]. cbn [fst].
    destruct (log_both cf (m_now m) k (m_evt m) sg wg [] false None None true d x) as [A B].
    split; [eapply fr_incl; [exact V1|exact V2|exact A]|left; apply B; reflexivity]. }
  destruct (kget d x (e_pre (m_evt m))) as [k|].
  - destruct (isIncept (e_ilk (m_evt m))).
    + destruct (negb (e_sn (m_evt m) =? 0)); [exact SAME|].
      destruct (fetchEst _ d x (e_pre (m_evt m)) (e_sn (m_evt m))) as [ee|]; [|exact SAME].
      destruct (e_said ee =? e_said (m_evt m)); [apply DUP|exact LD].
    + destruct (k_sn k + 1 <? e_sn (m_evt m)); [exact OO|].
      match goal with |- context [if ?b then update _ _ _ _ _ else _] => destruct b end.
      * unfold update. destruct (negb (transferable E k)); [exact SAME|].
        destruct (negb (e_pre (m_evt m) =? k_pre k)); [exact SAME|].
        destruct (isRot (e_ilk (m_evt m))).
        -- match goal with |- context [if ?b then _ else _] => destruct b end; [exact SAME|].
           destruct (rotate d x k (m_evt m)) as [[[wits cuts] adds]|ex]; [|exact SAME].
           match goal with |- context [valSigsWigsDel ?a ?b ?c ?d ?e ?f ?g ?h ?i ?j ?k ?l ?m ?n ?o ?p] =>
             pose proof (val_both a b c d e f g h i j k l m n o p) as VB; pose proof (val_inv a b c d e f g h i j k l m n o p) as VI;
             destruct (valSigsWigsDel a b c d e f g h i j k l m n o p) as [x1 [[[[sg wg] dpre] cpl]|ex]] end;
             [|apply onto_both; exact VB]. cbn [fst] in VB. destruct (VI _ _ eq_refl) as [_ V]. destruct (V _ _ _ _ eq_refl) as [_ VA]. clear V VI.
           match goal with |- context [logEvent ?a ?b ?c ?d ?e ?f ?g ?h ?i ?j ?k ?l] =>
             destruct (logEvent a b c d e f g h i j k l) as [[d2 x2] o] eqn:L end.
           eapply onto_log in L; [|exact VB|exact (v_incl _ _ _ _ _ _ _ _ _ _ _ _ _ _ _ _ _ VA)|exact (v_wincl _ _ _ _ _ _ _ _ _ _ _ _ _ _ _ _ _ VA)].
           destruct (match o with Some p => p | None => _ end) as [fn dts]. destruct L as [L1 L2].
           split; [rewrite pin_snd; exact L1|right; rewrite pin_fels; exact L2].
        -- destruct (ilk_eqb (e_ilk (m_evt m)) Ixn); [|exact SAME]. destruct (k_estOnly k); [exact SAME|].
           destruct (negb (e_sn (m_evt m) =? k_sn k + 1)); [exact SAME|].
           destruct (negb (compare (k_evt k) (e_prior (m_evt m)))); [exact SAME|].
           match goal with |- context [valSigsWigsDel ?a ?b ?c ?d ?e ?f ?g ?h ?i ?j ?k ?l ?m ?n ?o ?p] =>
             pose proof (val_both a b c d e f g h i j k l m n o p) as VB; pose proof (val_inv a b c d e f g h i j k l m n o p) as VI;
             destruct (valSigsWigsDel a b c d e f g h i j k l m n o p) as [x1 [[[[sg wg] dpre] cpl]|ex]] end;
             [|apply onto_both; exact VB]. cbn [fst] in VB. destruct (VI _ _ eq_refl) as [_ V]. destruct (V _ _ _ _ eq_refl) as [_ VA]. clear V VI.
           match goal with |- context [logEvent ?a ?b ?c ?d ?e ?f ?g ?h ?i ?j ?k ?l] =>
             destruct (logEvent a b c d e f g h i j k l) as [[d2 x2] o] eqn:L end.
           eapply onto_log in L; [|exact VB|exact (v_incl _ _ _ _ _ _ _ _ _ _ _ _ _ _ _ _ _ VA)|exact (v_wincl _ _ _ _ _ _ _ _ _ _ _ _ _ _ _ _ _ VA)].
           destruct (match o with Some p => p | None => _ end) as [fn dts]. destruct L as [L1 L2].
           split; [rewrite pin_snd; exact L1|right; rewrite pin_fels; exact L2].
      * match goal with |- context [if ?b then _ else _] => destruct b end; [|exact LD].
        destruct (fetchEst _ d x (e_pre (m_evt m)) (e_sn (m_evt m))) as [ee|]; [|exact SAME].
        destruct (fetchWits d x (e_pre (m_evt m)) (kback (kels d (e_pre (m_evt m))) (e_sn (m_evt m)))) as [ws|ex];
          [apply DUP|]. destruct (verifySigs N (vrfy E) (e_raw (m_evt m)) (m_sigers m) (e_keys ee)). exact SAME.
  - destruct (isIncept (e_ilk (m_evt m))) eqn:IC; [|exact OO].
    unfold newKever. rewrite IC. cbn [negb]. destruct (isnil (m_sigers m)); [exact SAME|].
    destruct (incept E (m_evt m)) as [k|ex]; [|exact SAME].
    match goal with |- context [valSigsWigsDel ?a ?b ?c ?d ?e ?f ?g ?h ?i ?j ?k ?l ?m ?n ?o ?p] =>
      pose proof (val_both a b c d e f g h i j k l m n o p) as VB; pose proof (val_inv a b c d e f g h i j k l m n o p) as VI;
      destruct (valSigsWigsDel a b c d e f g h i j k l m n o p) as [x1 [[[[sg wg] dpre] cpl]|ex]] end;
      [|apply onto_both; exact VB]. cbn [fst] in VB. destruct (VI _ _ eq_refl) as [_ V]. destruct (V _ _ _ _ eq_refl) as [_ VA]. clear V VI.
    match goal with |- context [logEvent ?a ?b ?c ?d ?e ?f ?g ?h ?i ?j ?k ?l] =>
      destruct (logEvent a b c d e f g h i j k l) as [[d2 x2] o] eqn:L end.
    eapply onto_log in L; [|exact VB|exact (v_incl _ _ _ _ _ _ _ _ _ _ _ _ _ _ _ _ _ VA)|exact (v_wincl _ _ _ _ _ _ _ _ _ _ _ _ _ _ _ _ _ VA)].
    destruct L as [L1 L2]. destruct o as [[fn dts]|]; [|split; [exact L1|right; exact L2]].
    match goal with |- context [pinState ?k ?dx] => pose proof (pin_snd k d2 x2) as P1; pose proof (pin_fels k d2 x2) as P2;
      destruct (pinState k dx) as [[d3 x3] [u|ex]] end; cbn [fst snd] in *; subst x3;
      (split; [exact L1|right; cbn [fst fels set_kevers]; rewrite P2; exact L2]).
Qed.
