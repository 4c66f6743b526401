(** Lemmas on the key manager as a habitat uses it. *)
From Coq Require Import Lia.
From Verif Require Import Prelude B64Model MatterModel SubsModel ThModel JsonModel KsModel KsSpec JsonProofs KsProofs KsInv KsRun KsHab KsHeld.
Open Scope N_scope.
Ltac Zify.zify_post_hook ::= Z.div_mod_to_equations.

Lemma exn_eq_dec : forall a b : exn, {a = b} + {a <> b}.
Proof. decide equality. Qed.

Section Hk.
Variable c : kcfg.
Hypothesis TR : forall cd sd tr, trans c (vk c cd sd tr) = tr.

(** ** Raising calls *)
Lemma replay_idx : forall pre dc m t m', replay c pre dc true false m = (t, (m', Err IndexError)) -> t = [] /\ m' = m.
Proof.
  intros pre dc m t m' E. unfold replay in E.
  destruct (bindM_inv _ _ _ _ _ _ _ _ E) as [(t1 & m1 & d & t2 & E1 & E2 & ->)|(y & E1 & E2)]; [|discriminate]. clear E.
  apply reads_ok in E1. destruct E1 as (-> & -> & ->).
  destruct (bindM_inv _ _ _ _ _ _ _ _ E2) as [(t1 & m1 & pp & t3 & E1 & E & ->)|(y & E1 & E)].
  2:{ injection E; intros; subst y. destruct (dget (prms (ks m)) pre); discriminate. }
  apply lift_ok in E1. destruct E1 as (-> & -> & _). clear E2.
  destruct (bindM_inv _ _ _ _ _ _ _ _ E) as [(t1 & m1 & ps & t2 & E1 & E2 & ->)|(y & E1 & E2)].
  2:{ injection E2; intros; subst y. destruct (dget (sits (ks m)) pre); discriminate. }
  apply lift_ok in E1. destruct E1 as (-> & -> & Eps). clear E.
  destruct (bindM_inv _ _ _ _ _ _ _ _ E2) as [(t1 & m1 & ps' & t3 & E1 & E & ->)|(y & E1 & E)].
  2:{ cbv zeta in E1. destruct (dget (pubs (ks m)) _); [discriminate|]. injection E1; intros; subst. auto. }
  exfalso. clear E1 E2.
  destruct (bindM_inv _ _ _ _ _ _ _ _ E) as [(t4 & m4 & vs & t5 & E1 & E2 & ->)|(y & E1 & E2)].
  2:{ injection E2; intros; subst y. exact (nx_verfersOf c IndexError (or_introl eq_refl) _ _ _ _ _ E1 eq_refl). }
  cbv zeta in E2. destruct (bindM_inv _ _ _ _ _ _ _ _ E2) as [(t6 & m6 & u & t7 & E3 & E4 & ->)|(y & E3 & E4)]; [discriminate|].
  discriminate.
Qed.

Lemma puts_never : forall enc sgs m t m' e, Forall (fun sg => exists v, encSecret enc (fst sg) = Ok v) sgs ->
  forM sgs (putPri enc) m = (t, (m', Err e)) -> False.
Proof.
  intros enc. induction sgs as [|sg sgs IH]; intros m t m' e F E; [discriminate|]. inversion F as [|? ? (v & V) F']; subst. cbn [forM] in E.
  destruct (bindM_inv _ _ _ _ _ _ _ _ E) as [(t1 & m1 & u & t2 & E1 & E2 & _)|(y & E1 & _)]; [eapply IH; eauto|].
  unfold putPri in E1. destruct (bindM_inv _ _ _ _ _ _ _ _ E1) as [(t3 & m3 & w & t4 & E3 & E4 & _)|(z & E3 & _)].
  - destruct (bindM_inv _ _ _ _ _ _ _ _ E4) as [(t5 & m5 & w5 & t6 & E5 & E6 & _)|(z & E5 & _)]; [discriminate|].
    unfold putM in E5. destruct (bindM_inv _ _ _ _ _ _ _ _ E5) as [(t7 & m7 & w7 & t8 & E7 & E8 & _)|(z' & E7 & _)]; [|discriminate].
    destruct (dget (pris (ks w7)) (snd sg)); discriminate.
  - rewrite V in E3. discriminate.
Qed.
Lemma made_enc : forall cr p r k tr te n sgs enc, made c cr p r k tr te (repeat EdSeed n) sgs -> Forall (fun sg => exists v, encSecret enc (fst sg) = Ok v) sgs.
Proof.
  intros cr p r k tr te n sgs enc [_ H]. apply Forall_forall. intros sg Hin. apply In_nth_error in Hin. destruct Hin as [i Hi].
  destruct (H _ _ Hi) as (cd & sd & A & _ & -> & _). apply nth_error_In in A. apply repeat_spec in A. subst cd. cbn [fst].
  unfold encSecret. destruct enc; [|eauto]. cbn [fst]. rewrite beq_refl. eauto.
Qed.
Lemma rotate_err : forall pre n dc tr te m t m' e, KsModel.rotate c pre (mkRargs (repeat EdSeed n) dc tr te false) m = (t, (m', Err e)) -> t = [] /\ ks m' = ks m.
Proof.
  intros pre n dc tr te m t m' e E. unfold KsModel.rotate in E.
  destruct (bindM_inv _ _ _ _ _ _ _ _ E) as [(t1 & m1 & d & t2 & E1 & E2 & ->)|(y & E1 & E2)]; [|discriminate]. clear E.
  apply reads_ok in E1. destruct E1 as (-> & -> & ->).
  destruct (bindM_inv _ _ _ _ _ _ _ _ E2) as [(t1 & m1 & pp & t3 & E1 & E & ->)|(y & E1 & _)].
  2:{ apply (q_lift _ _) in E1. tauto. }
  apply lift_ok in E1. destruct E1 as (-> & -> & _). clear E2.
  destruct (bindM_inv _ _ _ _ _ _ _ _ E) as [(t1 & m1 & ps & t2 & E1 & E2 & ->)|(y & E1 & _)].
  2:{ apply (q_lift _ _) in E1. tauto. }
  apply lift_ok in E1. destruct E1 as (-> & -> & _). clear E.
  destruct (bindM_inv _ _ _ _ _ _ _ _ E2) as [(t1 & m1 & u & t3 & E1 & E & ->)|(y & E1 & _)].
  2:{ apply q_guard in E1. tauto. }
  apply guard_ok in E1. destruct E1 as (-> & -> & _). clear E2. cbv zeta in E.
  destruct (bindM_inv _ _ _ _ _ _ _ _ E) as [(t1 & m1 & vs & t2 & E1 & E2 & ->)|(y & E1 & _)].
  2:{ apply q_verfersOf in E1. tauto. }
  apply q_verfersOf in E1. destruct E1 as (-> & A1 & A1'). clear E.
  destruct (bindM_inv _ _ _ _ _ _ _ _ E2) as [(t1 & m2 & mm & t3 & E1 & E & ->)|(y & E1 & _)]; [|discriminate].
  apply reads_ok in E1. destruct E1 as (-> & -> & ->). clear E2.
  destruct (bindM_inv _ _ _ _ _ _ _ _ E) as [(t1 & m2 & salt & t2 & E1 & E2 & ->)|(y & E1 & E2)].
  - assert (Q : t1 = [] /\ ks m2 = ks m1 /\ memOf m2 = memOf m1).
    { match type of E1 with ?p _ = _ => assert (Q : quiet p) end.
      { destruct (p_salt pp) as [s|]; [|apply q_ret]. destruct (negb (isEmpty (aeidOf (ks m)))).
        - destruct (m_dec m1); [|apply q_raise]. apply q_bind; [apply q_lift|]. intros; apply q_ret.
        - destruct s; first [apply q_ret|apply q_raise]. }
      exact (Q _ _ _ _ E1). }
    destruct Q as (-> & A2 & A2'). clear E E1.
    destruct (bindM_inv _ _ _ _ _ _ _ _ E2) as [(t1 & m3 & cr & t3 & E1 & E & ->)|(y & E1 & _)].
    2:{ apply q_mkCreator in E1. destruct E1 as (-> & -> & _). split; [reflexivity|congruence]. }
    apply q_mkCreator in E1. destruct E1 as (-> & A3 & A3'). clear E2.
    destruct (bindM_inv _ _ _ _ _ _ _ _ E) as [(t1 & m4 & sgs & t2 & E1 & E2 & ->)|(y & E1 & _)].
    2:{ apply q_create in E1. destruct E1 as (-> & -> & _). split; [reflexivity|congruence]. }
    pose proof (create_ok _ _ _ _ _ _ _ _ _ _ _ _ E1) as MD. apply (made_enc _ _ _ _ _ _ _ _ (m_enc m1)) in MD. clear E.
    destruct (bindM_inv _ _ _ _ _ _ _ _ E2) as [(t4 & m5 & u5 & t3 & E3 & E & ->)|(y & E3 & _)]; [|discriminate]. clear E2. exfalso.
    destruct (bindM_inv _ _ _ _ _ _ _ _ E) as [(t5 & m6 & u6 & t6 & E4 & E2 & ->)|(y & E4 & _)]; [|exact (puts_never _ _ _ _ _ _ MD E4)]. clear E.
    destruct (bindM_inv _ _ _ _ _ _ _ _ E2) as [(t7 & m7 & u7 & t8 & E5 & E & ->)|(y & E5 & _)].
    + destruct (bindM_inv _ _ _ _ _ _ _ _ E) as [(t9 & m9 & u9 & t10 & E6 & E7 & ->)|(y & E6 & _)]; discriminate.
    + unfold putM in E5. destruct (bindM_inv _ _ _ _ _ _ _ _ E5) as [(t9 & m9 & u9 & t10 & E7 & E8 & _)|(z' & E7 & _)]; [|discriminate].
      match type of E8 with context [match ?g with _ => _ end] => destruct g end; discriminate.
  - match type of E1 with ?p _ = _ => assert (Q : quiet p) end.
    { destruct (p_salt pp) as [s|]; [|apply q_ret]. destruct (negb (isEmpty (aeidOf (ks m)))).
      - destruct (m_dec m1); [|apply q_raise]. apply q_bind; [apply q_lift|]. intros; apply q_ret.
      - destruct s; first [apply q_ret|apply q_raise]. }
    apply Q in E1. destruct E1 as (-> & -> & _). split; [reflexivity|congruence].
Qed.

Lemma addPris_sits : forall en sgs d, sits (fold_left (addPri en) sgs d) = sits d.
Proof.
  intros en. induction sgs as [|sg sgs IH]; intros d; [reflexivity|]. cbn [fold_left]. rewrite IH. unfold addPri.
  destruct (encSecret en (fst sg)); [|reflexivity]. destruct (dget (pris d) (snd sg)); reflexivity.
Qed.
Lemma addPubs_sits : forall k l d, sits (addPubs k l d) = sits d.
Proof. intros. unfold addPubs. destruct (dget (pubs d) k); reflexivity. Qed.

(** ** The keys that Hab.rotate gets *)
Definition handOut (pre : bytes) (n : N) (te : bool) (m : mgr) : mgr * res (list bytes * list bytes) :=
  let '(_, (m0, r0)) := replay c pre (s2b "E") true false m in
  match r0 with
  | Err IndexError => snd (KsModel.rotate c pre (mkRargs (repeat EdSeed (N.to_nat n)) (s2b "E") true te false) m0)
  | _ => (m0, r0)
  end.
Definition habR (n : N) (te : bool) : rargs := mkRargs (repeat EdSeed (N.to_nat n)) (s2b "E") true te false.
Lemma handOut_err : forall pre n te m m1 e, fhist c m -> handOut pre n te m = (m1, Err e) -> fhist c m1 /\ ks m1 = ks m.
Proof.
  intros pre n te m m1 e F H. unfold handOut in H. destruct (replay c pre (s2b "E") true false m) as [t [m0 r0]] eqn:R.
  assert (Z : forall x, r0 = Err x -> m1 = m0 -> fhist c m1 /\ ks m1 = ks m).
  { intros x -> ->. pose proof (replay_err _ _ _ _ _ _ _ _ _ R) as (-> & A & _). split; [|exact A].
    eapply (f_idle c m (OReplay pre (s2b "E") true false)); [exact F|reflexivity|]. cbn [exec]. unfold bindM. rewrite R. reflexivity. }
  destruct r0 as [vd|x]; [discriminate|]. destruct (exn_eq_dec x IndexError) as [->|NX].
  - destruct (replay_idx _ _ _ _ _ R) as [-> ->]. destruct (KsModel.rotate c pre _ m) as [t2 [m2 r2]] eqn:RO. cbn [snd] in H.
    apply pair_equal_spec in H. destruct H as [-> ->]. destruct (rotate_err _ _ _ _ _ _ _ _ _ RO) as [-> A]. split; [|exact A].
    eapply (f_idle c m (ORotate pre _)); [exact F|reflexivity|]. cbn [exec]. unfold bindM. rewrite RO. reflexivity.
  - apply (Z x eq_refl). destruct x; try congruence; injection H; intros; congruence.
Qed.
Lemma handOut_keys : forall pre n te m m1 vd, handOut pre n te m = (m1, Ok vd) -> exists t,
  (exists t0, replay c pre (s2b "E") true false m = (t0, (m1, Ok vd)) /\ t = t0) \/
  (replay c pre (s2b "E") true false m = ([], (m, Err IndexError)) /\ KsModel.rotate c pre (habR n te) m = (t, (m1, Ok vd))).
Proof.
  intros pre n te m m1 vd H. unfold handOut in H. destruct (replay c pre (s2b "E") true false m) as [t [m0 r0]] eqn:R.
  destruct r0 as [vd'|x].
  - injection H; intros; subst. exists t. left. eauto.
  - destruct (exn_eq_dec x IndexError) as [->|NX]; [|destruct x; try congruence; discriminate].
    destruct (replay_idx _ _ _ _ _ R) as [-> ->]. unfold habR. destruct (KsModel.rotate c pre _ m) as [t2 [m2 r2]] eqn:RO. cbn [snd] in H.
    injection H; intros; subst. exists t2. right. auto.
Qed.
Record handed (pre : bytes) (m m1 : mgr) (vs ds : list bytes) (ps : presit) (lot : publot) : Prop := mkHanded {
  hd_sit : dget (sits (ks m)) pre = Some ps;
  hd_vs : vs = l_pubs (t_nxt ps);
  hd_ds : ds = map (dig c (s2b "E")) (l_pubs lot);
  hd_sit1 : dget (sits (ks m1)) pre = Some (mkSit (t_new ps) (t_nxt ps) lot);
  hd_fh : fhist c m1 }.
Lemma handOut_ok : forall pre n te m m1 vs ds, fhist c m -> handOut pre n te m = (m1, Ok (vs, ds)) -> freshKeys (ks m) (ks m1) ->
  exists ps lot, handed pre m m1 vs ds ps lot.
Proof.
  intros pre n te m m1 vs ds F H FR. destruct (fhist_inv c TR _ F) as (_ & PO & _).
  destruct (handOut_keys _ _ _ _ _ _ H) as (t & [(t0 & R & ->)|(R & RO)]).
  - destruct (replay_ok c _ _ _ _ _ _ _ _ _ PO R) as (pp & ps & _ & S & _ & l & _ & V & D & _ & K).
    exists ps, (mkLot l (l_ridx (t_nxt ps) + 1) (l_kidx (t_nxt ps) + len (l_pubs (t_nxt ps)))). constructor; auto.
    + rewrite K. cbn. rewrite dget_dset, beq_refl. reflexivity.
    + eapply (f_replay c m pre (s2b "E") true false); [exact F|]. cbn [exec]. unfold bindM. rewrite R. reflexivity.
  - destruct (rotate_ok c _ _ _ _ _ _ _ PO RO) as (pp & ps & sgs & cr & _ & S & _ & V & D & _ & _ & X). cbv zeta in X. destruct X as (_ & _ & _ & K).
    exists ps, (mkLot (pubsOf sgs) (l_ridx (t_nxt ps) + 1) (l_kidx (t_nxt ps) + len (l_pubs (t_nxt ps)))). constructor; auto.
    + rewrite K. cbn [r_erase habR]. rewrite addPubs_sits, addPris_sits. cbn. rewrite dget_dset, beq_refl. reflexivity.
    + eapply (f_rotate c m pre (habR n te)); [exact F|exact R| |exact FR]. cbn [exec]. unfold bindM. rewrite RO. reflexivity.
Qed.
(** the end of Hab.rotate *)
Lemma hab_end : forall pre n te m m1 vd ps b m2, fhist c m -> handOut pre n te m = (m1, Ok vd) -> dget (sits (ks m)) pre = Some ps ->
  m2 = (if b : bool then fst (snd (forM (l_pubs (t_old ps)) (fun p => remM pris setPris p) m1)) else fst (snd (pinM sits setSits pre ps m1))) ->
  freshKeys (ks m) (ks m2) -> fhist c m2.
Proof.
  intros pre n te m m1 vd ps b m2 F H S E FR.
  assert (ER : forall l m0, exists t, forM l (fun p => remM pris setPris p) m0 = (t, (fst (snd (forM l (fun p => remM pris setPris p) m0)), Ok tt))).
  { intros l m0. assert (Q : snd (snd (forM l (fun p => remM pris setPris p) m0)) = Ok tt).
    { revert m0. induction l as [|p l IH]; intros m0; [reflexivity|]. cbn [forM]. unfold bindM at 1. 
      assert (Q1 : exists mm t, remM pris setPris p m0 = (t, (mm, Ok tt))) by (eexists _, _; reflexivity). destruct Q1 as (mm & t & Q1). rewrite Q1.
      specialize (IH mm). destruct (forM l (fun p0 => remM pris setPris p0) mm) as [t2 o2]. exact IH. }
    destruct (forM l (fun p => remM pris setPris p) m0) as [t [m3 r]]. cbn in *. subst r. eauto. }
  set (o := OHabRotate pre (habR n te) (fun _ _ => b)).
  assert (X : exists t, exec c o m = (t, (m2, if b then Ok (Some vd) else Err ValidationError))).
  { unfold o. cbn [exec]. unfold KsModel.habRotate. unfold bindM at 1 2. unfold reads at 1. rewrite S.
    match goal with |- context [bindM ?f _ m] => assert (HK : exists t, f m = (t, (m1, Ok vd))) end.
    { cbv beta. change (r_dcode (habR n te)) with (s2b "E"). unfold handOut in H. destruct (replay c pre (s2b "E") true false m) as [t [m0 r0]].
      fold (habR n te) in H. change (mkRargs (r_ncodes (habR n te)) (s2b "E") (r_transferable (habR n te)) (r_temp (habR n te)) false) with (habR n te).
      destruct r0 as [y|e]; [injection H; intros; subst; eauto|]. destruct e; try discriminate.
      destruct (KsModel.rotate c pre (habR n te) m0) as [t2 o2]. cbn [snd] in H. rewrite H. eauto. }
    destruct HK as (t & HK). unfold bindM at 1. rewrite HK. rewrite E. destruct b.
    - unfold bindM at 1. destruct (ER (l_pubs (t_old ps)) m1) as (t1 & Q). rewrite Q. cbn. eexists. reflexivity.
    - unfold bindM at 1. unfold pinM, write. cbn. eexists. reflexivity. }
  destruct X as (t & X). eapply (f_hab c m pre (habR n te) (fun _ _ => b)); [exact F|exact X|destruct b; [exact Logic.I|reflexivity]|exact FR].
Qed.
End Hk.
