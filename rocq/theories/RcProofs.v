(** Proofs about receipts. *)
From Verif Require Import Prelude B64Model MatterModel SubsModel ThModel ThSpec ThThms KelModel KelSpec KelProofs KelInv
  RcModel RcSpec.
Ltac Zify.zify_post_hook ::= Z.div_mod_to_equations.
Open Scope N_scope.

(** ** Tables *)
Lemma addc_In : forall A (eqb : A -> A -> bool) v l y, In y (addc eqb v l) -> In y l \/ y = v.
Proof.
  intros A eqb v l y I. unfold addc in I. destruct (existsb (eqb v) l); [auto|].
  apply in_app_or in I. destruct I as [I|[<-|[]]]; auto.
Qed.
Lemma addc_incl : forall A (eqb : A -> A -> bool) v l, incl l (addc eqb v l).
Proof. intros A eqb v l y I. unfold addc. destruct (existsb (eqb v) l); [auto|]. apply in_or_app. auto. Qed.
Lemma tab_ins_In : forall A (r : N * N * A) t y, In y (tab_ins r t) <-> In y t \/ y = r.
Proof.
  intros A r t y. induction t as [|q t IH]; cbn; [split; [intros [<-|[]]; auto|intros [[]| ->]; auto]|].
  destruct (tkey_ltb r q); cbn; [split; intros Z; intuition|]. rewrite IH. tauto.
Qed.
Lemma tab_add_In : forall A (eqb : A -> A -> bool) r t y, In y (tab_add eqb r t) -> In y t \/ y = r.
Proof. intros A eqb r t y I. unfold tab_add in I. destruct (existsb (trow_eqb eqb r) t); [auto|]. apply tab_ins_In in I. exact I. Qed.
Lemma tab_add_incl : forall A (eqb : A -> A -> bool) r t, incl t (tab_add eqb r t).
Proof. intros A eqb r t y I. unfold tab_add. destruct (existsb (trow_eqb eqb r) t); [auto|]. apply tab_ins_In. auto. Qed.
Lemma tab_rem_In : forall A (eqb : A -> A -> bool) r t y, In y (tab_rem eqb r t) -> In y t.
Proof. intros A eqb r t y I. apply filter_In in I. tauto. Qed.

(** ** How one action may change the state *)
(** only dates and witness signatures of the event part; signatures are only added, and only if
    some event is known *)
Record quietw (x x' : aux) : Prop := mkQw {
  q_eq : x' = set_dtss (dtss x') (set_wigs (wigs x') x);
  q_wigs : forall p s, incl (getWigs x p s) (getWigs x' p s);
  q_none : wigs x' = wigs x \/ exists p s e, evts x p s = Some e }.

Section Adv.
  Variables (E : env) (d : acc).
  (** which new transferable receipts are acceptable, given the events of the database *)
  Variable V : amap evt -> N -> N -> src -> siger -> Prop.

  Record adv (w w' : wst) : Prop := mkAdv {
    ad_x : quietw (fst w) (fst w');
    ad_rct : forall p s c, In c (getRcts (snd w') p s) -> In c (getRcts (snd w) p s) \/
               exists e, evts (fst w) p s = Some e /\ endorses E e c;
    ad_rct_incl : forall p s, incl (getRcts (snd w) p s) (getRcts (snd w') p s);
    ad_vrc : forall p s o g, In (o, g) (getVrcs (snd w') p s) -> In (o, g) (getVrcs (snd w) p s) \/ V (evts (fst w)) p s o g;
    ad_vrc_incl : forall p s, incl (getVrcs (snd w) p s) (getVrcs (snd w') p s);
    ad_ure : forall p n s c, In (p, n, (s, c)) (ures (snd w')) -> In (p, n, (s, c)) (ures (snd w)) \/ transf E (cg_key c) = false }.

  Lemma quietw_refl : forall x, quietw x x.
  Proof. intros x. constructor; [destruct x; reflexivity|intros; apply incl_refl|auto]. Qed.
  Lemma quietw_evts : forall x x', quietw x x' -> evts x' = evts x.
  Proof. intros x x' Q. rewrite (q_eq _ _ Q). reflexivity. Qed.
  Lemma quietw_trans : forall x y z, quietw x y -> quietw y z -> quietw x z.
  Proof.
    intros x y z Q R. constructor.
    - rewrite (q_eq _ _ R) at 1. rewrite (q_eq _ _ Q) at 1. reflexivity.
    - intros. eapply incl_tran; [apply Q|apply R].
    - destruct (q_none _ _ R) as [A|(p & s & e & A)].
      + rewrite A. apply Q.
      + right. exists p, s, e. rewrite <- (quietw_evts _ _ Q). exact A.
  Qed.

  Lemma adv_refl : forall w, adv w w.
  Proof. intros w. constructor; auto using quietw_refl, incl_refl. Qed.
  Lemma adv_trans : forall a b c, adv a b -> adv b c -> adv a c.
  Proof.
    intros a b c X Y. pose proof (quietw_evts _ _ (ad_x _ _ X)) as EV. constructor.
    - eapply quietw_trans; [apply X|apply Y].
    - intros p s c0 I. destruct (ad_rct _ _ Y _ _ _ I) as [J|J]; [apply (ad_rct _ _ X _ _ _ J)|]. rewrite EV in J. auto.
    - intros. eapply incl_tran; [apply X|apply Y].
    - intros p s o g I. destruct (ad_vrc _ _ Y _ _ _ _ I) as [J|J]; [apply (ad_vrc _ _ X _ _ _ _ J)|]. rewrite EV in J. auto.
    - intros. eapply incl_tran; [apply X|apply Y].
    - intros p n s c0 I. destruct (ad_ure _ _ Y _ _ _ _ I) as [J|J]; [apply (ad_ure _ _ X _ _ _ _ J)|]. auto.
  Qed.

  Definition good {T} (a : act T) : Prop := forall w, adv w (fst (a w)).
  Lemma good_ok : good ok.
  Proof. intros w. apply adv_refl. Qed.
  Lemma good_raise : forall T e, good (@raise T e).
  Proof. intros T e w. apply adv_refl. Qed.
  Lemma good_seq : forall T (a : act unit) (b : act T), good a -> good b -> good (seqa a b).
  Proof.
    intros T a b GA GB w. unfold seqa. specialize (GA w). destruct (a w) as [w' [u|e]]; cbn in *; [|exact GA].
    eapply adv_trans; [exact GA|apply GB].
  Qed.
  Lemma good_each : forall T (f : T -> act unit) l, (forall a, In a l -> good (f a)) -> good (each f l).
  Proof.
    intros T f l. induction l as [|a l IH]; intros G; [apply good_ok|]. cbn [each].
    apply good_seq; [apply G; cbn; auto|]. apply IH. intros b I. apply G. cbn. auto.
  Qed.

  (** writes *)
  Lemma adv_x : forall x x' r, quietw x x' -> adv (x, r) (x', r).
  Proof. intros x x' r Q. constructor; cbn [fst snd]; auto using incl_refl. Qed.
  Lemma good_putDts : forall p s now, good (putDts p s now).
  Proof.
    intros p s now [x r]. apply adv_x. constructor; [destruct x; reflexivity|intros; apply incl_refl|auto].
  Qed.
  Lemma quietw_wigs : forall x p s l e, evts x p s = Some e -> quietw x (putWigs p s l x).
  Proof.
    intros x p s l e EV. constructor.
    - unfold putWigs. destruct l; destruct x; reflexivity.
    - intros p' s'. apply (ext_putWigs e p s l x).
    - right. eauto.
  Qed.
  Lemma adv_wigs : forall x r p s l e, evts x p s = Some e -> adv (x, r) (putWigs p s l x, r).
  Proof. intros. apply adv_x. eapply quietw_wigs; eauto. Qed.
  Lemma adv_rctw : forall x r p s c e, evts x p s = Some e -> endorses E e c -> adv (x, r) (x, addRct p s c r).
  Proof.
    intros x r p s c e EV EN. constructor; cbn [fst snd]; auto using quietw_refl, incl_refl.
    - intros p' s' c' I. unfold getRcts, addRct in I. cbn [rcts set_rcts] in I.
      destruct (aset_cases _ (rcts r) p s (Some (addc cigar_eqb c (getRcts r p s))) p' s') as [(A & B & C)|(_ & C)]; rewrite C in I; [|auto].
      subst p' s'. cbn [olist] in I. apply addc_In in I. destruct I as [I| ->]; [auto|]. right. eauto.
    - intros p' s' c' I. unfold getRcts, addRct. cbn [rcts set_rcts].
      destruct (aset_cases _ (rcts r) p s (Some (addc cigar_eqb c (getRcts r p s))) p' s') as [(A & B & C)|(_ & C)]; rewrite C; [|exact I].
      subst p' s'. cbn [olist]. apply addc_incl. exact I.
  Qed.
  Lemma adv_vrcw : forall x r p s o g, V (evts x) p s o g -> adv (x, r) (x, addVrc p s o g r).
  Proof.
    intros x r p s o g VV. constructor; cbn [fst snd]; auto using quietw_refl, incl_refl.
    - intros p' s' o' g' I. unfold getVrcs, addVrc in I. cbn [vrcs set_vrcs] in I.
      destruct (aset_cases _ (vrcs r) p s (Some (addc rct_eqb (o, g) (getVrcs r p s))) p' s') as [(A & B & C)|(_ & C)]; rewrite C in I; [|auto].
      subst p' s'. cbn [olist] in I. apply addc_In in I. destruct I as [I|I]; [auto|]. inversion I; subst. auto.
    - intros p' s' c' I. unfold getVrcs, addVrc. cbn [vrcs set_vrcs].
      destruct (aset_cases _ (vrcs r) p s (Some (addc rct_eqb (o, g) (getVrcs r p s))) p' s') as [(A & B & C)|(_ & C)]; rewrite C; [|exact I].
      subst p' s'. cbn [olist]. apply addc_incl. exact I.
  Qed.
  Lemma adv_r : forall x r r', rcts r' = rcts r -> vrcs r' = vrcs r ->
    (forall p n s c, In (p, n, (s, c)) (ures r') -> In (p, n, (s, c)) (ures r) \/ transf E (cg_key c) = false) ->
    adv (x, r) (x, r').
  Proof.
    intros x r r' A B C. constructor; cbn [fst snd]; unfold getRcts, getVrcs; rewrite ?A, ?B; auto using quietw_refl, incl_refl.
  Qed.

  (** escrow writes *)
  Lemma good_escrowU : forall now p sn said cs, good (escrowU E now p sn said cs).
  Proof.
    intros. unfold escrowU. apply good_seq; [apply good_putDts|]. apply good_each. intros c _.
    destruct (transf E (cg_key c)) eqn:T; [apply good_ok|]. intros [x r]. apply adv_r; auto.
    cbn. intros p' n s c' I. apply tab_add_In in I. destruct I as [I|I]; [auto|]. inversion I; subst. auto.
  Qed.
  Lemma good_escrowUW : forall now p sn said ws, good (escrowUW now p sn said ws).
  Proof.
    intros. unfold escrowUW. apply good_seq; [apply good_putDts|]. apply good_each. intros g _ [x r]. apply adv_r; auto.
  Qed.
  Lemma good_escrowT : forall now p sn said t, good (escrowT now p sn said t).
  Proof.
    intros. unfold escrowT. apply good_seq; [apply good_putDts|]. apply good_each. intros g _ [x r]. apply adv_r; auto.
  Qed.
  Lemma good_escrowTRs : forall now p sn said ts, good (escrowTRs now p sn said ts).
  Proof. intros. apply good_each. intros t _. apply good_escrowT. Qed.

  (** actions that need an event in the database *)
  Definition goodAt {T} (P : amap evt -> Prop) (a : act T) : Prop := forall w, P (evts (fst w)) -> adv w (fst (a w)).
  Lemma good_at : forall T P (a : act T), good a -> goodAt P a.
  Proof. intros T P a G w _. apply G. Qed.
  Lemma goodAt_seq : forall T P (a : act unit) (b : act T), goodAt P a -> goodAt P b -> goodAt P (seqa a b).
  Proof.
    intros T P a b GA GB w PW. unfold seqa. specialize (GA w PW). destruct (a w) as [w' [u|e]]; cbn in *; [|exact GA].
    eapply adv_trans; [exact GA|apply GB]. rewrite (quietw_evts _ _ (ad_x _ _ GA)). exact PW.
  Qed.
  Lemma goodAt_each : forall T P (f : T -> act unit) l, (forall a, In a l -> goodAt P (f a)) -> goodAt P (each f l).
  Proof.
    intros T P f l. induction l as [|a l IH]; intros G; [apply good_at, good_ok|]. cbn [each].
    apply goodAt_seq; [apply G; cbn; auto|]. apply IH. intros b I. apply G. cbn. auto.
  Qed.

  Lemma good_addWig : forall Q p s raw i e, goodAt (fun ev => ev p s = Some e) (addWig Q p s raw i).
  Proof.
    intros Q p s raw i e [x r] EV. unfold addWig. destruct (mkWig Q raw i); cbn [fst]; [|apply adv_refl].
    unfold wra. cbn [fst]. eapply adv_wigs; eauto.
  Qed.

  Lemma good_recCigar : forall rc p sn said local le c,
    goodAt (fun ev => ev p said = Some le) (recCigar E rc d p sn said local le c).
  Proof.
    intros rc p sn said local le c [x r] EV. unfold recCigar.
    destruct (transf E (cg_key c)) eqn:T; [apply good_ok|]. destruct (ownBad _ _ _ _); [apply good_ok|].
    destruct (vrfy E (cg_key c) (cg_raw c) (e_raw le)) eqn:VR; [|apply good_ok].
    destruct (witState d (fst (x, r)) p sn) as [wits|ex]; [|apply good_raise].
    destruct (indexOf (cg_key c) wits) as [i|].
    - exact (good_addWig _ _ _ _ _ _ _ EV).
    - cbn. apply (adv_rctw x r p said c le EV). split; assumption.
  Qed.
  Lemma good_recWiger : forall rc p said local le wits g,
    goodAt (fun ev => ev p said = Some le) (recWiger E rc p said local le wits g).
  Proof.
    intros rc p said local le wits g [x r] EV. unfold recWiger.
    destruct (nth_error wits (N.to_nat (sg_index g))) as [wk|]; [|apply good_ok].
    destruct (transf E wk); [apply good_ok|]. destruct (ownBad _ _ _ _); [apply good_ok|].
    destruct (vrfy E wk (sg_raw g) (e_raw le)); [|apply good_ok]. unfold wra. cbn [fst]. eapply adv_wigs; eauto.
  Qed.
  Lemma good_recTsg : forall rc p sn said ldig local now le t,
    (forall ev se ky g, ev p said = Some le -> 
       (exists sdig, klast (kels d (t_pre t)) (t_sn t) = Some sdig /\ ev (t_pre t) sdig = Some se /\ e_said se = t_dig t) ->
       nth_error (e_keys se) (N.to_nat (sg_index g)) = Some ky -> vrfy E ky (sg_raw g) (e_raw le) = true ->
       V ev p ldig (t_pre t, t_sn t, t_dig t) g) ->
    goodAt (fun ev => ev p said = Some le) (recTsg E rc d p sn said ldig local now le t).
  Proof.
    intros rc p sn said ldig local now le t VV w EV. unfold recTsg. destruct (ownBad _ _ _ _); [apply good_raise|].
    destruct (klast (kels d (t_pre t)) (t_sn t)) as [sdig|] eqn:KL.
    2:{ apply good_seq; [apply good_escrowT|apply good_raise]. }
    destruct (evts (fst w) (t_pre t) sdig) as [se|] eqn:ES; [|apply good_raise].
    destruct (e_said se =? t_dig t) eqn:SD; cbn [negb]; [|apply good_raise]. apply N.eqb_eq in SD.
    destruct (isnil (e_keys se)); [apply good_raise|].
    unfold recSigs.
    assert (G : goodAt (fun ev => ev p said = Some le /\ ev (t_pre t) sdig = Some se)
                  (each (fun g => match nth_error (e_keys se) (N.to_nat (sg_index g)) with
                                  | Some ky => if vrfy E ky (sg_raw g) (e_raw le) then wr (addVrc p ldig (t_pre t, t_sn t, t_dig t) g) else ok
                                  | None => raise ValidationError end) (t_sigs t))).
    { apply goodAt_each. intros g _ [x r] [EV1 EV2]. cbn [fst] in *.
      destruct (nth_error (e_keys se) (N.to_nat (sg_index g))) as [ky|] eqn:NE; [|apply good_raise].
      destruct (vrfy E ky (sg_raw g) (e_raw le)) eqn:VR; [|apply good_ok]. cbn. apply adv_vrcw.
      eapply VV; eauto. }
    apply G. auto.
  Qed.
End Adv.

(** ** Which transferable receipts are stored *)
Definition srcOk (d : acc) (ev : amap evt) (o : src) (se : evt) : Prop :=
  let '(sp, ssn, sd) := o in exists sdig, klast (kels d sp) ssn = Some sdig /\ ev sp sdig = Some se /\ e_said se = sd.
Definition Vs (E : env) (d : acc) (ev : amap evt) (p s : N) (o : src) (g : siger) : Prop :=
  exists e se, ev p s = Some e /\ srcOk d ev o se /\ verified E (e_keys se) (e_raw e) g.
Definition Vw (E : env) (d : acc) (ev : amap evt) (p s : N) (o : src) (g : siger) : Prop :=
  exists s' e se, ev p s' = Some e /\ srcOk d ev o se /\ verified E (e_keys se) (e_raw e) g.

Lemma adv_weaken : forall E (V V' : amap evt -> N -> N -> src -> siger -> Prop) w w', (forall ev p s o g, V ev p s o g -> V' ev p s o g) -> adv E V w w' -> adv E V' w w'.
Proof.
  intros E V V' w w' I A. destruct A. constructor; auto.
  intros p s o g J. destruct (ad_vrc0 p s o g J); auto.
Qed.
Lemma Vs_Vw : forall E d ev p s o g, Vs E d ev p s o g -> Vw E d ev p s o g.
Proof. intros E d ev p s o g (e & se & A). exists s, e, se. exact A. Qed.

Lemma adv_processReceipt : forall E rc d m (V : amap evt -> N -> N -> src -> siger -> Prop) w,
  (forall ldig ev o g le se, klast (kels d (rm_pre m)) (rm_sn m) = Some ldig -> rm_tsgs m ++ rm_rsgs m <> [] ->
     ev (rm_pre m) (rm_said m) = Some le -> srcOk d ev o se -> verified E (e_keys se) (e_raw le) g -> V ev (rm_pre m) ldig o g) ->
  adv E V w (fst (processReceipt E rc d m w)).
Proof.
  intros E rc d m V w VH. unfold processReceipt.
  destruct (klast (kels d (rm_pre m)) (rm_sn m)) as [ldig|] eqn:KL.
  - destruct (evts (fst w) (rm_pre m) (rm_said m)) as [le|] eqn:EV; [|apply good_raise].
    destruct (e_said le =? rm_said m); cbn [negb]; [|apply good_raise].
    set (P := fun ev : amap evt => ev (rm_pre m) (rm_said m) = Some le).
    assert (GT : forall t, In t (rm_tsgs m ++ rm_rsgs m) -> goodAt E V P (recTsg E rc d (rm_pre m) (rm_sn m) (rm_said m) ldig (rm_local m) (rm_now m) le t)).
    { intros t I. apply good_recTsg. intros ev se ky g A1 A2 A3 A4. eapply VH; [reflexivity| |exact A1|exact A2|].
      - intros X. rewrite X in I. destruct I.
      - exists ky. auto. }
    assert (G : goodAt E V P
      (seqa (each (recCigar E rc d (rm_pre m) (rm_sn m) (rm_said m) (rm_local m) le) (rm_cigars m))
            (fun w => match witState d (fst w) (rm_pre m) (rm_sn m) with
                      | Err e => raise e w
                      | Ok wits =>
                          seqa (each (recWiger E rc (rm_pre m) (rm_said m) (rm_local m) le wits) (rm_wigers m))
                            (seqa (each (recTsg E rc d (rm_pre m) (rm_sn m) (rm_said m) ldig (rm_local m) (rm_now m) le) (rm_tsgs m))
                                  (each (recTsg E rc d (rm_pre m) (rm_sn m) (rm_said m) ldig (rm_local m) (rm_now m) le) (rm_rsgs m))) w
                      end))).
    { apply goodAt_seq; [apply goodAt_each; intros; apply good_recCigar|].
      intros w1 P1. destruct (witState d (fst w1) (rm_pre m) (rm_sn m)) as [wits|ex]; [|apply good_raise].
      revert w1 P1. change (goodAt E V P
                          (seqa (each (recWiger E rc (rm_pre m) (rm_said m) (rm_local m) le wits) (rm_wigers m))
                            (seqa (each (recTsg E rc d (rm_pre m) (rm_sn m) (rm_said m) ldig (rm_local m) (rm_now m) le) (rm_tsgs m))
                                  (each (recTsg E rc d (rm_pre m) (rm_sn m) (rm_said m) ldig (rm_local m) (rm_now m) le) (rm_rsgs m))))).
      apply goodAt_seq; [apply goodAt_each; intros; apply good_recWiger|].
      apply goodAt_seq; apply goodAt_each; intros t I; apply GT; apply in_or_app; auto. }
    apply G. exact EV.
  - apply good_seq; [destruct (isnil _); [apply good_ok|apply good_escrowU]|].
    apply good_seq; [destruct (isnil _); [apply good_ok|apply good_escrowTRs]|].
    apply good_seq; [destruct (isnil _); [apply good_ok|apply good_escrowUW]|]. apply good_raise.
Qed.

(** ** Attached receipts *)
Lemma adv_attachedCouples : forall E rc d e cs fo local now V,
  goodAt E V (fun ev => attachedTo d (e_pre e) (e_sn e) fo = Some (e_said e) -> ev (e_pre e) (e_said e) = Some e)
    (attachedCouples E rc d e cs fo local now).
Proof.
  intros E rc d e cs fo local now V w PW. unfold attachedCouples.
  destruct (attachedTo d (e_pre e) (e_sn e) fo) as [ldig|].
  2:{ apply good_seq; [apply good_escrowU|apply good_raise]. }
  destruct (e_said e =? ldig) eqn:Q; cbn [negb]; [|apply good_raise]. apply N.eqb_eq in Q. subst ldig.
  specialize (PW eq_refl). revert w PW.
  apply (goodAt_each E V _ (fun ev => ev (e_pre e) (e_said e) = Some e)). intros c _ [x r] EV. unfold attCigar.
  destruct (transf E (cg_key c)) eqn:T; [apply good_ok|]. destruct (ownBad _ _ _ _); [apply good_ok|].
  destruct (vrfy E (cg_key c) (cg_raw c) (e_raw e)) eqn:VR; [|apply good_ok].
  destruct (witState d (fst (x, r)) (e_pre e) (e_sn e)); [|apply good_raise].
  unfold wr. cbn [fst]. apply (adv_rctw E V x r _ _ c e EV). split; assumption.
Qed.

Lemma adv_attachedGroups : forall E rc d e ts fo local now,
  goodAt E (Vs E d) (fun ev => attachedTo d (e_pre e) (e_sn e) fo = Some (e_said e) -> ev (e_pre e) (e_said e) = Some e)
    (attachedGroups E rc d e ts fo local now).
Proof.
  intros E rc d e ts fo local now. unfold attachedGroups. apply goodAt_each. intros t _ w PW. unfold attTsg.
  destruct (ownBad _ _ _ _); [apply good_raise|].
  destruct (attachedTo d (e_pre e) (e_sn e) fo) as [dig|]; [|apply good_seq; [apply good_escrowT|apply good_raise]].
  destruct (kget d (fst w) (t_pre t)); [|apply good_seq; [apply good_escrowT|apply good_raise]].
  destruct (e_said e =? dig) eqn:Q; cbn [negb]; [|apply good_raise]. apply N.eqb_eq in Q. subst dig. specialize (PW eq_refl).
  destruct (klast (kels d (t_pre t)) (t_sn t)) as [sdig|] eqn:KL; [|apply good_seq; [apply good_escrowT|apply good_raise]].
  destruct (evts (fst w) (t_pre t) sdig) as [se|] eqn:ES; [|apply good_raise].
  destruct (e_said se =? t_dig t) eqn:SD; cbn [negb]; [|apply good_raise]. apply N.eqb_eq in SD.
  destruct (isnil (e_keys se)); [apply good_raise|]. unfold attSigs.
  assert (G : goodAt E (Vs E d) (fun ev => ev (e_pre e) (e_said e) = Some e /\ ev (t_pre t) sdig = Some se)
    (each (fun g => match nth_error (e_keys se) (N.to_nat (sg_index g)) with
                    | Some ky => if vrfy E ky (sg_raw g) (e_raw e) then wr (addVrc (e_pre e) (e_said e) (t_pre t, t_sn t, t_dig t) g) else raise ValidationError
                    | None => raise ValidationError end) (t_sigs t))).
  { apply goodAt_each. intros g _ [x r] [EV1 EV2]. cbn [fst] in *.
    destruct (nth_error (e_keys se) (N.to_nat (sg_index g))) as [ky|] eqn:NE; [|apply good_raise].
    destruct (vrfy E ky (sg_raw g) (e_raw e)) eqn:VR; [|apply good_raise]. unfold wr. cbn [fst]. apply adv_vrcw.
    exists e, se. split; [exact EV1|]. split; [|exists ky; auto]. exists sdig. auto. }
  apply G. auto.
Qed.

(** ** Escrow passes *)
Definition evok (x : aux) : Prop := forall p s e, evts x p s = Some e -> e_said e = s.

Lemma adv_findUnver : forall E rc d p sn said s V w, evok (fst w) -> adv E V w (fst (findUnver E rc d p sn said s w)).
Proof.
  intros E rc d p sn said s V [x r] OK. unfold findUnver. cbn [fst snd].
  destruct (negb (etab_mem (p, sn, said) (pwes x))); [apply adv_refl|].
  destruct (evts x p said) as [e|] eqn:EV; [|apply adv_refl]. pose proof (OK _ _ _ EV) as Q. rewrite Q.
  destruct (pweWits d x e) as [[wits|]|ex]; [|apply adv_refl|apply adv_refl].
  destruct s as [g|c].
  - destruct (nth_error wits (N.to_nat (sg_index g))); [|apply adv_refl].
    destruct (vrfy E _ (sg_raw g) (e_raw e)); [|apply adv_refl]. cbn [fst]. eapply adv_wigs; eauto.
  - destruct (indexOf (cg_key c) wits); [|apply adv_refl].
    destruct (mkWig (rc_qb rc) (cg_raw c) n); [|apply adv_refl].
    destruct (vrfy E _ (cg_raw c) (e_raw e)); [|apply adv_refl]. cbn [fst]. eapply adv_wigs; eauto.
Qed.

Lemma adv_unUW : forall E rc d now V w row, evok (fst w) -> adv E V w (unUW E rc d now w row).
Proof.
  intros E rc d now V w [[p sn] [said g]] OK. unfold unUW.
  assert (D : forall w, adv E V w (fst w, set_uwes (tab_rem uwe_eqb (p, sn, (said, g)) (uwes (snd w))) (snd w))).
  { intros [x r]. apply adv_r; auto. }
  destruct (stale (fst w) now p said); [apply D|].
  pose proof (adv_findUnver E rc d p sn said (RWig g) V w OK) as F.
  destruct (findUnver E rc d p sn said (RWig g) w) as [w1 [[|]|ex]]; cbn [fst] in F; [|exact F|]; (eapply adv_trans; [exact F|apply D]).
Qed.

Lemma adv_unNT : forall E rc d now V w row, evok (fst w) -> transf E (cg_key (snd (snd row))) = false -> adv E V w (unNT E rc d now w row).
Proof.
  intros E rc d now V w [[p sn] [said c]] OK NT. cbn [snd] in NT. unfold unNT.
  assert (D : forall w, adv E V w (fst w, set_ures (tab_rem ure_eqb (p, sn, (said, c)) (ures (snd w))) (snd w))).
  { intros [x r]. apply adv_r; auto. intros p' n' s' c' I. cbn in I. apply tab_rem_In in I. auto. }
  destruct (stale (fst w) now p said); [apply D|].
  pose proof (adv_findUnver E rc d p sn said (RCig c) V w OK) as F.
  destruct (findUnver E rc d p sn said (RCig c) w) as [w1 [[|]|ex]]; cbn [fst] in F; [eapply adv_trans; [exact F|apply D]| |eapply adv_trans; [exact F|apply D]].
  assert (OK1 : evok (fst w1)).
  { intros p' s' e' X. rewrite (quietw_evts _ _ (ad_x _ _ _ _ F)) in X. eapply OK; eauto. }
  assert (G : adv E V w1 (fst (unNTacc E rc d p sn said c w1))).
  { clear F. destruct w1 as [x r]. unfold unNTacc. cbn [fst].
    destruct (klast (kels d p) sn) as [dig|]; [|apply adv_refl].
    destruct (evts x p dig) as [e|] eqn:EV; [|apply adv_refl].
    pose proof (OK1 _ _ _ EV) as Q. rewrite Q.
    destruct (negb (said =? dig)); [apply adv_refl|].
    destruct (vrfy E (cg_key c) (cg_raw c) (e_raw e)) eqn:VR; cbn [negb]; [|apply adv_refl].
    destruct (kget d x (e_pre e)); [|apply adv_refl].
    destruct (indexOf (cg_key c) (k_wits k)).
    - exact (good_addWig E V _ _ _ _ _ _ (x, r) EV).
    - unfold wr. cbn [fst]. apply (adv_rctw E V x r _ _ c e EV). split; assumption. }
  destruct (unNTacc E rc d p sn said c w1) as [w2 [u|ex]]; cbn [fst] in G.
  - eapply adv_trans; [exact F|]. eapply adv_trans; [exact G|apply D].
  - destruct ex; try (eapply adv_trans; [exact F|]; eapply adv_trans; [exact G|apply D]).
    eapply adv_trans; [exact F|exact G].
Qed.

Lemma adv_unT : forall E rc d now w row, evok (fst w) -> adv E (Vs E d) w (unT E rc d now w row).
Proof.
  intros E rc d now w [[p sn] [[said o] g]] OK. unfold unT.
  assert (D : forall w, adv E (Vs E d) w (fst w, set_vres (tab_rem vre_eqb (p, sn, (said, o, g)) (vres (snd w))) (snd w))).
  { intros [x r]. apply adv_r; auto. }
  destruct (stale (fst w) now p said); [apply D|].
  assert (G : adv E (Vs E d) w (fst (unTacc E d p sn said o g w))).
  { destruct w as [x r], o as [[sp ssn] sd]. unfold unTacc. cbn [fst].
    destruct (klast (kels d p) sn) as [dig|]; [|apply adv_refl].
    destruct (evts x p dig) as [e|] eqn:EV; [|apply adv_refl].
    pose proof (OK _ _ _ EV) as Q. rewrite Q.
    destruct (negb (said =? dig)); [apply adv_refl|].
    destruct (klast (kels d sp) ssn) as [sdig|] eqn:KL; [|apply adv_refl].
    destruct (evts x sp sdig) as [se|] eqn:ES; [|apply adv_refl].
    destruct (e_said se =? sd) eqn:SD; cbn [negb]; [|apply adv_refl]. apply N.eqb_eq in SD.
    destruct (isnil (e_keys se)); [apply adv_refl|].
    destruct (nth_error (e_keys se) (N.to_nat (sg_index g))) as [ky|] eqn:NE; [|apply adv_refl].
    destruct (vrfy E ky (sg_raw g) (e_raw e)) eqn:VR; [|apply adv_refl]. unfold wr. cbn [fst]. apply adv_vrcw.
    exists e, se. split; [exact EV|]. split; [|exists ky; auto]. exists sdig. auto. }
  destruct (unTacc E d p sn said o g w) as [w2 [u|ex]]; cbn [fst] in G.
  - eapply adv_trans; [exact G|apply D].
  - destruct ex; try (eapply adv_trans; [exact G|apply D]). exact G.
Qed.

Lemma adv_fold : forall A E V (P : A -> Prop) (f : wst -> A -> wst) l w, evok (fst w) -> Forall P l ->
  (forall w a, evok (fst w) -> P a -> adv E V w (f w a)) -> adv E V w (fold_left f l w).
Proof.
  intros A E V P f l. induction l as [|a l IH]; intros w OK F G; [apply adv_refl|]. inversion F; subst. cbn [fold_left].
  pose proof (G w a OK H1) as A1. eapply adv_trans; [exact A1|]. apply IH; auto.
  intros p s e X. rewrite (quietw_evts _ _ (ad_x _ _ _ _ A1)) in X. eapply OK; eauto.
Qed.
