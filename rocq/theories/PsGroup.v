(** A group of messages with an error inside: the messages after the group come out. *)
From Verif Require Import Prelude B64Model B64Proofs MatterModel MatterProofs IdxModel SubsModel VerModel VerThms CtrModel CtrProofs CtrThms KelModel PsModel PsSpec PsProofs PsTerm.
Open Scope N_scope.
Ltac Zify.zify_post_hook ::= Z.div_mod_to_equations.

(** a version the setter accepts *)
Definition okV (v : CtrModel.versionage) : bool := negb (negb ((vmajor v =? 1) || (vmajor v =? 2)) || (0 <? vminor v)).
(** the command leaves an acceptable version *)
Definition vok {A} (c : com A) : Prop := forall s r s', resume c s = Done r s' -> okV (pv s) = true -> okV (pv s') = true.
Lemma vok_ret : forall {A} (a : A), vok (Ret a).
Proof. intros A a s r s' H. injection H as _ <-. auto. Qed.
Lemma vok_raise : forall {A} e, vok (Raise e : com A).
Proof. intros A a s r s' H. injection H as _ <-. auto. Qed.
Lemma vok_lift : forall {A} (x : res A), vok (lift x).
Proof. intros A x s r s' H. rewrite resume_lift in H. injection H as _ <-. auto. Qed.
Lemma vok_onres : forall {A B} (c : com A) (h : res A -> com B), vok c -> (forall r, vok (h r)) -> vok (onres c h).
Proof. intros A B c h Hc Hh s r s' H V. rewrite resume_onres in H. destruct (resume c s) as [r1 s1|] eqn:R; [|discriminate]. exact (Hh r1 _ _ _ H (Hc _ _ _ R V)). Qed.
Lemma vok_bindc : forall {A B} (c : com A) (h : A -> com B), vok c -> (forall a, vok (h a)) -> vok (bindc c h).
Proof. intros A B c h Hc Hh. apply vok_onres; [exact Hc|]. intros [a|e]; [apply Hh|apply vok_raise]. Qed.
Lemma vok_op : forall {B} (f : pst -> option (res B * pst)), (forall s r s', f s = Some (r, s') -> okV (pv s) = true -> okV (pv s') = true) -> vok (op f).
Proof. intros B f Hf s r s' H V. rewrite resume_op in H. destruct (f s) as [[r1 s1]|] eqn:F; [|discriminate]. injection H as _ <-. exact (Hf _ _ _ F V). Qed.
Lemma vok_stuck : forall {A}, vok (stuck : com A).
Proof. intros A s r s' H. discriminate H. Qed.
Ltac vop := apply vok_op; intros [? ?] ? ? ?; cbn [pv pb] in *;
  repeat match goal with
  | H : (if ?x then _ else _) = Some _ |- _ => destruct x
  | H : match ?x with _ => _ end = Some _ |- _ => destruct x
  end; try discriminate;
  match goal with H : Some _ = Some _ |- _ => injection H as _ <-; cbn [pv]; auto end.
Lemma vok_needSome : forall f, vok (needSome f). Proof. intros f. vop. Qed.
Lemma vok_sniffOp : vok sniffOp. Proof. vop. Qed.
Lemma vok_isEmpty : vok isEmpty. Proof. vop. Qed.
Lemma vok_getV : vok getV. Proof. vop. Qed.
Lemma vok_consume : forall n, vok (consume n). Proof. intros n. vop. Qed.
Lemma vok_takeF : forall n f, vok (takeF n f). Proof. intros n f. vop. Qed.
Lemma vok_extractor : forall {X} a strip (get : CtrModel.versionage -> bytes -> res (X * bytes)), vok (extractor a strip get).
Proof.
  intros X a strip get. apply vok_op. intros s r s' H V. destruct (get (pv s) (pb s)) as [[x t]|e]; [|destruct e; try destruct a; try discriminate H; injection H as _ <-; exact V].
  injection H as _ <-. destruct strip; exact V.
Qed.
Lemma vok_setV : forall v, vok (setV v).
Proof.
  intros [v|]; [|vop]. apply vok_op. intros s r s'. unfold okV. destruct (_ || _) eqn:E; intros H; injection H as _ <-; [auto|]. cbn [pv]. rewrite E. auto.
Qed.
Lemma vok_inSub : forall {A} sub (c : com A), vok c -> vok (inSub sub c).
Proof.
  intros A sub c H. apply vok_op. intros s r s' E V. destruct (resume c (mkP (pv s) sub)) as [r1 s1|] eqn:R; [|discriminate]. injection E as _ <-. cbn [pv].
  exact (H _ _ _ R V).
Qed.
Lemma vok_sized : forall {A} e (c : com A), vok c -> vok (sized e c).
Proof. intros A e c H. apply vok_onres; [exact H|]. intros [a|x]; [apply vok_ret|]. destruct (isExtraction x && e); apply vok_raise. Qed.
Lemma vok_restoring : forall {A} vs (c : com A), vok c -> vok (restoring vs c).
Proof. intros A vs c H. apply vok_onres; [exact H|]. intros r. apply vok_bindc; [apply vok_setV|]. intros []. apply vok_lift. Qed.
Lemma vok_takeX : forall (a : bool) gs, vok (op (fun s => if len (pb s) <? gs then if a then Some (Err ShortageError, s) else None
                        else Some (Ok (ntake gs (pb s)), mkP (pv s) (ndrop gs (pb s))))).
Proof. intros a gs. vop. Qed.
Lemma vok_consumeCtr : forall ct cl, vok (consumeCtr ct cl).
Proof. intros ct cl. apply vok_bindc; [apply vok_lift|]. intros n. apply vok_consume. Qed.
Ltac vstep := lazymatch goal with
  | |- vok (Ret _) => apply vok_ret
  | |- vok (Raise _) => apply vok_raise
  | |- vok (lift _) => apply vok_lift
  | |- vok stuck => apply vok_stuck
  | |- vok (needSome _) => apply vok_needSome
  | |- vok sniffOp => apply vok_sniffOp
  | |- vok isEmpty => apply vok_isEmpty
  | |- vok getV => apply vok_getV
  | |- vok (consumeCtr _ _) => apply vok_consumeCtr
  | |- vok (takeF _ _) => apply vok_takeF
  | |- vok (extractor _ _ _) => apply vok_extractor
  | |- vok (peek _ _) => apply vok_extractor
  | |- vok (reapOp _ _ _) => apply vok_extractor
  | |- vok (setV _) => apply vok_setV
  | |- vok (op _) => first [assumption|apply vok_takeX]
  | |- vok (sized _ _) => apply vok_sized
  | |- vok (restoring _ _) => apply vok_restoring
  | |- vok (inSub _ _) => apply vok_inSub
  | |- vok (bindc _ _) => apply vok_bindc; [|intros ?]
  | |- vok (match ?x with _ => _ end) => destruct x
  | |- vok (let _ := _ in _) => cbv zeta
  end.
Ltac vgo := repeat vstep; try assumption.

Section Group.
Variable Ser : Type.
Variable sload : smellage -> bytes -> res Ser.
Variable nload : bool -> counter -> bytes -> res Ser.
Variable kcheck : klas -> matter -> res unit.
Local Notation exts := (exts Ser).
Local Notation reap := (reap Ser sload).
Local Notation attMethod := (attMethod Ser kcheck).
Local Notation attLoop := (attLoop Ser kcheck).
Local Notation attach := (attach Ser kcheck).
Local Notation body := (body Ser sload nload kcheck).
Local Notation msgP := (msgP Ser sload nload kcheck).
Local Notation frontC := (frontC Ser sload nload kcheck).
Local Notation groupStep := (groupStep Ser sload nload kcheck).
Local Notation turn := (turn Ser sload nload kcheck).
Local Notation fresh := (fresh Ser sload nload kcheck).
Local Notation parseF := (parseF Ser sload nload kcheck).
Local Notation alone := (alone Ser sload nload kcheck).

Lemma vok_elemsC : forall cl a sh n, vok (elemsC kcheck cl a sh n).
Proof.
  intros cl a sh. assert (M : forall ks, vok (matsC kcheck cl a ks)) by (induction ks as [|k ks IH]; cbn [matsC]; vgo).
  assert (G : forall n, vok (sigsC cl a n)) by (induction n as [|n IH]; cbn [sigsC]; vgo).
  induction n as [|n IH]; cbn [elemsC]; [vgo|]. apply vok_bindc; [|intros x; vgo].
  destruct sh as [|ks|ks]; cbn [elemC]; vgo; first [apply M|apply G].
Qed.
Lemma vok_attMethod : forall ct cl a e, vok (attMethod ct cl a e).
Proof. intros ct cl a e. unfold PsModel.attMethod. destruct (methodOf ct) as [[f sh|f sh|f]|]; vgo. apply vok_elemsC. Qed.
Lemma vok_attLoop : forall nest, (forall f, vok (nest f)) -> forall n cl f en e, vok (attLoop nest n cl f en e).
Proof.
  intros nest Hn. induction n as [|n IH]; intros cl f en e; cbn [PsModel.attLoop]; [vgo|].
  assert (AG : forall e, vok (emp <~ isEmpty ;; if emp then Ret e else if en then attLoop nest n cl f en e
        else cl' <~ sniffOp ;; match cl' with Cmsg => Ret e | _ => attLoop nest n cl' f en e end)) by (intros e1; vgo; apply IH).
  apply vok_bindc; [apply vok_extractor|]. intros ct. destruct (isGenus ct || isGeneric ct || isOther ct); [vgo|]. destruct (isAttGroup ct).
  { apply vok_bindc; [vgo|]. intros a. apply vok_bindc; [vgo|]. intros b. apply vok_bindc; [vgo|]. intros b1. apply AG. }
  destruct (isBodyAtt ct || isBody ct).
  { destruct (negb en); [vgo|]. apply vok_bindc; [apply Hn|]. intros sub. apply AG. }
  apply vok_bindc; [vgo|]. intros []. apply vok_bindc; [apply vok_attMethod|]. intros e1. apply AG.
Qed.
Lemma vok_attach : forall nest n f en vs e, (forall f, vok (nest f)) -> vok (attach nest n f en vs e).
Proof. intros nest n f en vs e Hn. unfold PsModel.attach. vgo; apply vok_attLoop; exact Hn. Qed.
Lemma vok_body : forall ct cl f, vok (body ct cl f).
Proof. intros ct cl f. unfold PsModel.body. vgo. Qed.
Lemma vok_msgP : forall n f, vok (msgP n f).
Proof.
  induction n as [|n IH]; intros f; cbn [PsModel.msgP]; [vgo|].
  assert (AT : forall k fr en vs e, vok (attach (msgP n) k fr en vs e)) by (intros k fr en vs e; apply vok_attach; exact IH).
  repeat vstep; lazymatch goal with
  | |- vok (PsModel.attach _ _ _ _ _ _ _ _) => apply AT
  | |- vok (PsModel.body _ _ _ _ _ _ _) => apply vok_body
  end.
Qed.
Lemma vok_frontC : forall n f, vok (frontC n f).
Proof.
  intros n f. assert (M : vok (onres (msgP n f) (fun r => match r with
     | Ok e => Ret (FMsg Ser e) | Err TopLevelStreamError => Ret (FTop Ser) | Err _ => Raise ExtractionError end))).
  { apply vok_onres; [apply vok_msgP|]. intros [e|e]; [vgo|destruct e; vgo]. }
  assert (O : vok (op (fun s => Some (Ok (pb s), s)))) by vop.
  unfold PsModel.frontC. cbv zeta. vgo.
Qed.

Lemma resume_setV_ok : forall v s, okV v = true -> resume (setV (Some v)) s = Done (Ok tt) (mkP v (pb s)).
Proof. intros v s V. unfold setV. rewrite resume_op. unfold okV in V. destruct (_ || _); [discriminate V|reflexivity]. Qed.

(** inside a group that arrived at version [v] *)
Definition level (p : CtrModel.versionage * option bytes) : Prop := okV (fst p) = true /\ exists b, snd p = Some b.
Definition inside (v : CtrModel.versionage) (cur : option bytes) (st : list (CtrModel.versionage * option bytes)) : Prop :=
  (exists b, cur = Some b) /\ exists st', st = st' ++ [(v, None)] /\ Forall level st'.
Lemma unnest_inside : forall v, okV v = true -> forall st sv cur sv' cur' st', inside v cur st -> unnest sv cur st = (sv', cur', st') ->
  (cur' = None /\ st' = [] /\ sv' = Some v) \/
  (inside v cur' st' /\ cur' <> Some [] /\ (sv' = sv \/ exists w, sv' = Some w /\ okV w = true)).
Proof.
  intros v V. induction st as [|[w c] st IH]; intros sv cur sv' cur' st' ((b & ->) & st1 & E & F) U.
  { destruct st1; discriminate E. }
  destruct b as [|x b].
  - cbn [unnest] in U. destruct st1 as [|[w1 c1] st1].
    + injection E as -> -> ->. cbn [unnest] in U. injection U as <- <- <-. left. auto.
    + injection E as -> -> ->. inversion F as [|? ? [Vw (b1 & Eb)] F']. subst. cbn [snd fst] in *. subst c1.
      destruct (IH (Some w1) (Some b1) sv' cur' st') as [X|(X & Y & Z)]; [split; [eauto|exists st1; auto]|exact U|left; exact X|].
      right. split; [exact X|]. split; [exact Y|]. right. destruct Z as [->|Z]; [exists w1; auto|exact Z].
  - cbn [unnest] in U. injection U as <- <- <-. right. split; [split; [eauto|exists st1; auto]|]. split; [discriminate|auto].
Qed.
Lemma leaving_inside : forall {A} v cur st e, okV v = true -> inside v cur st ->
  exists e', (forall s, resume (leaving st true e : com A) s = Done (Err e') (mkP v (pb s))) /\ (e' = SizedGroupError \/ isExtraction e' = false).
Proof.
  intros A v cur st e V (_ & st' & -> & _). unfold leaving. exists (if isExtraction e then SizedGroupError else e). split.
  - intros s. rewrite rev_app_distr. cbn [rev app]. rewrite resume_bindc, (resume_setV_ok _ _ V).
    rewrite andb_true_r. destruct (isExtraction e); reflexivity.
  - destruct (isExtraction e) eqn:E; auto.
Qed.

(** the loop of groupParsator once it is back at the stream *)
Definition gN (sv : option CtrModel.versionage) : gst := mkG None [] sv true true.
Lemma inside_step : forall n v g w r s', okV v = true -> okV w = true -> inside v (g_cur g) (g_stack g) -> g_eggs g = true -> g_framed g = true ->
  resume (groupStep n g) (mkP w []) = Done r s' ->
  (exists g' m, r = Ok (GNext Ser g' m) /\ inside v (g_cur g') (g_stack g') /\ g_eggs g' = true /\ g_framed g' = true /\ okV (pv s') = true /\ pb s' = []
     /\ forall t, resume (groupStep n g) (mkP w t) = Done (Ok (GNext Ser g' m)) (mkP (pv s') t)) \/
  (exists e, (e = SizedGroupError \/ isExtraction e = false) /\ forall t, resume (groupStep n g) (mkP w t) = Done (Err e) (mkP v t)) \/
  (exists sv, forall t, resume (groupStep n g) (mkP w t) = resume (groupStep n (gN sv)) (mkP v t)).
Proof.
  intros n v g w0 r s' V Vs I Eg Fr R. pose proof R as R0. unfold PsModel.groupStep in R at 1. destruct (unnest None (g_cur g) (g_stack g)) as [[sv cur] st] eqn:U.
  destruct (unnest_inside v V _ _ _ _ _ _ I U) as [(-> & -> & ->)|(I' & Nc & Vv)].
  - right. right. exists (Some v). intros t. unfold PsModel.groupStep at 1. rewrite U. unfold PsModel.groupStep, gN. cbn [unnest g_cur g_stack g_svrsn g_eggs g_framed].
    rewrite Eg, Fr. rewrite (resume_bindc (setV (Some v))), (resume_setV_ok _ _ V). rewrite (resume_bindc (setV None)). reflexivity.
  - assert (W : exists w, (forall t, resume (setV sv) (mkP w0 t) = Done (Ok tt) (mkP w t)) /\ okV w = true).
    { destruct Vv as [->|(w & -> & Vw)]; [exists w0; split; [reflexivity|exact Vs]|]. exists w. split; [intros t; rewrite (resume_setV_ok w _ Vw); reflexivity|exact Vw]. }
    destruct W as (w & Rw & Vw). destruct I' as ((b & ->) & I'). destruct b as [|x b]; [exfalso; apply Nc; reflexivity|].
    rewrite resume_bindc, Rw in R. rewrite resume_bindc in R. cbn [resume isnil] in R. rewrite resume_bindc in R. unfold onCur in R. rewrite resume_op in R. cbn [pv pb] in R. rewrite Fr in R.
    destruct (resume (frontC n true) (mkP w (x :: b))) as [r1 s1|c1 s1] eqn:R1; [|discriminate R].
    pose proof (vok_frontC n true _ _ _ R1 Vw) as V1.
    assert (GS : forall t, resume (groupStep n g) (mkP w0 t) =
      resume (match r1 with
  | Ok (FMsg _ e) => Ret (GNext Ser (mkG (Some (pb s1)) st (match sv with Some _ => sv | None => g_svrsn g end) true true) (Some e))
  | Ok (FTop _) => Ret (GNext Ser (mkG (Some (pb s1)) st (match sv with Some _ => sv | None => g_svrsn g end) true true) None)
  | Ok (FGroup _ eims sv') =>
      let sv2 := match sv' with Some _ => sv' | None => match sv with Some _ => sv | None => g_svrsn g end end in
      v <~ getV ;;
      onres (setV sv2) (fun r => match r with
                                | Ok _ => Ret (GNext Ser (mkG (Some eims) ((v, Some (pb s1)) :: st) sv2 true true) None)
                                | Err e => leaving ((v, Some (pb s1)) :: st) true e
                                end)
  | Err e => leaving st true e
  end) (mkP (pv s1) t)).
    { intros t. unfold PsModel.groupStep. rewrite U, Fr, Eg. rewrite resume_bindc, Rw. rewrite resume_bindc. cbn [resume isnil]. rewrite resume_bindc. unfold onCur. rewrite resume_op. cbn [pv pb].
      rewrite R1. reflexivity. }
    clear R. rename R0 into R. destruct r1 as [[eims sv'|e|]|e].
    + cbv zeta in GS. set (sv2 := match sv' with Some _ => sv' | None => match sv with Some _ => sv | None => g_svrsn g end end) in *.
      assert (In' : inside v (Some eims) ((pv s1, Some (pb s1)) :: st)).
      { split; [eauto|]. destruct I' as (st' & -> & F). exists ((pv s1, Some (pb s1)) :: st'). split; [reflexivity|]. constructor; [|exact F]. split; [exact V1|eexists; reflexivity]. }
      assert (S2 : (exists u, okV u = true /\ forall t, resume (setV sv2) (mkP (pv s1) t) = Done (Ok tt) (mkP u t)) \/ (exists e, forall t, resume (setV sv2) (mkP (pv s1) t) = Done (Err e) (mkP (pv s1) t))).
      { unfold setV. destruct sv2 as [y|]; [|left; exists (pv s1); split; [exact V1|reflexivity]].
        destruct (okV y) eqn:Oy.
        - left. exists y. split; [exact Oy|]. intros t. rewrite resume_op. unfold okV in Oy. destruct (_ || _); [discriminate Oy|reflexivity].
        - right. exists InvalidVersionError. intros t. rewrite resume_op. unfold okV in Oy. destruct (_ || _); [reflexivity|discriminate Oy]. }
      destruct S2 as [(u & Vu & R2)|(e2 & R2)].
      * left. exists (mkG (Some eims) ((pv s1, Some (pb s1)) :: st) sv2 true true), None.
        assert (Q : forall t, resume (groupStep n g) (mkP w0 t) = Done (Ok (GNext Ser (mkG (Some eims) ((pv s1, Some (pb s1)) :: st) sv2 true true) None)) (mkP u t)).
        { intros t. rewrite GS, resume_bindc. unfold getV. rewrite resume_op, resume_onres. cbn [pv]. rewrite R2. reflexivity. }
        rewrite Q in R. injection R as <- <-. cbn [g_cur g_stack g_eggs g_framed pb pv]. auto 8.
      * right. left. destruct (leaving_inside (A := gout Ser) v _ _ e2 V In') as (e' & L & K). exists e'. split; [exact K|]. intros t.
        rewrite GS, resume_bindc. unfold getV. rewrite resume_op, resume_onres. cbn [pv]. rewrite R2. apply L.
    + left. rewrite GS in R. injection R as <- <-. eexists _, _. split; [reflexivity|]. cbn [g_cur g_stack g_eggs g_framed pb pv]. split; [split; [eauto|exact I']|]. auto 7.
    + left. rewrite GS in R. injection R as <- <-. eexists _, _. split; [reflexivity|]. cbn [g_cur g_stack g_eggs g_framed pb pv]. split; [split; [eauto|exact I']|]. auto 7.
    + right. left. destruct (leaving_inside (A := gout Ser) v (Some b) st e V (conj (ex_intro _ b eq_refl) I')) as (e' & L & K). exists e'. split; [exact K|]. intros t. rewrite GS. apply L.
Qed.

(** messages after the group, in the same loop *)
Lemma step_gN : forall n v f e t sv, delimited v f -> alone n true v f e ->
  resume (groupStep n (gN sv)) (mkP v (f ++ t)) = Done (Ok (GNext Ser (gN sv) (Some e))) (mkP v t).
Proof.
  intros n v f e t sv D A. pose proof (alone_step Ser sload nload kcheck _ _ _ _ _ D A) as R.
  pose proof (stable_done _ _ _ _ (groupStep_stable_whole Ser sload nload kcheck true n v f D) R t) as R2. unfold more in R2. cbn [pv pb app] in R2.
  unfold PsModel.groupStep, g0, gN in *. cbn [unnest g_cur g_stack g_svrsn g_eggs g_framed] in *.
  rewrite resume_bindc in *. unfold setV in *. rewrite resume_op in *. rewrite resume_bindc in *. unfold isEmpty in *. rewrite resume_op in *. cbn [pb] in *.
  destruct (isnil (f ++ t)); [discriminate R2|]. rewrite resume_bindc in *. unfold onCur in *. rewrite resume_onres in *.
  destruct (resume (frontC n true) (mkP v (f ++ t))) as [r1 s1|]; [|discriminate R2]. cbn [resume] in *. destruct r1 as [[eims sv'|e1|]|e1].
  - cbv zeta in R2. rewrite resume_bindc in R2. unfold getV in R2. rewrite resume_op in R2. rewrite resume_onres in R2.
    match type of R2 with context [resume (op ?y) ?z] => destruct (resume (op y) z) as [r2 s2|] end; [|discriminate R2]. destruct r2 as [u|e2].
    + discriminate R2.
    + match type of R2 with context [leaving ?a ?b ?c] => destruct (resume_leaving (A := gout Ser) a b c s2) as (e3 & v3 & R3) end. rewrite R3 in R2. discriminate R2.
  - injection R2 as <- <-. reflexivity.
  - discriminate R2.
  - match type of R2 with context [leaving ?a ?b ?c] => destruct (resume_leaving (A := gout Ser) a b c s1) as (e3 & v3 & R3) end. rewrite R3 in R2. discriminate R2.
Qed.
Lemma turn_gN : forall n v fs es sv, Forall2 (fun f e => delimited v f /\ alone n true v f e) fs es ->
  exists M, turn n true M (groupStep n (gN sv), mkP v (List.concat fs)) = Some (es, fresh n true (mkP v [])).
Proof.
  intros n v fs es sv H. induction H as [|f e fs es [D A] H (M & TM)]; cbn [List.concat].
  - exists 1%nat. reflexivity.
  - exists (S M). cbn [PsModel.turn fst snd]. rewrite (step_gN n v f e _ sv D A), TM. reflexivity.
Qed.

Hypothesis Hempty : forall sm x, sload sm [] = Ok x -> False.
Hypothesis Htop : forall sm b, sload sm b = Err TopLevelStreamError -> False.

Lemma after_err : forall e s, e = SizedGroupError \/ isExtraction e = false -> afterErr e s = s.
Proof. intros e s [->|H]; [reflexivity|]. unfold afterErr. rewrite H. destruct e; reflexivity. Qed.

Lemma inside_turn : forall n v, okV v = true ->
  forall k g w, okV w = true -> inside v (g_cur g) (g_stack g) -> g_eggs g = true -> g_framed g = true ->
  weight g (mkP w []) < N.of_nat n -> weight g (mkP w []) < N.of_nat k ->
  exists M es0, (forall t, turn n true M (groupStep n g, mkP w t) = Some (es0, fresh n true (mkP v t))) \/
                (exists sv, forall t m es x, turn n true m (groupStep n (gN sv), mkP v t) = Some (es, x) -> turn n true (M + m) (groupStep n g, mkP w t) = Some (es0 ++ es, x)).
Proof.
  intros n v V. induction k as [|k IH]; intros g w Vs I Eg Fr Wn Wk; [lia|].
  destruct (groupStep_ok Ser sload nload kcheck Hempty Htop n g (mkP w []) Fr Wn) as (r & s' & R & Le & K).
  destruct (inside_step n v g w r s' V Vs I Eg Fr R) as [(g' & m & -> & I' & Eg' & Fr' & Vs' & Eb & Q)|[(e & X & Q)|(sv & Q)]].
  - destruct (K g' m eq_refl) as [_ W']. destruct s' as [w' b']. cbn [pv pb] in *. subst b'. destruct (IH g' w') as (M & es0 & T); [assumption..|lia|lia|].
    exists (S M), (match m with Some e => e :: es0 | None => es0 end). destruct T as [T|(sv & T)].
    + left. intros t. cbn [PsModel.turn fst snd]. rewrite Q, T. destruct m; reflexivity.
    + right. exists sv. intros t m' es x H. cbn [Nat.add PsModel.turn fst snd]. rewrite Q, (T _ _ _ _ H). destruct m; reflexivity.
  - exists 1%nat, []. left. intros t. cbn [PsModel.turn fst snd]. rewrite Q, (after_err _ _ X). reflexivity.
  - exists 0%nat, []. right. exists sv. intros t m es x H. cbn [app Nat.add]. rewrite <- H. destruct m as [|m]; [discriminate H|].
    cbn [PsModel.turn fst snd]. rewrite Q. reflexivity.
Qed.

(** the group itself *)
Lemma group_step : forall n v cl content g, okV v = true -> framing v cl isGeneric content g ->
  (exists g' w, inside v (g_cur g') (g_stack g') /\ g_eggs g' = true /\ g_framed g' = true /\ okV w = true /\
     forall t, resume (groupStep n (g0 true)) (mkP v (g ++ t)) = Done (Ok (GNext Ser g' None)) (mkP w t)) \/
  (exists e, (e = SizedGroupError \/ isExtraction e = false) /\ forall t, resume (groupStep n (g0 true)) (mkP v (g ++ t)) = Done (Err e) (mkP v t)).
Proof.
  intros n v cl content g V F. destruct (fr_read _ _ _ _ _ F) as (ct & k & Rd & Bs & Bc & Lg & K0 & T & Vc). pose proof (fr_sniff _ _ _ _ _ F) as Sn. pose proof (fr_cl _ _ _ _ _ F) as Ncl.
  assert (Ng : g <> []) by (intros ->; discriminate Sn).
  assert (Sg : forall t, sniff (g ++ t) = Ok cl) by (intros t; rewrite sniff_app; assumption).
  assert (Dr : forall t, ndrop k (g ++ t) = content ++ t).
  { intros t. specialize (Rd t). destruct (counterAt_pos _ _ _ _ _ Rd) as (k' & B' & _ & _ & E). rewrite Bs in B'. injection B' as <-. symmetry. exact E. }
  assert (GS : forall t r s1, resume (frontC n true) (mkP v (g ++ t)) = Done r s1 -> resume (groupStep n (g0 true)) (mkP v (g ++ t)) =
    resume (match r with
  | Ok (FMsg _ e) => Ret (GNext Ser (mkG None [] None false true) (Some e))
  | Ok (FTop _) => Ret (GNext Ser (mkG None [] None false true) None)
  | Ok (FGroup _ eims sv') =>
      v <~ getV ;;
      onres (setV sv') (fun r => match r with
                                | Ok _ => Ret (GNext Ser (mkG (Some eims) [(v, None)] sv' true true) None)
                                | Err e => leaving [(v, None)] true e
                                end)
  | Err e => leaving [] false e
  end) s1).
  { intros t r s1 Rf. unfold PsModel.groupStep, g0. cbn [unnest g_cur g_stack g_svrsn g_eggs g_framed]. rewrite resume_bindc. unfold setV at 1. rewrite resume_op. rewrite resume_bindc. unfold isEmpty. rewrite resume_op. cbn [pb].
    destruct (isnil (g ++ t)) eqn:Ni; [destruct g; [congruence|discriminate Ni]|].
    rewrite resume_bindc. unfold onCur. rewrite resume_onres, Rf. cbn [resume]. destruct r as [[eims [w|]|e|]|e]; reflexivity. }
  set (inner := fun eims : bytes => inSub eims (
          ct <~ peek cl true ;;
          if isGenus ct then
            consumeCtr ct cl ;;;
            g <~ lift (genusOf ct) ;;
            rest <~ op (fun s => Some (Ok (pb s), s)) ;; Ret (rest, Some g)
          else Ret (eims, None))).
  assert (Y : forall t, resume (frontC n true) (mkP v (g ++ t)) = resume ('(rest, sv) <~ sized true (inner content) ;; Ret (FGroup Ser rest sv)) (mkP v t)).
  { intros t. unfold PsModel.frontC. cbv zeta. rewrite resume_bindc, resume_sniff. cbn [pb]. rewrite Sg.
    assert (Y : forall d : com (front Ser), resume (ct <~ peek cl true ;;
      if isGeneric ct then
        consumeCtr ct cl ;;;
        eggs <~ lift (byteCount ct cl) ;;
        eims <~ takeF eggs true ;;
        '(rest, sv) <~ sized true (inner eims) ;; Ret (FGroup Ser rest sv)
      else d) (mkP v (g ++ t)) = resume ('(rest, sv) <~ sized true (inner content) ;; Ret (FGroup Ser rest sv)) (mkP v t)).
    { intros d. rewrite resume_bindc, (resume_peek_ok _ _ _ _ _ _ (Rd t)), T, resume_bindc, (resume_consumeCtr _ _ _ _ Bs), Bc. cbn [pv pb]. rewrite Dr.
      rewrite resume_bindc. cbn [lift resume]. rewrite resume_bindc. unfold takeF. rewrite resume_op, andb_false_r. cbn [pv pb].
      replace (ntake (len content) (content ++ t)) with content by (unfold ntake, len; rewrite Nat2N.id, firstn_app, firstn_all, Nat.sub_diag; symmetry; apply app_nil_r).
      replace (ndrop (len content) (content ++ t)) with t by (unfold ndrop, len; rewrite Nat2N.id, skipn_app, skipn_all, Nat.sub_diag; reflexivity).
      reflexivity. }
    destruct cl; [congruence|apply Y..]. }
  assert (Fc : (exists eims sv, forall t, resume (frontC n true) (mkP v (g ++ t)) = Done (Ok (FGroup Ser eims sv)) (mkP v t)) \/
               (exists e, (e = SizedGroupError \/ isExtraction e = false) /\ forall t, resume (frontC n true) (mkP v (g ++ t)) = Done (Err e) (mkP v t))).
  { assert (Z : (exists eims sv, forall t, resume (inner content) (mkP v t) = Done (Ok (eims, sv)) (mkP v t)) \/ (exists e, forall t, resume (inner content) (mkP v t) = Done (Err e) (mkP v t))).
    { unfold inner, inSub. destruct (peek_done cl (mkP v content)) as [(c2 & m2 & Pk & B2 & _ & _ & _)|(e & Pk & _)].
      - destruct (isGenus c2) eqn:Ig; [destruct (genusOf c2) as [gv|e] eqn:Gn|].
        + left. eexists _, _. intros t. rewrite resume_op. cbn [pv pb]. rewrite resume_bindc, Pk, Ig, resume_bindc, (resume_consumeCtr _ _ _ _ B2), resume_bindc, resume_lift, Gn. cbn [pv pb].
          rewrite resume_bindc, resume_op. reflexivity.
        + right. exists e. intros t. rewrite resume_op. cbn [pv pb]. rewrite resume_bindc, Pk, Ig, resume_bindc, (resume_consumeCtr _ _ _ _ B2), resume_bindc, resume_lift, Gn. reflexivity.
        + left. eexists _, _. intros t. rewrite resume_op. cbn [pv pb]. rewrite resume_bindc, Pk, Ig. reflexivity.
      - right. exists e. intros t. rewrite resume_op. cbn [pv pb]. rewrite resume_bindc, Pk. reflexivity. }
    destruct Z as [(eims & sv & Z)|(e & Z)].
    - left. exists eims, sv. intros t. rewrite Y, resume_bindc. unfold sized. rewrite resume_onres, Z. reflexivity.
    - right. exists (if isExtraction e then SizedGroupError else e). split; [destruct (isExtraction e) eqn:E; auto|].
      intros t. rewrite Y, resume_bindc. unfold sized. rewrite resume_onres, Z, andb_true_r. destruct (isExtraction e); reflexivity. }
  destruct Fc as [(eims & sv & Fc)|(e & X & Fc)].
  2:{ right. exists e. split; [exact X|]. intros t. rewrite (GS _ _ _ (Fc t)). unfold leaving. cbn [rev]. rewrite resume_bindc. unfold setV. rewrite resume_op. rewrite andb_false_r. reflexivity. }
  assert (In' : inside v (Some eims) [(v, None)]) by (split; [eauto|exists []; split; [reflexivity|constructor]]).
  assert (S2 : (exists u, okV u = true /\ forall t, resume (setV sv) (mkP v t) = Done (Ok tt) (mkP u t)) \/ (exists e, forall t, resume (setV sv) (mkP v t) = Done (Err e) (mkP v t))).
  { unfold setV. destruct sv as [y|]; [|left; exists v; split; [exact V|reflexivity]].
    destruct (okV y) eqn:Oy.
    - left. exists y. split; [exact Oy|]. intros t. rewrite resume_op. unfold okV in Oy. destruct (_ || _); [discriminate Oy|reflexivity].
    - right. exists InvalidVersionError. intros t. rewrite resume_op. unfold okV in Oy. destruct (_ || _); [reflexivity|discriminate Oy]. }
  destruct S2 as [(u & Vu & R2)|(e2 & R2)].
  - left. exists (mkG (Some eims) [(v, None)] sv true true), u. cbn [g_cur g_stack g_eggs g_framed]. split; [exact In'|]. split; [reflexivity|]. split; [reflexivity|]. split; [exact Vu|].
    intros t. rewrite (GS _ _ _ (Fc t)), resume_bindc. unfold getV. rewrite resume_op, resume_onres. cbn [pv]. rewrite R2. reflexivity.
  - right. destruct (leaving_inside (A := gout Ser) v _ _ e2 V In') as (e' & L & K). exists e'. split; [exact K|].
    intros t. rewrite (GS _ _ _ (Fc t)), resume_bindc. unfold getV. rewrite resume_op, resume_onres. cbn [pv]. rewrite R2. apply L.
Qed.

Lemma group_turn : forall n v content g, enclosed v "GenericGroup" content g -> len g < N.of_nat n ->
  exists M es0, (forall t, turn n true M (fresh n true (mkP v (g ++ t))) = Some (es0, fresh n true (mkP v t))) \/
                (exists sv, forall t m es x, turn n true m (groupStep n (gN sv), mkP v t) = Some (es, x) -> turn n true (M + m) (fresh n true (mkP v (g ++ t))) = Some (es0 ++ es, x)).
Proof.
  intros n v content g En Ln. destruct (enclosed_framing _ _ _ _ En) as (cl & Fr); [right; right; left; reflexivity|].
  assert (V : okV v = true).
  { destruct (fr_read _ _ _ _ _ Fr) as (ct & k & _ & Bs & _ & _ & _ & _ & <-). unfold byteSize, csize in Bs. apply bind_ok in Bs. destruct Bs as (sz & Bs & _).
    apply bind_ok in Bs. destruct Bs as (cs & Ct & _). unfold ctables in Ct. unfold okV.
    destruct (vmajor (c_vrsn ct) =? 1); [|destruct (vmajor (c_vrsn ct) =? 2); [|discriminate Ct]]; apply raise_if_ok in Ct; destruct Ct as [-> _]; reflexivity. }
  destruct (groupStep_ok Ser sload nload kcheck Hempty Htop n (g0 true) (mkP v (g ++ [])) eq_refl) as (r0 & s0 & R0 & _ & K0); [unfold weight; cbn [pb g0 g_cur g_stack sizeO sizeSt fold_right]; rewrite app_nil_r; lia|].
  destruct (group_step n v cl content g V Fr) as [(g' & w & I & Eg & Ef & Vw & R)|(e & X & R)].
  - rewrite R in R0. injection R0 as <- <-. destruct (K0 g' None eq_refl) as [_ W]. unfold weight in W at 2. cbn [pb g0 g_cur g_stack sizeO sizeSt fold_right] in W. rewrite app_nil_r in W.
    destruct (inside_turn n v V n g' w Vw I Eg Ef) as (M & es0 & T); [lia|lia|]. exists (S M), es0. destruct T as [T|(sv & T)].
    + left. intros t. unfold PsModel.fresh at 1. cbn [PsModel.turn fst snd]. rewrite R, T. reflexivity.
    + right. exists sv. intros t m es x H. unfold PsModel.fresh at 1. cbn [Nat.add PsModel.turn fst snd]. rewrite R, (T _ _ _ _ H). reflexivity.
  - exists 1%nat, []. left. intros t. unfold PsModel.fresh at 1. cbn [PsModel.turn fst snd]. rewrite R, (after_err _ _ X). reflexivity.
Qed.

Lemma finish : forall n v B fs es es0, B <> [] -> Forall2 (fun f e => delimited v f /\ alone n true v f e) fs es -> len (List.concat fs) < N.of_nat n ->
  (exists M, turn n true M (fresh n true (mkP v B)) = Some (es0, fresh n true (mkP v (List.concat fs))) \/ turn n true M (fresh n true (mkP v B)) = Some (es0 ++ es, fresh n true (mkP v []))) ->
  exists M, parseF n true M (mkP v B) = Some (es0 ++ es, mkP v []).
Proof.
  intros n v B fs es es0 NB0 F Ln (M & T). assert (Nb : isnil B = false) by (destruct B; [congruence|reflexivity]).
  destruct (turn_whole Ser sload nload kcheck true n v fs es F) as ((M2 & T2) & _).
  assert (NB : forall s, len (pb s) < N.of_nat n -> forall c s', resume (groupStep n (g0 true)) s <> Blocked c s').
  { intros s L c s' Bl. destruct (groupStep_ok Ser sload nload kcheck Hempty Htop n (g0 true) s eq_refl) as (r & s1 & R & _); [unfold weight; cbn [g0 g_cur g_stack sizeO sizeSt fold_right]; lia|congruence]. }
  assert (P0 : forall k, parseF n true (S k) (mkP v []) = Some ([], mkP v [])) by reflexivity.
  assert (P2 : forall k, parseF n true (S (S (M2 + k))) (mkP v (List.concat fs)) = Some (es, mkP v [])).
  { intros k. destruct (isnil (List.concat fs)) eqn:N2.
    - destruct (List.concat fs) eqn:Ec; [|discriminate N2]. rewrite P0. f_equal. f_equal.
      destruct F as [|f e fs' es' [D _] F]; [reflexivity|]. cbn [List.concat] in Ec. apply app_eq_nil in Ec. destruct Ec as [-> _].
      exfalso. inversion D as [b c g1 Sb E1 Q|c g1 E1]; subst.
      + apply app_eq_nil in Q. destruct Q as [-> _]. destruct Sb as [Sb _]. discriminate Sb.
      + destruct (enclosed_framing _ _ _ _ E1) as (cl' & F1); [right; left; reflexivity|]. discriminate (fr_sniff _ _ _ _ _ F1).
    - change (S (S (M2 + k))) with (S (S M2 + k)). cbn [PsModel.parseF pb]. rewrite N2. fold (PsModel.fresh Ser sload nload kcheck n true (mkP v (List.concat fs))).
      pose proof (turn_mono Ser sload nload kcheck _ _ _ _ _ T2 (S k)) as T3. replace (M2 + S k)%nat with (S M2 + k)%nat in T3 by lia. rewrite T3. cbn [PsModel.fresh fst snd].
      destruct (resume (groupStep n (g0 true)) (mkP v [])) as [r s|c s] eqn:R; [|exfalso; refine (NB _ _ _ _ R); cbn; lia].
      cbn [Nat.add]. rewrite P0, app_nil_r. reflexivity. }
  exists (S (M + (S (S M2)))).
  cbn [PsModel.parseF pb]. rewrite Nb. destruct T as [T|T].
  - rewrite (turn_mono Ser sload nload kcheck _ _ _ _ _ T (S (S M2))). cbn [PsModel.fresh fst snd].
    destruct (resume (groupStep n (g0 true)) (mkP v (List.concat fs))) as [r s|c s] eqn:R; [|exfalso; refine (NB _ _ _ _ R); cbn [pb]; lia].
    replace (M + S (S M2))%nat with (S (S (M2 + M))) by lia. rewrite P2. reflexivity.
  - rewrite (turn_mono Ser sload nload kcheck _ _ _ _ _ T (S (S M2))). cbn [PsModel.fresh fst snd].
    destruct (resume (groupStep n (g0 true)) (mkP v [])) as [r s|c s] eqn:R; [|exfalso; refine (NB _ _ _ _ R); cbn; lia].
    replace (M + S (S M2))%nat with (S (S (M2 + M))) by lia. rewrite P0, app_nil_r. reflexivity.
Qed.

Lemma grp_ne : forall v content g, enclosed v "GenericGroup" content g -> g <> [].
Proof. intros v content g En ->. destruct (enclosed_framing _ _ _ _ En) as (cl & F); [right; right; left; reflexivity|]. discriminate (fr_sniff _ _ _ _ _ F). Qed.
(** What a group yields does not depend on what follows, and what follows comes out. *)
Theorem after_group : forall n v content g, enclosed v "GenericGroup" content g -> len g < N.of_nat n ->
  exists es0, forall fs es, Forall2 (fun f e => delimited v f /\ alone n true v f e) fs es -> len (List.concat fs) < N.of_nat n ->
    exists M, parseF n true M (mkP v (g ++ List.concat fs)) = Some (es0 ++ es, mkP v []).
Proof.
  intros n v content g En Lg. destruct (group_turn n v content g En Lg) as (M & es0 & T0). exists es0. intros fs es F Ln.
  apply (finish n v _ fs es es0); [|exact F|exact Ln|].
  - intros E. apply app_eq_nil in E. exact (grp_ne _ _ _ En (proj1 E)).
  - destruct T0 as [T|(sv & T)]; [exists M; left; apply T|]. destruct (turn_gN n v fs es sv F) as (M1 & T1). exists (M + M1)%nat. right. exact (T _ _ _ _ T1).
Qed.

(** a message without attachments before a group *)
Lemma generic_not : forall ct, isGeneric ct = true -> isAttGroup ct = false.
Proof. intros ct H. names H. Qed.
Lemma bare_step : forall n v b x content g t, sizedBody b -> reap v b = Ok (x, []) -> enclosed v "GenericGroup" content g ->
  resume (groupStep (S (S n)) (g0 true)) (mkP v (b ++ g ++ t)) = Done (Ok (GNext Ser (g0 true) (Some (mkE Ser x [] [])))) (mkP v (g ++ t)).
Proof.
  intros n v b x content g t (Sb & sm & Sm & Sz) Rp En. destruct (enclosed_framing _ _ _ _ En) as (cl & F); [right; right; left; reflexivity|].
  destruct (fr_read _ _ _ _ _ F) as (ct & k & Rd & Bs & Bc & Lg & K0 & T & Vc). change (isGeneric ct = true) in T. pose proof (fr_sniff _ _ _ _ _ F) as Sn. pose proof (fr_cl _ _ _ _ _ F) as Ncl.
  assert (Nb : b <> []) by (intros ->; discriminate Sb). assert (Ng : g <> []) by (intros ->; discriminate Sn).
  assert (Rp2 : reap v (b ++ g ++ t) = Ok (x, g ++ t)).
  { rewrite <- (app_nil_l (g ++ t)). rewrite app_nil_l. replace (b ++ g ++ t) with (b ++ [] ++ (g ++ t)) by reflexivity.
    rewrite (reap_sized_ext Ser sload v b [] sm (g ++ t) Sm Sz), app_nil_r, Rp. reflexivity. }
  assert (Sn1 : sniff (b ++ g ++ t) = Ok Cmsg) by (rewrite sniff_app; assumption).
  assert (Sn2 : sniff (g ++ t) = Ok cl) by (rewrite sniff_app; assumption).
  assert (Nl : b ++ g ++ t <> []) by (destruct b; [congruence|discriminate]). assert (Nl2 : g ++ t <> []) by (destruct g; [congruence|discriminate]).
  assert (At : forall e, resume (attach (msgP (S n)) (S (S n)) true false None e) (mkP v (g ++ t)) = Done (Ok e) (mkP v (g ++ t))).
  { intros e. unfold PsModel.attach, restoring, sized. rewrite resume_onres. rewrite resume_onres. rewrite resume_bindc, resume_needSome_ne by exact Nl2.
    rewrite resume_bindc, resume_sniff. cbn [pb]. rewrite Sn2.
    assert (Y : resume (ct <~ peek cl true ;;
        if isAttGroup ct then
          consumeCtr ct cl ;;;
          eags <~ lift (byteCount ct cl) ;;
          eims <~ takeF eags true ;;
          inSub eims (sized true (
            ct <~ peek cl true ;;
            if isGenus ct then
              consumeCtr ct cl ;;;
              v <~ getV ;;
              g <~ lift (genusOf ct) ;; 
              restoring (orOld None v) (setV (Some g) ;;; attLoop (msgP (S n)) (S (S n)) cl true true e)
            else attLoop (msgP (S n)) (S (S n)) cl true true e))
        else attLoop (msgP (S n)) (S (S n)) cl true false e) (mkP v (g ++ t)) = Done (Ok e) (mkP v (g ++ t))).
    { rewrite resume_bindc, (resume_peek_ok _ _ _ _ _ _ (Rd t)), (generic_not _ T). cbn [PsModel.attLoop]. rewrite resume_bindc, (resume_peek_ok _ _ _ _ _ _ (Rd t)).
      rewrite T, orb_true_r. cbn [orb]. reflexivity. }
    unfold sized, restoring in Y. destruct cl; [congruence|rewrite Y; reflexivity..]. }
  assert (Fc : resume (frontC (S (S n)) true) (mkP v (b ++ g ++ t)) = Done (Ok (FMsg Ser (mkE Ser x [] []))) (mkP v (g ++ t))).
  { unfold PsModel.frontC. cbv zeta. rewrite resume_bindc, resume_sniff. cbn [pb]. rewrite Sn1, resume_onres.
    cbn [PsModel.msgP]. rewrite resume_bindc, resume_needSome_ne by exact Nl. rewrite resume_bindc, resume_sniff. cbn [pb]. rewrite Sn1.
    rewrite resume_bindc. cbn [resume]. rewrite resume_bindc, resume_sniff. cbn [pb]. rewrite Sn1. rewrite resume_bindc. unfold reapOp, extractor. rewrite resume_op. cbn [pv pb].
    rewrite Rp2. rewrite At. reflexivity. }
  unfold PsModel.groupStep, g0. cbn [unnest g_cur g_stack g_svrsn g_eggs g_framed]. rewrite resume_bindc. unfold setV at 1. rewrite resume_op. rewrite resume_bindc. unfold isEmpty. rewrite resume_op. cbn [pb].
  destruct (isnil (b ++ g ++ t)) eqn:Ni; [destruct b; [congruence|discriminate Ni]|].
  rewrite resume_bindc. unfold onCur. rewrite resume_onres, Fc. reflexivity.
Qed.

Theorem bare_then_group : forall n v b x content g, sizedBody b -> reap v b = Ok (x, []) -> enclosed v "GenericGroup" content g -> len b + len g < N.of_nat n ->
  exists es0, forall fs es, Forall2 (fun f e => delimited v f /\ alone n true v f e) fs es -> len (List.concat fs) < N.of_nat n ->
    exists M, parseF n true M (mkP v (b ++ g ++ List.concat fs)) = Some (mkE Ser x [] [] :: es0 ++ es, mkP v []).
Proof.
  intros n v b x content g Sb Rp En Lg. destruct (group_turn n v content g En) as (M & es0 & T0); [lia|]. exists es0. intros fs es F Ln.
  assert (Nb : b <> []) by (intros ->; destruct Sb as [Sb _]; discriminate Sb). pose proof (grp_ne _ _ _ En) as Ng.
  assert (0 < len b) by (destruct b; [congruence|unfold len; cbn [List.length]; lia]).
  destruct n as [|[|n]]; [lia|lia|].
  change (mkE Ser x [] [] :: es0 ++ es) with ((mkE Ser x [] [] :: es0) ++ es). apply (finish (S (S n)) v _ fs es); [|exact F|exact Ln|].
  - intros E. apply app_eq_nil in E. exact (Nb (proj1 E)).
  - pose proof (bare_step n v b x content g (List.concat fs) Sb Rp En) as St.
    assert (Go : forall m es1 y, turn (S (S n)) true m (fresh (S (S n)) true (mkP v (g ++ List.concat fs))) = Some (es1, y) ->
      turn (S (S n)) true (S m) (fresh (S (S n)) true (mkP v (b ++ g ++ List.concat fs))) = Some (mkE Ser x [] [] :: es1, y)).
    { intros m es1 y Hm. unfold PsModel.fresh at 1. cbn [PsModel.turn fst snd]. rewrite St. unfold PsModel.fresh in Hm. rewrite Hm. reflexivity. }
    destruct T0 as [T|(sv & T)]; [exists (S M); left; apply Go, T|]. destruct (turn_gN _ v fs es sv F) as (M1 & T1). exists (S (M + M1)). right. apply Go. exact (T _ _ _ _ T1).
Qed.
End Group.
