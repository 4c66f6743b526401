(** Proofs about the verification of credentials: what is saved was acceptable. *)
From Verif Require Import Prelude B64Model MatterModel SubsModel ThModel ThProofs KelModel TlModel TlSpec TlProofs TlInv VcModel VcSpec VcTel.
Open Scope N_scope.
Ltac Zify.zify_post_hook ::= Z.div_mod_to_equations.

(** ** Operators *)
Lemma relates_iff : forall o, delegativeOp o = true <-> relates o.
Proof. intros o. unfold relates. destruct o; cbn; split; intros H; try discriminate; auto; destruct H as [H|[H|H]]; discriminate. Qed.
Lemma find_snoc : forall (f : eop -> bool) l x, find f (l ++ [x]) = match find f l with Some y => Some y | None => if f x then Some x else None end.
Proof. intros f l x. induction l as [|a l IH]; cbn [find app]; [reflexivity|]. destruct (f a); [reflexivity|exact IH]. Qed.
Lemma find_none_all : forall (f : eop -> bool) l, (forall x, In x l -> f x = false) -> find f l = None.
Proof. intros f l H. induction l as [|a l IH]; [reflexivity|]. cbn [find]. rewrite H; [|left; reflexivity]. apply IH. intros x Hx. apply H. right. exact Hx. Qed.
Lemma find_app' : forall (f : eop -> bool) l l', find f (l ++ l') = match find f l with Some y => Some y | None => find f l' end.
Proof. intros f l l'. induction l as [|a l IH]; cbn [find app]; [reflexivity|]. destruct (f a); [reflexivity|exact IH]. Qed.
Lemma governs_find : forall o ops, governs o ops <-> find delegativeOp (rev (filter unaryOp ops)) = Some o.
Proof.
  intros o ops. split.
  - intros (l1 & l2 & -> & R & N0). rewrite filter_app. cbn [filter]. assert (U : unaryOp o = true) by (destruct R as [->|[->| ->]]; reflexivity). rewrite U.
    rewrite rev_app_distr. cbn [rev]. rewrite <- app_assoc. rewrite find_app'. rewrite find_none_all.
    + cbn [app find]. apply relates_iff in R. rewrite R. reflexivity.
    + intros x Hx. apply in_rev in Hx. apply filter_In in Hx. destruct Hx as [Hx _]. destruct (delegativeOp x) eqn:D; [|reflexivity]. apply relates_iff in D. destruct (N0 x Hx D).
  - induction ops as [|a l IH] using rev_ind; [discriminate|]. rewrite filter_app. cbn [filter]. destruct (unaryOp a) eqn:U.
    + rewrite rev_app_distr. cbn [rev app find]. destruct (delegativeOp a) eqn:D.
      * intros H. injection H as <-. exists l, []. split; [reflexivity|]. split; [apply relates_iff; exact D|]. intros x [].
      * intros H. destruct (IH H) as (l1 & l2 & -> & R & N0). exists l1, (l2 ++ [a]). split; [rewrite <- app_assoc; reflexivity|]. split; [exact R|].
        intros x Hx. apply in_app_or in Hx. destruct Hx as [Hx|[<-|[]]]; [apply N0; exact Hx|]. rewrite <- relates_iff. congruence.
    + rewrite app_nil_r. intros H. destruct (IH H) as (l1 & l2 & -> & R & N0). exists l1, (l2 ++ [a]). split; [rewrite <- app_assoc; reflexivity|]. split; [exact R|].
      intros x Hx. apply in_app_or in Hx. destruct Hx as [Hx|[<-|[]]]; [apply N0; exact Hx|]. rewrite <- relates_iff. destruct a; try discriminate.
Qed.
Lemma ops_nil : forall ops, filter unaryOp ops = [] <-> forall o, In o ops -> o = OtherOp.
Proof.
  intros ops. split.
  - intros H o Ho. destruct (unaryOp o) eqn:U; [|destruct o; try discriminate; reflexivity]. assert (In o (filter unaryOp ops)) by (apply filter_In; split; assumption). rewrite H in *. contradiction.
  - intros H. induction ops as [|a l IH]; [reflexivity|]. cbn [filter]. rewrite (H a (or_introl eq_refl)). cbn [unaryOp]. apply IH. intros o Ho. apply H. right. exact Ho.
Qed.
Lemma eop_eqb_eq : forall a b, eop_eqb a b = true <-> a = b.
Proof. intros a b. destruct a, b; cbn; split; congruence. Qed.
Lemma exists_op : forall o ops, unaryOp o = true -> existsb (eop_eqb o) (filter unaryOp ops) = true <-> In o ops.
Proof.
  intros o ops U. rewrite existsb_exists. split.
  - intros (x & A & B). apply eop_eqb_eq in B. subst x. apply filter_In in A. apply A.
  - intros H. exists o. split; [apply filter_In; split; assumption|apply eop_eqb_eq; reflexivity].
Qed.
Lemma isnil_iff : forall A (l : list A), isnil l = true <-> l = [].
Proof. intros A [|x l]; cbn; split; congruence. Qed.
Lemma isnil_not : forall A (l : list A), isnil l = false <-> l <> [].
Proof. intros A [|x l]; cbn; split; congruence. Qed.

Section P.
  Context (E : tenv) (cf : tconf) (X : cenv).

  (** the operators of an edge hold of the far node *)
  Lemma chain_rule : forall n ops c d st, verifyChain X n ops (c_issuer c) (c_issuee c) d = inr (Some st) ->
    saved d n = true /\ exists f tv, creds d n = Some f /\ edgeRule ops c f /\ tget (tel d) (c_reg f) = Some tv /\ credState X tv n (tel d) = inr (Some st).
  Proof.
    intros n ops c d st H. unfold verifyChain in H. destruct (saved d n) eqn:Sv; cbn [negb] in H; [|discriminate]. split; [reflexivity|].
    destruct (creds d n) as [f|] eqn:Cr; [|discriminate]. exists f.
    destruct (existsb (eop_eqb NOT) (filter unaryOp ops)) eqn:Nt; [discriminate|].
    remember (if isnil (filter unaryOp ops) then Some (match c_issuee f with Some _ => I2I | None => NI2I end) else find delegativeOp (rev (filter unaryOp ops))) as op eqn:Op.
    destruct (match op with Some DI2I => true | _ => false end) eqn:Di; [discriminate|].
    match type of H with (if ?b then _ else _) = _ => destruct b eqn:Ee; [discriminate|] end.
    match type of H with (if ?b then _ else _) = _ => destruct b eqn:Ii; [discriminate|] end.
    destruct (tget (tel d) (c_reg f)) as [tv|] eqn:T; [|discriminate]. exists tv. split; [reflexivity|]. split; [|split; [reflexivity|exact H]].
    clear H T. constructor.
    - intros G. apply governs_find in G. rewrite G in Op. destruct (isnil (filter unaryOp ops)) eqn:Nl.
      + apply isnil_iff in Nl. rewrite Nl in G. discriminate.
      + subst op. destruct (c_issuee f) as [i|]; [|discriminate]. cbn [eop_eqb] in Ii. apply orb_false_elim in Ii. destruct Ii as [_ Ii]. cbn [andb] in Ii. apply negb_false_iff in Ii. apply N.eqb_eq in Ii. congruence.
    - intros A i Hi. apply ops_nil in A. rewrite A in Op. cbn [isnil] in Op. rewrite Hi in Op, Ii. subst op. cbn [eop_eqb] in Ii. apply orb_false_elim in Ii. destruct Ii as [_ Ii]. cbn [andb] in Ii. apply negb_false_iff in Ii. apply N.eqb_eq in Ii. congruence.
    - intros A. apply (exists_op E1E ops eq_refl) in A. rewrite A in Ee. cbn [andb] in Ee. apply negb_false_iff in Ee. destruct (c_issuee f) as [i|]; [|discriminate]. destruct (c_issuee c) as [j|]; [|discriminate].
      apply N.eqb_eq in Ee. exists i. split; congruence.
    - intros A. apply (exists_op NOT ops eq_refl) in A. congruence.
    - intros G. apply governs_find in G. rewrite G in Op. destruct (isnil (filter unaryOp ops)) eqn:Nl.
      + apply isnil_iff in Nl. rewrite Nl in G. discriminate.
      + subst op. discriminate.
  Qed.
  Lemma chain_pass : forall n ops c f d, edgeRule ops c f -> saved d n = true -> creds d n = Some f -> (forall i, c_issuee f = Some i -> subjs d i <> []) ->
    verifyChain X n ops (c_issuer c) (c_issuee c) d = match tget (tel d) (c_reg f) with None => inr None | Some tv => credState X tv n (tel d) end.
  Proof.
    intros n ops c f d [R1 R2 R3 R4 R5] Sv Cr Sj. unfold verifyChain. rewrite Sv, Cr. cbn [negb].
    destruct (existsb (eop_eqb NOT) (filter unaryOp ops)) eqn:Nt; [exfalso; apply R4, (exists_op NOT ops eq_refl); exact Nt|].
    remember (if isnil (filter unaryOp ops) then Some (match c_issuee f with Some _ => I2I | None => NI2I end) else find delegativeOp (rev (filter unaryOp ops))) as op eqn:Op.
    assert (Nd : op <> Some DI2I).
    { intros ->. destruct (isnil (filter unaryOp ops)) eqn:Nl; [destruct (c_issuee f); discriminate|]. apply R5, governs_find. congruence. }
    assert (D0 : (match op with Some DI2I => true | _ => false end) = false) by (destruct op as [[]|]; try reflexivity; congruence). rewrite D0.
    match goal with |- (if ?b then _ else _) = _ => assert (B : b = false) end.
    { destruct (existsb (eop_eqb E1E) (filter unaryOp ops)) eqn:Ee; [|reflexivity]. apply (exists_op E1E ops eq_refl) in Ee. destruct (R3 Ee) as (i & A & B). rewrite A, B, N.eqb_refl. reflexivity. }
    rewrite B. clear B.
    match goal with |- (if ?b then _ else _) = _ => assert (B : b = false) end.
    { destruct op as [o|]; [|reflexivity]. assert (K : o = NI2I \/ exists i, c_issuee f = Some i /\ (o = I2I -> i = c_issuer c)).
      { destruct (isnil (filter unaryOp ops)) eqn:Nl.
        - injection Op as ->. apply isnil_iff in Nl. pose proof (proj1 (ops_nil ops) Nl) as Q. destruct (c_issuee f) as [i|] eqn:If; [right; exists i; split; [reflexivity|]; intros _; apply (R2 Q); reflexivity|left; reflexivity].
        - symmetry in Op. pose proof (proj2 (governs_find o ops) Op) as G. apply find_some in Op. destruct Op as [_ Dl]. destruct o; try discriminate; [right; rewrite (R1 G); eexists; split; [reflexivity|auto]|left; reflexivity]. }
      destruct K as [->|(i & A & B)]; [reflexivity|]. rewrite A. pose proof (proj2 (isnil_not _ _) (Sj i A)) as Sn. destruct o; try reflexivity; rewrite Sn; cbn [orb eop_eqb andb]; try reflexivity.
      rewrite (B eq_refl), N.eqb_refl. reflexivity. }
    rewrite B. reflexivity.
  Qed.
  Lemma state_some : forall tv n t st, credState X tv n t = inr (Some st) -> issuedIn t n /\ (fst st = false -> unrevokedIn t n).
  Proof.
    intros tv n t st H. unfold credState, issuedIn, unrevokedIn, vcState in *. destruct (tels t n) as [|r l]; [discriminate|]. split; [destruct l; discriminate|].
    destruct (tvts t n _) as [e|]; [|discriminate]. match type of H with (if ?b then _ else _) = _ => destruct b; [discriminate|] end.
    destruct (ancs t n _); [|discriminate]. destruct (t_ilk e); try discriminate; injection H as <-; cbn [fst]; destruct l; [reflexivity|discriminate| reflexivity|discriminate| reflexivity|discriminate| reflexivity|discriminate].
  Qed.
  Lemma judge_save : forall c now d, judge X c now d = Save ->
    acceptable X (tel d) (fun s => schs d s = true) [] (creds d) (mkCred (c_raw c) (c_said c) (c_reg c) (c_issuer c) (c_issuee c) (c_schema c) (Some [])) /\
    exists es, c_edges c = Some es /\ forall e, In e es -> e = Skip \/
      exists n ops s f, e = Node n ops s /\ saved d n = true /\ creds d n = Some f /\ edgeRule ops c f
        /\ tget (tel d) (c_reg f) <> None /\ unrevokedIn (tel d) n
        /\ (forall s', s = Some s' -> s' = c_schema f \/ schs d s' = true /\ validS X s' (c_raw f) = true).
  Proof.
    intros c now d H. unfold judge in H. destruct (tget (tel d) (c_reg c)) as [tv|] eqn:T; [|discriminate].
    destruct (credState X tv (c_said c) (tel d)) as [x|[(rv, dt)|]] eqn:St; try discriminate. apply state_some in St. destruct St as [St _].
    destruct (dt + expiry X <? now); [discriminate|]. destruct (schs d (c_schema c)) eqn:Sk; cbn [negb] in H; [|discriminate].
    destruct (validS X (c_schema c) (c_raw c)) eqn:Vs; cbn [negb] in H; [|discriminate]. destruct (c_edges c) as [es|]; [|discriminate]. split.
    - constructor; cbn; auto; [congruence|]. exists []. split; [reflexivity|]. intros e [].
    - exists es. split; [reflexivity|]. induction es as [|e es IH]; [intros e []|]. cbn [checkEdges] in H. destruct (checkEdge X c now e d) as [v|] eqn:Ce.
      { exfalso. subst v. unfold checkEdge in Ce. destruct e as [|n o s|x]; try discriminate. destruct (verifyChain _ _ _ _ _ _) as [x|[(rv', dt')|]]; try discriminate.
        destruct s as [s'|]; [destruct (creds d n) as [f|]|].
        - destruct (c_schema f =? s'); [|destruct (schs d s'); cbn [negb] in Ce; [destruct (validS X s' (c_raw f)); cbn [negb] in Ce|]]; try discriminate;
            (destruct (dt' + expiry X <? now); [discriminate|destruct rv'; discriminate]).
        - destruct (dt' + expiry X <? now); [discriminate|destruct rv'; discriminate].
        - destruct (dt' + expiry X <? now); [discriminate|destruct rv'; discriminate]. }
      intros e' [<-|He]; [|apply (IH H e' He)]. clear IH H. destruct e as [|n o s|x]; [left; reflexivity| |discriminate]. right. unfold checkEdge in Ce.
      destruct (verifyChain X n o (c_issuer c) (c_issuee c) d) as [x|[(rv', dt')|]] eqn:Vc; try discriminate. apply chain_rule in Vc.
      destruct Vc as (Sv & f & tv' & Cr & Ru & T' & St'). apply state_some in St'. exists n, o, s, f. rewrite Cr in Ce. split; [reflexivity|]. split; [exact Sv|]. split; [exact Cr|]. split; [exact Ru|]. split; [congruence|].
      assert (Z : rv' = false /\ (forall s', s = Some s' -> s' = c_schema f \/ schs d s' = true /\ validS X s' (c_raw f) = true)).
      { destruct s as [s'|].
        - destruct (c_schema f =? s') eqn:Es.
          + apply N.eqb_eq in Es. destruct (dt' + expiry X <? now); [discriminate|]. destruct rv'; [discriminate|]. split; [reflexivity|]. intros s0 H0. left. congruence.
          + destruct (schs d s') eqn:K1; cbn [negb] in Ce; [|discriminate]. destruct (validS X s' (c_raw f)) eqn:K2; cbn [negb] in Ce; [|discriminate].
            destruct (dt' + expiry X <? now); [discriminate|]. destruct rv'; [discriminate|]. split; [reflexivity|]. intros s0 H0. injection H0 as <-. right. split; assumption.
        - destruct (dt' + expiry X <? now); [discriminate|]. destruct rv'; [discriminate|]. split; [reflexivity|]. intros s0 H0. discriminate. }
      destruct Z as [-> Z]. split; [apply St'; reflexivity|exact Z].
  Qed.

  (** ** Frames *)
  Lemma process_fr : forall c a now d, tel (fst (process X c a now d)) = tel d /\ schs (fst (process X c a now d)) = schs d.
  Proof. intros c a now d. unfold process. destruct (judge X c now d); split; reflexivity. Qed.
  Section Sweep.
    Context (P : vdb -> Prop) (now : N).
    Hypothesis Pp : forall d s c a, P d -> creds d s = Some c -> cancs d s = Some a -> P (fst (process X c a now d)).
    Hypothesis Pr : forall d w s, P d -> P (eset w (erem s (escs d w)) d).
    Lemma escRow_P : forall w r d d', P d -> escRow X w now r d = Some d' -> P d'.
    Proof.
      intros w (s, dt) d d' H R. unfold escRow in R. destruct (creds d s) as [c|] eqn:C; [|discriminate]. destruct (cancs d s) as [a|] eqn:A; [|discriminate]. injection R as <-.
      destruct (dt + timeoutE <? now); [apply Pr; exact H|]. pose proof (Pp d s c a H C A) as Q. destruct (process X c a now d) as (d1, x). cbn [fst] in Q.
      destruct x as [x|]; [|apply Pr; exact Q]. destruct w, x; first [exact Q|apply Pr; exact Q].
    Qed.
    Lemma escLoop_P : forall w rows d, P d -> P (fst (escLoop X w now rows d)).
    Proof.
      intros w rows. induction rows as [|r rows IH]; intros d H; [exact H|]. cbn [escLoop]. destruct (escRow X w now r d) as [d'|] eqn:R; [|exact H]. apply IH. eapply escRow_P; eassumption.
    Qed.
    Lemma vsweep_P : forall d, P d -> P (fst (vsweep X now d)).
    Proof.
      intros d H. unfold vsweep. pose proof (escLoop_P MCE (escs d MCE) d H) as Q. destruct (escLoop X MCE now (escs d MCE) d) as (d1, []); cbn [fst] in Q; [|exact Q].
      pose proof (escLoop_P MSE (escs d1 MSE) d1 Q) as Q1. destruct (escLoop X MSE now (escs d1 MSE) d1) as (d2, []); cbn [fst] in Q1; [|exact Q1].
      apply escLoop_P. exact Q1.
    Qed.
  End Sweep.
  Lemma sweep_fr : forall now d, tel (fst (vsweep X now d)) = tel d /\ schs (fst (vsweep X now d)) = schs d.
  Proof.
    intros now d. apply (vsweep_P (fun d' => tel d' = tel d /\ schs d' = schs d) now); [| |split; reflexivity].
    - intros d0 s c a [A B] _ _. destruct (process_fr c a now d0) as [-> ->]. split; assumption.
    - intros d0 w s H. exact H.
  Qed.
  Lemma vruns_app : forall h h' d, vruns E cf X (h ++ h') d = vruns E cf X h' (vruns E cf X h d).
  Proof. intros h h' d. unfold vruns. apply fold_left_app. Qed.
  Lemma telOf_app : forall h h', telOf (h ++ h') = telOf h ++ telOf h'.
  Proof. intros h h'. unfold telOf. apply flat_map_app. Qed.
  Lemma vruns_tel : forall h d, tel (vruns E cf X h d) = truns E cf (telOf h) (tel d).
  Proof.
    induction h as [|x h IH] using rev_ind; intros d; [reflexivity|]. rewrite vruns_app, telOf_app. unfold truns. rewrite fold_left_app. fold (truns E cf (telOf h) (tel d)). rewrite <- IH.
    cbn [vruns fold_left]. destruct x as [x|s|c a now|now]; cbn [vdo telOf flat_map app fold_left].
    - reflexivity.
    - reflexivity.
    - apply process_fr.
    - apply sweep_fr.
  Qed.
  Lemma vruns_schs : forall h s, schs (vruns E cf X h vdb0) s = true <-> In (VSchema s) h.
  Proof.
    induction h as [|x h IH] using rev_ind; intros s; [split; [discriminate|intros []]|]. rewrite vruns_app, in_app_iff. rewrite <- IH. cbn [vruns fold_left In].
    destruct x as [x|s'|c a now|now]; cbn [vdo].
    - split; [auto|]. intros [H|[H|[]]]; [exact H|discriminate].
    - cbn [schs set_schs]. unfold fset. destruct (s =? s') eqn:B.
      + apply N.eqb_eq in B. subst s'. split; auto.
      + split; [auto|]. intros [H|[H|[]]]; [exact H|]. injection H as ->. rewrite N.eqb_refl in B. discriminate.
    - rewrite (proj2 (process_fr c a now _)). split; [auto|]. intros [H|[H|[]]]; [exact H|discriminate].
    - rewrite (proj2 (sweep_fr now _)). split; [auto|]. intros [H|[H|[]]]; [exact H|discriminate].
  Qed.
End P.
