(** Lemmas about the Compactor and about aggregates. *)
From Verif Require Import Prelude B64Model B64Proofs MatterModel MatterProofs MatterInv MatterSpec MatterThms SubsModel VerModel ThModel JsonModel JsonProofs SerModel SerSpec SerProofs SerInv CpModel CpSpec CpProofs CpRoll.
Open Scope N_scope.
Ltac Zify.zify_post_hook ::= Z.div_mod_to_equations.
Notation val := JsonModel.val.

(** ** Texts of digests *)
Lemma codeOf_digest : forall digest code raw t, isDigestOf digest code raw t -> codeOf (Some (VStr t)) = Ok code.
Proof. intros digest code raw t (_ & E & _). unfold codeOf. rewrite E. reflexivity. Qed.
Lemma codeFor_digest : forall digest code raw t d, isDigestOf digest code raw t -> codeFor d (VStr t) = code.
Proof. intros. unfold codeFor. erewrite codeOf_digest by eassumption. reflexivity. Qed.
Lemma codeFor_idem : forall d x, codeFor (codeFor d x) x = codeFor d x.
Proof. intros d x. unfold codeFor. destruct (codeOf (Some x)); reflexivity. Qed.
Lemma codeFor_nil : forall d, codeFor d (VStr []) = d.
Proof. reflexivity. Qed.
Lemma digText_idem : forall t q, digText t = Ok q -> digText q = Ok q /\ exists m, exfil t = Ok m /\ exfil q = Ok m /\ infil m = Ok q /\ In (m_code m) DigDex.
Proof.
  intros t q H. unfold digText in *. destruct (exfil t) as [m|] eqn:E; cbn [bind] in H; [|discriminate]. destruct (memB (m_code m) DigDex) eqn:M; cbn [negb] in H; [|discriminate].
  destruct (exfil_inv _ _ E) as (sz & F). pose proof M as Mi. apply memB_In in Mi. destruct (dig_sizes _ Mi) as (sz' & S & Z & Fs & _ & _). rewrite (xf_sz _ _ _ F) in S. injection S as <-.
  assert (So : m_soft m = []). { pose proof (xf_soft _ _ _ F) as X. rewrite Z in X. destruct (m_soft m) as [|y s]; [reflexivity|]. unfold len in X. cbn [List.length] in X. lia. }
  assert (W : wf_matter m).
  { exists sz. split; [exact (xf_sz _ _ _ F)|]. split; [exact (xf_oct _ _ _ F)|]. split; [rewrite So; constructor|]. split; [exact (xf_soft _ _ _ F)|]. exact (xf_raw _ _ _ F). }
  destruct (wf_facts m W) as (sz2 & F2 & _). pose proof (exfil_text m sz2 [] F2) as X. rewrite app_nil_r in X. pose proof (infil_text m sz2 F2) as Y. rewrite Y in H. injection H as <-. rewrite X. cbn [bind]. rewrite M. cbn [negb].
  split; [exact Y|]. exists m. split; [reflexivity|]. split; [reflexivity|]. split; [exact Y|exact Mi].
Qed.
Lemma digText_digest : forall digest code raw t, isDigestOf digest code raw t -> digText t = Ok t.
Proof. intros digest code raw t (A & B & C). unfold digText. rewrite B. cbn [bind m_code]. apply memB_In in A. rewrite A. exact C. Qed.

Section M.
Variable digest : bytes -> bytes -> bytes.
Variable dumpm : bool -> list bytes -> sad -> res bytes.
Hypothesis Hd : digest_ok digest.
Variable L dflt : bytes.
Notation saids := [(L, dflt)].

(** ** Mapper *)
Lemma dset_dset : forall {V} (m : list (bytes * V)) k a b, dset (dset m k a) k b = dset m k b.
Proof. intros V m k a b. induction m as [|[p x] m IH]; cbn [dset]; [rewrite beq_refl; reflexivity|]. destruct (beq_spec k p) as [->|N]; cbn [dset]; [rewrite beq_refl; reflexivity|]. apply beq_neq in N. rewrite N, IH. reflexivity. Qed.
Lemma dset_same : forall {V} (m : list (bytes * V)) k a, dget m k = Some a -> dset m k a = m.
Proof. intros V m k a. induction m as [|[p x] m IH]; cbn [dset dget]; [discriminate|]. destruct (beq_spec k p) as [->|N]; [intros H; injection H as ->; reflexivity|]. intros H. rewrite IH by exact H. reflexivity. Qed.
Lemma hasKey_dset : forall m v, hasKey (dset m L v) L = true.
Proof. intros. apply hasKey_iff. rewrite dget_dset, beq_refl. eauto. Qed.
(** what makes a map with its said *)
Lemma make_inv : forall strict m m' s', dget m L <> None -> mapperMake digest dumpm strict saids m = Ok (m', s') ->
  exists x raw q, dget m L = Some x /\ dumpm strict [L] (dset m L (dummy (fullSize (codeFor dflt x)))) = Ok raw /\ isDigestOf digest (codeFor dflt x) raw q /\ len q = fullSize (codeFor dflt x) /\ plain q /\
    m' = dset m L (VStr q) /\ s' = [(L, codeFor dflt x)] /\ (exists r, dumpm strict [] m' = Ok r) /\ digerOf digest (codeFor dflt x) raw = Ok q.
Proof.
  intros strict m m' s' N H. unfold mapperMake in H. cbn [dummyMad keysOf map fst filter] in H. destruct (dget m L) as [x|] eqn:D; [|congruence].
  assert (K : hasKey m L = true) by (apply hasKey_iff; eauto). rewrite K in H. change (match codeOf (Some x) with Ok x0 => x0 | Err _ => dflt end) with (codeFor dflt x) in H.
  destruct (memB (codeFor dflt x) DigDex) eqn:M; cbn [negb bind] in H; [|discriminate]. destruct (dumpm strict [L] (dset m L (dummy (fullSize (codeFor dflt x))))) as [raw|] eqn:R; cbn [bind] in H; [|discriminate].
  cbn [fillMad bind] in H. rewrite K in H. destruct (digerOf digest (codeFor dflt x) raw) as [q|] eqn:Q; cbn [bind] in H; [|discriminate]. destruct (dumpm strict [] (dset m L (VStr q))) as [r|] eqn:Z; cbn [bind] in H; [|discriminate]. injection H as <- <-.
  exists x, raw, q. destruct (digerOf_inv _ _ _ _ Hd Q) as (A & B & C). apply memB_In in M. destruct (dig_sizes _ M) as (sz & S & _ & Fs & _). split; [reflexivity|]. split; [exact R|]. split; [exact A|]. split; [unfold fullSize; rewrite S, Fs; exact B|]. split; [exact C|]. split; [reflexivity|]. split; [reflexivity|]. split; [eauto|exact Q].
Qed.
Lemma make_verify : forall strict m m' s', dget m L <> None -> mapperMake digest dumpm strict saids m = Ok (m', s') -> mapperVerify digest dumpm strict saids m' = Ok tt /\ exists q, saidOf saids m' = VStr q /\ digText q = Ok q.
Proof.
  intros strict m m' s' N H. destruct (make_inv _ _ _ _ N H) as (x & raw & q & D & R & Q & Lq & _ & -> & -> & (r & Z) & Q2). split.
  - unfold mapperVerify. rewrite Z. cbn [bind dummyMad keysOf map fst filter]. rewrite dget_dset, beq_refl. rewrite (codeOf_digest _ _ _ _ Q). pose proof Q as (I1 & _). apply memB_In in I1. rewrite I1. cbn [negb bind].
    rewrite hasKey_dset, dset_dset, R. cbn [bind fillMad]. rewrite hasKey_dset, Q2. cbn [bind forallb]. rewrite dset_dset, dget_dset, beq_refl, beq_refl. reflexivity.
  - exists q. unfold saidOf. rewrite dget_dset, beq_refl. split; [reflexivity|]. eapply digText_digest. exact Q.
Qed.
Lemma verify_inv : forall strict m, dget m L <> None -> mapperVerify digest dumpm strict saids m = Ok tt ->
  exists q raw, dget m L = Some (VStr q) /\ dumpm strict [L] (dset m L (dummy (fullSize (codeFor dflt (VStr q))))) = Ok raw /\ isDigestOf digest (codeFor dflt (VStr q)) raw q.
Proof.
  intros strict m N H. unfold mapperVerify in H. destruct (dumpm strict [] m); cbn [bind] in H; [|discriminate]. cbn [dummyMad keysOf map fst filter] in H. destruct (dget m L) as [x|] eqn:D; [|congruence].
  assert (K : hasKey m L = true) by (apply hasKey_iff; eauto). rewrite K in H. change (match codeOf (Some x) with Ok x0 => x0 | Err _ => dflt end) with (codeFor dflt x) in H.
  destruct (memB (codeFor dflt x) DigDex) eqn:M; cbn [negb bind] in H; [|discriminate]. destruct (dumpm strict [L] (dset m L (dummy (fullSize (codeFor dflt x))))) as [raw|] eqn:R; cbn [bind] in H; [|discriminate].
  cbn [fillMad bind] in H. rewrite K in H. destruct (digerOf digest (codeFor dflt x) raw) as [q|] eqn:Q; cbn [bind forallb] in H; [|discriminate]. rewrite D, dget_dset, beq_refl in H. destruct x as [| | |t| |]; try discriminate.
  destruct (beq t q) eqn:E; [|discriminate]. apply beq_eq in E. subst t. exists q, raw. split; [reflexivity|]. split; [exact R|]. exact (proj1 (digerOf_inv _ _ _ _ Hd Q)).
Qed.

(** ** Compactor *)
(** the value of the said field at the top only matters for its code *)
Lemma roll_nomap : forall code v, isMap v = false -> roll digest dumpm L code v = Ok v.
Proof. intros code v H. destruct v; try reflexivity. discriminate. Qed.
Lemma rolls_dset : forall code m v w, isMap v = false -> isMap w = false -> rolls digest dumpm L code (dset m L v) = (r <- rolls digest dumpm L code (dset m L w) ;; Ok (dset r L v)).
Proof.
  intros code m v w Hv Hw. induction m as [|[l x] m IH]; cbn [dset].
  - cbn [CpSpec.rolls]. rewrite Hv, Hw, andb_false_r, !roll_nomap by assumption. cbn [bind dset]. rewrite beq_refl. reflexivity.
  - destruct (beq L l) eqn:E; cbn [CpSpec.rolls].
    + rewrite Hv, Hw, andb_false_r, !roll_nomap by assumption. cbn [bind]. destruct (rolls digest dumpm L code m); cbn [bind dset]; [rewrite beq_refl; reflexivity|reflexivity].
    + rewrite IH. destruct (beq l L && isMap x); [reflexivity|]. destruct (roll digest dumpm L code x); cbn [bind]; [|reflexivity]. destruct (rolls digest dumpm L code (dset m L w)); cbn [bind dset]; [rewrite E; reflexivity|reflexivity].
Qed.
Lemma saidText_dset : forall code m v w, codeFor code v = code -> codeFor code w = code -> saidText digest dumpm L code (dset m L v) = saidText digest dumpm L code (dset m L w).
Proof. intros code m v w A B. unfold saidText. rewrite !dget_dset, beq_refl, A, B, !dset_dset. destruct (negb (memB code DigDex)); [reflexivity|]. destruct (dumpm true [L] _); cbn [bind]; [|reflexivity]. destruct (digerOf digest code a); cbn [bind]; [|reflexivity]. rewrite !dset_dset. reflexivity. Qed.
Lemma rollTop_dset : forall code m v w, isMap v = false -> isMap w = false -> codeFor code v = code -> codeFor code w = code -> rollTop digest dumpm L code (dset m L v) = rollTop digest dumpm L code (dset m L w).
Proof.
  intros code m v w Hv Hw A B. unfold rollTop. rewrite (rolls_dset code m v w Hv Hw). destruct (rolls digest dumpm L code (dset m L w)) as [r|] eqn:R; cbn [bind]; [|reflexivity]. rewrite !dget_dset, beq_refl.
  assert (E : r = dset r L w). { pose proof (rolls_dset code m w w Hw Hw) as X. rewrite R in X. cbn [bind] in X. congruence. }
  rewrite (saidText_dset code r v w A B), <- E. destruct (saidText digest dumpm L code r); cbn [bind]; [rewrite dset_dset; reflexivity|reflexivity].
Qed.
Notation topCode := (topCode L dflt).
Lemma cs_dset : forall m v, saidCount L v = 0%nat -> (fold_right (fun kv n => (saidCount L (snd kv) + n)%nat) 0%nat (dset m L v) <= fold_right (fun kv n => (saidCount L (snd kv) + n)%nat) 0%nat m)%nat.
Proof. intros m v H. induction m as [|[l x] m IH]; cbn [dset fold_right snd]; [lia|]. destruct (beq L l); cbn [fold_right snd]; lia. Qed.
Lemma dot_dset : forall m q, dotless L (VMap m) -> dotless L (VMap (dset m L (VStr q))).
Proof.
  intros m q B. cbn [dotless] in *. induction m as [|[l x] m IH]; cbn [dset fold_right fst snd] in *; [split; [intros X; cbn in X; lia|split; exact Logic.I]|]. destruct (beq L l); cbn [fold_right fst snd]; [split; [intros X; cbn in X; lia|split; [exact Logic.I|tauto]]|split; [tauto|split; [tauto|apply IH; tauto]]].
Qed.
Lemma compactor_spec : forall n strict m, wfv (VMap m) -> dotless L (VMap m) -> dget m L <> None -> (saidCount L (VMap m) <= n)%nat ->
  match mapperMake digest dumpm strict saids m with
  | Err e => compactor digest dumpm n strict saids m = Some (Err e)
  | Ok _ => match rollTop digest dumpm L (topCode m) (dset m L (VStr [])) with
            | Ok m3 => compactor digest dumpm n strict saids m = Some (Ok (m3, [(L, topCode m)]))
            | Err _ => exists e, compactor digest dumpm n strict saids m = Some (Err e)
            end
  end.
Proof.
  intros n strict m W D N C. unfold compactor. destruct (mapperMake digest dumpm strict saids m) as [[m1 s1]|e] eqn:M; [|reflexivity].
  destruct (make_inv _ _ _ _ N M) as (x & raw & q & G & _ & Q & _ & _ & -> & -> & _). unfold CpSpec.topCode. rewrite G.
  assert (In L (keysOf m)) as K by (apply dget_keys; eauto).
  assert (C2 : (fold_right (fun kv n => (saidCount L (snd kv) + n)%nat) 0%nat (dset m L (VStr q)) < n)%nat).
  { rewrite saidCount_eq in C. replace (hasKey m L) with true in C by (symmetry; apply hasKey_iff; eauto). pose proof (cs_dset m (VStr q) eq_refl). lia. }
  pose proof (compact_roll digest dumpm L (codeFor dflt x) Hd n (dset m L (VStr q)) [] (wfv_dset m L (VStr q) W Logic.I K) (dot_dset m q D) (fun X => X) C2) as R.
  rewrite (rollTop_dset (codeFor dflt x) m (VStr q) (VStr [])) in R; [|reflexivity|reflexivity|eapply codeFor_digest; exact Q|reflexivity].
  destruct (rollTop digest dumpm L (codeFor dflt x) (dset m L (VStr []))) as [m3|].
  - destruct R as (lvs & ->). reflexivity.
  - destruct R as (e0 & ->). eauto.
Qed.
Lemma compactor_nosaid : forall n strict m, wfv (VMap m) -> dotless L (VMap m) -> dget m L = None -> (saidCount L (VMap m) < n)%nat ->
  match mapperMake digest dumpm strict saids m with
  | Err e => compactor digest dumpm n strict saids m = Some (Err e)
  | Ok _ => match rollTop digest dumpm L dflt m with
            | Ok m3 => compactor digest dumpm n strict saids m = Some (Ok (m3, saids))
            | Err _ => exists e, compactor digest dumpm n strict saids m = Some (Err e)
            end
  end.
Proof.
  intros n strict m W D N C. unfold compactor, mapperMake. cbn [dummyMad keysOf map fst filter]. rewrite N. assert (K : hasKey m L = false) by (apply hasKey_none; exact N). rewrite K. cbn [bind].
  destruct (dumpm strict [] m) as [r|] eqn:R; cbn [bind]; [|reflexivity]. cbn [fillMad]. rewrite K. cbn [bind]. rewrite R. cbn [bind].
  assert (C2 : (fold_right (fun kv n => (saidCount L (snd kv) + n)%nat) 0%nat m < n)%nat). { rewrite saidCount_eq, K in C. exact C. }
  pose proof (compact_roll digest dumpm L dflt Hd n m [] W D (fun X => X) C2) as X. destruct (rollTop digest dumpm L dflt m) as [m3|].
  - destruct X as (lvs & ->). reflexivity.
  - destruct X as (e0 & ->). eauto.
Qed.

(** ** Aggregates *)
Variable dumpl : list val -> res bytes.
Definition elemOk (e s : val) : Prop :=
  exists t, s = VStr t /\ digText t = Ok t /\ (e = VStr t \/ exists m, e = VMap m /\ mapperVerify digest dumpm true saids m = Ok tt /\ saidOf saids m = VStr t).
Lemma keyed_get : forall m : sad, In L (keysOf m) -> dget m L <> None.
Proof. intros m H. apply dget_keys in H. destruct H as (v & ->). discriminate. Qed.
Lemma aggMake_facts : forall l l' ss, saidedElems L l -> aggMake digest dumpm saids l = Ok (l', ss) -> Forall2 elemOk l' ss /\ List.length l' = List.length l.
Proof.
  induction l as [|e l IH]; intros l' ss S H; cbn [aggMake] in H; [injection H as <- <-; split; [constructor|reflexivity]|]. inversion S as [|? ? Se Sl]; subst.
  match type of H with (bind ?x _) = _ => destruct x as [[e' s]|] eqn:E; cbn [bind] in H; [|discriminate] end. destruct (aggMake digest dumpm saids l) as [[r' rs]|]; cbn [bind] in H; [|discriminate]. injection H as <- <-.
  destruct (IH _ _ Sl eq_refl) as [A B]. split; [|cbn [List.length]; congruence]. constructor; [|exact A]. destruct e as [| | |t| |m]; try discriminate.
  - destruct (digText t) as [q|] eqn:D; [|discriminate]. injection E as <- <-. exists q. split; [reflexivity|]. split; [exact (proj1 (digText_idem _ _ D))|left; reflexivity].
  - destruct (mapperMake digest dumpm true saids m) as [[m' s']|] eqn:M; [|discriminate]. injection E as <- <-. destruct (make_verify _ _ _ _ (keyed_get _ Se) M) as (V & q & Q & D). exists q. split; [exact Q|]. split; [exact D|]. right. exists m'. split; [reflexivity|]. split; assumption.
Qed.
Lemma aggCheck_ok : forall l ss, Forall2 elemOk l ss -> forall d, Forall2 (fun d es => d = fst es \/ d = snd es) d (combine l ss) -> aggCheck digest dumpm saids d = Ok ss.
Proof.
  intros l ss F. induction F as [|e s l ss (t & -> & D & E) F IH]; intros d G; cbn [combine] in G; inversion G as [|x ? d' ? Gx G']; subst; [reflexivity|]. cbn [aggCheck fst snd] in *. rewrite (IH _ G').
  assert (X : x = VStr t \/ exists m, x = VMap m /\ mapperVerify digest dumpm true saids m = Ok tt /\ saidOf saids m = VStr t) by (destruct Gx as [->| ->]; [exact E|left; reflexivity]).
  destruct X as [->|(m & -> & V & S)]; [rewrite D|rewrite V, S]; reflexivity.
Qed.
Lemma atoms_ok : forall l ss, Forall2 elemOk l ss -> atoms digest dumpm saids l = Ok (combine ss l).
Proof.
  intros l ss F. induction F as [|e s l ss (t & -> & D & E) F IH]; [reflexivity|]. cbn [atoms combine]. rewrite IH. destruct E as [->|(m & -> & V & S)]; [rewrite D|rewrite V, S]; reflexivity.
Qed.
Lemma elemSaid_ok : forall e s, elemOk e s -> elemSaid L e = Some s.
Proof.
  intros e s (t & -> & D & [->|(m & -> & V & S)]); [reflexivity|]. cbn [elemSaid]. unfold saidOf in S. destruct (dget m L); [congruence|discriminate].
Qed.
Lemma disclose_list : forall indices (l ss : list val) k, List.length l = List.length ss -> forall d,
  d = map (fun ia => if existsb (fun i => (i =? Z.of_nat (fst ia))%Z) indices then snd (snd ia) else fst (snd ia)) (combine (seq k (List.length (combine ss l))) (combine ss l)) ->
  Forall2 (fun d es => d = fst es \/ d = snd es) d (combine l ss) /\
  forall i e s, nth_error l i = Some e -> nth_error ss i = Some s -> nth_error d i = Some (if existsb (fun z => (z =? Z.of_nat (k + i))%Z) indices then e else s).
Proof.
  intros indices l. induction l as [|e l IH]; intros ss k E d ->; destruct ss as [|s ss]; try discriminate; cbn [combine seq List.length map].
  - split; [constructor|]. intros i e s H. destruct i; discriminate.
  - cbn [List.length] in E. injection E as E. destruct (IH ss (S k) E _ eq_refl) as [A B]. split.
    + constructor; [|exact A]. cbn [fst snd]. destruct (existsb _ indices); [left; reflexivity|right; reflexivity].
    + intros i e' s' H1 H2. destruct i as [|i]; cbn [nth_error] in *.
      * injection H1 as ->. injection H2 as ->. rewrite Nat.add_0_r. cbn [fst snd]. reflexivity.
      * rewrite (B _ _ _ H1 H2). rewrite <- plus_n_Sm. reflexivity.
Qed.
Lemma forall2_len : forall A B (R : A -> B -> Prop) a b, Forall2 R a b -> List.length a = List.length b.
Proof. intros A B R a b F. induction F; cbn [List.length]; congruence. Qed.
Lemma forall2_nth : forall A B (R : A -> B -> Prop) a b i x, Forall2 R a b -> nth_error a i = Some x -> exists y, nth_error b i = Some y /\ R x y.
Proof. intros A B R a b i x F. revert i. induction F as [|p q a b H F IH]; intros [|i] E; cbn [nth_error] in *; try discriminate; [injection E as <-; eauto|apply IH; exact E]. Qed.
Lemma disclosure : forall code l l', saidedElems L l -> l <> [] -> aggorMake digest dumpm dumpl code saids l = Ok l' -> forall indices,
  exists d, disclose digest dumpm saids l' indices = Ok d /\ discloses L l' indices d /\
    ((exists r, dumpl d = Ok r) -> aggorVerify digest dumpm dumpl code saids d = Ok tt /\ verifyDisclosure digest dumpm dumpl code saids d = Ok true).
Proof.
  intros code l l' S NE H indices. destruct l as [|h l]; [congruence|]. cbn [aggorMake] in H. destruct h as [| | |h| |]; try discriminate. inversion S as [|? ? _ Sl]; subst.
  destruct (aggMake digest dumpm saids l) as [[r' ss]|] eqn:M; cbn [bind] in H; [|discriminate]. destruct (dumpl (dummy (fullSize code) :: ss)) as [raw|] eqn:R; cbn [bind] in H; [|discriminate].
  destruct (digerOf digest code raw) as [q|] eqn:Q; cbn [bind] in H; [|discriminate]. destruct (dumpl (VStr q :: r')); cbn [bind] in H; [|discriminate]. injection H as <-.
  destruct (aggMake_facts _ _ _ Sl M) as [F _]. destruct (digerOf_inv _ _ _ _ Hd Q) as (Dq & _).
  assert (F' : Forall2 elemOk (VStr q :: r') (VStr q :: ss)). { constructor; [|exact F]. exists q. split; [reflexivity|]. split; [eapply digText_digest; exact Dq|left; reflexivity]. }
  unfold disclose. rewrite (atoms_ok _ _ F'). cbn [bind]. pose proof (forall2_len _ _ _ _ _ F') as Ln. destruct (disclose_list indices (VStr q :: r') (VStr q :: ss) 0 Ln _ eq_refl) as [A B]. set (d := map _ _) in *.
  exists d. split; [reflexivity|]. split.
  - split; [pose proof (forall2_len _ _ _ _ _ A) as X; rewrite combine_length, <- Ln, Nat.min_id in X; exact X|]. intros i e N1. destruct (forall2_nth _ _ _ _ _ _ _ F' N1) as (s & N2 & Es). rewrite (B _ _ _ N1 N2), (elemSaid_ok _ _ Es). cbn [Nat.add]. destruct (existsb _ indices); reflexivity.
  - intros (r & Z). cbn [combine] in A. clear B. clearbody d. inversion A as [|x ? d' ? Ax A']; subst. cbn [fst snd] in Ax. assert (x = VStr q) by (destruct Ax; assumption). subst x.
    assert (V : aggorVerify digest dumpm dumpl code saids (VStr q :: d') = Ok tt).
    { unfold aggorVerify. rewrite Z. cbn [bind]. rewrite (aggCheck_ok _ _ F _ A'). cbn [bind]. rewrite R. cbn [bind]. rewrite Q. cbn [bind]. rewrite beq_refl. reflexivity. }
    split; [exact V|]. unfold verifyDisclosure. rewrite V. reflexivity.
Qed.

(** ** Aggregates commit to their elements *)
Hypothesis Hi : injDump dumpm.
Hypothesis Hl : injDumpl dumpl.
Lemma aggCheck_facts : forall l ss, saidedElems L l -> aggCheck digest dumpm saids l = Ok ss ->
  Forall2 (fun e s => exists q, s = VStr q /\ digText q = Ok q /\
     match e with
     | VStr t => digText t = Ok q
     | VMap m => mapperVerify digest dumpm true saids m = Ok tt /\ dget m L = Some (VStr q)
     | _ => False end) l ss.
Proof.
  induction l as [|e l IH]; intros ss S H; cbn [aggCheck] in H; [injection H as <-; constructor|]. inversion S as [|? ? Se Sl]; subst.
  match type of H with (bind ?x _) = _ => destruct x as [s|] eqn:E; cbn [bind] in H; [|discriminate] end. destruct (aggCheck digest dumpm saids l) as [rs|]; cbn [bind] in H; [|discriminate]. injection H as <-. constructor; [|apply IH; [exact Sl|reflexivity]].
  destruct e as [| | |t| |m]; try discriminate.
  - destruct (digText t) as [q|] eqn:D; [|discriminate]. injection E as <-. exists q. split; [reflexivity|]. split; [exact (proj1 (digText_idem _ _ D))|reflexivity].
  - destruct (mapperVerify digest dumpm true saids m) as [[]|] eqn:V; [|discriminate]. injection E as <-. destruct (verify_inv _ _ (keyed_get _ Se) V) as (q & raw & G & _ & Dq). unfold saidOf. rewrite G. exists q. split; [reflexivity|]. split; [eapply digText_digest; exact Dq|]. split; reflexivity.
Qed.
Lemma mapper_inj : forall a b q, mapperVerify digest dumpm true saids a = Ok tt -> mapperVerify digest dumpm true saids b = Ok tt -> dget a L = Some (VStr q) -> dget b L = Some (VStr q) -> a = b \/ collision digest.
Proof.
  intros a b q A B Ga Gb. destruct (verify_inv true a) as (qa & ra & E1 & Da & (I1 & Xa & _)); [congruence|exact A|]. destruct (verify_inv true b) as (qb & rb & E2 & Db & (_ & Xb & _)); [congruence|exact B|].
  rewrite Ga in E1. injection E1 as <-. rewrite Gb in E2. injection E2 as <-. rewrite Xa in Xb. injection Xb as Ed. destruct (list_eq_dec N.eq_dec ra rb) as [->|N].
  - left. pose proof (Hi _ _ _ _ _ Da Db) as E. rewrite <- (dset_same a L (VStr q) Ga), <- (dset_same b L (VStr q) Gb). rewrite <- (dset_dset a L (dummy (fullSize (codeFor dflt (VStr q)))) (VStr q)), E, dset_dset. reflexivity.
  - right. exists (codeFor dflt (VStr q)), ra, rb. split; [exact I1|]. split; assumption.
Qed.
Lemma agg_binding : forall code a l1 l2, saidedElems L l1 -> saidedElems L l2 ->
  aggorVerify digest dumpm dumpl code saids (VStr a :: l1) = Ok tt -> aggorVerify digest dumpm dumpl code saids (VStr a :: l2) = Ok tt -> Forall2 (sameElem L) l1 l2 \/ collision digest.
Proof.
  assert (X : forall code a l, saidedElems L l -> aggorVerify digest dumpm dumpl code saids (VStr a :: l) = Ok tt -> exists ss raw, aggCheck digest dumpm saids l = Ok ss /\ dumpl (dummy (fullSize code) :: ss) = Ok raw /\ isDigestOf digest code raw a).
  { intros code a l S H. unfold aggorVerify in H. destruct (dumpl (VStr a :: l)); cbn [bind] in H; [|discriminate]. destruct (aggCheck digest dumpm saids l) as [ss|]; cbn [bind] in H; [|discriminate]. destruct (dumpl (dummy (fullSize code) :: ss)) as [raw|] eqn:R; cbn [bind] in H; [|discriminate].
    destruct (digerOf digest code raw) as [q|] eqn:Q; cbn [bind] in H; [|discriminate]. destruct (beq a q) eqn:E; [|discriminate]. apply beq_eq in E. subst q. exists ss, raw. split; [reflexivity|]. split; [exact R|]. exact (proj1 (digerOf_inv _ _ _ _ Hd Q)). }
  intros code a l1 l2 S1 S2 V1 V2. destruct (X _ _ _ S1 V1) as (s1 & r1 & C1 & R1 & (I1 & E1 & _)). destruct (X _ _ _ S2 V2) as (s2 & r2 & C2 & R2 & (_ & E2 & _)). rewrite E1 in E2. injection E2 as Ed.
  destruct (list_eq_dec N.eq_dec r1 r2) as [->|N]; [|right; exists code, r1, r2; split; [exact I1|]; split; assumption].
  pose proof (aggCheck_facts _ _ S1 C1) as F1. pose proof (aggCheck_facts _ _ S2 C2) as F2.
  assert (G : forall l ss, Forall2 (fun e s => exists q, s = VStr q /\ digText q = Ok q /\ match e with VStr t => digText t = Ok q | VMap m => mapperVerify digest dumpm true saids m = Ok tt /\ dget m L = Some (VStr q) | _ => False end) l ss -> Forall (fun v => v = VNull \/ digElem v) ss).
  { intros l ss F. induction F as [|e s l ss (q & A & B & _) F IH]; constructor; [right; exists q; split; assumption|assumption]. }
  pose proof (Hl _ _ _ _ (G _ _ F1) (G _ _ F2) R1 R2) as <-. clear -F1 F2 Hi Hd. revert l2 F2. induction F1 as [|e s l1 ss (q & -> & Dq & E) F1 IH]; intros l2 F2; inversion F2 as [|e2 ? l2' ? (q' & Eq & Dq' & E') F2']; subst; [left; constructor|].
  injection Eq as <-. destruct (IH _ F2') as [A|A]; [|right; exact A].
  destruct e as [| | |t| |m]; try (destruct E; fail); destruct e2 as [| | |t'| |m']; try (destruct E'; fail).
  - left. constructor; [exists q; split; assumption|exact A].
  - destruct E' as [_ E']. left. constructor; [exists q; split; assumption|exact A].
  - destruct E as [_ E]. left. constructor; [exists q; split; assumption|exact A].
  - destruct E as [V E]. destruct E' as [V' E']. destruct (mapper_inj _ _ _ V V' E E') as [->|C]; [left; constructor; [reflexivity|exact A]|right; exact C].
Qed.
End M.
