From Verif Require Import Prelude B64Model SubsModel ThModel JsonModel JsonProofs Lex RpModel RpProofs ExModel ExSpec.
Open Scope N_scope.
Ltac Zify.zify_post_hook ::= Z.div_mod_to_equations.

Section P.
Variable e : xenv.
Variable routes : bytes -> option behavior.

Lemma satisfied_signed kv x g : g_pre g = x_sender x -> satisfied e kv (x_raw x) g = Ok true -> senderSigned e kv x.
Proof.
  intros EP H. unfold satisfied, resolve in H. rewrite EP in H. destruct (xtrans e (x_sender x)) eqn:T.
  - destruct (xat kv (x_sender x) (g_sn g)) as [ev|] eqn:X; [|discriminate]. destruct (beq_spec (xe_said ev) (g_dig g)) as [ED|]; [|discriminate]. cbn [negb bind] in H.
    destruct (xe_keys ev) as [ks|] eqn:K; [|discriminate]. destruct (xe_th ev) as [th|] eqn:TH; [|discriminate]. injection H as H.
    left. split; [exact T|]. exists (g_sn g), (g_dig g), (fst (verifySigs bytes (xvrfy e) (x_raw x) (g_sigs g) ks)). exists ev, ks, th.
    split; [exact X|]. split; [exact ED|]. split; [exact K|]. split; [exact TH|]. cbn [fst verifySigs].
    split; [|split; [|exact H]].
    + pose proof (dedupB_NoDup (g_sigs g) []) as ND. revert ND. generalize (dedupB [] (g_sigs g)). clear. intros l. induction l as [|s l IH]; intros ND; [constructor|]. cbn. inversion ND; subst. destruct (match nth_error _ _ with Some _ => _ | None => _ end); [|auto]. cbn. constructor; [|auto]. intros I. apply H1. clear - I. induction l as [|a l IH]; [destruct I|]. cbn in I. destruct (match nth_error _ _ with Some _ => _ | None => _ end); cbn in *; tauto.
    + intros s I. apply filter_In in I. destruct I as (_ & I). destruct (nth_error ks (N.to_nat (sg_index s))) as [k|]; [|discriminate]. eauto.
  - cbn [bind] in H. injection H as H. right. unfold satisfy_numeric in H. cbn in H.
    set (l := filter _ _) in H. assert (L : l <> []) by (intros E0; rewrite E0 in H; discriminate). destruct l as [|s l'] eqn:EL; [congruence|].
    assert (I : In s l) by (rewrite EL; left; reflexivity). unfold l in I. apply filter_In in I. destruct I as (_ & I). destruct (N.to_nat (sg_index s)) as [|n]; [|cbn in I; destruct n; discriminate]. cbn in I. eauto.
Qed.
Lemma check_signed kv x gs : gs <> [] -> checkGroups e kv x gs = GOk -> senderSigned e kv x.
Proof.
  destruct gs as [|g gs]; [congruence|]. intros _ H. cbn [checkGroups] in H. destruct (beq_spec (x_sender x) (g_pre g)) as [EP|]; [|discriminate]. cbn [negb] in H. destruct (ahead kv g); [discriminate|].
  destruct (satisfied e kv (x_raw x) g) as [[|]|] eqn:S1; try discriminate. eapply satisfied_signed; eauto.
Qed.

(** what an accepted message has gone through *)
Definition passed (kv : xview) (x : xmsg) (kw : xkwa) (d : xdb) : Prop :=
  senderSigned e kv x /\ essrOk e x kw /\ agreed routes x kw /\
  (routes (x_route x) = Some Ipex -> ipexVerify e kv x kw d = BTrue \/ ipexVerify e kv x kw d = BNone).

(** the outcome of processEvent: nothing, waiting, or saved and handled *)
Definition handleOf (x : xmsg) (kw : xkwa) : res unit :=
  match routes (x_route x) with
  | None => Ok tt
  | Some b => match (match b with Ipex => match kw_nests kw, kw_essr kw with None, None => xnotify e x | _, _ => BRaise TypeError end | Other _ h => h x kw end) with
              | BRaise ex => Err ex | _ => Ok tt end
  end.
Inductive outcome (kv : xview) (now : N) (x : xmsg) (gs : list group) (cs : list cigar) (ptds es nests : list bytes) (d : xdb) : xdb * res unit -> Prop :=
| o_none : forall r, outcome kv now x gs cs ptds es nests d (d, r)
| o_wait : forall q gs', (q = qcues d \/ exists c, q = c :: qcues d) -> (gs' = gs \/ gs' = []) ->
    outcome kv now x gs cs ptds es nests d (setQcues (fst (escrowPS now x gs' ptds nests d)) q, Err MissingSignatureError)
| o_saved : forall kw, passed kv x kw d -> kwargs e x ptds es nests = Ok kw -> (gs <> [] \/ cs <> []) ->
    outcome kv now x gs cs ptds es nests d
      (let d' := setScues (logEvent x ptds gs cs es nests d) (x_said x :: scues (logEvent x ptds gs cs es nests d)) in
       match routes (x_route x) with None => d' | Some _ => setCalls d' ((x, kw) :: calls d') end, handleOf x kw).

Lemma kwargs_essr x ptds es nests kw : kwargs e x ptds es nests = Ok kw -> essrOk e x kw.
Proof.
  unfold kwargs, essrOk. destruct (paths e ptds); [|discriminate]. cbn [bind]. destruct (x_essr x) as [dig|]; [|auto].
  set (o := match es with [] => None | _ => _ end). destruct o as [ser|]; [|discriminate]. destruct (xdig e dig ser) as [[|]|] eqn:Q; try discriminate. cbn [bind negb]. intros H. injection H as <-. exists ser. auto.
Qed.
Lemma conclude_outcome kv now x gs cs ptds es nests kw d : (gs <> [] \/ cs <> []) -> senderSigned e kv x -> kwargs e x ptds es nests = Ok kw ->
  outcome kv now x gs cs ptds es nests d (conclude e routes kv x gs cs ptds es nests kw d).
Proof.
  intros NE0 SS KW. unfold conclude. set (v := match routes (x_route x) with None => _ | Some _ => _ end).
  assert (A : v = BTrue \/ v = BNone -> passed kv x kw d).
  { intros V. split; [exact SS|]. split; [eapply kwargs_essr; eauto|]. unfold agreed. subst v. destruct (routes (x_route x)) as [[|f h]|]; split; auto; try discriminate. }
  destruct v eqn:EV; [|apply o_none| |apply o_none].
  - specialize (A (or_introl eq_refl)).
    assert (X := o_saved kv now x gs cs ptds es nests d kw). unfold handleOf in X. cbv zeta in X. cbv zeta. destruct (routes (x_route x)) as [b|]; [|apply X; auto]. clear EV. revert X. destruct b as [|f h]; [destruct (kw_nests kw); [|destruct (kw_essr kw); [|destruct (xnotify e x)]]|destruct (h x kw)]; intros X; apply X; auto.
  - specialize (A (or_intror eq_refl)).
    assert (X := o_saved kv now x gs cs ptds es nests d kw). unfold handleOf in X. cbv zeta in X. cbv zeta. destruct (routes (x_route x)) as [b|]; [|apply X; auto]. clear EV. revert X. destruct b as [|f h]; [destruct (kw_nests kw); [|destruct (kw_essr kw); [|destruct (xnotify e x)]]|destruct (h x kw)]; intros X; apply X; auto.
Qed.
Lemma process_outcome kv now x gs cs ptds es nests d : outcome kv now x gs cs ptds es nests d (processEvent e routes kv now x gs cs ptds es nests d).
Proof.
  unfold processEvent. destruct gs as [|g gs].
  - destruct cs as [|c cs].
    + replace (fst (escrowPS now x [] ptds nests d)) with (setQcues (fst (escrowPS now x [] ptds nests d)) (qcues d)) by reflexivity. apply o_wait; auto.
    + destruct (forallb (cigOk e x) (c :: cs)) eqn:F; [|apply o_none]. destruct (kwargs e x ptds es nests) as [kw|] eqn:K; [|apply o_none].
      apply conclude_outcome; [right; discriminate| |exact K]. apply andb_true_iff in F. destruct F as (F & _). unfold cigOk in F. apply andb_true_iff in F. destruct F as (E1 & V). apply beq_eq in E1. right. rewrite E1. eauto.
  - destruct (checkGroups e kv x (g :: gs)) as [|ex|pre sn] eqn:C.
    + destruct (kwargs e x ptds es nests) as [kw|] eqn:K; [|apply o_none]. apply conclude_outcome; [left; discriminate| |exact K]. eapply check_signed; [|exact C]. discriminate.
    + apply o_none.
    + destruct (escrowPS now x (g :: gs) ptds nests d) as [d' new] eqn:EE. assert (ED : d' = fst (escrowPS now x (g :: gs) ptds nests d)) by (rewrite EE; reflexivity). rewrite ED.
      destruct new.
      * apply o_wait; [|auto]. right. eexists. reflexivity.
      * replace (fst (escrowPS now x (g :: gs) ptds nests d)) with (setQcues (fst (escrowPS now x (g :: gs) ptds nests d)) (qcues d)) by reflexivity. apply o_wait; auto.
Qed.

(** the fields of the states involved *)
Lemma log_exns x ptds gs cs es nests d : exns (logEvent x ptds gs cs es nests d) = dput (exns d) (x_said x) x.
Proof. unfold logEvent. destruct (x_prior x); reflexivity. Qed.
Lemma log_epse x ptds gs cs es nests d : epse (logEvent x ptds gs cs es nests d) = epse d /\ epsd (logEvent x ptds gs cs es nests d) = epsd d /\ calls (logEvent x ptds gs cs es nests d) = calls d /\ scues (logEvent x ptds gs cs es nests d) = scues d.
Proof. unfold logEvent. destruct (x_prior x); cbn; auto. Qed.
Lemma log_erpy x ptds gs cs es nests d : erpy (logEvent x ptds gs cs es nests d) = match x_prior x with [] => erpy d | p => dset (erpy d) p (x_said x) end.
Proof. unfold logEvent. destruct (x_prior x); reflexivity. Qed.
Lemma dget_dput {V} (m : list (bytes * V)) k v k' : dget (dput m k v) k' = match dget m k' with Some u => Some u | None => if beq k' k then Some v else None end.
Proof.
  unfold dput. destruct (dget m k) eqn:G.
  - destruct (dget m k') eqn:G'; [reflexivity|]. destruct (beq_spec k' k) as [->|]; [congruence|reflexivity].
  - rewrite dget_dset. destruct (beq_spec k' k) as [->|]; [rewrite G; reflexivity|destruct (dget m k'); reflexivity].
Qed.

(** ** what every action keeps *)
(** a visit is a delivery of the entry with what is stored, then possibly the removal of the entry *)
Lemma visit_cases kv now s d d' : sweep1 e routes kv now s d = d' -> d' = d \/ d' = unescrow s d \/
  exists x, dget (epse d) s = Some x /\
    let r := processEvent e routes kv now x (storedGroups s d) [] (vget (epath d) s) (vget (essrs d) s) (vget (enst d) s) d in
    (snd r = Err MissingSignatureError /\ d' = fst r) \/ (snd r <> Err MissingSignatureError /\ d' = unescrow s (fst r)).
Proof.
  unfold sweep1. destruct (dget (epse d) s) as [x|]; [|auto]. destruct (dget (epsd d) s) as [dt|]; [|auto]. destruct (TimeoutPSE <? now - dt); [auto|].
  intros <-. right. right. exists x. split; [reflexivity|]. destruct (processEvent e routes kv now x _ [] _ _ _ d) as [d1 [[]|ex]]; cbn; [right; split; [discriminate|reflexivity]|].
  destruct ex; cbn; try (right; split; [discriminate|reflexivity]). left. auto.
Qed.

(** escrowed and saved messages are filed under their own said and were delivered; saved and handled ones
    have passed *)
Definition evidence (l : list xact) (x : xmsg) (kw : xkwa) : Prop := exists a d, In a l /\ passed (xviewOf a) x kw d.
Definition inv1 (l : list xact) (d : xdb) : Prop :=
  (forall s x, dget (epse d) s = Some x -> x_said x = s /\ delivered l x) /\
  (forall s x, dget (exns d) s = Some x -> x_said x = s /\ delivered l x /\ exists kw, evidence l x kw) /\
  (forall x kw, In (x, kw) (calls d) -> delivered l x /\ evidence l x kw) /\
  (forall s, In s (scues d) -> exists x, x_said x = s /\ delivered l x /\ exists kw, evidence l x kw).
Lemma delivered_more l x a : delivered l x -> delivered (a :: l) x.
Proof. intros (kv & now & gs & cs & p & es & n & I). exists kv, now, gs, cs, p, es, n. right. exact I. Qed.
Lemma evidence_more l x kw a : evidence l x kw -> evidence (a :: l) x kw.
Proof. intros (a' & d & I & P). exists a', d. split; [right; exact I|exact P]. Qed.
Lemma inv1_more l d a : inv1 l d -> inv1 (a :: l) d.
Proof.
  intros (A & B & C & D). split; [|split; [|split]].
  - intros s x G. destruct (A s x G). split; [assumption|apply delivered_more; assumption].
  - intros s x G. destruct (B s x G) as (? & ? & kw & ?). split; [assumption|]. split; [apply delivered_more; assumption|]. exists kw. apply evidence_more. assumption.
  - intros x kw I. destruct (C x kw I). split; [apply delivered_more|apply evidence_more]; assumption.
  - intros s I. destruct (D s I) as (x & ? & ? & kw & ?). exists x. split; [assumption|]. split; [apply delivered_more; assumption|]. exists kw. apply evidence_more. assumption.
Qed.
Lemma dget_drem {V} (m : list (bytes * V)) k k' v : dget (drem m k) k' = Some v -> dget m k' = Some v /\ k' <> k.
Proof.
  unfold drem. induction m as [|[a b] m IH]; [discriminate|]. cbn [filter fst]. destruct (beq_spec a k) as [->|N]; cbn [negb].
  - intros H. destruct (IH H) as (A & B). cbn [dget]. destruct (beq_spec k' k); [congruence|auto].
  - cbn [dget]. destruct (beq_spec k' a) as [->|]; [intros H; auto|exact IH].
Qed.
Lemma inv1_unescrow l d s : inv1 l d -> inv1 l (unescrow s d).
Proof.
  intros (A & B & C & D). unfold unescrow. destruct (dget (exns d) s) as [y|]; cbn; (split; [intros s' x G; cbn in G; apply dget_drem in G; apply A; tauto|split; [exact B|split; [exact C|exact D]]]).
Qed.
Lemma inv1_process l d a kv now x gs cs ptds es nests : inv1 l d -> In a l -> kv = xviewOf a -> delivered l x ->
  inv1 l (fst (processEvent e routes kv now x gs cs ptds es nests d)).
Proof.
  intros I IA EV DX. destruct (process_outcome kv now x gs cs ptds es nests d) as [r|q gs' Q GG|kw P KW NE0].
  - exact I.
  - destruct I as (A & B & C & D). cbn [fst]. split; [|split; [|split]]; cbn; [|exact B|exact C|exact D].
    intros s y G. rewrite dget_dput in G. destruct (dget (epse d) s) as [u|] eqn:Gd; [injection G as <-; apply A; exact Gd|]. destruct (beq_spec s (x_said x)) as [->|]; [|discriminate]. injection G as <-. auto.
  - destruct I as (A & B & C & D). cbn [fst]. assert (EVD : evidence l x kw) by (exists a, d; subst kv; auto).
    destruct (log_epse x ptds gs cs es nests d) as (L1 & L2 & L3 & L4).
    assert (W : inv1 l (setScues (logEvent x ptds gs cs es nests d) (x_said x :: scues (logEvent x ptds gs cs es nests d)))).
    { split; [|split; [|split]]; cbn [epse exns calls scues setScues].
      - rewrite L1. exact A.
      - intros s y G. rewrite log_exns, dget_dput in G. destruct (dget (exns d) s) as [u|] eqn:Gd; [injection G as <-; apply B; exact Gd|]. destruct (beq_spec s (x_said x)) as [->|]; [|discriminate]. injection G as <-. split; [reflexivity|]. split; [exact DX|]. exists kw. exact EVD.
      - rewrite L3. exact C.
      - rewrite L4. intros s [<-|I]; [|apply D; exact I]. exists x. split; [reflexivity|]. split; [exact DX|]. exists kw. exact EVD. }
    cbv zeta. destruct (routes (x_route x)); [|exact W]. destruct W as (A' & B' & C' & D'). split; [exact A'|]. split; [exact B'|]. split; [|exact D'].
    cbn [calls setCalls]. intros y kw' [E2|I2]; [injection E2 as <- <-; auto|apply C'; exact I2].
Qed.
Lemma inv1_hist l d : xhist e routes l d -> inv1 l d.
Proof.
  induction 1 as [|l d a H IH].
  - split; [|split; [|split]]; cbn; [discriminate|discriminate|intros x kw []|intros s []].
  - apply (inv1_more l d a) in IH. destruct a as [kv now x gs cs ptds es nests|kv now s]; cbn [xrun].
    + eapply inv1_process with (a := Deliver kv now x gs cs ptds es nests); [exact IH|left; reflexivity|reflexivity|]. exists kv, now, gs, cs, ptds, es, nests. left. reflexivity.
    + destruct (visit_cases kv now s d _ eq_refl) as [-> |[-> |(x & G & [(_ & ->)|(_ & ->)])]]; [exact IH|apply inv1_unescrow; exact IH| |].
      * eapply inv1_process with (a := Visit kv now s); [exact IH|left; reflexivity|reflexivity|]. destruct IH as (A & _). apply (A s x G).
      * apply inv1_unescrow. eapply inv1_process with (a := Visit kv now s); [exact IH|left; reflexivity|reflexivity|]. destruct IH as (A & _). apply (A s x G).
Qed.

(** saved messages stay *)
Lemma unescrow_exns s d : exns (unescrow s d) = exns d /\ erpy (unescrow s d) = erpy d /\ calls (unescrow s d) = calls d /\ esigs (unescrow s d) = esigs d /\ ecigs (unescrow s d) = ecigs d.
Proof. unfold unescrow. destruct (dget (exns d) s); cbn; auto. Qed.
Lemma process_exns kv now x gs cs ptds es nests d s y : dget (exns d) s = Some y -> dget (exns (fst (processEvent e routes kv now x gs cs ptds es nests d))) s = Some y.
Proof.
  intros G. destruct (process_outcome kv now x gs cs ptds es nests d) as [r|q gs' Q GG|kw P KW NE0]; [exact G|exact G|]. cbn [fst]. cbv zeta. destruct (routes (x_route x)); cbn [exns setScues setCalls]; rewrite log_exns, dget_dput, G; reflexivity.
Qed.
Lemma run_exns a d s y : dget (exns d) s = Some y -> dget (exns (xrun e routes a d)) s = Some y.
Proof.
  intros G. destruct a as [kv now x gs cs ptds es nests|kv now s']; cbn [xrun]; [apply process_exns; exact G|].
  destruct (visit_cases kv now s' d _ eq_refl) as [-> |[-> |(x & Gx & [(_ & ->)|(_ & ->)])]]; [exact G|rewrite (proj1 (unescrow_exns _ _)); exact G|apply process_exns; exact G|rewrite (proj1 (unescrow_exns _ _)); apply process_exns; exact G].
Qed.

(** ** how often messages are handled *)
Definition waiting (s : bytes) (d : xdb) : nat := match dget (epse d) s with Some _ => 1 | None => 0 end.
Definition inv2 (l : list xact) (d : xdb) : Prop := forall s, (handled s d + waiting s d <= deliveries s l)%nat.
Lemma drem_get {V} (m : list (bytes * V)) k : dget (drem m k) k = None.
Proof. destruct (dget (drem m k) k) eqn:G; [|reflexivity]. apply dget_drem in G. destruct G; congruence. Qed.
Lemma drem_other {V} (m : list (bytes * V)) k k' : k' <> k -> dget (drem m k) k' = dget m k'.
Proof.
  intros NE. unfold drem. induction m as [|[a b] m IH]; [reflexivity|]. cbn [filter fst]. destruct (beq_spec a k) as [->|N]; cbn [negb dget].
  - destruct (beq_spec k' k); [congruence|exact IH].
  - destruct (beq k' a); [reflexivity|exact IH].
Qed.
Lemma process_count kv now x gs cs ptds es nests d s : let d' := fst (processEvent e routes kv now x gs cs ptds es nests d) in
  (handled s d' + waiting s d' <= handled s d + waiting s d + (if beq (x_said x) s then 1 else 0) /\ handled s d' <= handled s d + (if beq (x_said x) s then 1 else 0) /\
   (dget (epse d) (x_said x) <> None -> waiting s d' = waiting s d) /\
   (snd (processEvent e routes kv now x gs cs ptds es nests d) = Err MissingSignatureError -> dget (epse d) (x_said x) <> None -> handled s d' = handled s d \/ exists kw, handleOf x kw = Err MissingSignatureError))%nat.
Proof.
  cbv zeta. destruct (process_outcome kv now x gs cs ptds es nests d) as [r|q gs' Q GG|kw P KW NE0].
  - cbn [fst]. split; [lia|]. split; [lia|]. auto.
  - cbn [fst snd]. unfold handled, waiting. cbn. rewrite dget_dput. destruct (dget (epse d) s) as [u|] eqn:G.
    + split; [lia|]. split; [lia|]. auto.
    + destruct (beq_spec s (x_said x)) as [->|NE].
      * rewrite beq_refl. split; [lia|]. split; [lia|]. split; [congruence|]. auto.
      * split; [lia|]. split; [lia|]. auto.
  - cbn [fst snd]. destruct (log_epse x ptds gs cs es nests d) as (L1 & L2 & L3 & L4).
    cbv zeta. set (d1 := setScues _ _). set (d2 := match routes (x_route x) with None => _ | Some _ => _ end).
    assert (W : waiting s d2 = waiting s d) by (unfold waiting, d2, d1; destruct (routes (x_route x)); cbn [epse setCalls setScues]; rewrite L1; reflexivity).
    assert (HH : (handled s d2 <= handled s d + (if beq (x_said x) s then 1 else 0))%nat).
    { unfold handled, d2, d1. destruct (routes (x_route x)); cbn [calls setCalls setScues]; rewrite L3; [|lia]. cbn [filter fst]. destruct (beq (x_said x) s); cbn [List.length]; lia. }
    clearbody d2. rewrite W. split; [lia|]. split; [exact HH|]. split; [reflexivity|]. intros EM _. right. exists kw. exact EM.
Qed.
Lemma unescrow_count s s' d : (handled s' (unescrow s d) = handled s' d /\ waiting s' (unescrow s d) = if beq s' s then 0 else waiting s' d)%nat.
Proof.
  split; [unfold handled; destruct (unescrow_exns s d) as (_ & _ & -> & _); reflexivity|].
  unfold waiting, unescrow. destruct (dget (exns d) s); cbn [epse setEpsd setEpse setEnst setEpath]; (destruct (beq_spec s' s) as [->|NE]; [rewrite drem_get; reflexivity|rewrite (drem_other _ _ _ NE); reflexivity]).
Qed.
(** behaviors whose handling does not fail with a missing signature *)
Lemma inv2_hist : (forall x kw, handleOf x kw <> Err MissingSignatureError) -> forall l d, xhist e routes l d -> inv2 l d.
Proof.
  intros HM l d H. induction H as [|l d a H IH]; [intros s; cbn; lia|]. intros s. specialize (IH s).
  pose proof (inv1_hist _ _ H) as (IE & _).
  destruct a as [kv now x gs cs ptds es nests|kv now s']; cbn [xrun deliveries].
  - destruct (process_count kv now x gs cs ptds es nests d s) as (A & _). lia.
  - destruct (visit_cases kv now s' d _ eq_refl) as [-> |[-> |(x & G & [(EM & ->)|(EM & ->)])]]; [exact IH| | |].
    + destruct (unescrow_count s' s d) as (-> & ->). destruct (beq s s'); lia.
    + destruct (process_count kv now x (storedGroups s' d) [] (vget (epath d) s') (vget (essrs d) s') (vget (enst d) s') d s) as (_ & _ & B & C). destruct (IE _ _ G) as (ES & _). rewrite ES in B, C.
      rewrite B by congruence. destruct (C EM ltac:(congruence)) as [->|(kw & K)]; [exact IH|]. destruct (HM _ _ K).
    + destruct (process_count kv now x (storedGroups s' d) [] (vget (epath d) s') (vget (essrs d) s') (vget (enst d) s') d s) as (_ & A & B & C). destruct (IE _ _ G) as (ES & _). rewrite ES in A, B.
      destruct (unescrow_count s' s (fst (processEvent e routes kv now x (storedGroups s' d) [] (vget (epath d) s') (vget (essrs d) s') (vget (enst d) s') d))) as (-> & ->).
      destruct (beq_spec s s') as [->|NE].
      * rewrite beq_refl in A. unfold waiting in IH. rewrite G in IH. lia.
      * destruct (beq_spec s' s); [congruence|]. rewrite B by congruence. lia.
Qed.

(** ** IPEX *)
Lemma tput_full l t y : In y (tput l t) -> (forall z, In z l -> t_sigs z <> []) -> t_sigs y <> [].
Proof.
  intros I F. destruct t as [ts tp tn td sg]. revert I. induction l as [|z l IH]; cbn [tput t_sigs].
  - destruct sg as [|a sg]; [intros []|]. intros [<-|[]]. cbn [t_sigs]. intros E0. pose proof (addSigs_text (a :: sg) [] a (or_introl eq_refl)) as X. rewrite E0 in X. destruct X.
  - destruct sg as [|a sg]; [intros I; apply F; exact I|]. destruct (sameT z _) eqn:SZ.
    + intros [<-|I]; [|apply F; right; exact I]. cbn [t_sigs]. intros E0. pose proof (addSigs_text (a :: sg) (t_sigs z) a (or_introl eq_refl)) as X. rewrite E0 in X. destruct X.
    + destruct (bltb _ _).
      * intros [<-|I]; [|apply F; exact I]. cbn [t_sigs]. intros E0. pose proof (addSigs_text (a :: sg) [] a (or_introl eq_refl)) as X. rewrite E0 in X. destruct X.
      * intros [<-|I]; [apply F; left; reflexivity|]. apply IH; [|exact I]. intros u Iu. apply F. right. exact Iu.
Qed.
Lemma addGroups_full said gs l : (forall z, In z l -> t_sigs z <> []) -> forall z, In z (addGroups said gs l) -> t_sigs z <> [].
Proof. unfold addGroups. revert l. induction gs as [|g gs IH]; intros l F; [exact F|]. cbn [fold_left]. apply IH. intros z I. eapply tput_full; eauto. Qed.
Definition full (d : xdb) : Prop := forall z, In z (esigs d) -> t_sigs z <> [].
Lemma full_process kv now x gs cs ptds es nests d : full d -> full (fst (processEvent e routes kv now x gs cs ptds es nests d)).
Proof.
  intros F. destruct (process_outcome kv now x gs cs ptds es nests d) as [r|q gs' Q GG|kw P KW NE0]; [exact F| |].
  - unfold full. cbn. apply addGroups_full. exact F.
  - cbn [fst]. assert (L : esigs (logEvent x ptds gs cs es nests d) = addGroups (x_said x) gs (esigs d)) by (unfold logEvent; destruct (x_prior x); reflexivity).
    unfold full. cbv zeta. destruct (routes (x_route x)); cbn [esigs setCalls setScues]; rewrite L; apply addGroups_full; exact F.
Qed.
Lemma full_hist l d : xhist e routes l d -> full d.
Proof.
  induction 1 as [|l d a H IH]; [intros z []|]. destruct a as [kv now x gs cs ptds es nests|kv now s]; cbn [xrun]; [apply full_process; exact IH|].
  assert (U : forall s d, full d -> full (unescrow s d)) by (intros s0 d0 F z I; destruct (unescrow_exns s0 d0) as (_ & _ & _ & E0 & _); rewrite E0 in I; apply F; exact I).
  destruct (visit_cases kv now s d _ eq_refl) as [-> |[-> |(x & G & [(_ & ->)|(_ & ->)])]]; [exact IH|apply U; exact IH|apply full_process; exact IH|apply U, full_process; exact IH].
Qed.
(** no AttributeError in the verification of stored messages *)
Lemma satisfied_attr kv raw g : logsOk kv -> g_sigs g <> [] -> satisfied e kv raw g <> Err AttributeError.
Proof.
  intros LO NE. unfold satisfied, resolve. destruct (xtrans e (g_pre g)).
  - destruct (xat kv (g_pre g) (g_sn g)) as [ev|] eqn:X; [|discriminate]. destruct (negb _); [discriminate|]. cbn [bind]. specialize (LO _ _ _ X). destruct (xe_keys ev), (xe_th ev); try discriminate.
    + destruct LO as (_ & LO). specialize (LO eq_refl). discriminate.
    + destruct (g_sigs g); [congruence|discriminate].
    + destruct (g_sigs g); [congruence|discriminate].
  - discriminate.
Qed.
Lemma verifyGroups_attr kv raw gs : logsOk kv -> (forall g, In g gs -> g_sigs g <> []) -> verifyGroups e kv raw gs <> Err AttributeError.
Proof.
  intros LO. induction gs as [|g gs IH]; intros F; [discriminate|]. cbn [verifyGroups]. destruct (ahead kv g); [discriminate|]. pose proof (satisfied_attr kv raw g LO (F g (or_introl eq_refl))) as S1.
  destruct (satisfied e kv raw g) as [b|ex]; [cbn [bind]; destruct b; [cbn [negb]; apply IH; intros; apply F; right; assumption|discriminate]|]. cbn [bind]. congruence.
Qed.
Lemma paths_attr l : pathsOk e -> paths e l <> Err AttributeError.
Proof.
  intros PO. induction l as [|p l IH]; [discriminate|]. cbn [paths]. specialize (PO p). destruct (xpath e p); [|cbn; congruence]. cbn [bind]. destruct (paths e l); [discriminate|cbn; congruence].
Qed.
Lemma clone_attr kv s d : logsOk kv -> pathsOk e -> ecigs d = [] -> full d -> clone e kv s d <> Err AttributeError.
Proof.
  intros LO PO EC F. unfold clone. destruct (dget (exns d) s) as [x|]; [|discriminate]. unfold verifyStored.
  assert (V : verifyGroups e kv (x_raw x) (storedGroups (x_said x) d) <> Err AttributeError).
  { apply verifyGroups_attr; [exact LO|]. intros g I. unfold storedGroups in I. apply in_map_iff in I. destruct I as (t & <- & I). cbn [g_sigs]. unfold fetchTsgs in I. apply filter_In in I. apply F. tauto. }
  destruct (verifyGroups e kv (x_raw x) (storedGroups (x_said x) d)); [|cbn; congruence]. cbn [bind]. rewrite EC. cbn [vget dget]. destruct (storedGroups (x_said x) d); [discriminate|]. cbn [bind]. pose proof (paths_attr (vget (epath d) (x_said x)) PO). destruct (paths e (vget (epath d) (x_said x))); [discriminate|cbn; congruence].
Qed.
Lemma chained_attr kv verb x d : logsOk kv -> pathsOk e -> ecigs d = [] -> full d -> chained e kv verb x d <> Err AttributeError.
Proof.
  intros LO PO EC F. unfold chained. pose proof (clone_attr kv (x_prior x) d LO PO EC F) as C. destruct (clone e kv (x_prior x) d) as [[(p & ps)|]|]; [|discriminate|cbn; congruence]. cbn [bind]. destruct (negb _); [discriminate|]. unfold responded.
  destruct (dget (erpy d) (x_said p)) as [r|]; [|discriminate]. pose proof (clone_attr kv r d LO PO EC F) as C2. destruct (clone e kv r d) as [[|]|]; try discriminate. cbn. congruence.
Qed.
(** an IPEX message with a prior that passes answers a saved message that has no response yet *)
Lemma ipex_passed kv x kw d verb : x_route x = ipexRoute verb -> logsOk kv -> pathsOk e -> ecigs d = [] -> full d ->
  In verb ipexVerbs ->
  (ipexVerify e kv x kw d = BTrue \/ ipexVerify e kv x kw d = BNone) ->
  match x_prior x with
  | [] => In verb ["apply"; "offer"; "grant"]%string
  | _ => In verb ["offer"; "agree"; "grant"; "admit"; "spurn"]%string /\ chained e kv (s2b verb) x d = Ok true
  end.
Proof.
  intros ER LO PO EC F IV H. unfold ipexVerify in H. destruct (kw_nests kw); [destruct H; discriminate|]. destruct (kw_essr kw); [destruct H; discriminate|].
  rewrite ER in H. unfold ipexRoute in H.
  assert (K : forall v, s2b verb = v -> splitB 47 (s2b "/ipex/" ++ s2b verb) = [[]; s2b "ipex"; v]).
  { intros v <-. clear - IV. destruct IV as [<-|[<-|[<-|[<-|[<-|[<-|[]]]]]]]; reflexivity. }
  rewrite (K _ eq_refl) in H. rewrite !beq_refl in H. cbn [andb negb] in H.
  pose proof (chained_attr kv (s2b verb) x d LO PO EC F) as CA.
  destruct (x_prior x) as [|a p] eqn:EP.
  - destruct IV as [<-|[<-|[<-|[<-|[<-|[<-|[]]]]]]]; cbn in H |- *; try tauto; destruct H; discriminate.
  - destruct (beq_spec (s2b verb) (s2b "apply")) as [EA|NA]; [destruct H; discriminate|].
    assert (IV' : In verb ["offer"; "agree"; "grant"; "admit"; "spurn"]%string) by (destruct IV as [<-|IV]; [congruence|exact IV]).
    split; [exact IV'|]. destruct (memB (s2b verb) (map s2b ["offer"; "grant"]%string) || memB (s2b verb) (map s2b ["admit"; "agree"; "spurn"]%string)); [|destruct H; discriminate].
    destruct (chained e kv (s2b verb) x d) as [[|]|ex]; [reflexivity|destruct H; discriminate|]. destruct ex; destruct H; congruence.
Qed.
Lemma clone_saved kv s d x ps : clone e kv s d = Ok (Some (x, ps)) -> dget (exns d) s = Some x.
Proof.
  unfold clone. destruct (dget (exns d) s) as [y|]; [|discriminate]. destruct (verifyStored e kv y d); [|discriminate]. cbn [bind]. destruct (paths e (vget (epath d) (x_said y))); [|discriminate]. cbn [bind]. intros H. apply ok_inj in H. congruence.
Qed.
(** responses on record are saved *)
Definition backed (d : xdb) : Prop := forall p r, dget (erpy d) p = Some r -> dget (exns d) r <> None.
Lemma backed_process kv now x gs cs ptds es nests d : backed d -> backed (fst (processEvent e routes kv now x gs cs ptds es nests d)).
Proof.
  intros B. destruct (process_outcome kv now x gs cs ptds es nests d) as [r|q gs' Q GG|kw P KW NE0]; [exact B|exact B|]. cbn [fst]. cbv zeta.
  assert (W : backed (logEvent x ptds gs cs es nests d)).
  { intros p r. rewrite log_erpy, log_exns, dget_dput. intros G. assert (C : dget (erpy d) p = Some r \/ r = x_said x) by (destruct (x_prior x); [auto|]; rewrite dget_dset in G; destruct (beq p (n :: b)); [injection G as <-; auto|auto]).
    destruct C as [C | ->]; [|rewrite beq_refl; destruct (dget (exns d) (x_said x)); discriminate]. specialize (B _ _ C). destruct (dget (exns d) r); [discriminate|congruence]. }
  destruct (routes (x_route x)); exact W.
Qed.
Lemma backed_hist l d : xhist e routes l d -> backed d.
Proof.
  induction 1 as [|l d a H IH]; [intros p r; discriminate|]. destruct a as [kv now x gs cs ptds es nests|kv now s]; cbn [xrun]; [apply backed_process; exact IH|].
  assert (U : forall s d, backed d -> backed (unescrow s d)) by (intros s0 d0 B p r; destruct (unescrow_exns s0 d0) as (-> & -> & _); apply B).
  destruct (visit_cases kv now s d _ eq_refl) as [-> |[-> |(x & G & [(_ & ->)|(_ & ->)])]]; [exact IH|apply U; exact IH|apply backed_process; exact IH|apply U, backed_process; exact IH].
Qed.
Lemma chained_fresh kv verb x d : backed d -> (forall s y, dget (exns d) s = Some y -> x_said y = s) -> chained e kv verb x d = Ok true ->
  dget (erpy d) (x_prior x) = None /\ exists p, dget (exns d) (x_prior x) = Some p /\ memB (baseVerb (x_route p)) (PreviousRoutes verb) = true.
Proof.
  intros B K H. unfold chained in H. destruct (clone e kv (x_prior x) d) as [[(p & ps)|]|] eqn:C; [|discriminate|discriminate]. apply clone_saved in C. cbn [bind] in H. destruct (memB (baseVerb (x_route p)) (PreviousRoutes verb)) eqn:MB; [|discriminate]. cbn [negb] in H.
  split; [|eauto]. rewrite (K _ _ C) in H. unfold responded in H. destruct (dget (erpy d) (x_prior x)) as [r|] eqn:E1; [|reflexivity]. exfalso. specialize (B _ _ E1). unfold clone in H. destruct (dget (exns d) r) as [y|]; [|congruence].
  destruct (verifyStored e kv y d); [|discriminate]. cbn [bind] in H. destruct (paths e (vget (epath d) (x_said y))); [|discriminate]. cbn in H. discriminate.
Qed.
End P.
