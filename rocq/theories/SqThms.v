(** Properties of signals to the controller. *)
From Coq Require Import Lia Sorting.Sorted Permutation.
From Verif Require Import Prelude SqModel SqSpec SqProofs.
Ltac Zify.zify_post_hook ::= Z.div_mod_to_equations.
Open Scope N_scope.
Local Arguments N.add : simpl never.
Local Arguments N.ltb : simpl never.

(** Three signals, the second replaced, expiry, two readers. *)
Definition h1 : list op := [Push None (Some 1) 100; Push (Some 7) (Some 2) 1000; Exp 1100; Exp 1100; Exp 1100; Push (Some 7) (Some 2) 1100; Read 1; Push None (Some 1) 1200; Read 2].

Lemma c139_once : forall ops, NoDup (map (fun x => g_id (snd x)) (out (run ops))) /\
  forall r g h, In (r, g) (out (run ops)) -> In h (sigs (run ops)) -> g_id g <> g_id h.
Proof.
  intros ops. destruct (inv_run ops) as [_ D _ _ _]. rewrite map_app, map_map in D. split.
  - clear - D. induction (map (fun x => g_id (snd x)) (out (run ops))) as [|x l IH]; [constructor|]. cbn in D. inversion D; subst.
    constructor; [intros Z; apply H1; apply in_or_app; auto|auto].
  - intros r g h G H E. apply (in_map g_id) in H. apply (in_map (fun x => g_id (snd x))) in G. cbn in G. rewrite E in G.
    clear - D G H. induction (map (fun x => g_id (snd x)) (out (run ops))) as [|x l IH]; [destruct G|]. cbn in D. inversion D; subst.
    destruct G as [->|G]; [apply H2; apply in_or_app; auto|auto].
Qed.
Lemma c139_origin : forall ops g, (exists r, In (r, g) (out (run ops))) \/ In g (sigs (run ops)) ->
  exists o1 o2, ops = o1 ++ Push (g_key g) (g_topic g) (g_dt g) :: o2 /\ g = pushedBy o1 (g_key g) (g_topic g) (g_dt g).
Proof.
  intros ops g H. destruct (inv_run ops) as [_ _ O1 O2 _].
  assert (A : origin ops g) by (destruct H as [(r & H)|H]; [apply O1; apply (in_map snd) in H; exact H|apply newest_origin; auto]).
  destruct A as (o1 & o2 & A & B). exists o1, o2. split; [exact A|]. unfold pushedBy. rewrite <- B. destruct g; reflexivity.
Qed.
Lemma c139_pushed : forall ops k t d, In (pushedBy ops k t d) (sigs (run (ops ++ [Push k t d]))) /\
  ((forall k' g, k = Some k' -> In g (sigs (run ops)) -> g_key g <> Some k') -> sigs (run (ops ++ [Push k t d])) = sigs (run ops) ++ [pushedBy ops k t d]).
Proof.
  intros ops k t d. rewrite run_snoc. cbn [step]. unfold pushedBy. rewrite <- (i_next _ _ (inv_run ops)).
  destruct (push_cases k t d (run ops)) as [(A & _)|(k' & l1 & h & l2 & K & A & B & _ & C & _)].
  - rewrite A. split; [apply in_or_app; cbn; auto|auto].
  - rewrite B. split; [apply in_elt|]. intros N. destruct (N k' h K); [rewrite A; apply in_elt|exact C].
Qed.
Lemma c139_kept_partial : forall ops o g, In g (sigs (run ops)) ->
  In g (sigs (run (ops ++ [o]))) \/
  (exists r, o = Read r /\ In (r, g) (out (run (ops ++ [o])))) \/
  (exists k t d, o = Push (Some k) t d /\ g_key g = Some k /\ In (pushedBy ops (Some k) t d) (sigs (run (ops ++ [o])))) \/
  (expiry o /\ tooOld (ops ++ [o]) g) \/
  (exists r, o = Read r /\ ~ topical (sigs (run ops))).
Proof.
  intros ops o g G. destruct o as [k t d|r|now].
  - pose proof (proj1 (c139_pushed ops k t d)) as W. rewrite run_snoc in *. cbn [step] in *.
    destruct (push_cases k t d (run ops)) as [(A & _)|(k' & l1 & h & l2 & -> & A & B & _ & C & _)].
    + left. rewrite A. apply in_or_app. auto.
    + rewrite A in G. apply in_elt_inv in G. destruct G as [Q|G].
      * subst g. right. right. left. exists k', t, d. auto.
      * left. rewrite B. apply in_app_or in G. apply in_or_app. cbn. tauto.
  - rewrite run_snoc. cbn [step]. destruct (read_cases r (run ops)) as [(T & A & B & _)|(l1 & h & l2 & A & T & _)].
    + right. left. exists r. split; [reflexivity|]. rewrite B. apply in_or_app. right. apply in_map. exact G.
    + right. right. right. right. exists r. split; [reflexivity|]. intros Z. unfold topical in Z. rewrite Forall_forall in Z.
      apply (Z h); [rewrite A; apply in_elt|exact T].
  - pose proof (inv_run ops) as I0. rewrite run_snoc. cbn [step]. destruct (expire_cases now (run ops)) as [(D & ->)|(n & v & i & old & ST & X)]; [auto|].
    destruct X as [(V & ->)|[(V & x & _ & ->)|(V & _ & l & v' & ok & RA & ->)]]; [auto|auto|]. cbn.
    apply removeAll_spec in RA. destruct RA as (_ & _ & R3). destruct (R3 g G) as [Z|(h & H1 & H2)]; [auto|].
    right. right. right. left. split; [exists now; reflexivity|]. destruct ST as [(_ & _ & _ & _ & ->)|ST]; [destruct H1|].
    destruct (i_exp _ _ I0 _ _ _ _ ST) as (A & _ & B). destruct (B h H1) as (B1 & B2).
    assert (h = g) by (apply (origin_inj ops); [exact B1|apply newest_origin; apply (i_sigs _ _ I0); exact G|exact H2]). subst h.
    exists n. split; [apply in_or_app; auto|exact B2].
Qed.
Lemma c139_read : forall ops r, topical (sigs (run ops)) ->
  out (run (ops ++ [Read r])) = out (run ops) ++ map (pair r) (sigs (run ops)) /\ sigs (run (ops ++ [Read r])) = [].
Proof.
  intros ops r T. rewrite run_snoc. cbn [step]. destruct (read_cases r (run ops)) as [(_ & A & B & _)|(l1 & h & l2 & A & Z & _)]; [auto|].
  unfold topical in T. rewrite Forall_forall in T. destruct (T h); [rewrite A; apply in_elt|exact Z].
Qed.
Lemma c139_newest : forall ops g k, In g (sigs (run ops)) -> g_key g = Some k ->
  (exists o1 t d o2, ops = o1 ++ Push (Some k) t d :: o2 /\ g = pushedBy o1 (Some k) t d /\ Forall (fun o => ~ pushKey k o) o2) /\
  forall h, In h (sigs (run ops)) -> g_key h = Some k -> h = g.
Proof.
  intros ops g k G K. pose proof (i_sigs _ _ (inv_run ops)) as NW. split.
  - destruct (NW g G) as (o1 & o2 & A & B & C). rewrite K in *. exists o1, (g_topic g), (g_dt g), o2. split; [exact A|]. split; [|auto].
    unfold pushedBy. destruct g; cbn in *. congruence.
  - intros h H KH. apply (origin_inj ops); [apply newest_origin; auto|apply newest_origin; auto|].
    destruct (NW g G) as (o1 & o2 & E1 & E2 & E3). destruct (NW h H) as (p1 & p2 & F1 & F2 & F3). rewrite K in *. rewrite KH in *.
    specialize (E3 _ eq_refl). specialize (F3 _ eq_refl). rewrite E2, F2. f_equal. clear - E1 F1 E3 F3. subst ops. revert p1 F1.
    induction o1 as [|y o1 IH]; intros [|y' p1] F1; cbn in F1; inversion F1; subst.
    + reflexivity.
    + exfalso. rewrite Forall_forall in E3. apply (E3 (Push (Some k) (g_topic h) (g_dt h))); [apply in_elt|]. eexists; eexists; reflexivity.
    + exfalso. rewrite Forall_forall in F3. apply (F3 (Push (Some k) (g_topic g) (g_dt g))); [apply in_elt|]. eexists; eexists; reflexivity.
    + f_equal. auto.
Qed.
Lemma c139_order_partial : forall ops, (forall k, Forall (fun o => ~ pushKey k o) ops) ->
  StronglySorted N.lt (map g_id (map snd (out (run ops)) ++ sigs (run ops))).
Proof.
  induction ops as [|o ops IH] using rev_ind; intros NK; [constructor|].
  assert (NK' : forall k, Forall (fun o => ~ pushKey k o) ops) by (intros k; specialize (NK k); apply Forall_app in NK; tauto).
  specialize (IH NK'). pose proof (inv_run ops) as [I1 _ I3 I4 _]. rewrite run_snoc. destruct o as [k t d|r|now]; cbn [step].
  - destruct (push_rest k t d (run ops)) as (_ & _ & ->). destruct (push_cases k t d (run ops)) as [(A & _)|(k' & l1 & h & l2 & -> & _)].
    + rewrite A, app_assoc, map_app. cbn. apply sorted_snoc; [exact IH|]. apply Forall_forall. intros x X. apply in_map_iff in X. destruct X as (g & <- & G).
      rewrite I1. apply origin_lt. apply in_app_or in G. destruct G; [auto|apply newest_origin; auto].
    + exfalso. specialize (NK k'). apply Forall_app in NK. destruct NK as (_ & NK). inversion NK; subst. apply H1. eexists; eexists; reflexivity.
  - destruct (read_cases r (run ops)) as [(_ & A & B & _)|(l1 & h & l2 & A & _ & B & C & _)].
    + rewrite A, B, app_nil_r, map_app, map_map. cbn. rewrite map_id. exact IH.
    + rewrite B, C. eapply sub_sorted; [|exact IH]. apply sub_map. apply sub_app. rewrite A. apply sub_skip. constructor. apply sub_refl.
  - destruct (expire_cases now (run ops)) as [(D & ->)|(n & v & i & old & _ & X)]; [exact IH|].
    destruct X as [(V & ->)|[(V & x & _ & ->)|(V & _ & l & v' & ok & RA & ->)]]; [exact IH|exact IH|]. cbn.
    apply removeAll_spec in RA. destruct RA as (R1 & _). eapply sub_sorted; [|exact IH]. apply sub_map. apply sub_app. exact R1.
Qed.



Lemma c139_topic_refuted : (forall ops r l1 g l2, sigs (run ops) = l1 ++ g :: l2 -> g_topic g = None -> topical l1 ->
    out (run (ops ++ [Read r])) = out (run ops) /\ sigs (run (ops ++ [Read r])) = l2) /\
  let ops := [Push None (Some 1) 5; Push None None 5; Push None (Some 1) 5; Read 1; Read 1] in
  map g_id (sigs (run (firstn 3 ops))) = [0; 1; 2] /\ map (fun x => g_id (snd x)) (out (run ops)) = [2] /\ sigs (run ops) = [].
Proof.
  split; [|split; [reflexivity|split; reflexivity]].
  intros ops r l1 g l2 E T TL. rewrite run_snoc. cbn [step]. unfold read. rewrite E. clear E.
  assert (D : drain (l1 ++ g :: l2) = (None, l2)).
  { induction TL as [|x l1 X TL IH]; cbn; [rewrite T; reflexivity|]. destruct (g_topic x); [|destruct (X eq_refl)]. rewrite IH. reflexivity. }
  rewrite D. cbn. split; [apply app_nil_r|reflexivity].
Qed.

Lemma c139_order_refuted : (forall ops k t d l1 h l2, sigs (run ops) = l1 ++ h :: l2 -> g_key h = Some k ->
    sigs (run (ops ++ [Push (Some k) t d])) = l1 ++ pushedBy ops (Some k) t d :: l2) /\
  map (fun x => g_id (snd x)) (out (run [Push (Some 7) (Some 1) 5; Push None (Some 1) 5; Push (Some 7) (Some 1) 6; Read 1])) = [2; 1].
Proof.
  split; [|reflexivity]. intros ops k t d l1 h l2 E K. rewrite run_snoc. cbn [step]. unfold pushedBy. rewrite <- (i_next _ _ (inv_run ops)).
  assert (HI : In h (sigs (run ops))) by (rewrite E; apply in_elt).
  destruct (push_cases (Some k) t d (run ops)) as [(_ & _ & N)|(k' & m1 & h' & m2 & K1 & A & B & _ & C & D)].
  - specialize (N _ eq_refl). rewrite Forall_forall in N. destruct (N h HI K).
  - inversion K1; subst k'. rewrite B. pose proof (proj2 (c139_newest ops h k HI K)) as UN.
    rewrite A in E. assert (m1 = l1 /\ m2 = l2) as (-> & ->); [|reflexivity].
    assert (E2 : h' = h) by (apply UN; [rewrite A; apply in_elt|exact C]). subst h'.
    assert (NI : ~ In h l1).
    { intros Z. pose proof (i_nodup _ _ (inv_run ops)) as ND. rewrite A, E, app_assoc, map_app in ND. cbn in ND. apply NoDup_remove_2 in ND. apply ND.
      apply in_or_app. left. rewrite map_app. apply in_or_app. right. apply in_map. exact Z. }
    clear - E D K NI. revert l1 E NI. induction m1 as [|x m1 IH]; intros [|y l1] E NI; cbn in E; inversion E; subst; [auto| | |].
    + destruct NI. left. reflexivity.
    + inversion D as [|? ? D1 D2]; subst. destruct (D1 K).
    + inversion D as [|? ? D1 D2]; subst. destruct (IH D2 l1 H1) as (-> & ->); [intros Z; apply NI; right; exact Z|auto].
Qed.

Lemma c140_pass_partial : forall ops now nows, expd (run ops) = Rest -> List.length nows = List.length (sigs (run ops)) ->
  let s' := run (ops ++ map Exp (now :: nows)) in
  expd s' = Rest /\ out s' = out (run ops) /\ forall g, In g (sigs s') <-> In g (sigs (run ops)) /\ ~ timeout + g_dt g < now.
Proof.
  intros ops now nows R LE s'. assert (ND : NoDup (map g_id (sigs (run ops)))).
  { eapply sub_NoDup; [|exact (i_nodup _ _ (inv_run ops))]. rewrite map_app. apply sub_skip. apply sub_refl. }
  pose proof (pass_all (run ops) now nows R ND LE) as P. unfold s', run. rewrite fold_left_app. fold (run ops).
  cbv zeta in P. destruct P as (P1 & P2 & P3). split; [exact P1|]. split; [exact P3|]. intros g. rewrite P2, filter_In.
  rewrite negb_true_iff, N.ltb_ge. split; intros (A & B); (split; [exact A|]); lia.
Qed.


Lemma c140_disturbed_refuted : (forall ops n v i old o now ops', expd (run ops) = Scan n v i old ->
    ((exists t d, o = Push None t d) \/ (exists k t d, o = Push (Some k) t d /\ forall g, In g (sigs (run ops)) -> g_key g <> Some k) \/ (exists r, o = Read r /\ sigs (run ops) <> [])) ->
    expd (run (ops ++ o :: Exp now :: ops')) = Dead) /\
  (forall ops ops' now, expd (run ops) = Dead -> expd (run (ops ++ ops')) = Dead /\ sigs (run (ops ++ [Exp now])) = sigs (run ops)) /\
  expd (run [Push None (Some 1) 5; Exp 6; Push None (Some 1) 6; Exp 7]) = Dead /\
  expd (run [Push None (Some 1) 5; Exp 6; Read 1; Exp 7]) = Dead /\
  forall n, sigs (run ([Push None (Some 1) 5; Exp 6; Push None (Some 1) 6; Exp 7] ++ repeat (Exp 100000) n)) = [mkSig 0 None (Some 1) 5; mkSig 1 None (Some 1) 6].
Proof.
  assert (DS : forall ops now, expd (run ops) = Dead -> run (ops ++ [Exp now]) = run ops).
  { intros ops now D. rewrite run_snoc. cbn. unfold expire. rewrite D. reflexivity. }
  split; [|split; [|split; [reflexivity|split; [reflexivity|]]]].
  - intros ops n v i old o now ops' SC DI. replace (ops ++ o :: Exp now :: ops') with ((ops ++ [o]) ++ [Exp now] ++ ops') by (rewrite <- app_assoc; reflexivity).
    unfold run. rewrite fold_left_app. fold (run (ops ++ [o])). cbn [app fold_left]. apply dead_stays. rewrite run_snoc.
    destruct (i_exp _ _ (inv_run ops) _ _ _ _ SC) as (_ & V & _).
    assert (X : expd (step (run ops) o) = Scan n v i old /\ v < vers (step (run ops) o)).
    { destruct DI as [(t & d & ->)|[(k & t & d & -> & NK)|(r & -> & NE)]]; cbn [step].
      - destruct (push_rest None t d (run ops)) as (-> & _). split; [exact SC|].
        destruct (push_cases None t d (run ops)) as [(_ & -> & _)|(k' & ? & ? & ? & Z & _)]; [lia|discriminate Z].
      - destruct (push_rest (Some k) t d (run ops)) as (-> & _). split; [exact SC|].
        destruct (push_cases (Some k) t d (run ops)) as [(_ & -> & _)|(k' & l1 & h & l2 & Z & A & _ & _ & C & _)]; [lia|].
        inversion Z; subst k'. destruct (NK h); [rewrite A; apply in_elt|exact C].
      - destruct (read_rest r (run ops)) as (-> & _). split; [exact SC|].
        destruct (read_cases r (run ops)) as [(_ & _ & _ & ->)|(l1 & h & l2 & _ & _ & _ & _ & W)]; [|lia].
        destruct (sigs (run ops)); [destruct (NE eq_refl)|]. cbn [List.length]. lia. }
    destruct X as (X1 & X2). cbn [step]. unfold expire. rewrite X1. unfold scan. replace (vers (step (run ops) o) =? v) with false by (symmetry; apply N.eqb_neq; lia). reflexivity.
  - intros ops ops' now D. split; [|rewrite (DS _ _ D); reflexivity]. unfold run. rewrite fold_left_app. apply dead_stays. exact D.
  - intros n. set (ops := [Push None (Some 1) 5; Exp 6; Push None (Some 1) 6; Exp 7]).
    assert (E : run (ops ++ repeat (Exp 100000) n) = run ops); [|rewrite E; reflexivity].
    unfold run. rewrite fold_left_app. fold (run ops). assert (D : expd (run ops) = Dead) by reflexivity. clearbody ops.
    induction n as [|n IH]; [reflexivity|]. cbn. unfold expire. rewrite D. exact IH.
Qed.

Lemma c140_replaced_refuted : (forall ops n v i old g now, expd (run ops) = Scan n v i old -> vers (run ops) = v -> nth_error (sigs (run ops)) i = None ->
    In g old -> (forall h, In h (sigs (run ops)) -> g_id h <> g_id g) -> expd (run (ops ++ [Exp now])) = Dead) /\
  let ops := [Push (Some 7) (Some 1) 5; Exp 1000; Push (Some 7) (Some 1) 1000] in
  expd (run ops) = Scan 1000 1 1 [mkSig 0 (Some 7) (Some 1) 5] /\ vers (run ops) = 1 /\ sigs (run ops) = [mkSig 1 (Some 7) (Some 1) 1000] /\
  expd (run (ops ++ [Exp 1001])) = Dead.
Proof.
  split; [|split; [reflexivity|split; [reflexivity|split; reflexivity]]].
  intros ops n v i old g now SC V NT G NI. rewrite run_snoc. cbn [step]. unfold expire. rewrite SC. unfold scan. rewrite V, N.eqb_refl, NT. cbn [negb].
  pose proof (removeAll_missing old (sigs (run ops)) v g G NI) as M. destruct (removeAll old (sigs (run ops)) v) as [[l v'] ok]. cbn in M. subst ok. reflexivity.
Qed.
