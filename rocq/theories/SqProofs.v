(** Proofs about signals. *)
From Coq Require Import Lia Sorting.Sorted Permutation.
From Verif Require Import Prelude SqModel SqSpec.
Ltac Zify.zify_post_hook ::= Z.div_mod_to_equations.
Open Scope N_scope.

Local Arguments N.add : simpl never.
Local Arguments N.ltb : simpl never.

Lemma run_snoc : forall ops o, run (ops ++ [o]) = step (run ops) o.
Proof. intros ops o. unfold run. rewrite fold_left_app. reflexivity. Qed.

Lemma replace_some : forall k s l l', replace k s l = Some l' ->
  exists l1 g l2, l = l1 ++ g :: l2 /\ l' = l1 ++ s :: l2 /\ g_key g = Some k /\ Forall (fun h => g_key h <> Some k) l1.
Proof.
  intros k s. induction l as [|g l IH]; cbn; intros l' R; [discriminate|].
  destruct (g_key g) as [k'|] eqn:K.
  - destruct (k' =? k) eqn:E.
    + apply N.eqb_eq in E. subst. inversion R; subst. exists [], g, l. auto.
    + destruct (replace k s l) as [l0|]; [|discriminate R]. inversion R; subst. destruct (IH _ eq_refl) as (l1 & h & l2 & -> & -> & A & B).
      exists (g :: l1), h, l2. split; [reflexivity|]. split; [reflexivity|]. split; [exact A|]. constructor; [|exact B]. apply N.eqb_neq in E. congruence.
  - destruct (replace k s l) as [l0|]; [|discriminate R]. inversion R; subst. destruct (IH _ eq_refl) as (l1 & h & l2 & -> & -> & A & B).
    exists (g :: l1), h, l2. split; [reflexivity|]. split; [reflexivity|]. split; [exact A|]. constructor; [|exact B]. congruence.
Qed.
Lemma replace_none : forall k s l, replace k s l = None -> Forall (fun h => g_key h <> Some k) l.
Proof.
  intros k s. induction l as [|g l IH]; cbn; intros R; [constructor|].
  destruct (g_key g) as [k'|] eqn:K.
  - destruct (k' =? k) eqn:E; [discriminate R|]. destruct (replace k s l); [discriminate R|]. constructor; [apply N.eqb_neq in E; congruence|auto].
  - destruct (replace k s l); [discriminate R|]. constructor; [congruence|auto].
Qed.

(** What a push does to the deck. *)
Lemma push_cases : forall k t d s, let g := mkSig (next s) k t d in
  (sigs (push k t d s) = sigs s ++ [g] /\ vers (push k t d s) = vers s + 1 /\ forall k', k = Some k' -> Forall (fun h => g_key h <> Some k') (sigs s)) \/
  (exists k' l1 h l2, k = Some k' /\ sigs s = l1 ++ h :: l2 /\ sigs (push k t d s) = l1 ++ g :: l2 /\ vers (push k t d s) = vers s /\ g_key h = Some k' /\
     Forall (fun h => g_key h <> Some k') l1).
Proof.
  intros k t d s g. unfold push. fold g. destruct k as [k|].
  - destruct (replace k g (sigs s)) as [l|] eqn:R.
    + right. apply replace_some in R. destruct R as (l1 & h & l2 & A & B & C & D). exists k, l1, h, l2. cbn. split; [reflexivity|]. split; [exact A|]. split; [exact B|]. split; [reflexivity|]. split; [exact C|exact D].
    + left. apply replace_none in R. cbn. split; [reflexivity|]. split; [reflexivity|]. intros k' K. inversion K; subst. exact R.
  - left. cbn. split; [reflexivity|]. split; [reflexivity|]. intros k' K. discriminate K.
Qed.
Lemma push_rest : forall k t d s, expd (push k t d s) = expd s /\ next (push k t d s) = next s + 1 /\ out (push k t d s) = out s.
Proof. intros k t d s. unfold push. destruct (match k with Some k => replace k _ (sigs s) | None => None end); auto. Qed.

Lemma drain_spec : forall l, match drain l with
  | (Some a, r) => a = l /\ r = [] /\ topical l
  | (None, r) => exists l1 g, l = l1 ++ g :: r /\ g_topic g = None /\ topical l1
  end.
Proof.
  induction l as [|g l IH]; cbn; [split; [reflexivity|split; [reflexivity|constructor]]|].
  destruct (g_topic g) eqn:T.
  - destruct (drain l) as [[a|] r].
    + destruct IH as (-> & -> & IH). split; [reflexivity|]. split; [reflexivity|]. constructor; [congruence|exact IH].
    + destruct IH as (l1 & h & -> & A & B). exists (g :: l1), h. split; [reflexivity|]. split; [exact A|]. constructor; [congruence|exact B].
  - exists [], g. split; [reflexivity|]. split; [exact T|constructor].
Qed.
Lemma read_rest : forall r s, expd (read r s) = expd s /\ next (read r s) = next s.
Proof. intros r s. unfold read. destruct (drain (sigs s)). auto. Qed.
Lemma read_cases : forall r s,
  (topical (sigs s) /\ sigs (read r s) = [] /\ out (read r s) = out s ++ map (pair r) (sigs s) /\ vers (read r s) = vers s + N.of_nat (List.length (sigs s))) \/
  (exists l1 g l2, sigs s = l1 ++ g :: l2 /\ g_topic g = None /\ sigs (read r s) = l2 /\ out (read r s) = out s /\ vers s < vers (read r s)).
Proof.
  intros r s. pose proof (drain_spec (sigs s)) as D. unfold read. destruct (drain (sigs s)) as [[a|] l]; cbn.
  - destruct D as (-> & -> & T). left. split; [exact T|]. split; [reflexivity|]. split; [reflexivity|]. cbn. f_equal. lia.
  - destruct D as (l1 & g & A & B & _). right. exists l1, g, l. split; [exact A|]. split; [exact B|]. split; [reflexivity|]. split; [apply app_nil_r|].
    rewrite A, app_length. cbn. lia.
Qed.

Lemma remove_some : forall g l l', remove g l = Some l' -> exists l1 h l2, l = l1 ++ h :: l2 /\ l' = l1 ++ l2 /\ g_id h = g_id g.
Proof.
  intros g. induction l as [|h l IH]; cbn; intros l' R; [discriminate|]. destruct (g_id h =? g_id g) eqn:E.
  - apply N.eqb_eq in E. inversion R; subst. exists [], h, l'. auto.
  - destruct (remove g l); [|discriminate R]. inversion R; subst. destruct (IH _ eq_refl) as (l1 & h' & l2 & -> & -> & A). exists (h :: l1), h', l2. auto.
Qed.
Lemma remove_none : forall g l, remove g l = None -> forall h, In h l -> g_id h <> g_id g.
Proof.
  intros g. induction l as [|h l IH]; cbn; intros R h' H; [destruct H|]. destruct (g_id h =? g_id g) eqn:E; [discriminate R|].
  destruct (remove g l); [discriminate R|]. destruct H as [<-|H]; [apply N.eqb_neq; exact E|auto].
Qed.
Lemma remove_at : forall g a l, ~ In (g_id g) (map g_id a) -> remove g (a ++ g :: l) = Some (a ++ l).
Proof.
  intros g. induction a as [|h a IH]; cbn; intros l D; [rewrite N.eqb_refl; reflexivity|].
  destruct (g_id h =? g_id g) eqn:E; [apply N.eqb_eq in E; tauto|]. rewrite IH; tauto.
Qed.

(** [sub a b]: [a] is [b] with some left out. *)
Inductive sub {X} : list X -> list X -> Prop :=
| sub_nil : sub [] []
| sub_keep : forall x a b, sub a b -> sub (x :: a) (x :: b)
| sub_drop : forall x a b, sub a b -> sub a (x :: b).
Lemma sub_refl : forall X (a : list X), sub a a.
Proof. induction a; constructor; auto. Qed.
Lemma sub_trans : forall X (b c : list X), sub b c -> forall a, sub a b -> sub a c.
Proof.
  intros X b c H. induction H; intros a' H1; [exact H1| |constructor; auto].
  inversion H1; subst; constructor; auto.
Qed.
Lemma sub_app : forall X (p : list X) a b, sub a b -> sub (p ++ a) (p ++ b).
Proof. induction p; cbn; intros; [auto|constructor; auto]. Qed.
Lemma sub_skip : forall X (p : list X) a b, sub a b -> sub a (p ++ b).
Proof. induction p; cbn; intros; [auto|constructor; auto]. Qed.
Lemma sub_map : forall X Y (f : X -> Y) a b, sub a b -> sub (map f a) (map f b).
Proof. intros X Y f a b H. induction H; cbn; constructor; auto. Qed.
Lemma sub_In : forall X (a b : list X), sub a b -> forall x, In x a -> In x b.
Proof. intros X a b H. induction H; cbn; intros y Y; [exact Y| |right; auto]. destruct Y; auto. Qed.
Lemma sub_NoDup : forall X (a b : list X), sub a b -> NoDup b -> NoDup a.
Proof.
  intros X a b H. induction H; intros D; [exact D| |]; inversion D; subst; [|auto]. constructor; [|auto]. intros Z. apply H2. eapply sub_In; eauto.
Qed.
Lemma sub_sorted : forall (a b : list N), sub a b -> StronglySorted N.lt b -> StronglySorted N.lt a.
Proof.
  intros a b H. induction H; intros D; [exact D| |]; inversion D; subst; [|auto]. constructor; [auto|]. rewrite Forall_forall in *. intros y Y. apply H3. eapply sub_In; eauto.
Qed.
Lemma sorted_snoc : forall (l : list N) x, StronglySorted N.lt l -> Forall (fun y => y < x) l -> StronglySorted N.lt (l ++ [x]).
Proof.
  induction l as [|y l IH]; cbn; intros x S0 F; [constructor; constructor|]. inversion S0; subst. inversion F; subst. constructor; [auto|].
  apply Forall_app. split; [assumption|]. constructor; [assumption|constructor].
Qed.

Lemma removeAll_spec : forall old l v l' v' ok, removeAll old l v = (l', v', ok) ->
  sub l' l /\ v <= v' /\ (forall g, In g l -> In g l' \/ exists h, In h old /\ g_id h = g_id g).
Proof.
  induction old as [|g old IH]; cbn; intros l v l' v' ok R; [inversion R; subst; split; [apply sub_refl|]; split; [lia|auto]|].
  destruct (remove g l) as [l0|] eqn:RM.
  - apply IH in R. destruct R as (R1 & R2 & R3). apply remove_some in RM. destruct RM as (l1 & h & l2 & -> & -> & ID). split.
    + eapply sub_trans; [|exact R1]. apply sub_app. constructor. apply sub_refl.
    + split; [lia|]. intros x Z. apply in_app_or in Z. destruct Z as [Z|[Z|Z]].
      * destruct (R3 x) as [Q|(y & Q1 & Q2)]; [apply in_or_app; auto|auto|]. right. exists y. cbn. auto.
      * subst. right. exists g. cbn. auto.
      * destruct (R3 x) as [Q|(y & Q1 & Q2)]; [apply in_or_app; auto|auto|]. right. exists y. cbn. auto.
  - inversion R; subst. split; [apply sub_refl|]. split; [lia|auto].
Qed.
Lemma removeAll_filter : forall p l a v, NoDup (map g_id (a ++ l)) ->
  exists v', removeAll (filter p l) (a ++ l) v = (a ++ filter (fun g => negb (p g)) l, v', true).
Proof.
  intros p. induction l as [|g l IH]; intros a v D; cbn [filter]; [exists v; reflexivity|].
  destruct (p g) eqn:P; cbn [negb].
  - cbn [removeAll]. rewrite remove_at.
    + apply IH. rewrite map_app in *. cbn in D. apply NoDup_remove_1 in D. exact D.
    + rewrite map_app in D. cbn in D. apply NoDup_remove_2 in D. intros Z. apply D. apply in_or_app. auto.
  - destruct (IH (a ++ [g]) v) as (v' & E); [rewrite <- app_assoc; exact D|]. exists v'. rewrite <- !app_assoc in E. exact E.
Qed.
Lemma removeAll_missing : forall old l v g, In g old -> (forall h, In h l -> g_id h <> g_id g) -> snd (removeAll old l v) = false.
Proof.
  induction old as [|h old IH]; cbn; intros l v g I0 NI; [destruct I0|]. destruct (remove h l) as [l0|] eqn:RM; [|reflexivity].
  apply remove_some in RM. destruct RM as (l1 & x & l2 & -> & -> & ID). destruct I0 as [->|I0].
  - destruct (NI x); [apply in_or_app; cbn; auto|exact ID].
  - apply (IH _ _ g I0). intros y Y. apply NI. apply in_app_or in Y. apply in_or_app. cbn. tauto.
Qed.

(** What a turn of the expiry does. *)
Lemma expire_cases : forall now s,
  (expd s = Dead /\ expire now s = s) \/
  exists n v i old, (expd s = Rest /\ n = now /\ v = vers s /\ i = O /\ old = [] \/ expd s = Scan n v i old) /\
    ((vers s <> v /\ expire now s = mkSt (sigs s) (vers s) Dead (next s) (out s)) \/
     (vers s = v /\ exists g, nth_error (sigs s) i = Some g /\
        expire now s = mkSt (sigs s) (vers s) (Scan n v (i + 1) (if timeout + g_dt g <? n then old ++ [g] else old)) (next s) (out s)) \/
     (vers s = v /\ nth_error (sigs s) i = None /\ exists l v' ok, removeAll old (sigs s) (vers s) = (l, v', ok) /\
        expire now s = mkSt l v' (if ok then Rest else Dead) (next s) (out s))).
Proof.
  assert (SC : forall n v i old s, (vers s <> v /\ scan n v i old s = mkSt (sigs s) (vers s) Dead (next s) (out s)) \/
     (vers s = v /\ exists g, nth_error (sigs s) i = Some g /\
        scan n v i old s = mkSt (sigs s) (vers s) (Scan n v (i + 1) (if timeout + g_dt g <? n then old ++ [g] else old)) (next s) (out s)) \/
     (vers s = v /\ nth_error (sigs s) i = None /\ exists l v' ok, removeAll old (sigs s) (vers s) = (l, v', ok) /\
        scan n v i old s = mkSt l v' (if ok then Rest else Dead) (next s) (out s))).
  { intros n v i old s. unfold scan. destruct (vers s =? v) eqn:E; cbn [negb].
    - apply N.eqb_eq in E. right. destruct (nth_error (sigs s) i) as [g|]; [left; eauto|]. right. split; [exact E|]. split; [reflexivity|].
      destruct (removeAll old (sigs s) (vers s)) as [[l v'] ok]. exists l, v', ok. auto.
    - apply N.eqb_neq in E. auto. }
  intros now s. unfold expire. destruct (expd s) as [|n v i old|] eqn:E; [right|right|left; auto].
  - exists now, (vers s), O, []. split; [left; auto|]. apply SC.
  - exists n, v, i, old. split; [right; reflexivity|]. apply SC.
Qed.

(** Where a signal comes from. *)
Definition origin (ops : list op) (g : sig) : Prop :=
  exists o1 o2, ops = o1 ++ Push (g_key g) (g_topic g) (g_dt g) :: o2 /\ g_id g = pushes o1.
Definition newest (ops : list op) (g : sig) : Prop :=
  exists o1 o2, ops = o1 ++ Push (g_key g) (g_topic g) (g_dt g) :: o2 /\ g_id g = pushes o1 /\ forall k, g_key g = Some k -> Forall (fun o => ~ pushKey k o) o2.

Lemma pushes_app : forall a b, pushes (a ++ b) = pushes a + pushes b.
Proof. intros a b. unfold pushes. rewrite filter_app, app_length. lia. Qed.
Lemma pushes_cons : forall o l, pushes (o :: l) = (if isPush o then 1 else 0) + pushes l.
Proof. intros o l. unfold pushes. cbn [filter]. destruct (isPush o); cbn [List.length]; lia. Qed.
Lemma split_inj : forall (o1 o1' : list op) x x' o2 o2', o1 ++ x :: o2 = o1' ++ x' :: o2' -> isPush x = true -> isPush x' = true -> pushes o1 = pushes o1' ->
  o1 = o1' /\ x = x' /\ o2 = o2'.
Proof.
  induction o1 as [|y o1 IH]; intros [|y' o1'] x x' o2 o2' E P P' C; cbn in E; inversion E; subst.
  - auto.
  - rewrite pushes_cons, P in C. change (pushes []) with 0 in C. lia.
  - rewrite pushes_cons, P' in C. change (pushes []) with 0 in C. lia.
  - rewrite !pushes_cons in C. destruct (IH o1' x x' o2 o2' H1 P P') as (-> & -> & ->); [lia|auto].
Qed.
Lemma origin_inj : forall ops g h, origin ops g -> origin ops h -> g_id g = g_id h -> g = h.
Proof.
  intros ops g h (o1 & o2 & A & B) (p1 & p2 & C & D) E. rewrite A in C. apply split_inj in C; [|reflexivity|reflexivity|congruence].
  destruct C as (_ & C & _). inversion C. destruct g, h; cbn in *. congruence.
Qed.
Lemma newest_origin : forall ops g, newest ops g -> origin ops g.
Proof. intros ops g (o1 & o2 & A & B & _). exists o1, o2. auto. Qed.
Lemma origin_snoc : forall ops g o, origin ops g -> origin (ops ++ [o]) g.
Proof. intros ops g o (o1 & o2 & -> & B). exists o1, (o2 ++ [o]). rewrite <- app_assoc. auto. Qed.
Lemma newest_snoc : forall ops g o, newest ops g -> (forall k, g_key g = Some k -> ~ pushKey k o) -> newest (ops ++ [o]) g.
Proof.
  intros ops g o (o1 & o2 & -> & B & C) NK. exists o1, (o2 ++ [o]). rewrite <- app_assoc. split; [reflexivity|]. split; [exact B|].
  intros k K. apply Forall_app. split; [auto|]. constructor; [auto|constructor].
Qed.
Lemma origin_lt : forall ops g, origin ops g -> g_id g < pushes ops.
Proof. intros ops g (o1 & o2 & -> & ->). rewrite pushes_app, pushes_cons. cbn [isPush]. lia. Qed.

Record inv (ops : list op) (s : st) : Prop := mkInv {
  i_next : next s = pushes ops;
  i_nodup : NoDup (map g_id (map snd (out s) ++ sigs s));
  i_out : forall g, In g (map snd (out s)) -> origin ops g;
  i_sigs : forall g, In g (sigs s) -> newest ops g;
  i_exp : forall n v i old, expd s = Scan n v i old -> In (Exp n) ops /\ v <= vers s /\ forall g, In g old -> origin ops g /\ timeout + g_dt g < n }.

Lemma inv_run : forall ops, inv ops (run ops).
Proof.
  induction ops as [|o ops IH] using rev_ind.
  { constructor; cbn; [reflexivity|constructor|intros g []|intros g []|intros n v i old Z; discriminate Z]. }
  rewrite run_snoc. set (s := run ops) in *. destruct IH as [I1 I2 I3 I4 I5]. destruct o as [k t d|r|now]; cbn [step].
  - destruct (push_rest k t d s) as (P1 & P2 & P3).
    assert (NW : newest (ops ++ [Push k t d]) (mkSig (next s) k t d)).
    { exists ops, []. cbn. split; [reflexivity|]. split; [exact I1|]. intros; constructor. }
    assert (FR : ~ In (next s) (map g_id (map snd (out s) ++ sigs s))).
    { intros Z. apply in_map_iff in Z. destruct Z as (g & G1 & G2). apply in_app_or in G2.
      assert (O1 : origin ops g) by (destruct G2; [auto|apply newest_origin; auto]). apply origin_lt in O1. lia. }
    constructor.
    + rewrite P2, I1, pushes_app. reflexivity.
    + rewrite P3. destruct (push_cases k t d s) as [(A & _)|(k' & l1 & h & l2 & _ & A & B & _)].
      * rewrite A, app_assoc, map_app. cbn. apply Permutation_NoDup with (l := next s :: map g_id (map snd (out s) ++ sigs s)).
        { apply Permutation_cons_append. } constructor; assumption.
      * rewrite B. rewrite A in I2, FR. rewrite app_assoc, map_app in *. cbn in *.
        apply Permutation_NoDup with (l := next s :: map g_id (map snd (out s) ++ l1) ++ map g_id l2); [apply Permutation_middle|].
        constructor; [|apply NoDup_remove_1 in I2; exact I2]. intros Z. apply FR. apply in_app_or in Z. apply in_or_app. cbn. tauto.
    + rewrite P3. intros g G. apply origin_snoc. auto.
    + intros g G. destruct (push_cases k t d s) as [(A & _ & N)|(k' & l1 & h & l2 & K & A & B & _ & H1 & H2)].
      * rewrite A in G. apply in_app_or in G. destruct G as [G|[<-|[]]]; [|exact NW]. apply newest_snoc; [auto|].
        intros k' K (t' & d' & Z). inversion Z; subst. specialize (N _ eq_refl). rewrite Forall_forall in N. exact (N g G K).
      * rewrite B in G. apply in_elt_inv in G. destruct G as [Q|G]; [subst g; exact NW|].
        assert (GS : In g (sigs s)) by (rewrite A; apply in_app_or in G; apply in_or_app; cbn; tauto).
        apply newest_snoc; [auto|]. intros k'' K' (t' & d' & Z). assert (k'' = k') by congruence. subst k''. clear Z.
        (* another one with this key: it would be the newest too *)
        assert (HS : In h (sigs s)) by (rewrite A; apply in_elt).
        assert (g = h).
        { pose proof (I4 g GS) as (o1 & o2 & E1 & E2 & E3). pose proof (I4 h HS) as (p1 & p2 & F1 & F2 & F3).
          rewrite K' in *. rewrite H1 in *. specialize (E3 _ eq_refl). specialize (F3 _ eq_refl).
          assert (o1 = p1).
          { rewrite E1 in F1. clear - F1 E3 F3. revert p1 F1. induction o1 as [|y o1 IH]; intros [|y' p1] F1; cbn in F1; inversion F1; subst.
            - reflexivity.
            - exfalso. rewrite Forall_forall in E3. apply (E3 (Push (Some k') (g_topic h) (g_dt h))); [apply in_elt|]. eexists; eexists; reflexivity.
            - exfalso. rewrite Forall_forall in F3. apply (F3 (Push (Some k') (g_topic g) (g_dt g))); [apply in_elt|]. eexists; eexists; reflexivity.
            - f_equal. auto. }
          apply (origin_inj ops); [apply newest_origin; auto|apply newest_origin; auto|]. congruence. }
        subst h. clear - I2 A G. rewrite A in I2. rewrite app_assoc, map_app in I2. cbn in I2. apply NoDup_remove_2 in I2. apply I2.
        rewrite map_app. apply in_app_or in G. apply in_or_app. destruct G as [G|G]; [left; apply in_or_app; right; apply in_map; exact G|right; apply in_map; exact G].
    + intros n v i old Z. rewrite P1 in Z. destruct (I5 _ _ _ _ Z) as (A & B & C). split; [apply in_or_app; auto|]. split.
      * destruct (push_cases k t d s) as [(_ & Q & _)|(? & ? & ? & ? & _ & _ & _ & Q & _)]; rewrite Q; lia.
      * intros g G. destruct (C g G). split; [apply origin_snoc; auto|auto].
  - destruct (read_rest r s) as (P1 & P2). destruct (read_cases r s) as [(T & A & B & V)|(l1 & h & l2 & A & T & B & C & V)].
    + constructor.
      * rewrite P2, I1, pushes_app. change (pushes [Read r]) with 0. lia.
      * rewrite A, B, app_nil_r, map_app, map_map. cbn. rewrite map_id. exact I2.
      * intros g G. rewrite B, map_app, map_map in G. cbn in G. rewrite map_id in G. apply origin_snoc. apply in_app_or in G. destruct G; [auto|apply newest_origin; auto].
      * rewrite A. intros g [].
      * intros n v i old Z. rewrite P1 in Z. destruct (I5 _ _ _ _ Z) as (A1 & B1 & C1). split; [apply in_or_app; auto|]. split; [lia|].
        intros g G. destruct (C1 g G). split; [apply origin_snoc; auto|auto].
    + constructor.
      * rewrite P2, I1, pushes_app. change (pushes [Read r]) with 0. lia.
      * rewrite B, C. eapply sub_NoDup; [|exact I2]. apply sub_map. apply sub_app. rewrite A. apply sub_skip. constructor. apply sub_refl.
      * rewrite C. intros g G. apply origin_snoc. auto.
      * rewrite B. intros g G. apply newest_snoc; [apply I4; rewrite A; apply in_or_app; cbn; auto|]. intros k K (t & d & Z). discriminate Z.
      * intros n v i old Z. rewrite P1 in Z. destruct (I5 _ _ _ _ Z) as (A1 & B1 & C1). split; [apply in_or_app; auto|]. split; [lia|].
        intros g G. destruct (C1 g G). split; [apply origin_snoc; auto|auto].
  - assert (N4 : forall g, In g (sigs s) -> newest (ops ++ [Exp now]) g).
    { intros g G. apply newest_snoc; [auto|]. intros k K (t & d & Z). discriminate Z. }
    assert (N1 : next s = pushes (ops ++ [Exp now])) by (rewrite I1, pushes_app; change (pushes [Exp now]) with 0; lia).
    assert (N3 : forall g, In g (map snd (out s)) -> origin (ops ++ [Exp now]) g) by (intros; apply origin_snoc; auto).
    destruct (expire_cases now s) as [(D & ->)|(n & v & i & old & ST & X)].
    { constructor; auto. intros n v i old Z. congruence. }
    assert (S5 : In (Exp n) (ops ++ [Exp now]) /\ forall g, In g old -> origin ops g /\ timeout + g_dt g < n).
    { destruct ST as [(_ & -> & _ & _ & ->)|ST]; [split; [apply in_or_app; cbn; auto|intros g []]|]. destruct (I5 _ _ _ _ ST) as (A & _ & B). split; [apply in_or_app; auto|exact B]. }
    destruct S5 as (S5 & S6).
    destruct X as [(V & ->)|[(V & g & G & ->)|(V & G & l & v' & ok & RA & ->)]].
    + constructor; cbn; auto. intros ? ? ? ? Z. discriminate Z.
    + constructor; cbn; auto. intros n' v' i' old' Z. inversion Z; subst. split; [exact S5|]. split; [lia|].
      intros x Z'. destruct (timeout + g_dt g <? n') eqn:E.
      * apply in_app_or in Z'. destruct Z' as [Z'|[<-|[]]]; [destruct (S6 x Z'); split; [apply origin_snoc; auto|auto]|].
        split; [apply newest_origin; apply N4; eapply nth_error_In; eauto|apply N.ltb_lt; exact E].
      * destruct (S6 x Z'). split; [apply origin_snoc; auto|auto].
    + apply removeAll_spec in RA. destruct RA as (R1 & R2 & R3). constructor; cbn; auto.
      * eapply sub_NoDup; [|exact I2]. apply sub_map. apply sub_app. exact R1.
      * intros g' G'. apply N4. eapply sub_In; eauto.
      * intros ? ? ? ? Z. destruct ok; discriminate Z.
Qed.

(** The turns of one pass. *)
Lemma pass_turns : forall now l2 l1 s nows, sigs s = l1 ++ l2 -> NoDup (map g_id (sigs s)) ->
  expd s = Scan now (vers s) (List.length l1) (filter (fun g => timeout + g_dt g <? now) l1) -> List.length nows = List.length l2 ->
  forall now', let s' := fold_left step (map Exp (nows ++ [now'])) s in
  expd s' = Rest /\ sigs s' = filter (fun g => negb (timeout + g_dt g <? now)) (sigs s) /\ out s' = out s.
Proof.
  intros now. induction l2 as [|g l2 IH]; intros l1 s nows SG ND EX LE now'.
  - destruct nows; [|discriminate LE]. cbn. unfold expire. rewrite EX. unfold scan. rewrite N.eqb_refl. cbn [negb]. rewrite app_nil_r in SG.
    replace (nth_error (sigs s) (List.length l1)) with (@None sig) by (symmetry; apply nth_error_None; rewrite SG; lia). rewrite <- SG.
    destruct (removeAll_filter (fun g => timeout + g_dt g <? now) (sigs s) [] (vers s) ND) as (v' & R). cbn [app] in R. rewrite R. cbn. auto.
  - destruct nows as [|n nows]; [discriminate LE|]. cbn [app map fold_left].
    assert (E1 : step s (Exp n) = mkSt (sigs s) (vers s) (Scan now (vers s) (List.length l1 + 1) (if timeout + g_dt g <? now then filter (fun g => timeout + g_dt g <? now) l1 ++ [g] else filter (fun g => timeout + g_dt g <? now) l1)) (next s) (out s)).
    { cbn. unfold expire. rewrite EX. unfold scan. rewrite N.eqb_refl. cbn [negb]. rewrite SG at 1. rewrite nth_error_app2 by lia. replace (List.length l1 - List.length l1)%nat with O by lia. reflexivity. }
    rewrite E1. clear E1. set (s1 := mkSt _ _ _ _ _). change (sigs s) with (sigs s1). change (out s) with (out s1).
    apply (IH (l1 ++ [g])); [cbn; rewrite SG, <- app_assoc; reflexivity|exact ND| |cbn in LE; lia].
    unfold s1. cbn. rewrite app_length, filter_app. cbn. destruct (timeout + g_dt g <? now); [reflexivity|rewrite app_nil_r; reflexivity].
Qed.
Lemma pass_all : forall s now nows, expd s = Rest -> NoDup (map g_id (sigs s)) -> List.length nows = List.length (sigs s) ->
  let s' := fold_left step (map Exp (now :: nows)) s in
  expd s' = Rest /\ sigs s' = filter (fun g => negb (timeout + g_dt g <? now)) (sigs s) /\ out s' = out s.
Proof.
  intros s now nows EX ND LE. destruct (sigs s) as [|g l] eqn:SG.
  - destruct nows; [|discriminate LE]. cbn. unfold expire. rewrite EX. unfold scan. rewrite N.eqb_refl, SG. cbn. auto.
  - cbn [map fold_left].
    assert (E1 : step s (Exp now) = mkSt (sigs s) (vers s) (Scan now (vers s) 1 (if timeout + g_dt g <? now then [g] else [])) (next s) (out s)).
    { cbn. unfold expire. rewrite EX. unfold scan. rewrite N.eqb_refl, SG. reflexivity. }
    rewrite E1. clear E1. set (s1 := mkSt _ _ _ _ _). rewrite <- SG. change (sigs s) with (sigs s1). change (out s) with (out s1).
    assert (exists ns n, nows = ns ++ [n]) as (ns & n & ->).
    { destruct (exists_last (l := nows)) as (ns & n & E); [intros ->; discriminate LE|]. exists ns, n. exact E. }
    apply (pass_turns now l [g] s1 ns); [exact SG|cbn; rewrite SG; exact ND|cbn; destruct (timeout + g_dt g <? now); reflexivity|].
    rewrite app_length in LE. cbn in LE. lia.
Qed.

Lemma dead_stays : forall ops s, expd s = Dead -> expd (fold_left step ops s) = Dead.
Proof.
  induction ops as [|o ops IH]; cbn; intros s D; [exact D|]. apply IH. destruct o; cbn.
  - rewrite (proj1 (push_rest k t d s)). exact D.
  - rewrite (proj1 (read_rest r s)). exact D.
  - unfold expire. rewrite D. exact D.
Qed.
