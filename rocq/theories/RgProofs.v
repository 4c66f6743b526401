(** Proofs about the completion of transaction events. *)
From Coq Require Import Lia.
From Verif Require Import Prelude RgModel RgSpec.
Ltac Zify.zify_post_hook ::= Z.div_mod_to_equations.
Open Scope N_scope.

Lemma eq2_eq a b : eq2 a b = true <-> a = b.
Proof. destruct a as [a1 a2], b as [b1 b2]. unfold eq2. cbn [fst snd]. rewrite andb_true_iff, !N.eqb_eq. split; [intros [-> ->]; reflexivity|intros [= -> ->]; auto]. Qed.
Lemma eq2_refl a : eq2 a a = true.
Proof. apply eq2_eq. reflexivity. Qed.
Lemma eq2_neq a b : eq2 a b = false <-> a <> b.
Proof. rewrite <- eq2_eq. destruct (eq2 a b); split; congruence. Qed.
Lemma eq3_eq a b : eq3 a b = true <-> a = b.
Proof. destruct a as [a1 a2], b as [b1 b2]. unfold eq3. cbn [fst snd]. rewrite andb_true_iff, eq2_eq, N.eqb_eq. split; [intros [-> ->]; reflexivity|intros [= -> ->]; auto]. Qed.
Lemma eq3_refl a : eq3 a a = true.
Proof. apply eq3_eq. reflexivity. Qed.

Lemma In_adds l k a x : In x (adds l k a) <-> In x l \/ x = (k, a).
Proof.
  unfold adds. destruct (existsb (fun y => eq2 (fst y) k && eq3 (snd y) a) l) eqn:E.
  - apply existsb_exists in E. destruct E as ([k' a'] & I & E). cbn [fst snd] in E. apply andb_true_iff in E. destruct E as (E1 & E2). apply eq2_eq in E1. apply eq3_eq in E2. subst k' a'. split; [auto|]. intros [X| ->]; assumption.
  - rewrite in_app_iff. cbn [In]. split; [intros [X|[X|[]]]; auto|intros [X|X]; auto].
Qed.
Lemma In_addm l k a x : In x (addm l k a) <-> In x l \/ x = (k, a).
Proof.
  unfold addm. destruct (existsb (fun y => eq3 (fst y) k && eq3 (snd y) a) l) eqn:E.
  - apply existsb_exists in E. destruct E as ([k' a'] & I & E). cbn [fst snd] in E. apply andb_true_iff in E. destruct E as (E1 & E2). apply eq3_eq in E1. apply eq3_eq in E2. subst k' a'. split; [auto|]. intros [X| ->]; assumption.
  - rewrite in_app_iff. cbn [In]. split; [intros [X|[X|[]]]; auto|intros [X|X]; auto].
Qed.
Lemma In_rems {V} (l : list (tkey * V)) k x : In x (rems l k) <-> In x l /\ fst x <> k.
Proof. unfold rems. rewrite filter_In, negb_true_iff, eq2_neq. reflexivity. Qed.
Lemma In_remm l (k : tkey * N) (x : tkey * N * anchor) : In x (remm l k) <-> In x l /\ fst x <> k.
Proof.
  unfold remm. rewrite filter_In. destruct x as [y z]. cbn [fst]. pose proof (eq3_eq y k) as (Q1 & Q2). change (N * N * N)%type with (tkey * N)%type in *. destruct (eq3 y k); cbn [negb]; split; intros (A & B); (split; [exact A|]); [discriminate B|destruct (B (Q1 eq_refl))|intros Q; discriminate (Q2 Q)|reflexivity].
Qed.
Lemma In_addk l k x : In x (addk l k) <-> In x l \/ x = k.
Proof.
  unfold addk. destruct (existsb (eq2 k) l) eqn:E.
  - apply existsb_exists in E. destruct E as (k' & I & E). apply eq2_eq in E. subst k'. split; [auto|]. intros [X| ->]; assumption.
  - rewrite in_app_iff. cbn [In]. split; [intros [X|[X|[]]]; auto|intros [X|X]; auto].
Qed.
Lemma get_put {V} (l : list ((N * N) * V)) k v k' : get (put l k v) k' = match get l k' with Some x => Some x | None => if eq2 k k' then Some v else None end.
Proof.
  unfold put. assert (AP : forall m, get (m ++ [(k, v)]) k' = match get m k' with Some x => Some x | None => if eq2 k k' then Some v else None end).
  { intros m. unfold get. induction m as [|[k0 v0] m IH]; cbn [app find fst]; [destruct (eq2 k k'); reflexivity|]. destruct (eq2 k0 k'); [reflexivity|exact IH]. }
  destruct (get l k) as [x|] eqn:G; [|apply AP]. destruct (get l k') as [y|] eqn:G'; [reflexivity|]. destruct (eq2 k k') eqn:E; [|reflexivity]. apply eq2_eq in E. congruence.
Qed.

(** ** Where things come from *)
Definition cred_asked (l : list step) (k : tkey) : Prop := exists w c, In (w, Cred k, c) l.
Definition done (l : list step) (k : tkey) (pre n d : N) : Prop := backed l k pre n d /\ in_world l (fun w => w_tel w (fst k) (snd k) <> None).
Record good (l : list step) (s : rg) : Prop := mkGood {
  g1 : forall k pre n d, In (k, (pre, n, d)) (tpwe s) -> asked_single l k pre n d;
  g2 : forall k g pre n d, In (k, g, (pre, n, d)) (tmse s) -> asked_group l k pre n d;
  g3 : forall k pre n d, In (k, (pre, n, d)) (tede s) -> backed l k pre n d;
  g4 : forall k d, get (ctel s) k = Some d -> exists pre n, done l k pre n d;
  g5 : forall k, In k (cmse s) -> cred_asked l k;
  g6 : forall c, In c (ccrd s) -> exists sn, cred_asked l (c, sn) /\ in_world l (fun w => w_saved w c = true) /\ recorded s (c, sn);
  g7 : forall pre v sn, In (pre, v, sn) (pmsgs s) -> exists n d, done l (v, sn) pre n d;
  g8 : forall pre v sn, In (pre, v, sn) (pcues s) -> exists n d, done l (v, sn) pre n d }.
Definition just (l : list step) (R : tkey -> Prop) (x : write) : Prop :=
  match x with
  | AddTpwe k (pre, n, d) => asked_single l k pre n d
  | AddTmse (k, _) (pre, n, d) => asked_group l k pre n d
  | AddTede k (pre, n, d) => backed l k pre n d
  | PutCtel k d => exists pre n, done l k pre n d
  | PutCmse k => cred_asked l k
  | PutCcrd c => exists sn, cred_asked l (c, sn) /\ in_world l (fun w => w_saved w c = true) /\ R (c, sn)
  | AddPmsg (pre, v, sn) => exists n d, done l (v, sn) pre n d
  | _ => True
  end.
Lemma ctel_grows s x k : recorded s k -> recorded (apply s x) k.
Proof. unfold recorded. destruct x; cbn [apply ctel]; auto. rewrite get_put. destruct (get (ctel s) k); [congruence|]. intros []. reflexivity. Qed.
Lemma good_apply l R s x : good l s -> just l R x -> (forall k, R k -> recorded s k) -> good l (apply s x).
Proof.
  intros [G1 G2 G3 G4 G5 G6 G7 G8] J RR. assert (G6' : forall c, In c (ccrd s) -> exists sn, cred_asked l (c, sn) /\ in_world l (fun w => w_saved w c = true) /\ recorded (apply s x) (c, sn)).
  { intros c I. destruct (G6 c I) as (sn & A1 & A2 & A3). exists sn. do 2 (split; [assumption|]). apply ctel_grows. exact A3. }
  destruct x; cbn [just] in J; split; cbn [apply tpwe tmse tede ctel cmse ccrd pmsgs pcues] in *; auto.
  - intros k0 pre n d I. apply In_adds in I. destruct I as [I|I]; [eauto|]. injection I as <- <-. exact J.
  - intros k0 pre n d I. apply In_rems in I. destruct I as (I & _). eauto.
  - intros k0 g pre n d I. apply In_addm in I. destruct I as [I|I]; [eauto|]. injection I as <- <-. exact J.
  - intros k0 g pre n d I. apply In_remm in I. destruct I as (I & _). eauto.
  - intros k0 pre n d I. apply In_adds in I. destruct I as [I|I]; [eauto|]. injection I as <- <-. exact J.
  - intros k0 pre n d I. apply In_rems in I. destruct I as (I & _). eauto.
  - intros k0 d0 Q. rewrite get_put in Q. destruct (get (ctel s) k0) eqn:G; [apply G4; congruence|]. destruct (eq2 k k0) eqn:E; [|discriminate]. apply eq2_eq in E. injection Q as <-. subst k0. exact J.
  - intros k0 I. apply In_addk in I. destruct I as [I| ->]; [eauto|exact J].
  - intros k0 I. apply filter_In in I. destruct I as (I & _). eauto.
  - intros c0 I. assert (I' : In c0 (ccrd s) \/ c0 = c) by (destruct (existsb (N.eqb c) (ccrd s)); [auto|]; apply in_app_iff in I; cbn [In] in I; destruct I as [I|[I|[]]]; auto).
    destruct I' as [I'| ->]; [auto|]. destruct J as (sn & J1 & J2 & J3). exists sn. do 2 (split; [assumption|]). apply RR in J3. exact J3.
  - intros pre v sn I. apply in_app_iff in I. destruct I as [I|[I|[]]]; [eauto|subst m; exact J].
  - intros pre v sn I. apply G7. destruct (pmsgs s); [exact I|right; exact I].
  - intros pre v sn I. apply in_app_iff in I. destruct I as [I|I]; [eauto|]. destruct sent; [|destruct I]. apply G7. destruct (pmsgs s) as [|m r]; [destruct I|]. destruct I as [I|[]]. left. exact I.
Qed.
Lemma good_fold l R ws : forall s, good l s -> Forall (just l R) ws -> (forall k, R k -> recorded s k) -> good l (fold_left apply ws s).
Proof.
  induction ws as [|x ws IH]; intros s G F RR; cbn [fold_left]; [exact G|]. inversion F; subst. apply IH; [apply (good_apply l R); assumption|assumption|]. intros k K. apply ctel_grows. auto.
Qed.
Lemma asked_single_more l x k pre n d : asked_single l k pre n d -> asked_single (x :: l) k pre n d.
Proof. intros (w & c & g & n0 & d0 & I & X). exists w, c, g, n0, d0. split; [right; exact I|exact X]. Qed.
Lemma asked_group_more l x k pre n d : asked_group l k pre n d -> asked_group (x :: l) k pre n d.
Proof. intros (w & c & g & I & X). exists w, c, g. split; [right; exact I|exact X]. Qed.
Lemma in_world_more l x P : in_world l P -> in_world (x :: l) P.
Proof. intros (w & o & c & I & X). exists w, o, c. split; [right; exact I|exact X]. Qed.
Lemma in_world_now l w o c (P : world -> Prop) : P w -> in_world ((w, o, c) :: l) P.
Proof. intros X. exists w, o, c. split; [left; reflexivity|exact X]. Qed.
Lemma backed_more l x k pre n d : backed l k pre n d -> backed (x :: l) k pre n d.
Proof. intros [(A & B)|(A & B)]; [left|right]; (split; [|apply in_world_more; exact B]); [apply asked_single_more|apply asked_group_more]; exact A. Qed.
Lemma done_more l x k pre n d : done l k pre n d -> done (x :: l) k pre n d.
Proof. intros (A & B). split; [apply backed_more|apply in_world_more]; assumption. Qed.
Lemma cred_more l x k : cred_asked l k -> cred_asked (x :: l) k.
Proof. intros (w & c & I). exists w, c. right. exact I. Qed.
Lemma good_more l x s : good l s -> good (x :: l) s.
Proof.
  intros [G1 G2 G3 G4 G5 G6 G7 G8]. split; intros.
  - apply asked_single_more. eauto.
  - eapply asked_group_more. eauto.
  - apply backed_more. eauto.
  - destruct (G4 _ _ H) as (pre & n & X). exists pre, n. apply done_more. exact X.
  - apply cred_more. eauto.
  - destruct (G6 _ H) as (sn & A1 & A2 & A3). exists sn. split; [apply cred_more; exact A1|]. split; [apply in_world_more; exact A2|exact A3].
  - destruct (G7 _ _ _ H) as (n & d & X). exists n, d. apply done_more. exact X.
  - destruct (G8 _ _ _ H) as (n & d & X). exists n, d. apply done_more. exact X.
Qed.
Lemma good_restart l s : good l s -> good l (restart s).
Proof. intros [G1 G2 G3 G4 G5 G6 G7 G8]. split; cbn [restart tpwe tmse tede ctel cmse ccrd pmsgs pcues]; auto; intros pre v sn []. Qed.
Lemma ready_witnessed w s pre n d : ready w s (pre, n, d) = true -> witnessed w pre d.
Proof. unfold ready, witnessed. destruct (w_wits w pre); [auto|]. intros Q. apply andb_true_iff in Q. destruct Q as (Q & _). apply N.eqb_eq in Q. auto. Qed.
Lemma Forall_flat {A B} (P : B -> Prop) (f : A -> list B) l : (forall a, In a l -> Forall P (f a)) -> Forall P (flat_map f l).
Proof. intros H. induction l as [|a l IH]; cbn [flat_map]; [constructor|]. apply Forall_app. split; [apply H; left; reflexivity|apply IH; intros; apply H; right; assumption]. Qed.
Lemma just_first l w c s (o := Pass) : good ((w, o, c) :: l) s -> Forall (just ((w, o, c) :: l) (fun _ => False)) (witnessW w s ++ multisigW w s).
Proof.
  intros G. apply Forall_app. split.
  - apply Forall_flat. intros [k [[pre n] d]] I. cbn [fst snd]. destruct (ready w s (pre, n, d)) eqn:R; [|constructor]. constructor; [exact Logic.I|]. constructor; [|constructor]. left.
    split; [exact (g1 _ _ G _ _ _ _ I)|]. apply in_world_now. apply (ready_witnessed w s pre n d R).
  - apply Forall_flat. intros [[k g] [[pre n] d]] I. destruct (w_cgms w pre n) as [d'|] eqn:Q; [|constructor]. destruct (d' =? d) eqn:E; [|constructor; [exact Logic.I|constructor]]. apply N.eqb_eq in E. subst d'.
    do 2 (constructor; [exact Logic.I|]). constructor; [|constructor]. right. split; [exact (g2 _ _ G _ _ _ _ _ I)|]. apply in_world_now. exact Q.
Qed.
Lemma just_dissem l w c s (o := Pass) : good ((w, o, c) :: l) s -> Forall (just ((w, o, c) :: l) (fun _ => False)) (dissemW w s).
Proof.
  intros G. apply Forall_flat. intros [k [[pre n] d]] I. destruct (w_tel w (fst k) (snd k)) as [x|] eqn:Q; [|constructor].
  assert (D : done ((w, o, c) :: l) k pre n d) by (split; [exact (g3 _ _ G _ _ _ _ I)|apply in_world_now; congruence]).
  constructor; [exact Logic.I|]. constructor; [exists n, d; destruct k; exact D|]. constructor; [exists pre, n; exact D|constructor].
Qed.
Lemma just_writes l w o c s : good ((w, o, c) :: l) s -> Forall (just ((w, o, c) :: l) (recorded s)) (writes w o s).
Proof.
  intros G. assert (WK : forall ws, Forall (just ((w, o, c) :: l) (fun _ => False)) ws -> Forall (just ((w, o, c) :: l) (recorded s)) ws).
  { intros ws F. rewrite Forall_forall in F |- *. intros x I. specialize (F x I). destruct x; try exact F. destruct F as (sn & _ & _ & []). }
  destruct o as [k g pre n d|k| | | |]; cbn [writes].
  - unfold startW. destruct (w_group w pre) eqn:GR.
    + constructor; [|constructor]. exists w, c, g. split; [left; reflexivity|exact GR].
    + destruct (w_last w pre) as [n' d'] eqn:LA. do 2 (constructor; [exact Logic.I|]). constructor; [|constructor]. exists w, c, g, n, d. split; [left; reflexivity|auto].
  - constructor; [|constructor]. exists w, c. left. reflexivity.
  - constructor; [exact Logic.I|constructor].
  - destruct (pmsgs s) as [|[[p v] sn] r]; [constructor|]. constructor; [exact Logic.I|constructor].
  - apply WK. unfold passW. apply Forall_app. split; [apply just_first; exact G|]. apply just_dissem. apply (good_fold _ (fun _ => False)); [exact G|apply just_first; exact G|intros k []].
  - apply Forall_flat. intros k I. destruct (complete s k && w_saved w (fst k)) eqn:Q; [|constructor]. apply andb_true_iff in Q. destruct Q as (Q1 & Q2). constructor; [exact Logic.I|]. constructor; [|constructor].
    exists (snd k). destruct k as [v sn]. cbn [fst snd] in *. split; [exact (g5 _ _ G _ I)|]. split; [apply in_world_now; exact Q2|]. unfold complete in Q1. unfold recorded. destruct (get (ctel s) (v, sn)); [discriminate|discriminate Q1].
Qed.
Lemma Forall_firstn {A} (P : A -> Prop) j : forall l, Forall P l -> Forall P (firstn j l).
Proof. induction j as [|j IH]; intros l F; [constructor|]. destruct F; cbn [firstn]; constructor; auto. Qed.
Lemma good_hist l s : hist l s -> good l s.
Proof.
  intros H. induction H as [|l s w o c H IH]; [split; intros; try contradiction; discriminate|]. apply (good_more l (w, o, c)) in IH. pose proof (just_writes _ _ _ _ _ IH) as J. unfold run. destruct c as [j|].
  - apply good_restart. apply (good_fold _ (recorded s)); [exact IH|apply Forall_firstn; exact J|auto].
  - apply (good_fold _ (recorded s)); [exact IH|exact J|auto].
Qed.

(** ** Nothing is lost between calls *)
Definition on_way (s : rg) (k : tkey) : Prop := (exists a, In (k, a) (tpwe s)) \/ (exists a, In (k, a) (tede s)) \/ recorded s k.
Lemma fold_flat {A} (f : A -> list write) (P : rg -> Prop) l : (forall a s, In a l -> P s -> P (fold_left apply (f a) s)) -> forall s, P s -> P (fold_left apply (flat_map f l) s).
Proof. intros H. induction l as [|a l IH]; intros s X; cbn [flat_map fold_left]; [exact X|]. rewrite fold_left_app. apply IH; [intros; apply H; [right|]; assumption|]. apply H; [left; reflexivity|exact X]. Qed.
Lemma in_adds l k a : In (k, a) (adds l k a).
Proof. apply In_adds. right. reflexivity. Qed.
Ltac fields := cbn [fold_left apply tpwe tmse tede ctel ancs cmse ccrd rmsgs rcues pmsgs pcues].
Lemma on_way_rem s k k' a : on_way s k -> on_way (fold_left apply [RemTpwe k'; AddTede k' a] s) k.
Proof.
  intros X. unfold on_way, recorded. fields. destruct (eq2 k k') eqn:E.
  - apply eq2_eq in E. subst k'. right. left. exists a. apply in_adds.
  - apply eq2_neq in E. destruct X as [(b & X)|[(b & X)|X]]; [left; exists b; apply In_rems; auto|right; left; exists b; apply In_adds; auto|right; right; exact X].
Qed.
Lemma on_way_dis s k k' m d : on_way s k -> on_way (fold_left apply [RemTede k'; AddPmsg m; PutCtel k' d] s) k.
Proof.
  intros X. unfold on_way, recorded. fields. destruct (eq2 k' k) eqn:E.
  - right. right. rewrite get_put, E. destruct (get (ctel s) k); discriminate.
  - rewrite get_put, E. apply eq2_neq in E. destruct X as [(b & X)|[(b & X)|X]]; [left; exists b; exact X|right; left; exists b; apply In_rems; split; [exact X|cbn [fst]; congruence]|right; right].
    unfold recorded in X. destruct (get (ctel s) k); congruence.
Qed.
Lemma on_way_mul s k k' g a : on_way s k -> on_way (fold_left apply [RemTmse g; AddTede k' a] s) k.
Proof. intros X. unfold on_way, recorded. fields. destruct X as [(b & X)|[(b & X)|X]]; [left; exists b; exact X|right; left; exists b; apply In_adds; auto|right; right; exact X]. Qed.
Lemma on_way_writes w o s k : on_way s k -> on_way (fold_left apply (writes w o s) s) k.
Proof.
  intros X. destruct o as [k0 g pre n d|k0| | | |]; cbn [writes].
  - unfold startW. destruct (w_group w pre); [|destruct (w_last w pre) as [n' d']]; unfold on_way, recorded; fields; destruct X as [(b & X)|[(b & X)|X]]; [left; exists b; exact X|right; left; exists b; exact X|right; right; exact X|left; exists b; apply In_adds; auto|right; left; exists b; exact X|right; right; exact X].
  - exact X.
  - exact X.
  - destruct (pmsgs s) as [|[[p v] sn] r]; exact X.
  - unfold passW. rewrite !fold_left_app. unfold dissemW. apply (fold_flat _ (fun z => on_way z k)); [|unfold multisigW; apply (fold_flat _ (fun z => on_way z k)); [|unfold witnessW; apply (fold_flat _ (fun z => on_way z k)); [|exact X]]].
    + intros [k1 [[pre n] d]] s0 _ X0. destruct (w_tel w (fst k1) (snd k1)); [apply on_way_dis; exact X0|exact X0].
    + intros [[k1 g] [[pre n] d]] s0 _ X0. destruct (w_cgms w pre n) as [d'|]; [|exact X0]. destruct (d' =? d); [|exact X0]. change (on_way (fold_left apply [RemTmse (k1, g); AddTede k1 (pre, n, d)] (apply s0 (PutAncs (fst k1, g) (n, d)))) k). apply on_way_mul. exact X0.
    + intros [k1 a] s0 _ X0. cbn [fst snd]. destruct (ready w s a); [apply on_way_rem; exact X0|exact X0].
  - unfold credW. apply (fold_flat _ (fun z => on_way z k)); [|exact X]. intros k1 s0 _ X0. destruct (complete s k1 && w_saved w (fst k1)); exact X0.
Qed.
Lemma on_way_later s l s' k : later s l s' -> whole l -> on_way s k -> on_way s' k.
Proof.
  intros L. induction L as [|l s' w o c L IH]; intros W X; [exact X|]. assert (W' : whole l) by (intros w0 o0 c0 I; apply (W w0 o0 c0); right; exact I). specialize (IH W' X). unfold run.
  destruct (W w o c (or_introl eq_refl)) as [-> | ->]; [apply on_way_writes; exact IH|]. cbn [firstn fold_left]. exact IH.
Qed.

(** ** A pass makes progress *)
Lemma tede_first w s k a : In (k, a) (tede s) -> In (k, a) (tede (fold_left apply (witnessW w s ++ multisigW w s) s)).
Proof.
  intros X. rewrite fold_left_app. unfold multisigW, witnessW. apply (fold_flat _ (fun z => In (k, a) (tede z))); [|apply (fold_flat _ (fun z => In (k, a) (tede z))); [|exact X]].
  - intros [[k1 g] [[pre n] d]] s0 _ X0. destruct (w_cgms w pre n) as [d'|]; [|exact X0]. destruct (d' =? d); [|exact X0]. fields. apply In_adds. auto.
  - intros [k1 b] s0 _ X0. cbn [fst snd]. destruct (ready w s b); [|exact X0]. fields. apply In_adds. auto.
Qed.
Lemma reach_flat {A} (f : A -> list write) (P : rg -> Prop) l a : In a l -> (forall s, P (fold_left apply (f a) s)) -> (forall b s, In b l -> P s -> P (fold_left apply (f b) s)) -> forall s, P (fold_left apply (flat_map f l) s).
Proof.
  intros I H1 H2. apply in_split in I. destruct I as (l1 & l2 & ->). intros s. rewrite flat_map_app, fold_left_app. cbn [flat_map]. rewrite fold_left_app. apply (fold_flat f P); [|apply H1].
  intros b s0 I X. apply H2; [apply in_app_iff; right; right; exact I|exact X].
Qed.
Lemma tede_single w s k a : In (k, a) (tpwe s) -> ready w s a = true -> In (k, a) (tede (fold_left apply (witnessW w s ++ multisigW w s) s)).
Proof.
  intros I R. rewrite fold_left_app. unfold multisigW. apply (fold_flat _ (fun z => In (k, a) (tede z))).
  - intros [[k1 g] [[pre n] d]] s0 _ X0. destruct (w_cgms w pre n) as [d'|]; [|exact X0]. destruct (d' =? d); [|exact X0]. fields. apply In_adds. auto.
  - unfold witnessW. apply (reach_flat _ (fun z => In (k, a) (tede z)) _ (k, a) I).
    + intros s0. cbn [fst snd]. rewrite R. fields. apply in_adds.
    + intros [k1 b] s0 _ X0. cbn [fst snd]. destruct (ready w s b); [|exact X0]. fields. apply In_adds. auto.
Qed.
Lemma tede_group w s k g pre n d : In (k, g, (pre, n, d)) (tmse s) -> w_cgms w pre n = Some d -> In (k, (pre, n, d)) (tede (fold_left apply (witnessW w s ++ multisigW w s) s)).
Proof.
  intros I R. rewrite fold_left_app. unfold multisigW. apply (reach_flat _ (fun z => In (k, (pre, n, d)) (tede z)) _ (k, g, (pre, n, d)) I).
  - intros s0. cbn beta iota. rewrite R, N.eqb_refl. fields. apply in_adds.
  - intros [[k1 g1] [[pre1 n1] d1]] s0 _ X0. destruct (w_cgms w pre1 n1) as [d'|]; [|exact X0]. destruct (d' =? d1); [|exact X0]. fields. apply In_adds. auto.
Qed.
Lemma dissem_does w s0 s k pre n d : In (k, (pre, n, d)) (tede s0) -> w_tel w (fst k) (snd k) <> None ->
  recorded (fold_left apply (dissemW w s0) s) k /\ In (pre, fst k, snd k) (pmsgs (fold_left apply (dissemW w s0) s)).
Proof.
  intros I T. unfold dissemW. apply (reach_flat _ (fun z => recorded z k /\ In (pre, fst k, snd k) (pmsgs z)) _ _ I).
  - intros z. cbn beta iota. destruct (w_tel w (fst k) (snd k)); [|congruence]. unfold recorded. fields. split; [rewrite get_put, eq2_refl; destruct (get (ctel z) k); discriminate|apply in_app_iff; right; left; reflexivity].
  - intros [k1 [[p1 n1] d1]] z _ (X1 & X2). destruct (w_tel w (fst k1) (snd k1)); [|auto]. split; [|fields; apply in_app_iff; left; exact X2]. cbn [fold_left]. do 3 apply ctel_grows. exact X1.
Qed.
Lemma pass_does w s k pre n d : In (k, (pre, n, d)) (tede (fold_left apply (witnessW w s ++ multisigW w s) s)) -> w_tel w (fst k) (snd k) <> None ->
  recorded (run w Pass None s) k /\ In (pre, fst k, snd k) (pmsgs (run w Pass None s)).
Proof. intros I T. unfold run. cbn [writes]. unfold passW. rewrite fold_left_app. apply (dissem_does w _ _ k pre n d I T). Qed.
Lemma publish_does w k pre : w_hab w pre = true -> forall m s, (exists r, pmsgs s = m ++ (pre, fst k, snd k) :: r) -> recorded s k -> complete (publish (S (List.length m)) w s) k = true.
Proof.
  intros HB m. assert (STEP : forall s x r, pmsgs s = x :: r -> pmsgs (run w Publish None s) = r /\ ctel (run w Publish None s) = ctel s).
  { intros s [[p v] sn] r Q. unfold run. cbn [writes]. rewrite Q. fields. rewrite Q. auto. }
  induction m as [|x m IH]; intros s (r & Q) X.
  - cbn [publish List.length]. cbn [app] in Q. unfold run. cbn [writes]. rewrite Q, HB. unfold complete. fields. unfold recorded in X. destruct (get (ctel s) k); [|congruence]. rewrite Q. cbn [firstn]. rewrite existsb_app. cbn [existsb fst snd]. rewrite N.eqb_refl, orb_true_l, orb_true_r. reflexivity.
  - cbn [app] in Q. destruct (STEP s x _ Q) as (Q1 & Q2). change (publish (S (List.length (x :: m))) w s) with (publish (S (List.length m)) w (run w Publish None s)). apply IH; [exists r; exact Q1|]. unfold recorded. rewrite Q2. exact X.
Qed.
Lemma pass_publish w s k pre n d : In (k, (pre, n, d)) (tede (fold_left apply (witnessW w s ++ multisigW w s) s)) -> w_tel w (fst k) (snd k) <> None -> w_hab w pre = true ->
  exists j, complete (publish j w (run w Pass None s)) k = true.
Proof.
  intros I T HB. destruct (pass_does w s k pre n d I T) as (X1 & X2). apply in_split in X2. destruct X2 as (m & r & Q). exists (S (List.length m)). apply (publish_does w k pre HB); [exists r; exact Q|exact X1].
Qed.

(** ** Events that are stuck *)
Record held (k : tkey) (P : anchor -> Prop) (s : rg) : Prop := mkHeld {
  h1 : forall a, In (k, a) (tpwe s) -> P a; h2 : forall g a, ~ In (k, g, a) (tmse s); h3 : forall a, ~ In (k, a) (tede s); h4 : get (ctel s) k = None }.
Definition safe (k : tkey) (x : write) : Prop :=
  match x with AddTpwe k' _ => k' <> k | AddTmse (k', _) _ => k' <> k | AddTede k' _ => k' <> k | PutCtel k' _ => k' <> k | _ => True end.
Lemma held_apply k P s x : held k P s -> safe k x -> held k P (apply s x).
Proof.
  intros [H1 H2 H3 H4] J. destruct x; cbn [safe] in J; split; fields; auto.
  - intros b I. apply In_adds in I. destruct I as [I|I]; [auto|]. injection I as Q _. congruence.
  - intros b I. apply In_rems in I. destruct I as (I & _). auto.
  - intros g b I. apply In_addm in I. destruct I as [I|I]; [exact (H2 _ _ I)|]. destruct k0 as [k0 g0]. injection I as Q _ _. congruence.
  - intros g b I. apply In_remm in I. destruct I as (I & _). exact (H2 _ _ I).
  - intros b I. apply In_adds in I. destruct I as [I|I]; [exact (H3 _ I)|]. injection I as Q _. congruence.
  - intros b I. apply In_rems in I. destruct I as (I & _). exact (H3 _ I).
  - rewrite get_put, H4. destruct (eq2 k0 k) eqn:E; [apply eq2_eq in E; congruence|reflexivity].
Qed.
Lemma held_fold k P ws : forall s, held k P s -> Forall (safe k) ws -> held k P (fold_left apply ws s).
Proof. induction ws as [|x ws IH]; intros s H F; cbn [fold_left]; [exact H|]. inversion F; subst. apply IH; [apply held_apply; assumption|assumption]. Qed.
Lemma held_restart k P s : held k P s -> held k P (restart s).
Proof. intros [H1 H2 H3 H4]. split; cbn [restart tpwe tmse tede ctel]; auto. Qed.
Lemma safe_first k P w s : held k P s -> (forall a, In (k, a) (tpwe s) -> ready w s a = false) -> Forall (safe k) (witnessW w s ++ multisigW w s).
Proof.
  intros H U. apply Forall_app. split; apply Forall_flat.
  - intros [k1 a] I. cbn [fst snd]. destruct (ready w s a) eqn:R; [|constructor]. constructor; [exact Logic.I|]. constructor; [|constructor]. cbn [safe]. intros ->. rewrite (U a I) in R. discriminate.
  - intros [[k1 g] [[pre n] d]] I. destruct (w_cgms w pre n) as [d'|]; [|constructor]. destruct (d' =? d); [|constructor; [exact Logic.I|constructor]]. do 2 (constructor; [exact Logic.I|]). constructor; [|constructor]. cbn [safe]. intros ->. exact (h2 _ _ _ H _ _ I).
Qed.
Lemma safe_writes k P w o s : held k P s -> (forall a, In (k, a) (tpwe s) -> ready w s a = false) -> (forall g pre n d, o <> Start k g pre n d) -> Forall (safe k) (writes w o s).
Proof.
  intros H U NS. destruct o as [k0 g pre n d|k0| | | |]; cbn [writes].
  - assert (NK : k0 <> k) by (intros ->; exact (NS g pre n d eq_refl)). unfold startW. destruct (w_group w pre); [constructor; [exact NK|constructor]|]. destruct (w_last w pre) as [n' d']. do 2 (constructor; [exact Logic.I|]). constructor; [exact NK|constructor].
  - constructor; [exact Logic.I|constructor].
  - constructor; [exact Logic.I|constructor].
  - destruct (pmsgs s) as [|[[p v] sn] r]; [constructor|]. constructor; [exact Logic.I|constructor].
  - unfold passW. apply Forall_app. pose proof (safe_first k P w s H U) as F1. split; [exact F1|]. pose proof (held_fold k P _ s H F1) as H'. apply Forall_flat. intros [k1 [[pre n] d]] I. destruct (w_tel w (fst k1) (snd k1)); [|constructor].
    do 2 (constructor; [exact Logic.I|]). constructor; [|constructor]. cbn [safe]. intros ->. exact (h3 _ _ _ H' _ I).
  - apply Forall_flat. intros k1 _. destruct (complete s k1 && w_saved w (fst k1)); [|constructor]. constructor; [exact Logic.I|]. constructor; [exact Logic.I|constructor].
Qed.
Lemma held_run k P w o c s : held k P s -> (forall a, In (k, a) (tpwe s) -> ready w s a = false) -> (forall g pre n d, o <> Start k g pre n d) -> held k P (run w o c s).
Proof.
  intros H U NS. pose proof (safe_writes k P w o s H U NS) as F. unfold run. destruct c as [j|]; [apply held_restart|]; apply held_fold; auto. apply Forall_firstn. exact F.
Qed.
Lemma held_incomplete k P s : held k P s -> complete s k = false.
Proof. intros H. unfold complete. rewrite (h4 _ _ _ H). reflexivity. Qed.
