From Coq Require Import Lia.
From Verif Require Import Prelude CoModel CoSpec.
Ltac Zify.zify_post_hook ::= Z.div_mod_to_equations.
Open Scope N_scope.

Lemma run_snoc proxy ops o : run proxy (ops ++ [o]) = step proxy (run proxy ops) o.
Proof. unfold run. rewrite fold_left_app. reflexivity. Qed.

(** ** the world *)
Definition accs (ops : list op) : list (bytes * kst) := flat_map (fun o => match o with Accept p k => [(p, k)] | _ => [] end) ops.
Definition owns (ops : list op) : list (bytes * hab) := flat_map (fun o => match o with Own p h => [(p, h)] | _ => [] end) ops.
Lemma wo_after w o : wo (after w o) = w.
Proof. destruct o as [[d m] [u|x]]; reflexivity. Qed.
Lemma of2_In l p d i : In i (of2 l p d) <-> In (p, d, i) l.
Proof.
  unfold of2. rewrite in_map_iff. split.
  - intros ([[a b] c] & <- & I). apply filter_In in I. destruct I as (I & E). cbn in E. apply andb_prop in E. destruct E as (E1 & E2). apply beq_eq in E1, E2. subst. exact I.
  - intros I. exists (p, d, i). split; [reflexivity|]. apply filter_In. split; [exact I|]. cbn. rewrite !beq_refl. reflexivity.
Qed.
Lemma of2_snoc l p d p' d' i : of2 (l ++ [(p', d', i)]) p d = of2 l p d ++ (if beq p' p && beq d' d then [i] else []).
Proof. unfold of2. rewrite filter_app, map_app. cbn. destruct (beq p' p && beq d' d); reflexivity. Qed.
Definition wok (ops : list op) (w : world) : Prop :=
  kel w = accs ops /\ habs w = rev (owns ops) /\
  (forall p d i, In i (of2 (sigs w) p d) <-> In (Sig p d i) ops) /\
  (forall p d i, In i (of2 (wigs w) p d) <-> In (Wig p d i) ops) /\ (forall p d, NoDup (of2 (wigs w) p d)) /\
  (forall del p v a, In (del, (p, v), a) (seals w) <-> In (Seal del p v a) ops).
Lemma in_snoc {A} (x y : A) l : In x (l ++ [y]) <-> In x l \/ y = x.
Proof. rewrite in_app_iff. cbn. tauto. Qed.
Lemma run_wok proxy ops : wok ops (wo (run proxy ops)).
Proof.
  induction ops as [|o ops (A & B & C & D & E & F)] using rev_ind.
  - split; [reflexivity|]. split; [reflexivity|]. split; [intros p d i; cbn; tauto|]. split; [intros p d i; cbn; tauto|]. split; [intros p d; constructor|intros del p v a; cbn; tauto].
  - rewrite run_snoc. unfold wok, accs, owns. rewrite !flat_map_app. fold (accs ops) (owns ops). cbn [flat_map].
    set (s := run proxy ops) in *. clearbody s.
    assert (K : forall w, w = wo s -> (forall p k, o <> Accept p k) -> (forall p d i, o <> Sig p d i) -> (forall p d i, o = Wig p d i -> In (Wig p d i) ops) -> (forall d p v a, o <> Seal d p v a) -> (forall p h, o <> Own p h) ->
      kel w = accs ops ++ match o with Accept p k => [(p, k)] | _ => [] end ++ [] /\ habs w = rev (owns ops ++ match o with Own p h => [(p, h)] | _ => [] end ++ []) /\
      (forall p d i, In i (of2 (sigs w) p d) <-> In (Sig p d i) (ops ++ [o])) /\ (forall p d i, In i (of2 (wigs w) p d) <-> In (Wig p d i) (ops ++ [o])) /\ (forall p d, NoDup (of2 (wigs w) p d)) /\ (forall del p v a, In (del, (p, v), a) (seals w) <-> In (Seal del p v a) (ops ++ [o]))).
    { intros w -> N1 N2 N3 N4 N5. split; [rewrite A; destruct o; cbn; rewrite ?app_nil_r; try reflexivity; exfalso; eapply N1; reflexivity|]. split; [rewrite B; destruct o; cbn; rewrite ?app_nil_r; try reflexivity; exfalso; eapply N5; reflexivity|].
      split; [intros p d i; rewrite C, in_snoc; split; [auto|intros [G|G]; [exact G|exfalso; eapply N2; exact G]]|]. split; [intros p d i; rewrite D, in_snoc; split; [auto|intros [G|G]; [exact G|apply N3; exact G]]|]. split; [exact E|].
      intros del p v a; rewrite F, in_snoc; split; [auto|intros [G|G]; [exact G|exfalso; eapply N4; exact G]]. }
    destruct o as [p0 k0|p0 d0 i0|p0 d0 i0|de p0 v0 a0|p0 h0|p0 sn dig|p0 sn| | | | |p0| ]; cbn [step].
    6,7,8,9,10,11,12,13: apply K; try (intros; discriminate); rewrite ?wo_after; try reflexivity; try (destruct (msgs (me s)); reflexivity); destruct (smsgs (me s)); reflexivity.
    + cbn [w_kel kel habs sigs wigs seals wo app]. split; [rewrite A; reflexivity|]. split; [rewrite app_nil_r; exact B|]. split; [intros p d i; rewrite C, in_snoc; split; [auto|intros [G|G]; [exact G|discriminate G]]|]. split; [intros p d i; rewrite D, in_snoc; split; [auto|intros [G|G]; [exact G|discriminate G]]|]. split; [exact E|]. intros; rewrite F, in_snoc; split; [auto|intros [G|G]; [exact G|discriminate G]].
    + cbn [w_kel kel habs sigs wigs seals wo app]. rewrite !app_nil_r. split; [exact A|]. split; [exact B|]. split.
      * intros p d i. rewrite of2_In, in_snoc, <- of2_In, C, in_snoc. split; (intros [G|G]; [auto|right; injection G as -> -> ->; reflexivity]).
      * split; [intros p d i; rewrite D, in_snoc; split; [auto|intros [G|G]; [exact G|discriminate G]]|]. split; [exact E|]. intros; rewrite F, in_snoc; split; [auto|intros [G|G]; [exact G|discriminate G]].
    + destruct (existsb (N.eqb i0) (of2 (wigs (wo s)) p0 d0)) eqn:X.
      * apply K; try (intros; discriminate); [reflexivity|]. intros p d i [= -> -> ->]. apply D. apply existsb_exists in X. destruct X as (j & J1 & J2). apply N.eqb_eq in J2. subst. exact J1.
      * cbn [w_kel kel habs sigs wigs seals wo app]. rewrite !app_nil_r. split; [exact A|]. split; [exact B|]. split; [intros p d i; rewrite C, in_snoc; split; [auto|intros [G|G]; [exact G|discriminate G]]|]. split; [|split].
        -- intros p d i. rewrite of2_In, in_snoc, <- of2_In, D, in_snoc. split; (intros [G|G]; [auto|right; injection G as -> -> ->; reflexivity]).
        -- intros p d. rewrite of2_snoc. destruct (beq_spec p0 p) as [->|]; [|cbn; rewrite app_nil_r; apply E]. destruct (beq_spec d0 d) as [->|]; [|cbn; rewrite app_nil_r; apply E]. cbn.
           pose proof (NoDup_rev (E p d)) as E'. rewrite <- (rev_involutive (_ ++ _)). apply NoDup_rev. rewrite rev_app_distr. cbn. constructor; [|exact E'].
           rewrite <- in_rev. intros I. assert (Y : existsb (N.eqb i0) (of2 (wigs (wo s)) p d) = true) by (apply existsb_exists; exists i0; split; [exact I|apply N.eqb_refl]). congruence.
        -- intros; rewrite F, in_snoc; split; [auto|intros [G|G]; [exact G|discriminate G]].
    + cbn [w_kel kel habs sigs wigs seals wo app]. rewrite !app_nil_r. split; [exact A|]. split; [exact B|]. split; [intros p d i; rewrite C, in_snoc; split; [auto|intros [G|G]; [exact G|discriminate G]]|]. split; [intros p d i; rewrite D, in_snoc; split; [auto|intros [G|G]; [exact G|discriminate G]]|]. split; [exact E|].
      intros del p v a. rewrite !in_snoc, F. split; (intros [G|G]; [auto|right; injection G as -> -> -> ->; reflexivity]).
    + cbn [w_kel kel habs sigs wigs seals wo app]. rewrite !app_nil_r. split; [exact A|]. split; [rewrite rev_app_distr, B; reflexivity|]. split; [intros p d i; rewrite C, in_snoc; split; [auto|intros [G|G]; [exact G|discriminate G]]|]. split; [intros p d i; rewrite D, in_snoc; split; [auto|intros [G|G]; [exact G|discriminate G]]|]. split; [exact E|]. intros; rewrite F, in_snoc; split; [auto|intros [G|G]; [exact G|discriminate G]].
Qed.

Lemma accs_In ops p k : In (p, k) (accs ops) <-> In (Accept p k) ops.
Proof.
  unfold accs. rewrite in_flat_map. split.
  - intros (o & I & J). destruct o; cbn in J; try contradiction. destruct J as [E|[]]. injection E as -> ->. exact I.
  - intros I. exists (Accept p k). split; [exact I|left; reflexivity].
Qed.
Lemma current_of ops p k : dget (rev (accs ops)) p = Some k -> current ops p k.
Proof.
  induction ops as [|o ops IH] using rev_ind; [discriminate|]. unfold accs. rewrite flat_map_app, rev_app_distr. fold (accs ops). cbn [flat_map]. rewrite app_nil_r.
  assert (K : (forall k', o <> Accept p k') -> dget (rev (accs ops)) p = Some k -> current (ops ++ [o]) p k).
  { intros N G. destruct (IH G) as (a & b & -> & NB). exists a, (b ++ [o]). split; [rewrite <- app_assoc; reflexivity|]. intros k' I. apply in_snoc in I. destruct I as [I|I]; [exact (NB k' I)|exact (N k' I)]. }
  destruct o as [p0 k0|p0 d0 i0|p0 d0 i0|de p0 v0 a0|p0 h0|p0 sn dig|p0 sn| | | | |p0| ]; cbn [rev app]; try (apply K; intros; discriminate).
  cbn [dget]. destruct (beq_spec p p0) as [->|N]; [|apply K; intros k' [= -> _]; congruence].
  intros [= ->]. exists ops, []. split; [reflexivity|]. intros k' [].
Qed.
Lemma ownKey_of ops p h : dget (rev (owns ops)) p = Some h -> ownKey ops p (h_key h).
Proof.
  induction ops as [|o ops IH] using rev_ind; [discriminate|]. unfold owns. rewrite flat_map_app, rev_app_distr. fold (owns ops). cbn [flat_map]. rewrite app_nil_r.
  assert (K : (forall k', o <> Own p k') -> dget (rev (owns ops)) p = Some h -> ownKey (ops ++ [o]) p (h_key h)).
  { intros N G. destruct (IH G) as (a & b & h' & -> & HK & NB). exists a, (b ++ [o]), h'. split; [rewrite <- app_assoc; reflexivity|]. split; [exact HK|]. intros k' I. apply in_snoc in I. destruct I as [I|I]; [exact (NB k' I)|exact (N k' I)]. }
  destruct o as [p0 k0|p0 d0 i0|p0 d0 i0|de p0 v0 a0|p0 h0|p0 sn dig|p0 sn| | | | |p0| ]; cbn [rev app]; try (apply K; intros; discriminate).
  cbn [dget]. destruct (beq_spec p p0) as [->|N]; [|apply K; intros k' [= -> _]; congruence].
  intros [= ->]. exists ops, [], h. split; [reflexivity|]. split; [reflexivity|]. intros k' [].
Qed.
Lemma lastAt_accepted ops w p sn d : wok ops w -> lastAt w p sn = Some d -> accepted ops p sn d.
Proof.
  intros (A & _) L. unfold lastAt in L. destruct (filter _ _) as [|[p' k] r] eqn:F; [discriminate|]. injection L as <-.
  assert (I : In (p', k) (filter (fun x => beq (fst x) p && (k_sn (snd x) =? sn)) (rev (kel w)))) by (rewrite F; left; reflexivity).
  apply filter_In in I. destruct I as (I & E). cbn in E. apply andb_prop in E. destruct E as (E1 & E2). apply beq_eq in E1. apply N.eqb_eq in E2. subst p'. apply in_rev in I. rewrite A in I. apply accs_In in I. exists k. auto.
Qed.
Lemma lastAt_some ops w p sn : wok ops w -> (exists d, accepted ops p sn d) -> exists d, lastAt w p sn = Some d.
Proof.
  intros (A & _) (d & k & I & E1 & E2). unfold lastAt. destruct (filter _ _) as [|x r] eqn:F; [|eauto]. exfalso.
  assert (J : In (p, k) (filter (fun x => beq (fst x) p && (k_sn (snd x) =? sn)) (rev (kel w)))) by (apply filter_In; split; [apply -> in_rev; rewrite A; apply accs_In; exact I|]; cbn; rewrite beq_refl, E1, N.eqb_refl; reflexivity).
  rewrite F in J. destruct J.
Qed.
Lemma kever_current ops w p k : wok ops w -> kever w p = Some k -> current ops p k.
Proof. intros (A & _) G. unfold kever in G. rewrite A in G. apply current_of. exact G. Qed.
Lemma habs_ownKey ops w p h : wok ops w -> dget (habs w) p = Some h -> ownKey ops p (h_key h).
Proof. intros (_ & B & _) G. rewrite B in G. apply ownKey_of. exact G. Qed.
Lemma sealing_sealed ops w del p v a : wok ops w -> sealing w del p v = Some a -> sealed ops del p v.
Proof.
  intros (_ & _ & _ & _ & _ & F) G. unfold sealing in G. destruct (filter _ _) as [|x r] eqn:X; [discriminate|].
  match type of X with filter ?f ?l = _ => assert (I : In x (filter f l)) by (rewrite X; left; reflexivity) end. apply filter_In in I. destruct x as [[del' [p' v']] a']. destruct I as (I & E). cbn in E. apply andb_prop in E. destruct E as (E1 & E). apply andb_prop in E. destruct E as (E2 & E3). unfold evteq in E3. apply andb_prop in E3. destruct E3 as (E3 & E4).
  apply beq_eq in E1, E2, E4. apply N.eqb_eq in E3. destruct v' as [n' d'], v as [n d]. cbn in E3, E4. subst. exists a'. apply F. exact I.
Qed.
Lemma receipted_of ops w p d k : wok ops w -> (len (of2 (wigs w) p d) =? len (k_wits k)) = true -> receipted ops p d k.
Proof.
  intros (_ & _ & _ & D & E & _) L. apply N.eqb_eq in L. exists (of2 (wigs w) p d). split; [apply E|]. split; [unfold len in L; lia|]. intros i. apply D.
Qed.

(** ** the tables *)
Lemma eadd_In l p v x : In x (eadd l p v) -> In x l \/ x = (p, v).
Proof. unfold eadd. match goal with |- context[existsb ?f l] => destruct (existsb f l) end; [auto|]. rewrite in_snoc. intuition. Qed.
Lemma erem_In l p x : In x (erem l p) -> In x l /\ fst x <> p.
Proof. unfold erem. rewrite filter_In. intros (I & N). split; [exact I|]. apply negb_true_iff, beq_neq in N. exact N. Qed.
Lemma srem_In l p d x : In x (srem l p d) -> In x l.
Proof. unfold srem. rewrite filter_In. tauto. Qed.
Lemma spin_In l p v x : In x (spin l p v) -> In x l \/ x = (p, v).
Proof. unfold spin. rewrite in_snoc. intros [I|I]; [left; eapply srem_In; exact I|auto]. Qed.
Lemma sput_In l p v x : In x (sput l p v) -> In x l \/ x = (p, v).
Proof. unfold sput. match goal with |- context[existsb ?f l] => destruct (existsb f l) end; [auto|]. rewrite in_snoc. intuition. Qed.
Lemma nput_In l p sn d x : In x (nput l p sn d) -> In x l \/ x = (p, sn, d).
Proof. unfold nput. destruct (nget l p sn); [auto|]. rewrite in_snoc. intuition. Qed.
Lemma nget_In l p sn d : nget l p sn = Some d -> In (p, sn, d) l.
Proof.
  unfold nget. match goal with |- context[filter ?f l] => destruct (filter f l) as [|x r] eqn:F end; [discriminate|]. intros [= <-].
  match type of F with filter ?f ?l = _ => assert (I : In x (filter f l)) by (rewrite F; left; reflexivity) end. apply filter_In in I. destruct x as [[p' sn'] d']. destruct I as (I & E). cbn in E. apply andb_prop in E. destruct E as (E1 & E2). apply beq_eq in E1. apply N.eqb_eq in E2. subst. exact I.
Qed.
Lemma nget_None l p sn d : nget l p sn = None -> ~ In (p, sn, d) l.
Proof.
  unfold nget. match goal with |- context[filter ?f l] => destruct (filter f l) as [|x r] eqn:F end; [|discriminate]. intros _ I.
  assert (J : In (p, sn, d) (filter (fun x => beq (fst (fst x)) p && (snd (fst x) =? sn)) l)) by (apply filter_In; split; [exact I|]; cbn; rewrite beq_refl, N.eqb_refl; reflexivity). rewrite F in J. destruct J.
Qed.
Lemma hd_app (l l' : list (bytes * N * bytes)) c : match l with [] => None | x :: _ => Some (snd x) end = Some c -> match l ++ l' with [] => None | x :: _ => Some (snd x) end = Some c.
Proof. destruct l; [discriminate|auto]. Qed.
Lemma nget_nput l p sn d p' sn' c : nget l p' sn' = Some c -> nget (nput l p sn d) p' sn' = Some c.
Proof.
  intros G. unfold nput. destruct (nget l p sn); [exact G|]. unfold nget in *. rewrite filter_app. apply hd_app. exact G.
Qed.
Lemma completed_true l p sn d : completed l p sn (Some d) = Ok true -> nget l p sn = Some d.
Proof.
  unfold completed. destruct (nget l p sn) as [c|]; [|discriminate]. destruct (beq_spec c d) as [->|]; [reflexivity|]. cbn. discriminate.
Qed.

(** ** passes *)
Lemma each_inv {A} (f : A -> st -> out) (P : st -> Prop) (G : A -> Prop) l s : Forall G l -> (forall a s, G a -> P s -> P (fst (f a s))) -> P s -> P (fst (each f l s)).
Proof.
  intros F H. revert s. induction F as [|a l GA F IH]; intros s PS; [exact PS|]. cbn [each]. specialize (H a s GA PS). destruct (f a s) as [s' [u|x]]; [apply IH; exact H|exact H].
Qed.
Lemma andThen_inv (P : st -> Prop) o f : P (fst o) -> (forall s, P s -> P (fst (f s))) -> P (fst (andThen o f)).
Proof. destruct o as [s [u|x]]; cbn; intros H1 H2; [apply H2; exact H1|exact H1]. Qed.
Lemma after_db w o : db (after w o) = fst (fst o).
Proof. destruct o as [[d m] [u|x]]; reflexivity. Qed.
