(** Contacts: every operation does what is meant, also after a crash of another; list and findExact agree. *)
From Verif Require Import Prelude ThModel ThProofs JsonModel JsonProofs Lex DbModel DbProofs OgModel OgSpec OgProofs.
Ltac Zify.zify_post_hook ::= Z.div_mod_to_equations.
Open Scope N_scope.

Lemma put1_same {V} (a : bytes -> V) k v : put1 a k v k = v.
Proof. unfold put1. destruct (list_N_dec k k); congruence. Qed.
Lemma put1_other {V} (a : bytes -> V) k v k' : k' <> k -> put1 a k v k' = a k'.
Proof. intros N. unfold put1. destruct (list_N_dec k' k); congruence. Qed.
Lemma fields_fine p d : fields p d -> fine p d.
Proof.
  intros (N & T & F). split; [exact N|]. split; [exact T|]. split; [intros f v I; destruct (F f v I) as (A & _ & B); auto|]. left. destruct (dget d ID) eqn:G; [|reflexivity].
  apply dget_in in G. destruct (F _ _ G) as (_ & X & _). exfalso. apply X. reflexivity.
Qed.
Lemma fields_id p d f v : fields p d -> dget d f = Some v -> f <> ID.
Proof. intros (N & T & F) G. apply dget_in in G. destruct (F _ _ G) as (_ & X & _). exact X. Qed.

Section P.
Variable P : bytes -> Prop.
Hypothesis HP : prefixes P.
Variable E : env.
Hypothesis HE : honest E.

(** the dictionary that get gives, for a contact that is there *)
Lemma good_getc b p m : P p -> good E b p (Some m) -> exists D, getc E b p = Ok (Some D) /\ fine p D /\ dget D ID = Some (Txt p) /\ forall f, f <> ID -> dget D f = lift (m f).
Proof.
  intros Pp ((d & R & D) & _). exists (dset d ID (Txt p)). split; [apply (getc_recs P); assumption|]. split; [apply (fine_dset P); [exact HP|exact Pp|apply R]|].
  split; [rewrite dget_dset, beq_refl; reflexivity|]. intros f N. rewrite dget_dset. apply beq_neq in N. rewrite N. apply beq_neq in N. auto.
Qed.
Lemma dset_fine p d f t : field p f -> fine p d -> fine p (dset d f (Txt t)).
Proof.
  intros (A & B & L) (N & T & F & I). split; [apply dset_nodup; exact N|]. split; [apply dset_texts; exact T|]. split; [intros g v H; apply dset_in in H; destruct H as [[-> ->]|H]; [auto|eapply F; eauto]|].
  rewrite dget_dset. apply not_eq_sym, beq_neq in B. change [105; 100] with ID in B. rewrite B. exact I.
Qed.
Lemma nil_fine p : fine p [].
Proof. split; [constructor|]. split; [intros f v []|]. split; [intros f v []|]. left. reflexivity. Qed.
Lemma op_step o b a : fair P o -> shape P b -> good E b (whom o) (a (whom o)) ->
  exists ws, plan E b o = (ws, ends a o) /\ Forall (onp (whom o)) ws /\ good E (run ws b) (whom o) (does a o (whom o)).
Proof.
  intros [Pp Fo] Sh G. destruct o as [p d|p d|p f v|p f|p]; cbn [whom plan ends does] in *.
  - (* update *) rewrite put1_same. pose proof (fields_fine p d Fo) as Fi. destruct (a p) as [m|] eqn:A.
    + destruct (good_getc b p m Pp G) as (D & GD & FD & DI & DF).
      assert (MG : forall f, dget (merge D d) f = match dget d f with Some v => Some v | None => dget D f end) by (intros f; apply merge_get; apply Fo).
      assert (FM : fine p (merge D d)).
      { destruct FD as (N & T & F & I). destruct Fi as (N' & T' & F' & I'). split; [apply merge_nodup; exact N|]. split; [apply merge_texts; assumption|]. split.
        - intros f v H. apply in_dget in H; [|apply merge_nodup; exact N]. rewrite MG in H. destruct (dget d f) eqn:X; [apply dget_in in X; eapply F'; eauto|apply dget_in in H; eapply F; eauto].
        - rewrite MG. destruct (dget d ID) eqn:X; [exfalso; exact (fields_id p d ID _ Fo X eq_refl)|]. right. exact DI. }
      destruct (update_run P HP E p b (Some D) d Pp GD Fi FM) as (ws & E1 & O1 & R1 & F1). exists ws. split; [exact E1|]. split; [exact O1|].
      destruct G as (_ & GF & GI & GL). split; [exists (merge D d); split; [exact R1|]; intros f N|]; [|split; [|split]].
      * cbn [dflt]. rewrite MG. unfold over. destruct (dget d f) as [v|] eqn:X; [destruct Fo as (_ & T & _); destruct (T f v (dget_in _ _ _ X)) as (t & ->); reflexivity|]. cbn. apply DF. exact N.
      * intros f N. rewrite F1. unfold over. destruct (dget d f) as [[t|t]|]; [reflexivity| |]; cbn; apply GF; exact N.
      * rewrite F1. destruct (dget d ID) eqn:X; [exfalso; exact (fields_id p d ID _ Fo X eq_refl)|]. exact GI.
      * intros f t H. unfold over in H. destruct (dget d f) as [v|] eqn:X.
        -- destruct Fo as (_ & _ & F). eapply F. apply dget_in. exact X.
        -- eapply GL; exact H.
    + destruct (fine_merge_nil p d Fi) as [FM GM]. destruct G as [GD GF].
      destruct (update_run P HP E p b None d Pp (getc_none P HP E b p Pp GD) Fi FM) as (ws & E1 & O1 & R1 & F1). exists ws. split; [exact E1|]. split; [exact O1|].
      split; [exists (merge [] d); split; [exact R1|]; intros f N|]; [|split; [|split]].
      * rewrite GM. unfold over. destruct (dget d f) as [v|] eqn:X; [destruct Fo as (_ & T & _); destruct (T f v (dget_in _ _ _ X)) as (t & ->); reflexivity|reflexivity].
      * intros f N. rewrite F1, GF. unfold over. destruct (dget d f) as [[t|t]|]; reflexivity.
      * rewrite F1, GF. destruct (dget d ID) eqn:X; [exfalso; exact (fields_id p d ID _ Fo X eq_refl)|]. left. reflexivity.
      * intros f t H. unfold over in H. destruct (dget d f) as [v|] eqn:X; [|discriminate H]. destruct Fo as (_ & _ & F). eapply F. apply dget_in. exact X.
  - (* replace *) rewrite put1_same. destruct (replace_run P HP E p b d Pp Sh (fields_fine p d Fo)) as (ws & E1 & O1 & G1 & _). exists ws. split; [exact E1|]. split; [exact O1|].
    eapply good_ext; [|exact G1]. intros f. unfold asContact, over. destruct (list_N_dec f ID) as [->|]; [|reflexivity].
    destruct (dget d ID) eqn:X; [exfalso; exact (fields_id p d ID _ Fo X eq_refl)|reflexivity].
  - (* set *) rewrite put1_same. destruct Fo as [Ff (t & ->)].
    assert (X : exists o D, getc E b p = Ok o /\ dflt o = D /\ fine p D /\ forall g, g <> ID -> dget D g = lift (orBlank (a p) g)).
    { destruct (a p) as [m|]; [destruct (good_getc b p m Pp G) as (D & GD & FD & DI & DF); exists (Some D), D; auto|]. exists None, []. split; [apply (getc_none P); [exact HP|exact Pp|apply G]|].
      split; [reflexivity|]. split; [apply nil_fine|reflexivity]. }
    destruct X as (o & D & GD & ED & FD & DF). unfold set. rewrite GD. match goal with |- context [dset ?x f (Txt t)] => change x with (dflt o) end. rewrite ED.
    pose proof (dset_fine p D f t Ff FD) as FS. destruct (replace_run P HP E p b _ Pp Sh FS) as (ws & E1 & O1 & G1 & F1). unfold andThen. rewrite E1.
    destruct (pins_run p [(f, Txt t)] (run ws b)) as (ws' & E2 & O2 & S2 & D2 & F2).
    { constructor; [intros []|constructor]. } { intros g v [[= <- <-]|[]]. exists t. reflexivity. } { intros g v [[= <- <-]|[]]. destruct Ff as (A & _ & B). auto. }
    rewrite E2. exists (ws ++ ws'). split; [reflexivity|]. split; [apply Forall_app; auto|]. rewrite run_app.
    assert (SM : same (run ws b) (run ws' (run ws b)) p).
    { split; [rewrite S2; reflexivity|]. split; [rewrite D2; reflexivity|]. intros g. rewrite F2. cbn [dget]. destruct (beq_spec g f) as [->|N]; [|reflexivity]. rewrite F1, dget_dset, beq_refl. reflexivity. }
    eapply good_same; [exact SM|]. eapply good_ext; [|exact G1]. intros g. unfold asContact, over. cbn [dget]. rewrite dget_dset. destruct (list_N_dec g ID) as [->|N].
    + destruct Ff as (_ & B & _). apply not_eq_sym, beq_neq in B. change [105; 100] with ID in B. rewrite B. destruct (a p) as [m|]; [|reflexivity]. cbn. destruct (m ID) eqn:M; [|reflexivity].
      destruct G as (_ & _ & _ & GL). destruct (GL _ _ M) as (_ & X & _). exfalso. apply X. reflexivity.
    + destruct (beq_spec g f) as [->|N']; [reflexivity|]. rewrite DF by exact N. destruct (orBlank (a p) g); reflexivity.
  - (* unset *) destruct (a p) as [m|] eqn:A; [|exists []; unfold unset; rewrite (getc_none P HP E b p Pp (proj1 G)); split; [reflexivity|]; split; [constructor|]; rewrite A; exact G].
    destruct (good_getc b p m Pp G) as (D & GD & FD & DI & DF). unfold unset. rewrite GD. pose proof Fo as (FA & FB & FC). rewrite DF by exact FB.
    destruct (m f) as [t|] eqn:M; cbn [lift]; [|exists []; split; [reflexivity|]; split; [constructor|]; rewrite A; exact G]. rewrite put1_same.
    assert (FS : fine p (ddrop D f)).
    { destruct FD as (N & T & F & I). split; [apply ddrop_nodup; exact N|]. split; [apply ddrop_texts; exact T|]. split; [intros g v H; unfold ddrop in H; apply filter_In in H; eapply F; apply H|].
      rewrite ddrop_get. apply beq_neq in FB. change [105; 100] with ID in FB. rewrite FB. exact I. }
    destruct (replace_run P HP E p b _ Pp Sh FS) as (ws & E1 & O1 & G1 & F1). unfold andThen. rewrite E1.
    assert (LL : long (fkey p f) = false) by (unfold long, fkey, len in *; rewrite app_length; cbn [List.length]; lia). rewrite LL.
    exists (ws ++ [DFld (fkey p f)]). split; [reflexivity|]. split; [apply Forall_app; split; [exact O1|constructor; [constructor|constructor]]|]. rewrite run_app.
    assert (SM : same (run ws b) (run [DFld (fkey p f)] (run ws b)) p).
    { destruct (run_local P HP p ws b Pp Sh O1) as [(_ & _ & S3 & _) _]. cbn [run fold_left wr]. split; [reflexivity|]. split; [reflexivity|]. cbn [fld]. intros g. destruct (list_N_dec g f) as [->|N].
      - rewrite get_sdel_same by exact S3. fold (run ws b). rewrite F1, ddrop_get, beq_refl. reflexivity.
      - apply get_sdel_other. intros X. apply fkey_inj1 in X. congruence. }
    eapply good_same; [exact SM|]. eapply good_ext; [|exact G1]. intros g. unfold asContact, put1. rewrite ddrop_get. destruct (list_N_dec g f) as [->|N].
    + rewrite beq_refl. destruct (list_N_dec f ID); reflexivity.
    + apply not_eq_sym, beq_neq in N. rewrite N. destruct (list_N_dec g ID) as [->|N'].
      * destruct (m ID) eqn:M'; [|reflexivity]. destruct G as (_ & _ & _ & GL). destruct (GL _ _ M') as (_ & X & _). exfalso. apply X. reflexivity.
      * rewrite DF by exact N'. destruct (m g); reflexivity.
  - (* rem *) rewrite put1_same. destruct (remove_run P HP E p b Pp Sh) as (ws & E1 & O1 & G1 & _). exists ws. auto.
Qed.

(** ** Histories; [X] are the prefixes with damaged contacts *)
Definition inv (X : bytes -> Prop) (b : book) (a : contacts) : Prop := shape P b /\ forall p, P p -> ~ X p -> good E b p (a p).
Lemma does_other a o q : q <> whom o -> does a o q = a q.
Proof.
  intros N. destruct o; cbn in *; try (apply put1_other; exact N). destruct (a pre) as [m|]; [|reflexivity]. destruct (m f); [|reflexivity]. apply put1_other. exact N.
Qed.
Lemma inv_empty : inv (fun _ => False) empty nobody.
Proof. split; [apply shape_empty|]. intros p Pp _. cbn. split; [reflexivity|]. intros f. reflexivity. Qed.
Lemma inv_step X b a o : inv X b a -> fair P o -> ~ X (whom o) -> inv X (step E b o) (does a o) /\ snd (plan E b o) = ends a o.
Proof.
  intros [Sh G] F N. pose proof F as [Pp _]. destruct (op_step o b a F Sh (G _ Pp N)) as (ws & E1 & O1 & G1). unfold step. rewrite E1. cbn [fst snd]. split; [|reflexivity].
  destruct (run_local P HP (whom o) ws b Pp Sh O1) as [Sh' SM]. split; [exact Sh'|]. intros p Pq Nq. destruct (list_N_dec p (whom o)) as [->|D]; [exact G1|].
  rewrite does_other by exact D. eapply good_same; [apply SM; assumption|]. apply G; assumption.
Qed.
Lemma inv_crash X b a o n : inv X b a -> fair P o -> ~ X (whom o) -> inv (fun p => X p \/ p = whom o) (crash E n b o) a.
Proof.
  intros [Sh G] F N. pose proof F as [Pp _]. destruct (op_step o b a F Sh (G _ Pp N)) as (ws & E1 & O1 & G1). unfold crash. rewrite E1. cbn [fst].
  assert (O2 : Forall (onp (whom o)) (firstn n ws)) by (rewrite <- (firstn_skipn n ws) in O1; apply Forall_app in O1; apply O1).
  destruct (run_local P HP (whom o) _ b Pp Sh O2) as [Sh' SM]. split; [exact Sh'|]. intros p Pq Nq. eapply good_same; [apply SM; [exact Pq|tauto]|]. apply G; tauto.
Qed.
Lemma inv_rem X b a x : inv X b a -> P x -> inv (fun p => X p /\ p <> x) (step E b (Rem x)) (put1 a x None) /\ snd (plan E b (Rem x)) = Ok tt.
Proof.
  intros [Sh G] Pp. destruct (remove_run P HP E x b Pp Sh) as (ws & E1 & O1 & G1 & Sh'). unfold step. cbn [plan]. rewrite E1. cbn [fst snd]. split; [|reflexivity]. split; [exact Sh'|].
  intros p Pq N. destruct (list_N_dec p x) as [->|D]; [rewrite put1_same; exact G1|]. rewrite put1_other by exact D.
  eapply good_same; [apply (run_local P HP x ws b Pp Sh O1); assumption|]. apply G; [exact Pq|]. tauto.
Qed.
Lemma inv_after X : forall os b a, inv X b a -> (forall o, In o os -> fair P o /\ ~ X (whom o)) -> inv X (after E b os) (means a os) /\ ending E b os = meantEnds a os.
Proof.
  induction os as [|o os IH]; intros b a I F; [split; [exact I|reflexivity]|]. destruct (F o (or_introl eq_refl)) as [F1 N1]. destruct (inv_step X b a o I F1 N1) as [I1 E1]. cbn.
  destruct (IH _ _ I1 (fun o' H => F o' (or_intror H))) as [I2 E2]. split; [exact I2|]. rewrite E1, E2. reflexivity.
Qed.
Lemma inv_reads X b a p : inv X b a -> P p -> ~ X p -> reads E b a p.
Proof. intros [Sh G] Pp N. apply (good_reads P); auto. Qed.

(** ** list *)
Definition noX : bytes -> Prop := fun _ => False.
Lemma split_fkey p f : ~ In 46 p -> ~ In 46 f -> splitb 46 (fkey p f) = [p; f].
Proof.
  intros A B. unfold fkey. rewrite splitb_app by (apply Forall_forall; intros x I ->; contradiction). rewrite splitb_nosep; [reflexivity|]. apply Forall_forall. intros x I ->. contradiction.
Qed.
(** the fields of one prefix *)
Fixpoint own (p : bytes) (l : store) : list (bytes * bytes) :=
  match l with
  | [] => []
  | (k, v) :: l => match splitb 46 k with [q; f] => if beq q p then (f, v) :: own p l else own p l | _ => own p l end
  end.
Definition build (d : dict) (l : list (bytes * bytes)) : dict := fold_left (fun d x => dset d (fst x) (Txt (snd x))) l d.
Definition shaped (l : store) : Prop := sorted l /\ forall k v, In (k, v) l -> exists p f, k = fkey p f /\ P p /\ ~ In 46 f.
Lemma own_in p l f v : shaped l -> P p -> (In (f, v) (own p l) <-> In (fkey p f, v) l /\ ~ In 46 f).
Proof.
  intros [S Sh] Pp. induction l as [|[k u] l IH]; [cbn; tauto|]. destruct S as [S1 S2]. destruct (Sh k u (or_introl eq_refl)) as (q & g & -> & Pq & Ng).
  assert (IH' : In (f, v) (own p l) <-> In (fkey p f, v) l /\ ~ In 46 f) by (apply IH; [exact S2|intros; eapply Sh; right; eauto]).
  cbn [own]. rewrite split_fkey by (auto; apply HP; exact Pq). destruct (beq_spec q p) as [->|N]; cbn [In].
  - rewrite IH'. split; [intros [[= <- <-]|[A B]]; auto|intros [[H|H] B]; [|auto]]. injection H as H1 H2. apply app_inv_head in H1. left. congruence.
  - rewrite IH'. split; [intros [A B]; auto|intros [[H|H] B]; [|auto]]. injection H as H1 H2. apply fkey_inj in H1; [|apply HP; assumption|apply HP; assumption]. destruct H1. congruence.
Qed.
Lemma own_nodup p l : shaped l -> P p -> NoDup (map fst (own p l)).
Proof.
  intros [S Sh] Pp. induction l as [|[k u] l IH]; [constructor|]. destruct S as [S1 S2]. destruct (Sh k u (or_introl eq_refl)) as (q & g & -> & Pq & Ng).
  assert (SH : shaped l) by (split; [exact S2|intros; eapply Sh; right; eauto]). specialize (IH S2 (proj2 SH)). cbn [own]. rewrite split_fkey by (auto; apply HP; exact Pq).
  destruct (beq_spec q p) as [->|N]; [|exact IH]. cbn. constructor; [|exact IH]. intros I. apply in_map_iff in I. destruct I as ([f v] & <- & I). apply (own_in p l f v SH Pp) in I. destruct I as [I _].
  rewrite Forall_forall in S1. specialize (S1 _ I). apply blt_neq in S1. cbn in S1. congruence.
Qed.
Lemma build_get : forall l d f, NoDup (map fst l) -> dget (build d l) f = match dget l f with Some v => Some (Txt v) | None => dget d f end.
Proof.
  induction l as [|[k v] l IH]; intros d f N; [reflexivity|]. inversion N; subst. unfold build. cbn [fold_left fst snd]. fold (build (dset d k (Txt v)) l). rewrite IH by assumption. rewrite dget_dset. cbn [dget].
  destruct (beq_spec f k) as [->|NE]; [|reflexivity]. rewrite (dget_none l) by assumption. reflexivity.
Qed.
(** entries of one prefix are next to each other *)
Lemma contiguous p f0 q g f1 : P p -> P q -> q <> p -> blt (fkey p f0) (fkey q g) -> blt (fkey q g) (fkey p f1) -> False.
Proof.
  intros Pp Pq N A B. unfold fkey in *. destruct (between (p ++ [46]) f0 f1 (q ++ 46 :: g)) as (t & T).
  - rewrite <- app_assoc. cbn. apply blt_asym. exact A.
  - rewrite <- app_assoc. cbn. exact B.
  - rewrite <- app_assoc in T. cbn in T. apply (fkey_inj q g p t) in T; [|apply HP; exact Pq|apply HP; exact Pp]. destruct T. congruence.
Qed.
Lemma listing_some : forall l key d f0, shaped l -> P key -> Forall (below (fkey key f0)) l ->
  exists ps, listing l (Some (key, d)) = Ok (build d (own key l) :: map (fun p => build [(ID, Txt p)] (own p l)) ps) /\
    NoDup (key :: ps) /\ Forall P ps /\ (forall p, In p ps -> own p l <> []) /\ forall p f v, P p -> In (fkey p f, v) l -> In p (key :: ps).
Proof.
  induction l as [|[k v] l IH]; intros key d f0 Sh Pk B.
  - exists []. split; [reflexivity|]. split; [constructor; [intros []|constructor]|]. split; [constructor|]. split; [intros p []|intros p f v _ []].
  - destruct Sh as [[S1 S2] Sh]. destruct (Sh k v (or_introl eq_refl)) as (q & g & -> & Pq & Ng). assert (SH : shaped l) by (split; [exact S2|intros; eapply Sh; right; eauto]).
    cbn [listing]. rewrite split_fkey by (auto; apply HP; exact Pq). destruct (beq_spec q key) as [->|NE].
    + destruct (IH key (dset d g (Txt v)) g SH Pk S1) as (ps & L & N & F & O & C). exists ps. split; [|split; [exact N|split; [exact F|split]]].
      * etransitivity; [exact L|]. f_equal. cbn [own]. rewrite split_fkey by (auto; apply HP; exact Pk). rewrite beq_refl. f_equal. apply map_ext_in. intros p I. cbv beta iota.
        destruct (beq_spec key p) as [->|]; [|reflexivity]. inversion N; subst. contradiction.
      * intros p I. cbn [own]. rewrite split_fkey by (auto; apply HP; exact Pk). destruct (beq key p); [discriminate|]. apply O. exact I.
      * intros p f u Pp [H|H]; [|eapply C; eauto]. injection H as H _. apply fkey_inj in H; [|apply HP; exact Pk|apply HP; exact Pp]. destruct H as [-> _]. left. reflexivity.
    + destruct (IH q (dset [(ID, Txt q)] g (Txt v)) g SH Pq S1) as (ps & L & N & F & O & C). exists (q :: ps).
      assert (NK : own key l = []).
      { destruct (own key l) as [|[f u] r] eqn:OK; [reflexivity|]. exfalso. assert (I : In (f, u) (own key l)) by (rewrite OK; left; reflexivity). apply (own_in key l f u SH Pk) in I. destruct I as [I _].
        rewrite Forall_forall in S1. specialize (S1 _ I). inversion B; subst. eapply (contiguous key f0 q g f); eauto. }
      assert (NI : ~ In key (q :: ps)).
      { intros [->|I]; [congruence|]. apply (O _ I). exact NK. }
      split; [|split; [|split; [|split]]].
      * etransitivity; [exact (f_equal (fun r => bind r (fun r => Ok (d :: r))) L)|]. cbn [bind own map]. rewrite split_fkey by (auto; apply HP; exact Pq). rewrite beq_refl. apply beq_neq in NE. rewrite NE, NK. apply beq_neq in NE. f_equal. f_equal. f_equal.
        apply map_ext_in. intros p I. cbv beta iota. destruct (beq_spec q p) as [->|]; [|reflexivity]. inversion N; subst. contradiction.
      * constructor; [exact NI|exact N].
      * constructor; [exact Pq|exact F].
      * intros p I. cbn [own]. rewrite split_fkey by (auto; apply HP; exact Pq). destruct (beq_spec q p) as [->|NP]; [discriminate|]. apply O. destruct I as [->|I]; [congruence|exact I].
      * intros p f u Pp [H|H]; [|right; eapply C; eauto]. injection H as H _. apply fkey_inj in H; [|apply HP; exact Pq|apply HP; exact Pp]. destruct H as [-> _]. right. left. reflexivity.
Qed.
Lemma list_all b : shape P b -> exists ps, list_ b = Ok (map (fun p => build [(ID, Txt p)] (own p (fld b))) ps) /\
  NoDup ps /\ Forall P ps /\ (forall p, In p ps -> own p (fld b) <> []) /\ forall p f v, P p -> In (fkey p f, v) (fld b) -> In p ps.
Proof.
  intros (_ & _ & S & Sh). unfold list_. destruct (fld b) as [|[k v] l] eqn:EF.
  - exists []. split; [reflexivity|]. split; [constructor|]. split; [constructor|]. split; [intros p []|intros p f v _ []].
  - destruct (Sh k v (or_introl eq_refl)) as (q & g & -> & Pq & Ng). destruct S as [S1 S2]. assert (SH : shaped l) by (split; [exact S2|intros; eapply Sh; right; eauto]).
    cbn [listing]. rewrite split_fkey by (auto; apply HP; exact Pq). replace (isnil q) with false by (symmetry; apply (pok P HP q Pq)).
    destruct (listing_some l q (dset [(ID, Txt q)] g (Txt v)) g SH Pq S1) as (ps & L & N & F & O & C). exists (q :: ps). split; [|split; [exact N|split; [|split]]].
    + etransitivity; [exact L|]. f_equal. cbn [map own]. rewrite split_fkey by (auto; apply HP; exact Pq). rewrite beq_refl. f_equal. apply map_ext_in. intros p I. cbv beta iota.
      destruct (beq_spec q p) as [->|]; [|reflexivity]. inversion N; subst. contradiction.
    + constructor; assumption.
    + intros p I. cbn [own]. rewrite split_fkey by (auto; apply HP; exact Pq). destruct (beq_spec q p) as [->|NP]; [discriminate|]. apply O. destruct I as [->|I]; [congruence|exact I].
    + intros p f u Pp [H|H]; [|eapply C; eauto]. injection H as H _. apply fkey_inj in H; [|apply HP; exact Pq|apply HP; exact Pp]. destruct H as [-> _]. left. reflexivity.
Qed.
Lemma own_shows b a p : inv noX b a -> P p -> own p (fld b) <> [] -> exists m, a p = Some m /\ shows (build [(ID, Txt p)] (own p (fld b))) p m.
Proof.
  intros [Sh G] Pp NE. pose proof Sh as (_ & _ & S & SF). assert (SH : shaped (fld b)) by (split; assumption). specialize (G p Pp (fun x => x)). destruct (a p) as [m|].
  - exists m. split; [reflexivity|]. destruct G as (_ & GF & GI & GL). assert (OG : forall f, ~ In 46 f -> dget (own p (fld b)) f = get (fkey p f) (fld b)).
    { intros f Nf. destruct (get (fkey p f) (fld b)) as [v|] eqn:Q.
      - apply in_dget; [apply own_nodup; assumption|]. apply own_in; auto using get_In.
      - destruct (dget (own p (fld b)) f) as [v|] eqn:Q'; [|reflexivity]. apply dget_in in Q'. apply own_in in Q'; auto. destruct Q' as [Q' _]. apply In_get in Q'; [|exact S]. congruence. }
    split.
    + rewrite build_get by (apply own_nodup; assumption). change [105; 100] with ID. rewrite OG by (intros [H|[H|[]]]; discriminate H). destruct GI as [-> | ->]; reflexivity.
    + intros f N. rewrite build_get by (apply own_nodup; assumption). destruct (in_dec N.eq_dec 46 f) as [D|D].
      * destruct (dget (own p (fld b)) f) as [v|] eqn:Q; [apply dget_in in Q; apply own_in in Q; auto; destruct Q; contradiction|]. destruct (m f) eqn:M; [destruct (GL _ _ M); contradiction|].
        cbn [dget]. apply beq_neq in N. change [105; 100] with ID in N. rewrite N. reflexivity.
      * rewrite OG by exact D. rewrite GF by exact N. destruct (m f); [reflexivity|]. cbn [dget]. apply beq_neq in N. change [105; 100] with ID in N. rewrite N. reflexivity.
  - exfalso. apply NE. destruct (own p (fld b)) as [|[f v] r] eqn:Q; [reflexivity|]. exfalso. assert (I : In (f, v) (own p (fld b))) by (rewrite Q; left; reflexivity). apply own_in in I; auto. destruct I as [I _].
    destruct G as [_ G]. apply In_get in I; [|exact S]. rewrite G in I. discriminate I.
Qed.
Lemma list_agrees b a : inv noX b a -> exists ps l, list_ b = Ok l /\ NoDup ps /\ Forall2 (fun p e => P p /\ exists m, a p = Some m /\ shows e p m) ps l /\
  forall p m f t, P p -> a p = Some m -> m f = Some t -> In p ps.
Proof.
  intros I. pose proof I as [Sh G]. destruct (list_all b Sh) as (ps & L & N & F & O & C). exists ps, (map (fun p => build [(ID, Txt p)] (own p (fld b))) ps). split; [exact L|]. split; [exact N|]. split.
  - clear L N C. induction ps as [|p ps IH]; [constructor|]. inversion F; subst. cbn [map]. constructor; [|apply IH; [assumption|intros q J; apply O; right; exact J]].
    split; [assumption|]. apply own_shows; [exact I|assumption|apply O; left; reflexivity].
  - intros p m f t Pp A M. specialize (G p Pp (fun x => x)). rewrite A in G. destruct G as (_ & GF & _ & GL). destruct (GL _ _ M) as (_ & NI & _). apply (C p f t Pp). apply get_In. rewrite GF by exact NI. exact M.
Qed.

(** ** findExact *)
Lemma having_ok : forall l f v, shaped l -> exists ps, having l f v = Ok ps /\ (forall p, In p ps <-> P p /\ ~ In 46 f /\ In (fkey p f, v) l) /\ NoDup ps.
Proof.
  induction l as [|[k u] l IH]; intros f v [S Sh]; [exists []; split; [reflexivity|]; split; [intros p; cbn; tauto|constructor]|].
  destruct S as [S1 S2]. destruct (Sh k u (or_introl eq_refl)) as (q & g & -> & Pq & Ng). assert (SH : shaped l) by (split; [exact S2|intros; eapply Sh; right; eauto]).
  destruct (IH f v SH) as (ps & L & C & N). cbn [having]. rewrite split_fkey by (auto; apply HP; exact Pq). rewrite L. cbn [bind]. eexists. split; [reflexivity|].
  destruct (beq_spec g f) as [->|NG]; cbn [andb].
  - destruct (beq_spec u v) as [->|NU].
    + split.
      * intros p. cbn [In]. rewrite C. split; [intros [<-|(A & B & D)]; auto|]. intros (A & B & [H|H]); [|auto]. injection H as H. apply fkey_inj in H; [|apply HP; exact Pq|apply HP; exact A]. left. apply H.
      * constructor; [|exact N]. intros I. apply C in I. destruct I as (_ & _ & I). rewrite Forall_forall in S1. specialize (S1 _ I). apply blt_neq in S1. cbn in S1. congruence.
    + split; [|exact N]. intros p. rewrite C. cbn [In]. split; [intros (A & B & D); auto|]. intros (A & B & [H|H]); [|auto]. injection H as _ H. congruence.
  - split; [|exact N]. intros p. rewrite C. cbn [In]. split; [intros (A & B & D); auto|]. intros (A & B & [H|H]); [|auto]. injection H as H _. apply fkey_inj in H; [|apply HP; exact Pq|apply HP; exact A]. destruct H. congruence.
Qed.
Lemma find_agrees b a f v : inv noX b a -> f <> ID -> exists ps ds, findExact E b f v = Ok ds /\ NoDup ps /\
  Forall2 (fun p d => exists e m, d = Some e /\ a p = Some m /\ shows e p m) ps ds /\
  forall p, In p ps <-> P p /\ exists m, a p = Some m /\ m f = Some v.
Proof.
  intros I NI. pose proof I as [Sh G]. pose proof Sh as (_ & _ & S & SF). destruct (having_ok (fld b) f v (conj S SF)) as (ps & L & C & N).
  assert (C' : forall p, In p ps <-> P p /\ exists m, a p = Some m /\ m f = Some v).
  { intros p. rewrite C. split.
    - intros (Pp & Nf & H). split; [exact Pp|]. specialize (G p Pp (fun x => x)). apply In_get in H; [|exact S]. destruct (a p) as [m|]; [|destruct G as [_ G]; rewrite G in H; discriminate H].
      exists m. split; [reflexivity|]. destruct G as (_ & GF & _). rewrite <- GF by exact NI. exact H.
    - intros (Pp & m & A & M). specialize (G p Pp (fun x => x)). rewrite A in G. destruct G as (_ & GF & _ & GL). destruct (GL _ _ M) as (Nf & _). split; [exact Pp|]. split; [exact Nf|]. apply get_In. rewrite GF by exact NI. exact M. }
  assert (X : exists ds, mapr (getc E b) ps = Ok ds /\ Forall2 (fun p d => exists e m, d = Some e /\ a p = Some m /\ shows e p m) ps ds).
  { assert (F : Forall (fun p => exists e m, getc E b p = Ok (Some e) /\ a p = Some m /\ shows e p m) ps).
    { apply Forall_forall. intros p H. apply C' in H. destruct H as (Pp & m & A & M). pose proof (inv_reads noX b a p I Pp (fun x => x)) as R. unfold reads in R. rewrite A in R. destruct R as (e & R1 & R2). exists e, m. auto. }
    clear - F. induction F as [|p ps (e & m & A & B & D) F IH]; [exists []; split; [reflexivity|constructor]|]. destruct IH as (ds & L & F2). exists (Some e :: ds). cbn [mapr]. rewrite A. cbn [bind]. rewrite L. cbn [bind].
    split; [reflexivity|]. constructor; [exists e, m; auto|exact F2]. }
  destruct X as (ds & L2 & F2). exists ps, ds. split; [unfold findExact; rewrite L; cbn [bind]; exact L2|]. split; [exact N|]. split; [exact F2|exact C'].
Qed.
End P.
