(** Lemmas about field maps: the loop of Compactor.compact computes the most compact form. *)
From Verif Require Import Prelude B64Model B64Proofs MatterModel SubsModel VerModel ThModel JsonModel JsonProofs SerModel SerSpec SerProofs SerInv CpModel CpSpec.
From Coq Require FinFun.
Open Scope N_scope.
Ltac Zify.zify_post_hook ::= Z.div_mod_to_equations.

(** ** Paths *)
(** the path of a route of labels *)
Definition render (r : list bytes) : bytes := List.concat (map (fun l => 46 :: l) r).
Lemma splitDot_nodot : forall l s, noDot l -> splitDot (l ++ 46 :: s) = l :: splitDot s.
Proof.
  induction l as [|x l IH]; intros s H; [reflexivity|]. cbn [app splitDot]. destruct (N.eqb_spec x 46) as [->|N]; [exfalso; apply H; left; reflexivity|].
  rewrite IH by (intros Q; apply H; right; exact Q). reflexivity.
Qed.
Lemma splitDot_last : forall l, noDot l -> splitDot l = [l].
Proof.
  induction l as [|x l IH]; intros H; [reflexivity|]. cbn [splitDot]. destruct (N.eqb_spec x 46) as [->|N]; [exfalso; apply H; left; reflexivity|].
  rewrite IH by (intros Q; apply H; right; exact Q). reflexivity.
Qed.
Lemma splitDot_tail : forall r l, noDot l -> Forall noDot r -> splitDot (l ++ render r) = l :: r.
Proof.
  induction r as [|a r IH]; intros l H F.
  - unfold render. cbn. rewrite app_nil_r. apply splitDot_last. exact H.
  - inversion F; subst. change (render (a :: r)) with (46 :: (a ++ render r)). rewrite splitDot_nodot by exact H. rewrite IH by assumption. reflexivity.
Qed.
Lemma splitDot_render : forall r, Forall noDot r -> splitDot (render r) = [] :: r.
Proof. intros r F. apply (splitDot_tail r []); [intros []|exact F]. Qed.
Lemma render_inj : forall a b, Forall noDot a -> Forall noDot b -> render a = render b -> a = b.
Proof. intros a b A B E. pose proof (splitDot_render a A) as Q. rewrite E, splitDot_render in Q by exact B. congruence. Qed.
Lemma render_snoc : forall r l, render (r ++ [l]) = render r ++ 46 :: l.
Proof. intros r l. unfold render. rewrite map_app, concat_app. cbn. rewrite app_nil_r. reflexivity. Qed.

(** ** Assignments *)
Fixpoint put (r : list bytes) (x v : val) : val :=
  match r with
  | [] => x
  | l :: r => match v with
              | VMap m => match dget m l with Some y => VMap (dset m l (put r x y)) | None => v end
              | _ => v
              end
  end.
Fixpoint good (r : list bytes) (v : val) : Prop :=
  match r with
  | [] => True
  | l :: r => match v with VMap m => match dget m l with Some y => good r y | None => False end | _ => False end
  end.
Lemma hasKey_iff : forall m l, hasKey m l = true <-> exists v, dget m l = Some v.
Proof. intros m l. unfold hasKey. rewrite memB_In, dget_keys. tauto. Qed.
Lemma hasKey_none : forall m l, hasKey m l = false <-> dget m l = None.
Proof. intros m l. unfold hasKey. rewrite memB_nIn, dget_none. tauto. Qed.

Lemma assign_put : forall r l x v, Forall noDot (r ++ [l]) -> good (r ++ [l]) v -> assignAt (render (r ++ [l])) x v = Ok (put (r ++ [l]) x v).
Proof.
  intros r l x v F G. unfold assignAt. rewrite splitDot_render by exact F. cbn [rev]. rewrite rev_app_distr. cbn [rev app]. rewrite rev_app_distr, rev_involutive. cbn [rev app].
  assert (H : exists e, descend r v = Ok (Some e) /\ pyin l e = Ok true /\ (exists m, e = VMap m) /\ setAt r l x v = put (r ++ [l]) x v).
  { clear F. revert v G. induction r as [|a r IH]; intros v G; cbn [app] in G; destruct v as [| | | | |m]; try (destruct G; fail); cbn [good] in G.
    - destruct (dget m l) as [y|] eqn:D; [|destruct G]. exists (VMap m). split; [reflexivity|]. split; [cbn [pyin]; f_equal; apply hasKey_iff; eauto|]. split; [eauto|]. cbn [setAt app put]. rewrite D. reflexivity.
    - destruct (dget m a) as [y|] eqn:D; [|destruct G]. destruct (IH y G) as (e & A & B & C & Q). exists e. cbn [descend pyin bind]. replace (hasKey m a) with true by (symmetry; apply hasKey_iff; eauto). rewrite D. split; [exact A|]. split; [exact B|]. split; [exact C|].
      cbn [setAt app put]. rewrite D, Q. reflexivity. }
  destruct H as (e & A & B & (m & ->) & Q). rewrite A. cbn [bind]. rewrite B. cbn [bind]. rewrite Q. reflexivity.
Qed.

Fixpoint putAll (rs : list (list bytes * val)) (v : val) : val :=
  match rs with [] => v | (r, x) :: t => putAll t (put r x v) end.
Fixpoint seqgood (rs : list (list bytes * val)) (v : val) : Prop :=
  match rs with [] => True | (r, x) :: t => good r v /\ seqgood t (put r x v) end.
Definition under (l : bytes) (rs : list (list bytes * val)) : list (list bytes * val) := map (fun a => (l :: fst a, snd a)) rs.

Lemma dset_mid : forall {V} (a : list (bytes * V)) l x y b, ~ In l (keysOf a) -> dset (a ++ (l, x) :: b) l y = a ++ (l, y) :: b.
Proof.
  intros V a l x y b. induction a as [|[k z] a IH]; intros H; cbn [app dset].
  - rewrite beq_refl. reflexivity.
  - destruct (beq_spec l k) as [->|N]; [exfalso; apply H; left; reflexivity|]. rewrite IH by (intros Q; apply H; right; exact Q). reflexivity.
Qed.
Lemma dget_mid : forall {V} (a : list (bytes * V)) l x b, ~ In l (keysOf a) -> dget (a ++ (l, x) :: b) l = Some x.
Proof.
  intros V a l x b. induction a as [|[k z] a IH]; intros H; cbn [app dget].
  - rewrite beq_refl. reflexivity.
  - destruct (beq_spec l k) as [->|N]; [exfalso; apply H; left; reflexivity|]. apply IH. intros Q; apply H; right; exact Q.
Qed.
Lemma putAll_app : forall a b v, putAll (a ++ b) v = putAll b (putAll a v).
Proof. induction a as [|[r x] a IH]; intros b v; cbn [app putAll]; [reflexivity|apply IH]. Qed.
Lemma seqgood_app : forall a b v, seqgood (a ++ b) v <-> seqgood a v /\ seqgood b (putAll a v).
Proof. induction a as [|[r x] a IH]; intros b v; cbn [app putAll seqgood]; [tauto|]. rewrite IH. tauto. Qed.
Lemma under_mid : forall rs a l y b, ~ In l (keysOf a) ->
  putAll (under l rs) (VMap (a ++ (l, y) :: b)) = VMap (a ++ (l, putAll rs y) :: b) /\ (seqgood rs y -> seqgood (under l rs) (VMap (a ++ (l, y) :: b))).
Proof.
  induction rs as [|[r x] rs IH]; intros a l y b H; cbn [under map putAll seqgood fst snd]; [split; [reflexivity|auto]|].
  cbn [put good]. rewrite dget_mid by exact H. rewrite dset_mid by exact H. destruct (IH a l (put r x y) b H) as [A B]. split; [exact A|]. intros [C D]. split; [exact C|apply B; exact D].
Qed.

Section Loop.
Variable digest : bytes -> bytes -> bytes.
Variable dumpm : bool -> list bytes -> sad -> res bytes.
Variable L dflt : bytes.
Notation saids := [(L, dflt)].
Notation leafSaid := (saidText digest dumpm L dflt).
Notation roll := (roll digest dumpm L dflt).
Notation rolls := (rolls digest dumpm L dflt).

Lemma isSaid_L : forall l, isSaid saids l = beq l L.
Proof. intros l. unfold isSaid. cbn [keysOf map fst memB]. unfold memB. cbn. rewrite orb_false_r. reflexivity. Qed.
Lemma ownSaid_L : forall m, ownSaid saids m = hasKey m L.
Proof. intros m. unfold ownSaid. cbn. apply orb_false_r. Qed.

(** a map with its said *)
Lemma make_single : forall m, hasKey m L = true -> (q <- leafSaid m ;; Ok (dset m L (VStr q))) = ('(f, _) <- mapperMake digest dumpm true saids m ;; Ok f).
Proof.
  intros m H. unfold saidText, mapperMake. cbn [dummyMad keysOf map fst filter]. rewrite H. apply hasKey_iff in H. destruct H as (x & D). rewrite D. fold (codeFor dflt x).
  change (match codeOf (Some x) with Ok x0 => x0 | Err _ => dflt end) with (codeFor dflt x).
  destruct (memB (codeFor dflt x) DigDex); cbn [negb bind]; [|reflexivity].
  destruct (dumpm true [L] (dset m L (dummy (fullSize (codeFor dflt x))))) as [raw|]; cbn [bind]; [|reflexivity]. cbn [fillMad bind].
  replace (hasKey m L) with true by (symmetry; apply hasKey_iff; eauto). destruct (digerOf digest (codeFor dflt x) raw) as [q|]; cbn [bind]; [|reflexivity].
  destruct (dumpm true [] (dset m L (VStr q))); reflexivity.
Qed.

(** ** One round *)
Definition leaf (m : sad) : bool := hasKey m L && negb (existsb (fun kv => hassaid saids (snd kv)) m).
Fixpoint pass (v : val) : res val :=
  match v with
  | VMap m =>
      m' <- (fix go (m : sad) : res sad :=
               match m with
               | [] => Ok []
               | (l, x) :: r => x' <- (match x with
                                       | VMap _ => raise_if (beq l L) InvalidValueError (if hassaid saids x then pass x else Ok x)
                                       | _ => Ok x end) ;;
                                r' <- go r ;; Ok ((l, x') :: r')
               end) m ;;
      if leaf m then q <- leafSaid m' ;; Ok (VStr q) else Ok (VMap m')
  | _ => Ok v
  end.
Definition pass1 (l : bytes) (x : val) : res val :=
  match x with
  | VMap _ => raise_if (beq l L) InvalidValueError (if hassaid saids x then pass x else Ok x)
  | _ => Ok x end.
Fixpoint passes (m : sad) : res sad :=
  match m with
  | [] => Ok []
  | (l, x) :: r => x' <- pass1 l x ;; r' <- passes r ;; Ok ((l, x') :: r')
  end.
Lemma pass_eq : forall m, pass (VMap m) = (m' <- passes m ;; if leaf m then q <- leafSaid m' ;; Ok (VStr q) else Ok (VMap m')).
Proof. reflexivity. Qed.

(** the leaves by route *)
Fixpoint ttrace (v : val) : res (val * list (list bytes * sad)) :=
  match v with
  | VMap m =>
      '(m', ls) <-
        (fix go (m : sad) : res (sad * list (list bytes * sad)) :=
           match m with
           | [] => Ok ([], [])
           | (l, x) :: r =>
               '(x', ls) <- (match x with
                             | VMap _ => raise_if (beq l L) InvalidValueError (
                                         if hassaid saids x then ttrace x else Ok (x, []))
                             | _ => Ok (x, [])
                             end) ;;
               '(r', ls') <- go r ;;
               Ok ((l, x') :: r', map (fun a => (l :: fst a, snd a)) ls ++ ls')
           end) m ;;
      if leaf m
      then q <- leafSaid m' ;; Ok (VMap (dset m' L (VStr q)), ls ++ [([], dset m' L (VStr q))])
      else Ok (VMap m', ls)
  | _ => Ok (v, [])
  end.
Definition ttrace1 (l : bytes) (x : val) : res (val * list (list bytes * sad)) :=
  match x with
  | VMap _ => raise_if (beq l L) InvalidValueError (if hassaid saids x then ttrace x else Ok (x, []))
  | _ => Ok (x, [])
  end.
Fixpoint ttraces (m : sad) : res (sad * list (list bytes * sad)) :=
  match m with
  | [] => Ok ([], [])
  | (l, x) :: r =>
      '(x', ls) <- ttrace1 l x ;;
      '(r', ls') <- ttraces r ;;
      Ok ((l, x') :: r', map (fun a => (l :: fst a, snd a)) ls ++ ls')
  end.
Lemma ttrace_eq : forall m, ttrace (VMap m) = ('(m', ls) <- ttraces m ;;
  if leaf m then q <- leafSaid m' ;; Ok (VMap (dset m' L (VStr q)), ls ++ [([], dset m' L (VStr q))]) else Ok (VMap m', ls)).
Proof. reflexivity. Qed.

Definition at_path (p : bytes) (rs : list (list bytes * sad)) : list (bytes * sad) := map (fun a => (p ++ render (fst a), snd a)) rs.
Lemma at_under : forall p l rs, at_path p (map (fun a => (l :: fst a, snd a)) rs) = at_path (p ++ 46 :: l) rs.
Proof. intros p l rs. unfold at_path. rewrite map_map. apply map_ext. intros [r f]. cbn [fst snd]. f_equal. change (render (l :: r)) with ((46 :: l) ++ render r). rewrite app_assoc. reflexivity. Qed.

Lemma ttraces_keys : forall m m' ls, ttraces m = Ok (m', ls) -> keysOf m' = keysOf m.
Proof.
  induction m as [|[l x] m IH]; intros m' ls H; cbn [ttraces] in H; [injection H as <- _; reflexivity|].
  destruct (ttrace1 l x) as [[x' a]|]; cbn [bind] in H; [|discriminate]. destruct (ttraces m) as [[r' b]|]; cbn [bind] in H; [|discriminate]. injection H as <- _. cbn. f_equal. eapply IH. reflexivity.
Qed.
Lemma hasKey_keys : forall a b l, keysOf a = keysOf b -> hasKey a l = hasKey b l.
Proof. intros a b l H. unfold hasKey. rewrite H. reflexivity. Qed.

Definition trace1 (path l : bytes) (x : val) : res (val * list (bytes * sad)) :=
  match x with
  | VMap _ => raise_if (isSaid saids l) InvalidValueError (if hassaid saids x then trace digest dumpm saids (path ++ 46 :: l) x else Ok (x, []))
  | _ => Ok (x, [])
  end.
Definition traces (path : bytes) := fix traces (m : sad) : res (sad * list (bytes * sad)) :=
  match m with
  | [] => Ok ([], [])
  | (l, x) :: r =>
      '(x', ls) <- trace1 path l x ;;
      '(r', ls') <- traces r ;;
      Ok ((l, x') :: r', ls ++ ls')
  end.
Lemma trace_eq : forall path m, trace digest dumpm saids path (VMap m) = ('(m', ls) <- traces path m ;;
  if ownSaid saids m && negb (existsb (fun kv => hassaid saids (snd kv)) m) then '(f, _) <- mapperMake digest dumpm true saids m' ;; Ok (VMap f, ls ++ [(path, f)]) else Ok (VMap m', ls)).
Proof. reflexivity. Qed.

Lemma trace_ttrace : forall v path, trace digest dumpm saids path v = ('(v', rs) <- ttrace v ;; Ok (v', at_path path rs)).
Proof.
  induction v as [| | z | s | l IH | m IH] using val_ind'; intros path; try reflexivity.
  rewrite trace_eq, ttrace_eq, ownSaid_L. fold (leaf m).
  assert (Q : traces path m = ('(m', rs) <- ttraces m ;; Ok (m', at_path path rs))).
  { clear -IH. induction IH as [|[l x] m Hx F IHm]; [reflexivity|]. cbn [ttraces fst snd] in *. change (traces path ((l, x) :: m)) with ('(x', ls) <- trace1 path l x ;; '(r', ls') <- traces path m ;; Ok ((l, x') :: r', ls ++ ls')). rewrite IHm. unfold trace1, ttrace1. rewrite isSaid_L.
    assert (Z : forall (p q : res (val * list (bytes * sad))) (t : res (val * list (list bytes * sad))), p = ('(x', rs) <- t ;; Ok (x', at_path (path ++ 46 :: l) rs)) ->
      ('(x', ls) <- p ;; '(r', ls') <- ('(m', rs) <- ttraces m ;; Ok (m', at_path path rs)) ;; Ok ((l, x') :: r', ls ++ ls')) =
      ('(m', rs) <- ('(x', ls) <- t ;; '(r', ls') <- ttraces m ;; Ok ((l, x') :: r', map (fun a => (l :: fst a, snd a)) ls ++ ls')) ;; Ok (m', at_path path rs))).
    { intros p q t ->. destruct t as [[x' a]|]; cbn [bind]; [|reflexivity]. destruct (ttraces m) as [[r' b]|]; cbn [bind]; [|reflexivity]. unfold at_path at 3. rewrite map_app. fold (at_path path (map (fun a0 => (l :: fst a0, snd a0)) a)). fold (at_path path b). rewrite at_under. reflexivity. }
    apply Z; [exact (Ok (VNull, []))|]. destruct x; try reflexivity. destruct (beq l L); [reflexivity|]. destruct (hassaid saids (VMap m0)); [apply Hx|reflexivity]. }
  rewrite Q. destruct (ttraces m) as [[m' rs]|] eqn:T; cbn [bind]; [|reflexivity]. destruct (leaf m) eqn:Lf; [|reflexivity].
  assert (K : hasKey m' L = true). { rewrite (hasKey_keys m' m) by (eapply ttraces_keys; exact T). unfold leaf in Lf. apply andb_true_iff in Lf. tauto. }
  pose proof (make_single m' K) as Ms. destruct (leafSaid m') as [q|]; destruct (mapperMake digest dumpm true saids m') as [[f s]|]; cbn [bind] in *; try discriminate; [|injection Ms as <-; reflexivity].
  injection Ms as <-. unfold at_path. rewrite map_app. cbn [map fst snd]. unfold render at 2. cbn [map List.concat]. rewrite app_nil_r. reflexivity.
Qed.

(** ** A round replaces the leaves *)
Definition lv (rs : list (list bytes * sad)) : list (list bytes * val) := map (fun a => (fst a, saidOf saids (snd a))) rs.
Lemma lv_under : forall l rs, lv (map (fun a => (l :: fst a, snd a)) rs) = under l (lv rs).
Proof. intros l rs. unfold lv, under. rewrite !map_map. reflexivity. Qed.
Lemma lv_app : forall a b, lv (a ++ b) = lv a ++ lv b.
Proof. intros. apply map_app. Qed.
Lemma saidOf_dset : forall m q, saidOf saids (dset m L (VStr q)) = VStr q.
Proof. intros m q. unfold saidOf. rewrite dget_dset, beq_refl. reflexivity. Qed.
Lemma ttraces_nosaid : forall m m' ls, existsb (fun kv => hassaid saids (snd kv)) m = false -> ttraces m = Ok (m', ls) -> m' = m /\ ls = [].
Proof.
  induction m as [|[l x] m IH]; intros m' ls E H; cbn [ttraces] in H; [injection H as <- <-; split; reflexivity|].
  cbn [existsb snd] in E. apply orb_false_iff in E. destruct E as [E1 E2].
  assert (T : ttrace1 l x = Ok (x, []) \/ exists e, ttrace1 l x = Err e).
  { unfold ttrace1. destruct x; auto. destruct (beq l L); [right; eexists; reflexivity|]. rewrite E1. auto. }
  destruct T as [T|(e & T)]; rewrite T in H; cbn [bind] in H; [|discriminate]. destruct (ttraces m) as [[r' b]|] eqn:R; cbn [bind] in H; [|discriminate].
  destruct (IH r' b E2 eq_refl) as [-> ->]. injection H as <- <-. split; reflexivity.
Qed.
Definition passRel (v : val) : Prop :=
  match ttrace v with
  | Ok (v1, rs) => pass v = Ok (putAll (lv rs) v1) /\ seqgood (lv rs) v1
  | Err e => pass v = Err e
  end.
Definition passesRel (m : sad) : Prop :=
  match ttraces m with
  | Ok (m1, rs) => exists m2, passes m = Ok m2 /\ keysOf m2 = keysOf m /\
      forall a, (forall k, In k (keysOf m) -> ~ In k (keysOf a)) -> putAll (lv rs) (VMap (a ++ m1)) = VMap (a ++ m2) /\ seqgood (lv rs) (VMap (a ++ m1))
  | Err e => passes m = Err e
  end.
Lemma passes_rel : forall m, NoDup (keysOf m) -> Forall (fun kv => passRel (snd kv)) m -> passesRel m.
Proof.
  intros m N F. induction F as [|[l x] m Hx F IH].
  - exists []. split; [reflexivity|]. split; [reflexivity|]. intros a _. split; [reflexivity|exact Logic.I].
  - cbn [keysOf map fst] in N. inversion N as [|? ? Nl Nm]; subst. specialize (IH Nm). cbn [snd] in Hx. unfold passesRel in *. cbn [ttraces passes].
    assert (T : match ttrace1 l x with Ok (x1, rs) => pass1 l x = Ok (putAll (lv rs) x1) /\ seqgood (lv rs) x1 | Err e => pass1 l x = Err e end).
    { unfold ttrace1, pass1. destruct x; try (split; [reflexivity|exact Logic.I]). destruct (beq l L); [reflexivity|]. destruct (hassaid saids (VMap m0)); [exact Hx|]. split; [reflexivity|exact Logic.I]. }
    destruct (ttrace1 l x) as [[x1 rs]|e]; cbn [bind]; [|rewrite T; reflexivity]. destruct T as [T1 T2]. rewrite T1.
    destruct (ttraces m) as [[m1 ls]|e] eqn:Tm; cbn [bind]; [|rewrite IH; reflexivity]. destruct IH as (m2 & P & K & IH). rewrite P. cbn [bind].
    exists ((l, putAll (lv rs) x1) :: m2). split; [reflexivity|]. split; [cbn; f_equal; exact K|]. intros a D. rewrite lv_app, lv_under, putAll_app, seqgood_app.
    assert (Na : ~ In l (keysOf a)) by (apply D; left; reflexivity). destruct (under_mid (lv rs) a l x1 m1 Na) as [A B]. rewrite A.
    assert (D' : forall k, In k (keysOf m) -> ~ In k (keysOf (a ++ [(l, putAll (lv rs) x1)]))).
    { intros k Hk Q. unfold keysOf in Q. rewrite map_app, in_app_iff in Q. destruct Q as [Q|[<-|[]]]; [exact (D k (or_intror Hk) Q)|exact (Nl Hk)]. }
    specialize (IH (a ++ [(l, putAll (lv rs) x1)]) D'). rewrite <- !app_assoc in IH. cbn [app] in IH. destruct IH as [C E]. split; [exact C|]. split; [apply B; exact T2|exact E].
Qed.
Lemma passes_nosaid : forall m m', existsb (fun kv => hassaid saids (snd kv)) m = false -> passes m = Ok m' -> m' = m.
Proof.
  induction m as [|[l x] m IH]; intros m' E H; cbn [passes] in H; [injection H as <-; reflexivity|].
  cbn [existsb snd] in E. apply orb_false_iff in E. destruct E as [E1 E2].
  assert (T : pass1 l x = Ok x \/ exists e, pass1 l x = Err e).
  { unfold pass1. destruct x; auto. destruct (beq l L); [right; eexists; reflexivity|]. rewrite E1. auto. }
  destruct T as [T|(e & T)]; rewrite T in H; cbn [bind] in H; [|discriminate]. destruct (passes m) as [r'|] eqn:R; cbn [bind] in H; [|discriminate].
  rewrite (IH r' E2 eq_refl) in H. injection H as <-. reflexivity.
Qed.
Lemma leaf_inv : forall m, leaf m = true -> hasKey m L = true /\ existsb (fun kv => hassaid saids (snd kv)) m = false.
Proof. intros m H. unfold leaf in H. apply andb_true_iff in H. destruct H as [A B]. apply negb_true_iff in B. split; assumption. Qed.
Lemma pass_rel : forall v, wfv v -> passRel v.
Proof.
  induction v as [| | z | s | l IH | m IH] using val_ind'; intros W; try (split; [reflexivity|exact Logic.I]).
  cbn [wfv] in W. destruct W as [N W].
  assert (F : Forall (fun kv => passRel (snd kv)) m).
  { clear N. induction IH as [|kv m Hx F IHm]; constructor; cbn [fold_right] in W; [apply Hx; tauto|apply IHm; tauto]. }
  pose proof (passes_rel m N F) as P. unfold passRel, passesRel in *. rewrite ttrace_eq, pass_eq. destruct (ttraces m) as [[m1 rs]|e] eqn:T; cbn [bind]; [|rewrite P; reflexivity].
  destruct P as (m2 & P & K & Q). rewrite P. cbn [bind]. destruct (Q [] (fun _ _ X => X)) as [A B]. cbn [app] in A, B. destruct (leaf m) eqn:Lf.
  - destruct (leaf_inv _ Lf) as [_ E]. destruct (ttraces_nosaid _ _ _ E T) as [-> ->]. rewrite (passes_nosaid _ _ E P) in *. destruct (leafSaid m) as [q|e]; cbn [bind]; [|reflexivity].
    cbn [app lv map fst snd putAll put seqgood good]. rewrite saidOf_dset. split; [reflexivity|]. split; exact Logic.I.
  - split; [rewrite A; reflexivity|exact B].
Qed.

(** ** The leaves of a round are found at their paths *)
Lemma fold_dset : forall (ls : list (bytes * sad)) acc p, ~ In p (map fst ls) -> dget (fold_left (fun d kv => dset d (fst kv) (snd kv)) ls acc) p = dget acc p.
Proof.
  induction ls as [|[k f] ls IH]; intros acc p H; cbn [fold_left fst snd map] in *; [reflexivity|]. rewrite IH by (intros Q; apply H; right; exact Q).
  rewrite dget_dset. destruct (beq_spec p k) as [->|N]; [exfalso; apply H; left; reflexivity|reflexivity].
Qed.
Lemma fold_dset_in : forall (ls : list (bytes * sad)) acc p f, NoDup (map fst ls) -> In (p, f) ls -> dget (fold_left (fun d kv => dset d (fst kv) (snd kv)) ls acc) p = Some f.
Proof.
  induction ls as [|[k g] ls IH]; intros acc p f N H; [destruct H|]. cbn [fold_left fst snd map] in *. inversion N as [|? ? N1 N2]; subst. destruct H as [H|H].
  - injection H as -> ->. rewrite fold_dset by exact N1. rewrite dget_dset, beq_refl. reflexivity.
  - apply IH; assumption.
Qed.
(** the routes of the leaves are different, made of labels of the map, and below the top *)
Lemma ttrace1_map : forall l x x1 rs, ttrace1 l x = Ok (x1, rs) -> (x1 = x /\ rs = []) \/ ttrace x = Ok (x1, rs).
Proof.
  intros l x x1 rs H. unfold ttrace1 in H. destruct x; try (injection H as <- <-; left; split; reflexivity). destruct (beq l L); [discriminate|].
  destruct (hassaid saids (VMap m)); [right; exact H|injection H as <- <-; left; split; reflexivity].
Qed.
Lemma NoDup_app' : forall A (a b : list A), NoDup a -> NoDup b -> (forall x, In x a -> ~ In x b) -> NoDup (a ++ b).
Proof.
  intros A a b. induction a as [|x a IH]; intros Na Nb D; [exact Nb|]. inversion Na; subst. cbn [app]. constructor.
  - rewrite in_app_iff. intros [Q|Q]; [contradiction|]. exact (D x (or_introl eq_refl) Q).
  - apply IH; try assumption. intros y Hy. apply D. right. exact Hy.
Qed.
Definition routesOk (v : val) : Prop := forall v1 rs, ttrace v = Ok (v1, rs) -> NoDup (map fst rs) /\ Forall (fun a => Forall noDot (fst a)) rs.
Lemma hassaid_count : forall v, hassaid saids v = true -> (0 < saidCount L v)%nat.
Proof.
  induction v as [| | z | s | l IH | m IH] using val_ind'; intros H; try discriminate. cbn [hassaid saidCount] in *. destruct (memB L (keysOf m)) eqn:K; [lia|]. apply memB_nIn in K. apply existsb_exists in H. destruct H as ((l & x) & Hi & H). cbn [fst snd] in H. apply orb_true_iff in H. destruct H as [H|H].
  - rewrite isSaid_L in H. apply beq_eq in H. subst l. exfalso. apply K. apply in_map_iff. exists (L, x). split; [reflexivity|exact Hi].
  - rewrite Forall_forall in IH. specialize (IH _ Hi H). cbn [snd] in IH. clear -Hi IH. cbn [Nat.add]. induction m as [|kv m IHm]; [destruct Hi|]. cbn [fold_right]. destruct Hi as [->|Hi]; [cbn [snd]; lia|]. specialize (IHm Hi). lia.
Qed.
Lemma routes_all : forall m, NoDup (keysOf m) -> Forall (fun kv => (0 < saidCount L (snd kv))%nat -> noDot (fst kv)) m -> Forall (fun kv => routesOk (snd kv)) m -> forall m1 rs, ttraces m = Ok (m1, rs) ->
  NoDup (map fst rs) /\ Forall (fun a => Forall noDot (fst a) /\ exists l r, fst a = l :: r /\ In l (keysOf m)) rs.
Proof.
  intros m N D F. induction F as [|[l x] m Hx F IH]; intros m1 rs T; cbn [ttraces] in T.
  - injection T as _ <-. split; constructor.
  - cbn [keysOf map fst] in N. inversion N as [|? ? Nl Nm]; inversion D as [|? ? Dl Dm]; subst. cbn [fst snd] in Hx, Dl.
    destruct (ttrace1 l x) as [[x1 rx]|] eqn:Tx; cbn [bind] in T; [|discriminate]. destruct (ttraces m) as [[m1' rm]|] eqn:Tm; cbn [bind] in T; [|discriminate]. injection T as _ <-.
    destruct (IH Nm Dm _ _ eq_refl) as [A B].
    assert (X : NoDup (map fst rx) /\ Forall (fun a => Forall noDot (fst a)) rx).
    { destruct (ttrace1_map _ _ _ _ Tx) as [[-> ->]|Q]; [split; constructor|exact (Hx _ _ Q)]. }
    destruct X as [X1 X2]. assert (Dl' : rx <> [] -> noDot l).
    { intros Ne. apply Dl, hassaid_count. unfold ttrace1 in Tx. destruct x; try (injection Tx as _ <-; congruence). destruct (beq l L); [discriminate|]. destruct (hassaid saids (VMap m0)); [reflexivity|injection Tx as _ <-; congruence]. } split.
    + rewrite map_app, map_map. cbn [fst]. apply NoDup_app'; [|exact A|].
      * rewrite <- (map_map fst (fun r => l :: r)). apply FinFun.Injective_map_NoDup; [intros u w E; congruence|exact X1].
      * intros r Hr Q. apply in_map_iff in Hr. destruct Hr as (a & <- & Ha). apply in_map_iff in Q. destruct Q as (b & E & Hb). rewrite Forall_forall in B. destruct (B b Hb) as (_ & l' & r' & E' & Hl'). rewrite E' in E. injection E as -> _. exact (Nl Hl').
    + apply Forall_app. split.
      * rewrite Forall_forall in *. intros a Ha. apply in_map_iff in Ha. destruct Ha as (b & <- & Hb). cbn [fst]. split; [constructor; [apply Dl'; intros ->; destruct Hb|exact (X2 b Hb)]|]. exists l, (fst b). split; [reflexivity|left; reflexivity].
      * rewrite Forall_forall in *. intros a Ha. destruct (B a Ha) as (P1 & l' & r' & P2 & P3). split; [exact P1|]. exists l', r'. split; [exact P2|right; exact P3].
Qed.
Lemma routes_ok : forall v, wfv v -> dotless L v -> routesOk v.
Proof.
  induction v as [| | z | s | l IH | m IH] using val_ind'; intros W D v1 rs T; try (cbn [ttrace] in T; injection T as _ <-; split; constructor).
  cbn [wfv dotless] in W, D. destruct W as [N W].
  assert (F : Forall (fun kv => routesOk (snd kv)) m).
  { clear N T. induction IH as [|kv m Hx F IHm]; constructor; cbn [fold_right] in W, D; [apply Hx; tauto|apply IHm; tauto]. }
  assert (D0 : Forall (fun kv => (0 < saidCount L (snd kv))%nat -> noDot (fst kv)) m).
  { clear -D. induction m as [|kv m IHm]; constructor; cbn [fold_right] in D; [tauto|apply IHm; tauto]. }
  rewrite ttrace_eq in T. destruct (ttraces m) as [[m1 rs1]|e] eqn:Tm; cbn [bind] in T; [|discriminate]. destruct (routes_all m N D0 F _ _ Tm) as [A B].
  destruct (leaf m) eqn:Lf.
  - destruct (leaf_inv _ Lf) as [_ E]. destruct (ttraces_nosaid _ _ _ E Tm) as [-> ->]. destruct (leafSaid m) as [q|]; cbn [bind] in T; [|discriminate]. injection T as _ <-. split; [constructor; [intros []|constructor]|constructor; [constructor|constructor]].
  - injection T as _ <-. split; [exact A|]. eapply Forall_impl; [|exact B]. cbn. tauto.
Qed.

(** ** One round of the loop *)
Lemma assign_seq : forall rs leaves v, Forall (fun a => Forall noDot (fst a) /\ fst a <> []) rs ->
  Forall (fun a => dget leaves (render (fst a)) = Some (snd a)) rs -> seqgood (lv rs) v ->
  assignAll saids leaves (map fst (at_path [] rs)) v = Ok (putAll (lv rs) v).
Proof.
  induction rs as [|[r f] rs IH]; intros leaves v A B G; [reflexivity|]. inversion A as [|? ? A1 A2]; inversion B as [|? ? B1 B2]; subst. cbn [fst snd] in *. cbn [lv map fst snd seqgood] in G. destruct G as [G1 G2].
  cbn [at_path map fst snd assignAll app]. rewrite B1. destruct A1 as [A0 A1]. destruct (exists_last A1) as (r0 & l & ->). rewrite assign_put by assumption. cbn [bind]. cbn [lv map fst snd putAll]. apply IH; assumption.
Qed.
Lemma ttrace_nonempty : forall v v1 rs, hassaid saids v = true -> ttrace v = Ok (v1, rs) -> rs <> [].
Proof.
  induction v as [| | z | s | l IH | m IH] using val_ind'; intros v1 rs H T; try discriminate. rewrite ttrace_eq in T. destruct (ttraces m) as [[m1 rs1]|e] eqn:Tm; cbn [bind] in T; [|discriminate].
  destruct (leaf m) eqn:Lf.
  - destruct (leafSaid m1); cbn [bind] in T; [|discriminate]. injection T as _ <-. intros Q. apply app_eq_nil in Q. destruct Q as [_ Q]. discriminate.
  - injection T as _ <-. assert (E : existsb (fun kv => hassaid saids (snd kv)) m = true).
    { unfold leaf in Lf. destruct (existsb (fun kv => hassaid saids (snd kv)) m) eqn:E; [reflexivity|]. cbn [negb] in Lf. rewrite andb_true_r in Lf. exfalso.
      cbn [hassaid] in H. apply existsb_exists in H. destruct H as ((l & x) & Hi & H). cbn [fst snd] in H. apply orb_true_iff in H. destruct H as [H|H].
      - rewrite isSaid_L in H. apply beq_eq in H. subst l. apply hasKey_none, dget_none in Lf. apply Lf. apply in_map_iff. exists (L, x). split; [reflexivity|exact Hi].
      - rewrite <- not_true_iff_false in E. apply E. apply existsb_exists. exists (l, x). split; assumption. }
    clear Lf H. revert m1 rs1 Tm E. induction IH as [|[l x] m Hx F IHm]; intros m1 rs1 Tm E; [discriminate|]. cbn [existsb snd ttraces] in *.
    destruct (ttrace1 l x) as [[x1 rx]|] eqn:Tx; cbn [bind] in Tm; [|discriminate]. destruct (ttraces m) as [[m1' rm]|]; cbn [bind] in Tm; [|discriminate]. injection Tm as _ <-.
    apply orb_true_iff in E. intros Q. apply app_eq_nil in Q. destruct Q as [Q1 Q2]. destruct E as [E|E]; [|exact (IHm _ _ eq_refl E Q2)].
    apply map_eq_nil in Q1. subst rx. unfold ttrace1 in Tx. destruct x; try discriminate. destruct (beq l L); [discriminate|]. rewrite E in Tx. exact (Hx _ _ E Tx eq_refl).
Qed.
Lemma ttraces_nonempty : forall m m1 rs, existsb (fun kv => hassaid saids (snd kv)) m = true -> ttraces m = Ok (m1, rs) -> rs <> [].
Proof.
  induction m as [|[l x] m IHm]; intros m1 rs1 E Tm; [discriminate|]. cbn [existsb snd ttraces] in *.
  destruct (ttrace1 l x) as [[x1 rx]|] eqn:Tx; cbn [bind] in Tm; [|discriminate]. destruct (ttraces m) as [[m1' rm]|]; cbn [bind] in Tm; [|discriminate]. injection Tm as _ <-.
  apply orb_true_iff in E. intros Q. apply app_eq_nil in Q. destruct Q as [Q1 Q2]. destruct E as [E|E]; [|exact (IHm _ _ E eq_refl Q2)].
  apply map_eq_nil in Q1. subst rx. unfold ttrace1 in Tx. destruct x; try discriminate. destruct (beq l L); [discriminate|]. rewrite E in Tx. exact (ttrace_nonempty _ _ _ E Tx eq_refl).
Qed.
Definition topDone (m : sad) : res sad := q <- leafSaid m ;; Ok (dset m L (VStr q)).
Hypothesis Hd : digest_ok digest.
Lemma leafSaid_len : forall m q, leafSaid m = Ok q -> q <> [].
Proof.
  intros m q H. unfold saidText in H. destruct (dget m L); [|discriminate]. destruct (memB (codeFor dflt v) DigDex); [|discriminate]. cbn [negb] in H.
  destruct (dumpm true [L] _) as [raw|]; cbn [bind] in H; [|discriminate]. destruct (digerOf digest (codeFor dflt v) raw) as [t|] eqn:D; cbn [bind] in H; [|discriminate]. destruct (dumpm true [] _); cbn [bind] in H; [|discriminate]. injection H as <-.
  destruct (digerOf_inv _ _ _ _ Hd D) as [_ Q]. intros ->. cbn in Q. destruct Q as [Q _]. unfold digestSize in Q. destruct (len (codeFor dflt v) =? 1); cbn in Q; lia.
Qed.
Lemma fold_keys : forall (ls : list (bytes * sad)) acc p, In p (keysOf (fold_left (fun d kv => dset d (fst kv) (snd kv)) ls acc)) <-> In p (keysOf acc) \/ In p (map fst ls).
Proof.
  induction ls as [|[k f] ls IH]; intros acc p; cbn [fold_left fst snd map]; [cbn; tauto|]. rewrite IH. rewrite <- !dget_keys. split.
  - intros [(v & Q)|Q]; [|right; right; exact Q]. rewrite dget_dset in Q. destruct (beq_spec p k) as [->|N]; [right; left; reflexivity|left; eauto].
  - intros [(v & Q)|[<-|Q]]; [|left; exists f; rewrite dget_dset, beq_refl; reflexivity|right; exact Q]. left. rewrite dget_dset. destruct (beq p k); eauto.
Qed.
Lemma round : forall n m leaves, wfv (VMap m) -> dotless L (VMap m) -> ~ In [] (keysOf leaves) ->
  match passes m with
  | Err e => compactF digest dumpm saids (S n) (VMap m) leaves = Some (Err e)
  | Ok m2 =>
      if leaf m then match topDone m with
                     | Err e => compactF digest dumpm saids (S n) (VMap m) leaves = Some (Err e)
                     | Ok m3 => exists lvs, compactF digest dumpm saids (S n) (VMap m) leaves = Some (Ok (VMap m3, lvs))
                     end
      else exists lvs, ~ In [] (keysOf lvs) /\ compactF digest dumpm saids (S n) (VMap m) leaves =
             if existsb (fun kv => hassaid saids (snd kv)) m then compactF digest dumpm saids n (VMap m2) lvs else Some (Ok (VMap m, lvs))
  end.
Proof.
  intros n m leaves W D NL. cbn [compactF]. rewrite trace_ttrace. cbn [wfv dotless] in W, D. pose proof W as [N W1]. pose proof D as D1.
  assert (D0 : Forall (fun kv => (0 < saidCount L (snd kv))%nat -> noDot (fst kv)) m).
  { clear -D. induction m as [|kv m IHm]; constructor; cbn [fold_right] in D; [tauto|apply IHm; tauto]. }
  assert (F : Forall (fun kv => passRel (snd kv)) m /\ Forall (fun kv => routesOk (snd kv)) m).
  { clear N W D D0. induction m as [|kv m IHm]; [split; constructor|]. cbn [fold_right] in W1, D1. destruct IHm as [A B]; [tauto|tauto|]. split; constructor; try assumption; [apply pass_rel; tauto|apply routes_ok; tauto]. }
  destruct F as [F1 F2]. pose proof (passes_rel m N F1) as P. unfold passesRel in P. rewrite ttrace_eq. destruct (ttraces m) as [[m1 rs]|e] eqn:T; cbn [bind]; [|rewrite P; reflexivity].
  destruct P as (m2 & P & K & Q). rewrite P. destruct (routes_all m N D0 F2 _ _ T) as [R1 R2]. destruct (Q [] (fun _ _ X => X)) as [A B]. cbn [app] in A, B. destruct (leaf m) eqn:Lf.
  - destruct (leaf_inv _ Lf) as [_ E]. destruct (ttraces_nosaid _ _ _ E T) as [-> ->]. unfold topDone. destruct (leafSaid m) as [q|e] eqn:Ls; cbn [bind]; [|reflexivity].
    cbn [app at_path map fst snd fold_left assignAll render List.concat]. rewrite dget_dset, beq_refl. cbn [assignAt splitDot rev app bind]. unfold isCompact. rewrite saidOf_dset.
    assert (Tr : truthy (Some (VStr q)) = true). { apply leafSaid_len in Ls. destruct q; [congruence|reflexivity]. }
    rewrite Tr. replace (memB [] (keysOf (dset leaves [] (dset m L (VStr q))))) with true; [eexists; reflexivity|]. symmetry. apply memB_In. rewrite <- dget_keys, dget_dset. cbn. eauto.
  - cbn [bind]. set (lvs := fold_left _ _ leaves). exists lvs.
    assert (R3 : Forall (fun a => Forall noDot (fst a) /\ fst a <> []) rs). { eapply Forall_impl; [|exact R2]. cbn. intros a (X & l & r & E & _). split; [exact X|rewrite E; discriminate]. }
    assert (NE : ~ In [] (keysOf lvs)).
    { unfold lvs. rewrite fold_keys. intros [X|X]; [exact (NL X)|]. unfold at_path in X. rewrite map_map in X. apply in_map_iff in X. destruct X as (a & X & Ha). cbn [fst app] in X. rewrite Forall_forall in R3. destruct (R3 a Ha) as [_ X1]. destruct (fst a); [congruence|discriminate]. }
    split; [exact NE|].
    rewrite (assign_seq rs lvs (VMap m1)); [|exact R3| |exact B].
    2:{ apply Forall_forall. intros a Ha. unfold lvs. apply fold_dset_in.
        - unfold at_path. rewrite map_map. cbn [fst app]. clear -R1 R3. induction rs as [|b rs IH]; [constructor|]. cbn [map] in *. inversion R1; subst. inversion R3; subst. constructor; [|apply IH; assumption].
          intros X. apply in_map_iff in X. destruct X as (c & X & Hc). rewrite Forall_forall in H4. apply render_inj in X; [|apply H4; exact Hc|tauto]. apply H1. rewrite <- X. apply in_map. exact Hc.
        - unfold at_path. apply in_map_iff. exists a. split; [reflexivity|exact Ha]. }
    rewrite A. unfold isCompact. replace (memB [] (keysOf lvs)) with false by (symmetry; apply memB_nIn; exact NE). rewrite andb_false_r, orb_false_l.
    destruct (existsb (fun kv => hassaid saids (snd kv)) m) eqn:E.
    + pose proof (ttraces_nonempty _ _ _ E T) as NN. destruct rs; [congruence|reflexivity].
    + destruct (ttraces_nosaid _ _ _ E T) as [-> ->]. rewrite (passes_nosaid _ _ E P). reflexivity.
Qed.

(** ** The rounds keep the most compact form and come to an end *)
Lemma roll_eq : forall m, roll (VMap m) = (m' <- rolls m ;; match dget m L with None => Ok (VMap m') | Some _ => q <- leafSaid m' ;; Ok (VStr q) end).
Proof. reflexivity. Qed.
Lemma rolls_keys : forall m m', rolls m = Ok m' -> keysOf m' = keysOf m.
Proof.
  induction m as [|[l x] m IH]; intros m' H; cbn [CpSpec.rolls] in H; [injection H as <-; reflexivity|]. destruct (beq l L && isMap x); [discriminate|].
  destruct (roll x); cbn [bind] in H; [|discriminate]. destruct (rolls m); cbn [bind] in H; [|discriminate]. injection H as <-. cbn. f_equal. apply IH. reflexivity.
Qed.
Lemma roll_nosaid : forall v, hassaid saids v = false -> roll v = Ok v.
Proof.
  induction v as [| | z | s | l IH | m IH] using val_ind'; intros H; try reflexivity. rewrite roll_eq. cbn [hassaid] in H.
  assert (Q : rolls m = Ok m /\ dget m L = None).
  { induction IH as [|[l x] m Hx F IHm]; [split; reflexivity|]. cbn [existsb fst snd] in *. apply orb_false_iff in H. destruct H as [H1 H2]. apply orb_false_iff in H1. destruct H1 as [H0 H1]. rewrite isSaid_L in H0.
    destruct (IHm H2) as [A B]. split; [cbn [CpSpec.rolls]; rewrite H0, (Hx H1), A; reflexivity|]. cbn [dget]. apply beq_neq in H0. destruct (beq_spec L l) as [->|N]; [congruence|exact B]. }
  destruct Q as [-> ->]. reflexivity.
Qed.
Lemma rolls_nosaid : forall m, existsb (fun kv => hassaid saids (snd kv)) m = false -> rolls m = passes m.
Proof.
  induction m as [|[l x] m IH]; intros H; [reflexivity|]. cbn [existsb snd] in H. apply orb_false_iff in H. destruct H as [H1 H2]. cbn [CpSpec.rolls passes]. rewrite (IH H2), (roll_nosaid x H1). unfold pass1.
  destruct x; cbn [isMap]; rewrite ?andb_false_r, ?andb_true_r; try reflexivity. rewrite H1. destruct (beq l L); reflexivity.
Qed.
Lemma passes_keys : forall m m2, passes m = Ok m2 -> keysOf m2 = keysOf m.
Proof.
  induction m as [|[l x] m IH]; intros m' H; cbn [passes] in H; [injection H as <-; reflexivity|].
  destruct (pass1 l x); cbn [bind] in H; [|discriminate]. destruct (passes m); cbn [bind] in H; [|discriminate]. injection H as <-. cbn. f_equal. apply IH. reflexivity.
Qed.
Lemma keys_get_none : forall {V} {W} (a : list (bytes * V)) (b : list (bytes * W)) k, keysOf a = keysOf b -> dget a k = None -> dget b k = None.
Proof. intros V W a b k E H. apply dget_none. rewrite <- E. apply dget_none. exact H. Qed.
Lemma keys_get_some : forall {V} {W} (a : list (bytes * V)) (b : list (bytes * W)) k x, keysOf a = keysOf b -> dget a k = Some x -> exists y, dget b k = Some y.
Proof. intros V W a b k x E H. apply dget_keys. rewrite <- E. apply dget_keys. eauto. Qed.

Lemma passes_roll' : forall m, Forall (fun kv => match pass (snd kv) with Ok v2 => roll v2 = roll (snd kv) | Err _ => exists e, roll (snd kv) = Err e end) m ->
  match passes m with Ok m2 => rolls m2 = rolls m | Err _ => exists e, rolls m = Err e end.
Proof.
  intros m F. induction F as [|[l x] m Hx F IHm]; [reflexivity|]. cbn [passes CpSpec.rolls snd] in *.
  assert (X : match pass1 l x with Ok x2 => roll x2 = roll x /\ (beq l L && isMap x2 = false) /\ (beq l L && isMap x = false) | Err _ => (exists e, roll x = Err e) \/ beq l L && isMap x = true end).
  { unfold pass1. destruct x; try (split; [reflexivity|split; apply andb_false_r]). cbn [isMap]. rewrite andb_true_r. destruct (beq l L); [right; reflexivity|]. destruct (hassaid saids (VMap m0)).
    - destruct (pass (VMap m0)); [split; [exact Hx|split; reflexivity]|left; exact Hx].
    - split; [reflexivity|split; reflexivity]. }
  destruct (pass1 l x) as [x2|e]; cbn [bind].
  - destruct X as (X1 & X2 & X3). rewrite X3. destruct (passes m) as [m2|e]; cbn [bind].
    + cbn [CpSpec.rolls]. rewrite X2, X1, IHm. reflexivity.
    + destruct IHm as (e' & E). destruct (roll x); cbn [bind]; [rewrite E; cbn [bind]; eauto|eauto].
  - destruct X as [(e' & E)|E]; [|rewrite E; eauto]. destruct (beq l L && isMap x); [eauto|]. rewrite E. cbn [bind]. eauto.
Qed.
Lemma pass_roll : forall v, match pass v with Ok v2 => roll v2 = roll v | Err _ => exists e, roll v = Err e end.
Proof.
  induction v as [| | z | s | l IH | m IH] using val_ind'; try reflexivity. apply passes_roll' in IH. rewrite pass_eq, roll_eq. destruct (passes m) as [m2|e] eqn:P; cbn [bind].
  - destruct (leaf m) eqn:Lf.
    + destruct (leaf_inv _ Lf) as [K E]. pose proof (passes_nosaid _ _ E P) as ->. rewrite (rolls_nosaid _ E), P. cbn [bind]. apply hasKey_iff in K. destruct K as (x & ->). destruct (leafSaid m); cbn [bind]; [reflexivity|eauto].
    + rewrite roll_eq, IH. destruct (rolls m) as [m'|]; cbn [bind]; [|reflexivity]. destruct (dget m2 L) eqn:D.
      * destruct (keys_get_some _ m _ _ (passes_keys _ _ P) D) as (y & ->). reflexivity.
      * rewrite (keys_get_none _ m _ (passes_keys _ _ P) D). reflexivity.
  - destruct IH as (e' & ->). cbn [bind]. eauto.
Qed.
Lemma passes_roll : forall m, match passes m with Ok m2 => rolls m2 = rolls m | Err _ => exists e, rolls m = Err e end.
Proof. intros m. apply passes_roll'. apply Forall_forall. intros kv _. apply pass_roll. Qed.

Notation cs := (fold_right (fun kv n => (saidCount L (snd kv) + n)%nat) 0%nat).
Lemma saidCount_eq : forall m, saidCount L (VMap m) = ((if hasKey m L then 1 else 0) + cs m)%nat.
Proof. reflexivity. Qed.
Lemma passes_count' : forall m m2, Forall (fun kv => forall v2, pass (snd kv) = Ok v2 -> (saidCount L v2 <= saidCount L (snd kv))%nat /\ (hassaid saids (snd kv) = true -> (saidCount L v2 < saidCount L (snd kv))%nat)) m ->
  passes m = Ok m2 -> (cs m2 <= cs m)%nat /\ (existsb (fun kv => hassaid saids (snd kv)) m = true -> (cs m2 < cs m)%nat).
Proof.
  intros m m2 F. revert m2. induction F as [|[l x] m Hx F IHm]; intros m2 P; cbn [passes] in P; [injection P as <-; split; [reflexivity|discriminate]|]. cbn [snd] in Hx.
  destruct (pass1 l x) as [x2|e] eqn:P1; cbn [bind] in P; [|discriminate]. destruct (passes m) as [m2'|]; cbn [bind] in P; [|discriminate]. injection P as <-. destruct (IHm _ eq_refl) as [A B]. cbn [fold_right snd existsb].
  assert (X : (saidCount L x2 <= saidCount L x)%nat /\ (hassaid saids x = true -> (saidCount L x2 < saidCount L x)%nat)).
  { unfold pass1 in P1. destruct x; try (injection P1 as <-; split; [reflexivity|discriminate]). destruct (beq l L); [discriminate|]. destruct (hassaid saids (VMap m0)) eqn:E; [apply Hx; exact P1|injection P1 as <-; split; [reflexivity|discriminate]]. }
  destruct X as [X1 X2]. split; [lia|]. rewrite orb_true_iff. intros [E|E]; [specialize (X2 E)|specialize (B E)]; lia.
Qed.
Lemma pass_count : forall v v2, pass v = Ok v2 -> (saidCount L v2 <= saidCount L v)%nat /\ (hassaid saids v = true -> (saidCount L v2 < saidCount L v)%nat).
Proof.
  induction v as [| | z | s | l IH | m IH] using val_ind'; intros v2 P; try (injection P as <-; split; [reflexivity|discriminate]). rewrite pass_eq in P. destruct (passes m) as [m2|] eqn:Pm; cbn [bind] in P; [|discriminate].
  destruct (passes_count' _ _ IH Pm) as [A B]. rewrite saidCount_eq. destruct (leaf m) eqn:Lf.
  - destruct (leafSaid m2); cbn [bind] in P; [|discriminate]. injection P as <-. destruct (leaf_inv _ Lf) as [K _]. rewrite K. cbn [saidCount]. split; intros; lia.
  - injection P as <-. rewrite saidCount_eq. replace (hasKey m2 L) with (hasKey m L) by (symmetry; apply hasKey_keys; eapply passes_keys; exact Pm). split; [lia|]. intros H.
    assert (E : existsb (fun kv => hassaid saids (snd kv)) m = true).
    { unfold leaf in Lf. destruct (existsb (fun kv => hassaid saids (snd kv)) m) eqn:E; [reflexivity|]. cbn [negb] in Lf. rewrite andb_true_r in Lf. exfalso.
      cbn [hassaid] in H. apply existsb_exists in H. destruct H as ((l & x) & Hi & H). cbn [fst snd] in H. apply orb_true_iff in H. destruct H as [H|H].
      - rewrite isSaid_L in H. apply beq_eq in H. subst l. apply hasKey_none, dget_none in Lf. apply Lf. apply in_map_iff. exists (L, x). split; [reflexivity|exact Hi].
      - rewrite <- not_true_iff_false in E. apply E. apply existsb_exists. exists (l, x). split; assumption. }
    specialize (B E). lia.
Qed.
Lemma passes_count : forall m m2, passes m = Ok m2 -> (cs m2 <= cs m)%nat /\ (existsb (fun kv => hassaid saids (snd kv)) m = true -> (cs m2 < cs m)%nat).
Proof. intros m m2. apply passes_count'. apply Forall_forall. intros kv _. apply pass_count. Qed.

Lemma passes_keep' : forall (W : val -> Prop), (forall q, W (VStr q)) -> forall m m2, Forall (fun kv => forall v2, pass (snd kv) = Ok v2 -> W (snd kv) -> W v2) m -> passes m = Ok m2 ->
  fold_right (fun kv P => W (snd kv) /\ P) True m -> fold_right (fun kv P => W (snd kv) /\ P) True m2.
Proof.
  intros W WS m m2 F. revert m2. induction F as [|[l x] m Hx F IHm]; intros m2 P H; cbn [passes] in P; [injection P as <-; exact H|]. cbn [snd fold_right] in *.
  destruct (pass1 l x) as [x2|e] eqn:P1; cbn [bind] in P; [|discriminate]. destruct (passes m) as [m2'|]; cbn [bind] in P; [|discriminate]. injection P as <-. cbn [fold_right snd]. destruct H as [H1 H2]. split; [|apply IHm; [reflexivity|exact H2]].
  unfold pass1 in P1. destruct x; try (injection P1 as <-; exact H1). destruct (beq l L); [discriminate|]. destruct (hassaid saids (VMap m0)); [apply Hx; assumption|injection P1 as <-; exact H1].
Qed.
Lemma pass_wf : forall v v2, pass v = Ok v2 -> wfv v -> wfv v2.
Proof.
  induction v as [| | z | s | l IH | m IH] using val_ind'; intros v2 P W; try (injection P as <-; exact W). rewrite pass_eq in P. destruct (passes m) as [m2|] eqn:Pm; cbn [bind] in P; [|discriminate].
  destruct (leaf m); [destruct (leafSaid m2); cbn [bind] in P; [injection P as <-; exact Logic.I|discriminate]|]. injection P as <-. cbn [wfv] in *. destruct W as [N W]. split; [change (NoDup (keysOf m2)); rewrite (passes_keys _ _ Pm); exact N|].
  eapply (passes_keep' wfv); [intros; exact Logic.I|exact IH|exact Pm|exact W].
Qed.
Lemma passes_dot' : forall m m2, Forall (fun kv => forall v2, pass (snd kv) = Ok v2 -> dotless L (snd kv) -> dotless L v2) m -> passes m = Ok m2 -> dotless L (VMap m) -> dotless L (VMap m2).
Proof.
  intros m m2 F. revert m2. induction F as [|[l x] m Hx F IHm]; intros m2 P H; cbn [passes] in P; [injection P as <-; exact H|]. cbn [fst snd fold_right dotless] in *.
  destruct (pass1 l x) as [x2|e] eqn:P1; cbn [bind] in P; [|discriminate]. destruct (passes m) as [m2'|]; cbn [bind] in P; [|discriminate]. injection P as <-. cbn [fold_right fst snd]. destruct H as (H0 & H1 & H2).
  assert (X : (saidCount L x2 <= saidCount L x)%nat /\ dotless L x2).
  { unfold pass1 in P1. destruct x; try (injection P1 as <-; split; [reflexivity|exact H1]). destruct (beq l L); [discriminate|]. destruct (hassaid saids (VMap m0)); [|injection P1 as <-; split; [reflexivity|exact H1]].
    split; [exact (proj1 (pass_count _ _ P1))|apply Hx; assumption]. }
  destruct X as [X1 X2]. split; [intros Q; apply H0; lia|]. split; [exact X2|]. apply IHm; [reflexivity|exact H2].
Qed.
Lemma pass_dot : forall v v2, pass v = Ok v2 -> dotless L v -> dotless L v2.
Proof.
  induction v as [| | z | s | l IH | m IH] using val_ind'; intros v2 P W; try (injection P as <-; exact W). rewrite pass_eq in P. destruct (passes m) as [m2|] eqn:Pm; cbn [bind] in P; [|discriminate].
  destruct (leaf m); [destruct (leafSaid m2); cbn [bind] in P; [injection P as <-; exact Logic.I|discriminate]|]. injection P as <-. eapply passes_dot'; eassumption.
Qed.
Lemma passes_wf : forall m m2, passes m = Ok m2 -> wfv (VMap m) -> wfv (VMap m2).
Proof.
  intros m m2 P W. cbn [wfv] in *. destruct W as [N W]. split; [change (NoDup (keysOf m2)); rewrite (passes_keys _ _ P); exact N|]. eapply (passes_keep' wfv); [intros; exact Logic.I| |exact P|exact W].
  apply Forall_forall. intros kv _ v2. apply pass_wf.
Qed.
Lemma passes_dot : forall m m2, passes m = Ok m2 -> dotless L (VMap m) -> dotless L (VMap m2).
Proof. intros m m2. apply passes_dot'. apply Forall_forall. intros kv _ v2. apply pass_dot. Qed.

Theorem compact_roll : forall n m leaves, wfv (VMap m) -> dotless L (VMap m) -> ~ In [] (keysOf leaves) -> (cs m < n)%nat ->
  match rollTop digest dumpm L dflt m with
  | Ok m3 => exists lvs, compactF digest dumpm saids n (VMap m) leaves = Some (Ok (VMap m3, lvs))
  | Err _ => exists e, compactF digest dumpm saids n (VMap m) leaves = Some (Err e)
  end.
Proof.
  induction n as [|n IH]; intros m leaves W D NL C; [lia|]. pose proof (round n m leaves W D NL) as R. pose proof (passes_roll m) as PR. unfold rollTop.
  destruct (passes m) as [m2|e] eqn:P; [|destruct PR as (e' & ->); cbn [bind]; exists e; exact R].
  destruct (leaf m) eqn:Lf.
  - destruct (leaf_inv _ Lf) as [K E]. rewrite (rolls_nosaid _ E), P, (passes_nosaid _ _ E P). cbn [bind]. apply hasKey_iff in K. destruct K as (x & ->). fold (topDone m). destruct (topDone m); eauto.
  - destruct R as (lvs & NL2 & ->). destruct (existsb (fun kv => hassaid saids (snd kv)) m) eqn:E.
    + destruct (passes_count _ _ P) as [_ C2]. specialize (C2 E). assert (C3 : (cs m2 < n)%nat) by lia. specialize (IH m2 lvs (passes_wf _ _ P W) (passes_dot _ _ P D) NL2 C3). unfold rollTop in IH. rewrite PR in IH.
      destruct (rolls m) as [m'|]; cbn [bind] in *; [|exact IH]. destruct (dget m2 L) eqn:G.
      * destruct (keys_get_some _ m _ _ (passes_keys _ _ P) G) as (y & ->). exact IH.
      * rewrite (keys_get_none _ m _ (passes_keys _ _ P) G). exact IH.
    + rewrite (rolls_nosaid _ E), P, (passes_nosaid _ _ E P). cbn [bind]. unfold leaf in Lf. rewrite E in Lf. cbn [negb] in Lf. rewrite andb_true_r in Lf. apply hasKey_none in Lf. rewrite Lf. exists lvs. reflexivity.
Qed.
End Loop.
