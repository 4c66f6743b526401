(** The browser back end makes the same changes and gives the same answers as the LMDB back end. *)
From Coq Require Import Lia ZifyClasses ZifyInst ZifyN Zify.
From Verif Require Import Prelude Lex SubsModel SubsProofs DbModel DbSpec DbProofs DbRef DbOn DbOn2 WbModel WbSpec.
Ltac Zify.zify_post_hook ::= Z.div_mod_to_equations.
Open Scope N_scope.

(** ** The sorted dict *)
Lemma irangeMin_eq : forall k st, sorted st -> irangeMin k st = setRange k st.
Proof.
  intros k st. induction st as [|[ck v] st IH]; intros S; [reflexivity|]. destruct S as [F S]. unfold irangeMin, setRange in *. cbn [filter dropwhile fst].
  destruct (bltb ck k) eqn:B; cbn [negb]; [apply IH; exact S|]. f_equal. rewrite filter_all; [reflexivity|]. intros [c w] IN. rewrite Forall_forall in F. specialize (F _ IN). cbn [fst] in *.
  apply negb_true_iff. destruct (bltb c k) eqn:X; [|reflexivity]. exfalso. pose proof (blt_trans _ _ _ F X) as Y. unfold blt in Y. congruence.
Qed.
Lemma le_part : forall k st, sorted st -> filter (fun e => negb (bltb k (fst e))) st =
  before k st ++ match setRange k st with (ck, v) :: _ => if beq ck k then [(ck, v)] else [] | [] => [] end.
Proof.
  intros k st. induction st as [|[ck v] st IH]; intros S; [reflexivity|]. destruct S as [F S]. unfold before, setRange in *. cbn [filter takewhile dropwhile fst].
  destruct (bltb ck k) eqn:B.
  - rewrite (blt_asym _ _ B). cbn [negb]. rewrite IH by exact S. reflexivity.
  - assert (R : filter (fun e : bytes * bytes => negb (bltb k (fst e))) st = []).
    { assert (G : forall e, In e st -> negb (bltb k (fst e)) = false).
      { intros [c w] IN. rewrite Forall_forall in F. specialize (F _ IN). unfold below in F. cbn [fst] in *. apply negb_false_iff. destruct (blt_total ck k) as [X|[->|X]]; [congruence|exact F|exact (blt_trans _ _ _ X F)]. }
      clear - G. induction st as [|e st IH]; [reflexivity|]. cbn. rewrite (G e) by (left; reflexivity). apply IH. intros x IN. apply G. right. exact IN. }
    rewrite R. cbn [app]. destruct (beq_spec ck k) as [->|NE]; [rewrite bltb_irrefl; reflexivity|]. destruct (bltb k ck) eqn:C; [reflexivity|]. exfalso. destruct (blt_total ck k) as [X|[X|X]]; congruence.
Qed.
Lemma has_put : forall k v st, sorted st -> dictHas k st = negb (snd (put false k v st)).
Proof.
  intros k v st S. unfold dictHas. induction st as [|[ck w] st IH]; [reflexivity|]. destruct S as [F S]. cbn [get put]. destruct (beq_spec ck k) as [->|NE]; [reflexivity|].
  destruct (bltb ck k) eqn:B.
  - rewrite IH by exact S. destruct (put false k v st). reflexivity.
  - destruct (get k st) eqn:G; [|reflexivity]. exfalso. assert (IN : exists u, In (k, u) st).
    { clear - G. induction st as [|[c u] st IH]; [discriminate|]. cbn in G. destruct (beq_spec c k) as [->|NE]; [exists u; left; reflexivity|]. destruct (IH G) as (x & IN). exists x. right. exact IN. }
    destruct IN as (u & IN). rewrite Forall_forall in F. specialize (F _ IN). unfold below, blt in F. cbn [fst] in F. congruence.
Qed.
Lemma put_none : forall k v st, get k st = None -> put true k v st = put false k v st.
Proof.
  induction st as [|[ck w] st IH]; intros G; [reflexivity|]. cbn [get put] in *. destruct (beq ck k); [discriminate|]. destruct (bltb ck k); [rewrite IH by exact G|]; reflexivity.
Qed.
Lemma put_true_ok : forall k v st, snd (put true k v st) = true.
Proof.
  induction st as [|[ck w] st IH]; [reflexivity|]. cbn [put]. destruct (beq ck k); [reflexivity|]. destruct (bltb ck k); [|reflexivity]. destruct (put true k v st). exact IH.
Qed.
Lemma put_false_same : forall k v st, snd (put false k v st) = false -> fst (put false k v st) = st.
Proof.
  induction st as [|[ck w] st IH]; intros E; [discriminate|]. cbn [put] in *. destruct (beq ck k); [reflexivity|]. destruct (bltb ck k); [|discriminate].
  destruct (put false k v st) as [r b]. cbn in *. rewrite IH by exact E. reflexivity.
Qed.
Lemma put_false_ok : forall k v st, sorted st -> snd (put false k v st) = true -> get k st = None.
Proof.
  intros k v st S E. pose proof (has_put k v st S) as H. rewrite E in H. unfold dictHas in H. destruct (get k st); [discriminate|reflexivity].
Qed.
Lemma get_set_other : forall k v st k', k' <> k -> get k' (dictSet k v st) = get k' st.
Proof.
  unfold dictSet. induction st as [|[k0 v0] st IH]; intros k' NE; cbn [put].
  - cbn. destruct (beq_spec k k'); [congruence|reflexivity].
  - destruct (beq_spec k0 k) as [->|NK]; [cbn; destruct (beq_spec k k'); [congruence|reflexivity]|]. destruct (bltb k0 k).
    + specialize (IH k' NE). destruct (put true k v st) as [r b]. cbn [fst] in *. cbn [get]. rewrite IH. reflexivity.
    + cbn [fst get]. destruct (beq_spec k k'); [congruence|reflexivity].
Qed.
Lemma has_del : forall k st, dictHas k st = snd (del k st).
Proof. unfold dictHas. induction st as [|[c v] st IH]; [reflexivity|]. cbn [get del]. destruct (beq c k); [reflexivity|]. rewrite IH. destruct (del k st). reflexivity. Qed.
Lemma del_false : forall k st, snd (del k st) = false -> fst (del k st) = st.
Proof. induction st as [|[c v] st IH]; intros E; [reflexivity|]. cbn [del] in *. destruct (beq c k); [discriminate|]. destruct (del k st). cbn in *. rewrite IH by exact E. reflexivity. Qed.
Lemma del_at : forall a k v r, Forall (fun e => fst e <> k) a -> dictDel k (a ++ (k, v) :: r) = a ++ r.
Proof.
  unfold dictDel. induction a as [|[c w] a IH]; intros k v r F; cbn [app del]; [rewrite beq_refl; reflexivity|]. inversion F; subst. cbn in H1. destruct (beq_spec c k); [congruence|].
  specialize (IH k v r H2). destruct (del k (a ++ (k, v) :: r)). cbn in *. rewrite IH. reflexivity.
Qed.
Lemma dels_mid : forall p a r, sorted (a ++ p ++ r) -> dictDels (map fst p) (a ++ p ++ r) = a ++ r.
Proof.
  unfold dictDels. induction p as [|[k v] p IH]; intros a r S; [reflexivity|]. cbn [map fold_left fst]. cbn [app]. rewrite del_at.
  - apply IH. apply sorted_app in S. destruct S as (S1 & S2 & S3). destruct S2 as [_ S2]. apply sorted_join; [exact S1|exact S2|]. eapply Forall_impl; [|exact S3]. cbn beta. intros e F. inversion F; assumption.
  - apply sorted_app in S. destruct S as (_ & _ & S3). eapply Forall_impl; [|exact S3]. cbn beta. intros e F. inversion F; subst. apply blt_neq. exact H1.
Qed.

(** ** Single values *)
Lemma wput_eq : forall k v st, sorted st -> k <> [] -> wputVal k v st =
  (fst (putVal k v st), snd (putVal k v st), Ok (snd (putVal k v st))).
Proof.
  intros k v st S NE. unfold wputVal, putVal, same, marked. destruct k as [|x k]; [congruence|]. cbn [isnil]. rewrite (has_put (x :: k) v) by exact S.
  destruct (snd (put false (x :: k) v st)) eqn:E; cbn [negb].
  - unfold dictSet. rewrite (put_none _ _ _ (put_false_ok _ _ _ S E)). reflexivity.
  - rewrite (put_false_same _ _ _ E). reflexivity.
Qed.
Lemma wset_eq : forall k v st, k <> [] -> wsetVal k v st = (fst (setVal k v st), true, Ok (snd (setVal k v st))).
Proof. intros k v st NE. unfold wsetVal, setVal, marked, dictSet. destruct k as [|x k]; [congruence|]. cbn [isnil]. rewrite put_true_ok. reflexivity. Qed.
Lemma wget_eq : forall k st, k <> [] -> exists o, wgetVal k st = Ok o /\ getVal k st = match o with Some v => AVal v | None => ANone end.
Proof. intros k st NE. unfold wgetVal, getVal. destruct k as [|x k]; [congruence|]. cbn [isnil]. eexists. split; reflexivity. Qed.
Lemma wrem_eq : forall k st, wremVal k st = (fst (remVal k st), snd (remVal k st), Ok (snd (remVal k st))).
Proof.
  intros k st. unfold wremVal, remVal, same, marked, dictDel. destruct (isnil k); [reflexivity|]. rewrite has_del. destruct (snd (del k st)) eqn:E; [reflexivity|]. rewrite (del_false _ _ E). reflexivity.
Qed.

(** ** Branches *)
Lemma startswith_nil : forall s, startswith s [] = true. Proof. destruct s; reflexivity. Qed.
Lemma setRange_nil : forall st, setRange [] st = st.
Proof. unfold setRange. destruct st as [|[[|x c] v] st]; reflexivity. Qed.
Lemma before_nil : forall st, before [] st = [].
Proof. unfold before. destruct st as [|[[|x c] v] st]; reflexivity. Qed.
Lemma takewhile_true : forall A (f : A -> bool) l, (forall x, f x = true) -> takewhile f l = l.
Proof. intros A f l H. induction l as [|x l IH]; [reflexivity|]. cbn. rewrite H, IH. reflexivity. Qed.
Lemma dropwhile_true : forall A (f : A -> bool) l, (forall x, f x = true) -> dropwhile f l = [].
Proof. intros A f l H. induction l as [|x l IH]; [reflexivity|]. cbn. rewrite H. exact IH. Qed.
Lemma take_drop : forall A (f : A -> bool) l, takewhile f l ++ dropwhile f l = l.
Proof. intros A f l. induction l as [|x l IH]; [reflexivity|]. cbn. destruct (f x); [cbn; rewrite IH|]; reflexivity. Qed.
Lemma wtop_eq : forall t st, sorted st -> wgetTop t st = getTop t st.
Proof.
  intros t st S. unfold wgetTop, getTop. destruct t as [|x t]; cbn [isnil]; [|rewrite irangeMin_eq by exact S; reflexivity].
  rewrite setRange_nil, takewhile_true; [reflexivity|]. intros e. apply startswith_nil.
Qed.
Lemma wcnt_eq : forall t st, sorted st -> wcntTop t st = cntTop t st.
Proof.
  intros t st S. unfold cntTop. rewrite <- (wtop_eq t st S). unfold wcntTop, wgetTop. destruct (isnil t); reflexivity.
Qed.
Lemma wremTop_eq : forall t st, sorted st -> wremTop t st = (fst (remTop t st), snd (remTop t st), Ok (snd (remTop t st))).
Proof.
  intros t st S. unfold wremTop, remTop, same, marked. destruct t as [|x t]; cbn [isnil fst snd].
  - rewrite before_nil, setRange_nil. unfold getTop. rewrite setRange_nil, takewhile_true, dropwhile_true by (intros e; apply startswith_nil). destruct st; reflexivity.
  - rewrite wtop_eq by exact S. rewrite isnil_map. destruct (isnil (getTop (x :: t) st)) eqn:E; cbn [negb].
    + apply isnil_true in E. unfold getTop in E. pose proof (take_drop _ (fun e : bytes * bytes => startswith (fst e) (x :: t)) (setRange (x :: t) st)) as T. rewrite E in T. cbn [app] in T.
      rewrite T, before_setRange. reflexivity.
    + unfold getTop. set (f := fun e : bytes * bytes => startswith (fst e) (x :: t)). set (l := setRange (x :: t) st).
      assert (E1 : st = before (x :: t) st ++ takewhile f l ++ dropwhile f l) by (rewrite take_drop; symmetry; apply before_setRange).
      rewrite E1 at 1. rewrite dels_mid; [reflexivity|]. rewrite <- E1. exact S.
Qed.

(** ** Walks *)
Lemma walk_scan : forall sep key l, (r <- walk (splitOnKey sep) key l ;; Ok (map (fun e => (wnum e, wval e)) r)) = scan sep key l.
Proof.
  intros sep key l. induction l as [|[ck v] l IH]; [reflexivity|]. cbn [walk scan]. destruct (splitOnKey sep ck) as [[k n]|e]; cbn [bind]; [|reflexivity].
  destruct (beq k key); [|reflexivity]. rewrite <- IH. destruct (walk (splitOnKey sep) key l); reflexivity.
Qed.
Lemma walk_del : forall sep key l,
  match walk (splitOnKey sep) key l with
  | Ok p => exists q r, l = q ++ r /\ map wkey p = map fst q /\ isnil p = isnil q /\ scanDel sep key l = Ok (r, negb (isnil p))
  | Err e => scanDel sep key l = Err e
  end.
Proof.
  intros sep key l. induction l as [|[ck v] l IH]; [exists [], []; auto|]. cbn [walk scanDel]. destruct (splitOnKey sep ck) as [[k n]|e]; cbn [bind]; [|reflexivity].
  destruct (beq k key); [|exists [], ((ck, v) :: l); auto]. destruct (walk (splitOnKey sep) key l) as [p|e]; cbn [bind]; [|rewrite IH; reflexivity].
  destruct IH as (q & r & -> & M & N1 & D). rewrite D. exists ((ck, v) :: q), r. cbn [app map isnil bind negb]. split; [reflexivity|]. split; [rewrite M; reflexivity|]. split; reflexivity.
Qed.
Lemma wsplit2_eq : forall sep ck, split2 sep ck = ('(k, (a, i)) <- wsplit2 sep ck ;; Ok (k, a, i)).
Proof. intros sep ck. unfold split2, wsplit2. destruct (unsuffix sep ck) as [[c i]|]; cbn [bind]; [|reflexivity]. destruct (splitOnKey sep c) as [[k a]|]; reflexivity. Qed.
Lemma walk_scan2 : forall sep key l, (r <- walk (wsplit2 sep) key l ;; Ok (map (fun e => (fst (wnum e), snd (wnum e), wval e)) r)) = scan2 sep key l.
Proof.
  intros sep key l. induction l as [|[ck v] l IH]; [reflexivity|]. cbn [walk scan2]. rewrite wsplit2_eq. destruct (wsplit2 sep ck) as [[k [a i]]|e]; cbn [bind]; [|reflexivity].
  destruct (beq k key); [|reflexivity]. rewrite <- IH. destruct (walk (wsplit2 sep) key l); reflexivity.
Qed.
Lemma walk_del2 : forall sep key l,
  match walk (wsplit2 sep) key l with
  | Ok p => exists q r, l = q ++ r /\ map wkey p = map fst q /\ isnil p = isnil q /\ scanDel2 sep key l = Ok (r, negb (isnil p))
  | Err e => scanDel2 sep key l = Err e
  end.
Proof.
  intros sep key l. induction l as [|[ck v] l IH]; [exists [], []; auto|]. cbn [walk scanDel2]. rewrite wsplit2_eq. destruct (wsplit2 sep ck) as [[k [a i]]|e]; cbn [bind]; [|reflexivity].
  destruct (beq k key); [|exists [], ((ck, v) :: l); auto]. destruct (walk (wsplit2 sep) key l) as [p|e]; cbn [bind]; [|rewrite IH; reflexivity].
  destruct IH as (q & r & -> & M & N1 & D). rewrite D. exists ((ck, v) :: q), r. cbn [app map isnil bind negb]. split; [reflexivity|]. split; [rewrite M; reflexivity|]. split; reflexivity.
Qed.

Lemma del_agrees : forall sep key lo st d, sorted st ->
  agrees (match walk (splitOnKey sep) key (irangeMin lo st) with
          | Err e => same st (Err e)
          | Ok r => if isnil r then same st (Ok false) else (dictDels (map wkey r) st, d, Ok true)
          end) ('(r, b) <- scanDel sep key (setRange lo st) ;; Ok (before lo st ++ r, b)) st.
Proof.
  intros sep key lo st d S. rewrite irangeMin_eq by exact S. pose proof (walk_del sep key (setRange lo st)) as W. destruct (walk (splitOnKey sep) key (setRange lo st)) as [p|e].
  - destruct W as (q & r & E & M & NN & D). rewrite D. cbn [bind]. pose proof (before_setRange lo st) as B. rewrite E in B. rewrite M. destruct (isnil p) eqn:P.
    + assert (Q : isnil q = true) by congruence. apply isnil_true in Q. subst q. cbn [app] in B. cbn. rewrite B. auto.
    + cbn [negb agrees fst snd]. split; [|reflexivity]. rewrite <- B at 1. apply dels_mid. rewrite B. exact S.
  - rewrite W. cbn. auto.
Qed.
Lemma del_agrees2 : forall sep key lo st, sorted st ->
  agrees (match walk (wsplit2 sep) key (irangeMin lo st) with
          | Err e => same st (Err e)
          | Ok r => same (dictDels (map wkey r) st) (Ok (negb (isnil r)))
          end) ('(r, b) <- scanDel2 sep key (setRange lo st) ;; Ok (before lo st ++ r, b)) st.
Proof.
  intros sep key lo st S. rewrite irangeMin_eq by exact S. pose proof (walk_del2 sep key (setRange lo st)) as W. destruct (walk (wsplit2 sep) key (setRange lo st)) as [p|e].
  - destruct W as (q & r & E & M & NN & D). rewrite D. cbn [bind]. pose proof (before_setRange lo st) as B. rewrite E in B. rewrite M.
    cbn [agrees fst snd same]. split; [|reflexivity]. rewrite <- B at 1. apply dels_mid. rewrite B. exact S.
  - rewrite W. cbn. auto.
Qed.
Lemma remTop_agrees : forall t st, sorted st -> agrees (wremTop t st) (Ok (remTop t st)) st.
Proof. intros t st S. rewrite wremTop_eq by exact S. destruct (remTop t st). cbn. auto. Qed.

(** ** Iterators over everything *)
Lemma lastAll_eq : forall sep l key last cur, (last = None \/ cur = Some key) -> (last = None -> cur = None) -> wlastAll sep cur last l = lastAll sep key last l.
Proof.
  intros sep l. induction l as [|[ck v] l IH]; intros key last cur H H2; [reflexivity|]. cbn [wlastAll lastAll]. destruct (unsuffix sep ck) as [[k n]|e]; cbn [bind]; [|reflexivity].
  rewrite (IH k (Some (k, v)) (Some k)); [|right; reflexivity|discriminate]. destruct (lastAll sep k (Some (k, v)) l) as [r|e]; cbn [bind]; [|reflexivity]. f_equal.
  destruct H as [-> | ->]; [rewrite (H2 eq_refl); cbn; destruct (beq k key); reflexivity|reflexivity].
Qed.
Lemma wlastDb_eq : forall sep key st, sorted st -> wgetIoSetLastAll sep key st = getIoSetLastAll sep key st.
Proof.
  intros sep key st S. unfold wgetIoSetLastAll, getIoSetLastAll. destruct (isnil key).
  - destruct st as [|[ck v] st]; [reflexivity|]. rewrite irangeMin_eq by exact S.
    assert (E : setRange ck ((ck, v) :: st) = (ck, v) :: st) by (unfold setRange; cbn; rewrite bltb_irrefl; reflexivity). rewrite E.
    destruct (unsuffix sep ck) as [[k n]|e] eqn:U; cbn [bind].
    + apply lastAll_eq; auto.
    + cbn [wlastAll]. rewrite U. reflexivity.
  - rewrite irangeMin_eq by exact S. apply lastAll_eq; auto.
Qed.
Lemma firstOf_eq : forall l k on v, wfirstOf (Some (k, on, v)) l = (k, on, v) :: firstOf (Some (k, on)) l.
Proof.
  induction l as [|[[[k' on'] i] v'] l IH]; intros k on v; [reflexivity|]. cbn [wfirstOf firstOf]. destruct (beq k' k && (on' =? on)) eqn:E; [apply IH|]. rewrite IH. reflexivity.
Qed.
Lemma firstOf_none : forall l, wfirstOf None l = firstOf None l.
Proof. destruct l as [|[[[k on] i] v] l]; [reflexivity|]. cbn [wfirstOf firstOf]. apply firstOf_eq. Qed.
Lemma firstPer_eq : forall l on v, wfirstPer (Some (on, v)) (map pr l) = (on, v) :: firstPer (Some on) l.
Proof.
  induction l as [|[[on' i] v'] l IH]; intros on v; [reflexivity|]. cbn [map pr wfirstPer firstPer]. rewrite (N.eqb_sym on' on). destruct (on =? on') eqn:E; [apply IH|]. rewrite IH. reflexivity.
Qed.
Lemma firstPer_none : forall l, wfirstPer None (map pr l) = firstPer None l.
Proof. destruct l as [|[[on i] v] l]; [reflexivity|]. cbn [map pr wfirstPer firstPer]. apply firstPer_eq. Qed.
Definition tri (e : bytes * (N * N) * bytes) : N * N * bytes := (fst (wnum e), snd (wnum e), wval e).
Lemma lastPer_some : forall l o p, wlastPer (Some o) (Some p) l = lastPer o (Some p) (map tri l).
Proof.
  induction l as [|[[ck [on i]] v] l IH]; intros o p; [reflexivity|]. cbn [wlastPer map tri wnum wval fst snd lastPer]. rewrite IH. destruct (N.eqb_spec on o) as [->|NE]; reflexivity.
Qed.
Lemma lastPer_none : forall l o, wlastPer None None l = lastPer o None (map tri l).
Proof.
  destruct l as [|[[ck [on i]] v] l]; intros o; [reflexivity|]. cbn [wlastPer map tri wnum wval fst snd lastPer]. rewrite lastPer_some. destruct (N.eqb_spec on o) as [->|NE]; reflexivity.
Qed.
Lemma wback_db : forall sep st, wgetOnDbIoSetBack sep st = getOnDbIoSetBack sep st.
Proof. intros sep [|e st]; reflexivity. Qed.
Lemma wlastback_db : forall sep st, wgetOnDbIoSetLastBack sep st = getOnDbIoSetLastBack sep st.
Proof.
  intros sep st. unfold wgetOnDbIoSetLastBack, getOnDbIoSetLastBack. destruct st as [|e st]; [reflexivity|]. cbn [isnil]. destruct (splitAll (split2 sep) (rev (e :: st))) as [r|]; cbn [bind]; [|reflexivity].
  rewrite firstOf_none. reflexivity.
Qed.
