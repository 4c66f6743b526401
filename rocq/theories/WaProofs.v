(** Proofs about adjudications. *)
From Coq Require Import Lia.
From Verif Require Import Prelude SubsModel ThModel ThProofs SerProofs JsonModel JsonProofs RpModel RpSpec RpProofs RpFair RpLive WaModel WaSpec.
Ltac Zify.zify_post_hook ::= Z.div_mod_to_equations.
Open Scope N_scope.

Lemma wbind_ok {A B} (r : res A) (f : A -> res B) b : bind r f = Ok b -> exists a, r = Ok a /\ f a = Ok b.
Proof. destruct r; cbn; [eauto|discriminate]. Qed.
Lemma dget_key {V} (d : list (bytes * V)) k : In k (map fst d) <-> dget d k <> None.
Proof.
  induction d as [|[a v] d IH]; cbn [map fst In dget]; [split; [intros []|congruence]|]. destruct (beq k a) eqn:B.
  - apply beq_eq in B. subst. split; [discriminate|auto].
  - apply beq_neq in B. rewrite <- IH. split; [intros [Q|Q]; [congruence|exact Q]|auto].
Qed.
Lemma nosep_In sep s : ~ In sep s -> nosep sep s.
Proof. intros NI. apply Forall_forall. intros x I ->. contradiction. Qed.
Lemma key3 (cid a o : bytes) : ~ In 46 cid -> ~ In 46 a -> ~ In 46 o -> splitb 46 (joinb 46 [cid; a; o]) = [cid; a; o].
Proof. intros A B C. apply split_join; [discriminate|]. repeat (apply Forall_cons; [apply nosep_In; assumption|]). apply Forall_nil. Qed.
Lemma addB_In (a : bytes) l x : In x (addB a l) <-> x = a \/ In x l.
Proof. unfold addB. destruct (memB a l) eqn:M; [|cbn; intuition congruence]. apply memB_In in M. split; [auto|intros [->|Z]; auto]. Qed.
Lemma addB_nd a l : NoDup l -> NoDup (addB a l).
Proof. intros N0. unfold addB. destruct (memB a l) eqn:M; [exact N0|]. constructor; [|exact N0]. intros Z. apply memB_In in Z. congruence. Qed.

Section Watch.
Context (d : rdb) (cid oid : bytes) (T : tidy d cid).
(** the keys of the database that are looked at *)
Lemma watchersIn_ok ks : (forall k, In k ks -> dget (vals d) k <> None) -> exists ws, watchersIn d cid oid ks = Ok ws /\ NoDup ws /\
  forall a, In a ws <-> (In (key tagWat [cid; a; oid]) ks /\ watches d cid a oid /\ ~ In 46 a /\ ~ In 46 oid).
Proof.
  destruct T as [NC TD]. induction ks as [|k ks IH]; intros KI; cbn [watchersIn]; [exists []; split; [reflexivity|]; split; [constructor|]; cbn; tauto|].
  destruct (IH (fun k I => KI k (or_intror I))) as (ws & W & ND & IW). clear IH.
  assert (SKIP : (forall a, ~ (k = key tagWat [cid; a; oid] /\ watches d cid a oid /\ ~ In 46 a /\ ~ In 46 oid)) ->
    NoDup ws /\ forall a, In a ws <-> (In (key tagWat [cid; a; oid]) (k :: ks) /\ watches d cid a oid /\ ~ In 46 a /\ ~ In 46 oid)).
  { intros NK. split; [exact ND|]. intros a. rewrite IW. cbn [In]. specialize (NK a). tauto. }
  destruct k as [|t rest].
  - exists ws. split; [exact W|]. apply SKIP. intros a (Q & _). discriminate Q.
  - destruct ((t =? tagWat) && startswith cid rest) eqn:C.
    + apply andb_true_iff in C. destruct C as [C1 C2]. apply N.eqb_eq in C1. subst t. apply startswith_ok in C2. destruct C2 as (x & ->).
      destruct (TD x) as (a & o & Q & NA & NO). { apply KI. left. reflexivity. }
      assert (Q' : cid ++ x = joinb 46 [cid; a; o]) by (unfold key in Q; injection Q; auto). rewrite Q', (key3 _ _ _ NC NA NO), W. cbn [bind]. change (tagWat :: joinb 46 [cid; a; o]) with (key tagWat [cid; a; o]). rewrite Q' in SKIP. change (tagWat :: joinb 46 [cid; a; o]) with (key tagWat [cid; a; o]) in SKIP.
      destruct (match dget (vals d) (key tagWat [cid; a; o]) with Some v => beq v (flag true) | None => false end && beq o oid) eqn:Y.
      * apply andb_true_iff in Y. destruct Y as [Y1 Y2]. apply beq_eq in Y2. subst o. assert (WA : watches d cid a oid). { unfold watches. destruct (dget (vals d) (key tagWat [cid; a; oid])) as [v|]; [|discriminate]. apply beq_eq in Y1. congruence. }
        eexists. split; [reflexivity|]. split; [apply addB_nd; exact ND|]. intros b. rewrite addB_In, IW. cbn [In]. split.
        -- intros [->|(Z1 & Z2)]; [auto|tauto].
        -- intros ([Z|Z] & Z2 & Z3 & Z4); [|tauto]. left. unfold key in Z. injection Z as Z. apply (f_equal (splitb 46)) in Z.
           change (splitb 46 (joinb 46 [cid; a; oid]) = splitb 46 (joinb 46 [cid; b; oid])) in Z. rewrite (key3 _ _ _ NC NA NO), (key3 _ _ _ NC Z3 Z4) in Z. injection Z as ->. reflexivity.
      * eexists. split; [reflexivity|]. apply SKIP. intros b (Z & Z2 & Z3 & Z4). unfold key in Z. injection Z as Z. apply (f_equal (splitb 46)) in Z.
        change (splitb 46 (joinb 46 [cid; a; o]) = splitb 46 (joinb 46 [cid; b; oid])) in Z. rewrite (key3 _ _ _ NC NA NO), (key3 _ _ _ NC Z3 Z4) in Z. injection Z as -> ->.
        unfold watches in Z2. rewrite Z2, !beq_refl in Y. discriminate.
    + exists ws. split; [exact W|]. apply SKIP. intros a (Q & _). unfold key in Q. injection Q as -> ->. rewrite N.eqb_refl in C. cbn [andb] in C.
      change (startswith cid (cid ++ 46 :: joinb 46 [a; oid]) = false) in C. rewrite (proj2 (startswith_ok _ _) (ex_intro _ _ eq_refl)) in C. discriminate.
Qed.
Lemma watchers_ok : exists ws, watchersIn d cid oid (map fst (vals d)) = Ok ws /\ NoDup ws /\ forall a, In a ws <-> watches d cid a oid.
Proof.
  destruct (watchersIn_ok (map fst (vals d))) as (ws & W & ND & IW); [intros k I; apply dget_key; exact I|]. exists ws. split; [exact W|]. split; [exact ND|].
  intros a. rewrite IW. split; [tauto|]. intros WA. assert (KN : dget (vals d) (key tagWat [cid; a; oid]) <> None) by (unfold watches in WA; congruence).
  split; [apply dget_key; exact KN|]. split; [exact WA|]. destruct T as [NC TD].
  assert (JQ : forall b p, joinb 46 [cid; b; p] = cid ++ 46 :: b ++ 46 :: p) by reflexivity.
  destruct (TD (46 :: a ++ 46 :: oid)) as (b & p & Q & NB & NP). { unfold key in KN. rewrite JQ in KN. exact KN. }
  unfold key in Q. rewrite JQ in Q. injection Q as Q. apply app_inv_head in Q. injection Q as Q.
  (** the parts have one dot between them *)
  assert (Z : splitb 46 (a ++ 46 :: oid) = [b; p]). { rewrite Q. change (b ++ 46 :: p) with (joinb 46 [b; p]). apply split_join; [discriminate|]. repeat (apply Forall_cons; [apply nosep_In; assumption|]). apply Forall_nil. }
  assert (CD : forall x y : bytes, In 46%N x \/ In 46%N y -> (2 < List.length (splitb 46%N (x ++ 46%N :: y)))%nat).
  { clear. assert (ONE : forall s : bytes, (1 <= List.length (splitb 46%N s))%nat) by (intros s; pose proof (splitb_nil 46 s); destruct (splitb 46%N s); [congruence|cbn; lia]).
    assert (TWO : forall s : bytes, In 46%N s -> (2 <= List.length (splitb 46%N s))%nat).
    { induction s as [|c s IH]; intros I; [destruct I|]. cbn [splitb]. destruct (c =? 46) eqn:C; [cbn [List.length]; specialize (ONE s); lia|].
      destruct I as [->|I]; [discriminate|]. specialize (IH I). destruct (splitb 46%N s); cbn [List.length] in *; lia. }
    assert (ADD : forall x y : bytes, List.length (splitb 46%N (x ++ 46%N :: y)) = (List.length (splitb 46%N x) + List.length (splitb 46%N y))%nat).
    { induction x as [|c x IH]; intros y; cbn [app splitb]; [reflexivity|]. destruct (c =? 46) eqn:C; [cbn [List.length]; rewrite IH; reflexivity|].
      specialize (IH y). specialize (ONE x). destruct (splitb 46%N (x ++ 46%N :: y)), (splitb 46%N x); cbn [List.length] in *; lia. }
    intros x y [I|I]; rewrite ADD; [specialize (TWO _ I); specialize (ONE y)|specialize (TWO _ I); specialize (ONE x)]; lia. }
  split; intros I; [specialize (CD a oid (or_introl I))|specialize (CD a oid (or_intror I))]; rewrite Z in CD; cbn in CD; lia.
Qed.
End Watch.

Section Judge.
Context (dec : bytes -> ksr) (d : rdb) (oid : bytes) (n : N) (dg : bytes).
(** the state of one watcher *)
Definition age (k : ksr) : stateage := if n =? ks_s k then (if beq dg (ks_d k) then Even else Duplicitous) else if ks_s k <? n then Behind else Ahead.
Lemma told_fun a k k' : told dec d oid a k -> told dec d oid a k' -> k = k'.
Proof. intros (x & y & A & B & ->) (x' & y' & A' & B' & ->). congruence. Qed.
Lemma statesOf_ok ws l : statesOf dec d oid n dg ws = Ok l ->
  (forall s, In s l -> exists k, In (ds_wit s) ws /\ told dec d oid (ds_wit s) k /\ s = mkDs (ds_wit s) (age k) (ks_s k) (ks_d k) /\ ks_i k = oid) /\
  (forall a k, In a ws -> told dec d oid a k -> In (mkDs a (age k) (ks_s k) (ks_d k)) l) /\ (NoDup ws -> NoDup (map ds_wit l)).
Proof.
  revert l. induction ws as [|w ws IH]; intros l Q; cbn [statesOf] in Q.
  - injection Q as <-. split; [intros s []|]. split; [intros a k []|constructor].
  - destruct (dget (ans d) (key tagKsn [oid; w])) as [x|] eqn:A1.
    + destruct (dget (vals d) (key tagKsn [x])) as [rec|] eqn:A2; [|discriminate]. apply wbind_ok in Q. destruct Q as (s & S1 & Q). apply wbind_ok in Q. destruct Q as (l' & L1 & Q). injection Q as <-.
      destruct (IH _ L1) as (B1 & B2 & B3). assert (TW : told dec d oid w (dec rec)) by (exists x, rec; auto).
      unfold diffState in S1. apply raise_if_ok in S1. destruct S1 as [S0 S1]. apply negb_false_iff in S0. apply beq_eq in S0. injection S1 as <-. split; [|split].
      * intros s [<-|I]; [exists (dec rec); cbn [ds_wit In]; auto|]. destruct (B1 s I) as (k & I1 & I2). exists k. cbn [In]. auto.
      * intros a k [<-|I] TK; [left; rewrite (told_fun _ _ _ TK TW); reflexivity|right; auto].
      * intros ND. inversion ND; subst. cbn [map ds_wit]. constructor; [|auto]. intros I. apply in_map_iff in I. destruct I as (s & Q & I). destruct (B1 s I) as (k & I1 & _). rewrite Q in I1. contradiction.
    + destruct (IH _ Q) as (B1 & B2 & B3). split; [|split].
      * intros s I. destruct (B1 s I) as (k & I1 & I2). exists k. cbn [In]. auto.
      * intros a k [<-|I] TK; [destruct TK as (x & _ & TK & _); congruence|auto].
      * intros ND. inversion ND; subst. auto.
Qed.
Lemma statesOf_runs ws : (forall a x, In a ws -> dget (ans d) (key tagKsn [oid; a]) = Some x -> exists rec, dget (vals d) (key tagKsn [x]) = Some rec /\ ks_i (dec rec) = oid) ->
  exists l, statesOf dec d oid n dg ws = Ok l.
Proof.
  induction ws as [|w ws IH]; intros H; cbn [statesOf]; [eauto|]. destruct IH as (l & L1); [intros; apply (H a); [right|]; assumption|].
  destruct (dget (ans d) (key tagKsn [oid; w])) as [x|] eqn:A1; [|eauto]. destruct (H w x (or_introl eq_refl) A1) as (rec & A2 & A3). rewrite A2. unfold diffState.
  rewrite A3, beq_refl. cbn [negb bind]. rewrite L1. cbn [bind]. eauto.
Qed.
End Judge.
