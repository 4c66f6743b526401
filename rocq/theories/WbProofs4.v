(** What the browser back end writes to its storage, and reads back. *)
From Coq Require Import Lia ZifyClasses ZifyInst ZifyN Zify.
From Verif Require Import Prelude Lex SubsModel SubsProofs DbModel DbSpec DbProofs DbRef DbOn DbOn2 WbModel WbSpec WbProofs WbProofs2.
Ltac Zify.zify_post_hook ::= Z.div_mod_to_equations.
Open Scope N_scope.

(** ** Hexadecimal texts *)
Lemma hexval_chr : forall d, d < 16 -> hexval (hexchr d) = Some d.
Proof.
  intros d L. unfold hexchr, hexval. destruct (N.ltb_spec d 10).
  - replace ((48 <=? 48 + d) && (48 + d <=? 57)) with true by (symmetry; apply andb_true_iff; split; apply N.leb_le; lia). f_equal. lia.
  - replace ((48 <=? 87 + d) && (87 + d <=? 57)) with false by (symmetry; apply andb_false_iff; right; apply N.leb_gt; lia).
    replace ((97 <=? 87 + d) && (87 + d <=? 102)) with true by (symmetry; apply andb_true_iff; split; apply N.leb_le; lia). f_equal. lia.
Qed.
Lemma hexchr_lt : forall d, d < 16 -> hexchr d < 256.
Proof. intros d L. unfold hexchr. destruct (d <? 10); lia. Qed.
Lemma hexchr_quote : forall d, hexchr d <> 34.
Proof. intros d. unfold hexchr. destruct (d <? 10); lia. Qed.
Lemma hex_back : forall s, isbytes s -> fromhex (hexof s) = Some s.
Proof.
  induction s as [|b s IH]; intros F; [reflexivity|]. inversion F; subst. cbn [hexof flat_map app fromhex].
  rewrite !hexval_chr by lia. fold (hexof s). rewrite IH by assumption. f_equal. f_equal. lia.
Qed.
Lemma upto_hex : forall s r, upto 34 (hexof s ++ 34 :: r) = Some (hexof s, r).
Proof.
  induction s as [|b s IH]; intros r; [reflexivity|]. cbn [hexof flat_map app upto]. fold (hexof s).
  rewrite !(proj2 (N.eqb_neq _ 34)) by apply hexchr_quote. rewrite IH. reflexivity.
Qed.
Lemma readItem_ok : forall e r, readItem (jitem e ++ r) = Some (hexof (fst e), hexof (snd e), r).
Proof.
  intros [k v] r. unfold jitem. cbn [app fst snd readItem].
  replace ((hexof k ++ 34 :: 58 :: 32 :: 34 :: hexof v ++ [34]) ++ r) with (hexof k ++ 34 :: (58 :: 32 :: 34 :: hexof v ++ 34 :: r)).
  2:{ rewrite <- app_assoc. cbn [app]. rewrite <- app_assoc. reflexivity. }
  rewrite upto_hex, upto_hex. reflexivity.
Qed.
Definition hexed (e : bytes * bytes) : bytes * bytes := (hexof (fst e), hexof (snd e)).
Lemma readItems_ok : forall l n, l <> [] -> (List.length l <= n)%nat -> readItems n (jitems l ++ [125]) = Some (map hexed l).
Proof.
  induction l as [|e l IH]; intros n NE L; [congruence|]. destruct n as [|n]; [cbn in L; lia|]. destruct l as [|e' l].
  - cbn [jitems readItems]. rewrite readItem_ok. reflexivity.
  - change (jitems (e :: e' :: l)) with (jitem e ++ 44 :: 32 :: jitems (e' :: l)).
    rewrite <- app_assoc. cbn [readItems]. rewrite readItem_ok. cbn [app]. rewrite IH; [reflexivity|discriminate|]. cbn [List.length] in *. lia.
Qed.
Lemma jitems_len : forall l, (List.length l <= List.length (jitems l))%nat.
Proof.
  induction l as [|e l IH]; [auto|]. destruct l as [|e' l]; [unfold jitems, jitem; cbn [List.length]; lia|].
  change (jitems (e :: e' :: l)) with (jitem e ++ 44 :: 32 :: jitems (e' :: l)). rewrite app_length. cbn [List.length] in *. lia.
Qed.
Lemma loads_ok : forall l, loads (serialize l) = Some (map hexed l).
Proof.
  intros l. unfold serialize. destruct l as [|e l]; [reflexivity|].
  assert (H : exists r, jitems (e :: l) ++ [125] = 34 :: r) by (destruct l; [unfold jitems|change (jitems (e :: p :: l)) with (jitem e ++ 44 :: 32 :: jitems (p :: l))]; unfold jitem; eexists; reflexivity).
  assert (R := readItems_ok (e :: l) (List.length (jitems (e :: l) ++ [125]))). destruct H as (r & H). rewrite H in *. cbn [loads].
  apply R; [discriminate|]. rewrite <- H, app_length. pose proof (jitems_len (e :: l)). lia.
Qed.
Definition bytesE (e : bytes * bytes) : Prop := isbytes (fst e) /\ isbytes (snd e).
Lemma unhex_ok : forall l, Forall bytesE l -> unhex (map hexed l) = Some l.
Proof.
  induction l as [|[k v] l IH]; intros F; [reflexivity|]. inversion F as [|? ? [B1 B2] F']; subst. cbn [map hexed fst snd unhex] in *.
  rewrite !hex_back by assumption. rewrite IH by assumption. reflexivity.
Qed.
Lemma set_last : forall a k v, Forall (fun e => bltb (fst e) k = true) a -> dictSet k v a = a ++ [(k, v)].
Proof.
  unfold dictSet. induction a as [|[c w] a IH]; intros k v F; [reflexivity|]. inversion F as [|? ? H F']; subst. cbn [fst] in H. cbn [put].
  destruct (beq_spec c k) as [->|NE]; [rewrite bltb_irrefl in H; discriminate|]. rewrite H. specialize (IH k v F'). destruct (put true k v a) as [r b]. cbn [fst] in *. rewrite IH. reflexivity.
Qed.
Lemma fold_set : forall l a, sorted (a ++ l) -> fold_left (fun d e => dictSet (fst e) (snd e) d) l a = a ++ l.
Proof.
  induction l as [|[k v] l IH]; intros a S; [rewrite app_nil_r; reflexivity|]. cbn [fold_left fst snd].
  replace (a ++ (k, v) :: l) with ((a ++ [(k, v)]) ++ l) in * by (rewrite <- app_assoc; reflexivity). rewrite set_last; [apply IH; exact S|].
  rewrite <- app_assoc in S. apply sorted_app in S. destruct S as (_ & _ & F). rewrite Forall_forall in *. intros e IN. specialize (F e IN).
  inversion F; subst. exact H1.
Qed.

(** ** Tidy stores *)
Definition tidy (st : store) : Prop := sorted st /\ Forall bytesE st.
Lemma tidy_back : forall st, tidy st -> deserialize (Some (serialize st)) = Ok st.
Proof.
  intros st [S B]. unfold deserialize. change (serialize st) with (123 :: jitems st ++ [125]) at 1. cbv iota.
  rewrite loads_ok, unhex_ok by exact B. rewrite fold_set by exact S. reflexivity.
Qed.
Lemma tidy_set : forall k v st, tidy st -> isbytes k -> isbytes v -> tidy (dictSet k v st).
Proof.
  intros k v st [S B] K V. unfold dictSet. split; [eapply put_sorted; [exact S|apply surjective_pairing]|].
  clear S. induction st as [|[c w] st IH]; cbn [put]; [repeat constructor; assumption|]. inversion B as [|? ? B1 B2]; subst.
  destruct (beq c k); [constructor; [split; assumption|exact B2]|]. destruct (bltb c k).
  - specialize (IH B2). destruct (put true k v st). cbn [fst] in *. constructor; assumption.
  - constructor; [split; assumption|exact B].
Qed.
Lemma del_incl : forall k st e, In e (fst (del k st)) -> In e st.
Proof.
  induction st as [|[c w] st IH]; intros e; cbn [del]; [auto|]. destruct (beq c k); [cbn; auto|]. destruct (del k st) eqn:D. cbn [fst] in *. intros [<-|IN]; [left; reflexivity|right; apply IH; exact IN].
Qed.
Lemma tidy_del : forall k st, tidy st -> tidy (dictDel k st).
Proof.
  intros k st [S B]. unfold dictDel. split; [eapply del_sorted; [exact S|apply surjective_pairing]|].
  rewrite Forall_forall in *. intros e IN. apply B. eapply del_incl. exact IN.
Qed.
Lemma tidy_dels : forall l st, tidy st -> tidy (dictDels l st).
Proof. unfold dictDels. induction l as [|k l IH]; intros st T; [exact T|]. cbn [fold_left]. apply IH, tidy_del, T. Qed.
Lemma onKey_bytes : forall k n, isbytes k -> isbytes (onKey 46 k n).
Proof.
  intros k n B. apply Forall_app. split; [exact B|]. constructor; [lia|]. apply Forall_map.
  eapply Forall_impl; [|apply to_digits_bound; lia]. cbn beta. intros d L. apply hexchr_lt. exact L.
Qed.
Lemma suffix_bytes : forall k n, isbytes k -> isbytes (suffix 46 k n).
Proof. exact onKey_bytes. Qed.

(** A method leaves a tidy store, and the same store unless it marks it dirty. *)
Definition keeps {A} (st : store) (w : wres A) : Prop := tidy (fst (fst w)) /\ (snd (fst w) = false -> fst (fst w) = st).
Lemma keeps_same : forall A st (r : res A), tidy st -> keeps st (same st r).
Proof. intros A st r T. split; [exact T|reflexivity]. Qed.
Lemma keeps_marked : forall A st st' (r : res A), tidy st' -> keeps st (marked st' r).
Proof. intros A st st' r T. split; [exact T|discriminate]. Qed.
Lemma keeps_map : forall A B (f : A -> B) st w, keeps st w -> keeps st (wmap f w).
Proof. intros A B f st [[a b] c] H. exact H. Qed.
Lemma keeps_out : forall A (f : A -> out) st w, keeps st w -> keeps st (wout f w).
Proof. intros A f st [[a b] c] H. exact H. Qed.
#[local] Hint Resolve keeps_same keeps_marked tidy_set tidy_del tidy_dels onKey_bytes suffix_bytes keeps_map keeps_out : kp.

Lemma k_put : forall k v st, tidy st -> isbytes k -> isbytes v -> keeps st (wputVal k v st).
Proof. intros. unfold wputVal. destruct (isnil k); [auto with kp|]. destruct (dictHas k st); auto with kp. Qed.
Lemma k_set : forall k v st, tidy st -> isbytes k -> isbytes v -> keeps st (wsetVal k v st).
Proof. intros. unfold wsetVal. destruct (isnil k); auto with kp. Qed.
Lemma k_rem : forall k st, tidy st -> keeps st (wremVal k st).
Proof. intros. unfold wremVal. destruct (isnil k); [auto with kp|]. destruct (dictHas k st); auto with kp. Qed.
Lemma k_remTop : forall t st, tidy st -> keeps st (wremTop t st).
Proof.
  intros. unfold wremTop. destruct (isnil t); [destruct (isnil st); auto with kp; apply keeps_marked; split; constructor|].
  cbv zeta. destruct (isnil _); auto with kp.
Qed.
Lemma tidy_setFrom : forall k vals n st, tidy st -> isbytes k -> Forall isbytes vals -> tidy (setFrom 46 k n vals st).
Proof. intros k vals. induction vals as [|v vals IH]; intros n st T K V; [exact T|]. inversion V; subst. cbn [setFrom]. apply IH; auto with kp. Qed.
Lemma oset_bytes : forall vals seen, Forall isbytes vals -> Forall isbytes (osetV seen vals).
Proof. induction vals as [|v vals IH]; intros seen F; [constructor|]. inversion F; subst. cbn [osetV]. destruct (memV v seen); [apply IH; assumption|constructor; [assumption|apply IH; assumption]]. Qed.
Lemma Forall_filter : forall A (P : A -> Prop) f l, Forall P l -> Forall P (filter f l).
Proof. intros A P f l F. rewrite Forall_forall in *. intros x IN. apply filter_In in IN. apply F, IN. Qed.
#[local] Hint Resolve k_put k_set k_rem k_remTop tidy_setFrom oset_bytes Forall_filter : kp.

Lemma k_remIoSet : forall k st, tidy st -> keeps st (wremIoSet 46 k st).
Proof. intros. unfold wremIoSet. destruct (isnil k); [auto with kp|]. destruct (wset 46 k 0 st); [|auto with kp]. destruct (isnil _); auto with kp. Qed.
Lemma k_putIoSet : forall k l st, tidy st -> isbytes k -> Forall isbytes l -> keeps st (wputIoSetVals 46 k l st).
Proof.
  intros. unfold wputIoSetVals. destruct (isnil k || isnil l); [auto with kp|]. destruct (wset 46 k 0 st); [|auto with kp]. cbv zeta.
  destruct (isnil _); auto with kp.
Qed.
Lemma k_pinIoSet : forall k l st, tidy st -> isbytes k -> Forall isbytes l -> keeps st (wpinIoSetVals 46 k l st).
Proof.
  intros k l st T K L. unfold wpinIoSetVals. destruct (isnil k || isnil l); [auto with kp|]. pose proof (k_remIoSet k st T) as R.
  destruct (wremIoSet 46 k st) as [[s d] [b|e]]; [|exact R]. apply keeps_marked. destruct R as [R _]. cbn [fst] in R. auto with kp.
Qed.
Lemma k_addIoSet : forall k v st, tidy st -> isbytes k -> isbytes v -> keeps st (waddIoSetVal 46 k v st).
Proof. intros. unfold waddIoSetVal. destruct (isnil k); [auto with kp|]. destruct (wset 46 k 0 st); [|auto with kp]. destruct (memV _ _); auto with kp. Qed.
Lemma k_remIoSetVal : forall k v st, tidy st -> keeps st (wremIoSetVal 46 k v st).
Proof. intros. unfold wremIoSetVal. destruct (isnil k); [auto with kp|]. destruct (findVal _ _ _ _) as [[ck|]|]; auto with kp. Qed.
#[local] Hint Resolve k_remIoSet k_putIoSet k_pinIoSet k_addIoSet k_remIoSetVal : kp.

Lemma k_append : forall k v st, tidy st -> isbytes k -> isbytes v -> keeps st (wappendOnVal 46 k v st).
Proof.
  intros k v st T K V. unfold wappendOnVal. destruct (isnil k); [auto with kp|]. cbv zeta. match goal with |- keeps st (match ?x with _ => _ end) => destruct x as [on|e] end; [|auto with kp].
  assert (P := k_put (onKey 46 k on) v st T (onKey_bytes k on K) V). destruct (wputVal (onKey 46 k on) v st) as [[s d] [[|]|e]]; exact P.
Qed.
Lemma mdo_keeps : forall o st, callBytes o -> tidy st -> tidy (fst (mdo o st)) /\ (tracked o -> snd (mdo o st) = false -> fst (mdo o st) = st).
Proof.
  assert (G : forall A st (w : wres A) (P : Prop), keeps st w -> tidy (fst (fst w)) /\ (P -> snd (fst w) = false -> fst (fst w) = st)) by (intros A st w P [H1 H2]; split; auto).
  intros o st B T. destruct o as [k v|k v|k|t|o|o|o]; cbn [mdo callBytes] in *.
  - destruct B. apply G. auto with kp.
  - destruct B. apply G. auto with kp.
  - apply G. auto with kp.
  - apply G. auto with kp.
  - apply G. destruct o; cbn [wdo_sop]; try destruct B; auto with kp.
  - apply G. destruct o as [k n v|k n v|k v|k n|k n]; cbn [wdo_oop]; try destruct B; apply keeps_out.
    + unfold wputOnVal. auto with kp.
    + unfold wpinOnVal. destruct (isnil k); auto with kp.
    + apply k_append; assumption.
    + unfold wremOn. destruct (isnil k); auto with kp.
    + unfold wremOnAll. destruct (isnil k); [auto with kp|]. destruct (walk _ _ _); [|auto with kp]. destruct (isnil _); auto with kp.
  - destruct o as [k on s|k l|k on]; cbn [wdo_nop].
    + apply G. destruct s; cbn [wdo_nop]; try destruct B; apply keeps_map; unfold wputOnIoSetVals, wpinOnIoSetVals, waddOnIoSetVal, wremOnIoSet, wremOnIoSetVal; try destruct (isnil k); auto with kp.
    + split; [|intros []]. destruct B as [K V]. unfold wappendOnIoSetVals. destruct (isnil k || isnil l); [exact T|]. cbv zeta.
      match goal with |- tidy (fst (fst (wmap inr (match ?x with _ => _ end)))) => destruct x as [on|e] end; [|exact T].
      assert (A : forall l n s, tidy s -> Forall isbytes l -> tidy (fst (wappendFrom 46 (onKey 46 k on) n l s))).
      { clear - K. induction l as [|v l IH]; intros n s T V; [exact T|]. inversion V; subst. cbn [wappendFrom]. destruct (dictHas _ s); [exact T|]. apply IH; auto with kp. }
      specialize (A l 0 st T V). destruct (wappendFrom 46 (onKey 46 k on) 0 l st) as [s' [u|e]]; exact A.
    + unfold wremOnAllIoSet. cbn [tracked]. destruct (isnil k) eqn:Z.
      * apply G. auto with kp.
      * split; [|intros ->; discriminate]. destruct (walk _ _ _); [|exact T]. cbn. apply tidy_dels. exact T.
Qed.

(** ** What the storage holds *)
Definition holds (c : cell) (st : store) (b : bool) : Prop :=
  (h_recs c = None /\ h_meta c = None /\ st = [] /\ b = false) \/ (h_recs c = Some (serialize st) /\ h_meta c = Some (Some b)).
Definition sane (c : cell) : Prop :=
  tidy (c_items c) /\ exists st b, tidy st /\ holds c st b /\ (c_dirty c = false -> c_items c = st /\ c_dup c = b).
Lemma load_ok : forall c st b, tidy st -> holds c st b -> exists c', load false c = Ok c' /\ c_items c' = st /\ c_dup c' = b /\ c_dirty c' = false /\ holds c' st b.
Proof.
  intros c st b T [(R & M & -> & ->)|(R & M)]; unfold load; rewrite R, M.
  - cbn. eexists. split; [reflexivity|]. repeat (split; [reflexivity|]). left. auto.
  - rewrite tidy_back by exact T. cbn [bind negb]. rewrite andb_false_r. eexists. split; [reflexivity|]. repeat (split; [reflexivity|]). right. auto.
Qed.
Lemma sane_blank : sane blank.
Proof. split; [split; constructor|]. exists [], false. split; [split; constructor|]. split; [left; auto|auto]. Qed.
Lemma sane_open : forall dup c, sane c -> sane (openDb dup c).
Proof.
  intros dup c H. unfold openDb. destruct (c_open c); [exact H|]. destruct H as (T & st & b & T' & HO & D). destruct (c_flags c).
  - split; [exact T|]. exists st, b. auto.
  - split; [exact T|]. exists st, b. split; [exact T'|]. split; [exact HO|discriminate].
Qed.
Lemma sane_change : forall o c, callBytes o -> tracked o -> sane c -> sane (change o c).
Proof.
  intros o c B TR (T & st & b & T' & HO & D). unfold change. pose proof (mdo_keeps o (c_items c) B T) as [K1 K2]. destruct (mdo o (c_items c)) as [items d]. cbn [fst snd] in *.
  split; [exact K1|]. exists st, b. split; [exact T'|]. split; [exact HO|]. cbn [c_dirty c_items c_dup]. intros E. apply orb_false_iff in E. destruct E as [E1 E2].
  rewrite (K2 TR E2). apply D. exact E1.
Qed.
Lemma sane_flush : forall c, sane c -> sane (flush1 c) /\ c_items (flush1 c) = c_items c /\ c_dup (flush1 c) = c_dup c /\ c_dirty (flush1 c) = false.
Proof.
  intros c (T & st & b & T' & HO & D). unfold flush1. destruct (c_dirty c) eqn:E.
  - repeat split; cbn; try apply T. exists (c_items c), (c_dup c). split; [exact T|]. split; [right; auto|auto].
  - split; [|auto]. split; [exact T|]. exists st, b. rewrite E. auto.
Qed.
Lemma sane_load : forall c, sane c -> exists c', load false c = Ok c' /\ sane c' /\ (c_dirty c = false -> c_items c' = c_items c /\ c_dup c' = c_dup c).
Proof.
  intros c (T & st & b & T' & HO & D). destruct (load_ok c st b T' HO) as (c' & L & I1 & I2 & I3 & I4). exists c'. split; [exact L|]. split.
  - split; [rewrite I1; exact T'|]. exists st, b. rewrite I1, I2. auto.
  - intros E. destruct (D E) as [-> ->]. auto.
Qed.
Lemma Forall_upd : forall A (P : A -> Prop) f l i, (forall x, P x -> P (f x)) -> Forall P l -> Forall P (upd i f l).
Proof. intros A P f l. induction l as [|x l IH]; intros i H F; [destruct i; exact F|]. inversion F; subst. destruct i; cbn [upd]; constructor; auto. Qed.
Lemma reopen_sane : forall s, Forall sane s -> exists s', reopen false s = Ok s' /\ Forall sane s'.
Proof.
  induction s as [|c s IH]; intros F; [exists []; auto|]. inversion F as [|? ? H F']; subst. destruct (sane_load c H) as (c' & L & S' & _). destruct (IH F') as (s' & R & FS).
  exists (c' :: s'). cbn [reopen]. rewrite L, R. auto.
Qed.
Lemma flush_sane : forall n s, Forall sane s -> Forall sane (flush n s).
Proof. induction n as [|n IH]; intros [|c s] F; try exact F. inversion F; subst. cbn [flush]. constructor; [apply sane_flush; assumption|auto]. Qed.
Lemma step_sane : forall e s, evOk e -> Forall sane s -> exists s', wstep s e = Ok s' /\ Forall sane s'.
Proof.
  intros [i dup|i o|n|] s B F; cbn [wstep evOk] in *.
  - eexists. split; [reflexivity|]. apply Forall_upd; [apply sane_open|exact F].
  - eexists. split; [reflexivity|]. apply Forall_upd; [|exact F]. intros c. destruct B. apply sane_change; assumption.
  - eexists. split; [reflexivity|]. apply flush_sane. exact F.
  - apply reopen_sane. exact F.
Qed.
Lemma run_sane : forall es s, Forall evOk es -> Forall sane s -> exists s', wrun s es = Ok s' /\ Forall sane s'.
Proof.
  induction es as [|e es IH]; intros s B F; [exists s; auto|]. inversion B; subst. destruct (step_sane e s) as (s1 & S1 & F1); auto.
  destruct (IH s1) as (s2 & S2 & F2); auto. exists s2. cbn [wrun]. rewrite S1. auto.
Qed.
Lemma upd_len : forall A (f : A -> A) l i, List.length (upd i f l) = List.length l.
Proof. intros A f l. induction l as [|x l IH]; intros [|i]; cbn [upd List.length]; auto. Qed.
Lemma reopen_len : forall cl s s', reopen cl s = Ok s' -> List.length s' = List.length s.
Proof.
  intros cl. induction s as [|c s IH]; intros s' H; cbn [reopen] in H; [apply ok_inj in H; subst; reflexivity|].
  apply bind_ok in H. destruct H as (c' & _ & H). apply bind_ok in H. destruct H as (r & R & H). apply ok_inj in H. subst. cbn [List.length]. rewrite (IH r R). reflexivity.
Qed.
Lemma flush_len : forall n s, List.length (flush n s) = List.length s.
Proof. induction n as [|n IH]; intros [|c s]; cbn [flush List.length]; auto. Qed.
Lemma run_len : forall es s s', wrun s es = Ok s' -> List.length s' = List.length s.
Proof.
  induction es as [|e es IH]; intros s s' H; cbn [wrun] in H; [apply ok_inj in H; subst; reflexivity|].
  apply bind_ok in H. destruct H as (s1 & H1 & H). rewrite (IH _ _ H). destruct e; cbn [wstep] in H1; [apply ok_inj in H1; subst; apply upd_len|apply ok_inj in H1; subst; apply upd_len|apply ok_inj in H1; subst; apply flush_len|eapply reopen_len; exact H1].
Qed.
(** all stores flushed, then started again *)
Lemma flush_reopen : forall s, Forall sane s -> exists s', reopen false (flush (List.length s) s) = Ok s' /\ map c_items s' = map c_items s /\ map c_dup s' = map c_dup s.
Proof.
  induction s as [|c s IH]; intros F; [exists []; auto|]. inversion F as [|? ? H F']; subst. destruct (IH F') as (s' & R & E1 & E2).
  destruct (sane_flush c H) as (S1 & I1 & I2 & I3). destruct (sane_load _ S1) as (c' & L & _ & E). destruct (E I3) as [Q1 Q2]. exists (c' :: s').
  cbn [List.length flush reopen]. rewrite L, R. cbn [bind map]. rewrite E1, E2, Q1, Q2, I1, I2. auto.
Qed.

(** ** Only flushes write *)
Definition disk (c : cell) := (h_recs c, h_meta c).
Lemma load_disk : forall c c', load false c = Ok c' -> disk c' = disk c.
Proof.
  intros c c' H. unfold load in H. apply bind_ok in H. destruct H as (it & _ & H). apply raise_if_ok in H. destruct H as [_ H]. apply ok_inj in H. subst. reflexivity.
Qed.
Lemma load_same : forall c d, disk c = disk d -> load false c = load false d.
Proof. intros c d E. unfold disk in E. apply pair_equal_spec in E. destruct E as [E1 E2]. unfold load. rewrite E1, E2. reflexivity. Qed.
Lemma reopen_disk : forall s s', reopen false s = Ok s' -> map disk s' = map disk s.
Proof.
  induction s as [|c s IH]; intros s' H; cbn [reopen] in H; [apply ok_inj in H; subst; reflexivity|].
  apply bind_ok in H. destruct H as (c' & L & H). apply bind_ok in H. destruct H as (r & R & H). apply ok_inj in H. subst. cbn [map]. rewrite (IH r R), (load_disk _ _ L). reflexivity.
Qed.
Lemma reopen_same : forall s s', map disk s = map disk s' -> reopen false s = reopen false s'.
Proof.
  induction s as [|c s IH]; intros [|c' s'] H; cbn [map] in H; try discriminate; [reflexivity|]. injection H; intros H1 H2 H3. cbn [reopen].
  rewrite (load_same c c') by (unfold disk; congruence). rewrite (IH s' H1). reflexivity.
Qed.
Lemma upd_disk : forall f s i, (forall c, disk (f c) = disk c) -> map disk (upd i f s) = map disk s.
Proof. intros f s. induction s as [|c s IH]; intros [|i] H; cbn [upd map]; [reflexivity|reflexivity|rewrite H; reflexivity|rewrite IH by exact H; reflexivity]. Qed.
Lemma run_disk : forall es s s', Forall noFlush es -> wrun s es = Ok s' -> map disk s' = map disk s.
Proof.
  induction es as [|e es IH]; intros s s' N H; cbn [wrun] in H; [apply ok_inj in H; subst; reflexivity|]. inversion N as [|? ? NE N']; subst.
  apply bind_ok in H. destruct H as (s1 & H1 & H). rewrite (IH _ _ N' H). destruct e as [i dup|i o|n|]; cbn [wstep] in H1.
  - apply ok_inj in H1. subst. apply upd_disk. intros c. unfold openDb. destruct (c_open c); [reflexivity|]. destruct (c_flags c); reflexivity.
  - apply ok_inj in H1. subst. apply upd_disk. intros c. unfold change. destruct (mdo o (c_items c)). reflexivity.
  - destruct NE.
  - apply reopen_disk. exact H1.
Qed.
(** a flush that stopped *)
Lemma flush_part : forall n s, Forall sane s -> exists s0 s1, reopen false s = Ok s0 /\ reopen false (flush n s) = Ok s1 /\
  forall i, nth_error (map c_items s1) i = if Nat.ltb i n then nth_error (map c_items s) i else nth_error (map c_items s0) i.
Proof.
  induction n as [|n IH]; intros s F.
  - destruct (reopen_sane s F) as (s' & R & _). exists s', s'. split; [exact R|]. split; [destruct s; exact R|]. reflexivity.
  - destruct s as [|c s]; [exists [], []; split; [reflexivity|split; [reflexivity|]]; intros i; match goal with |- _ = (if ?b then _ else _) => destruct b end; reflexivity|].
    inversion F as [|? ? H F']; subst. destruct (IH s F') as (s0 & s1 & R0 & R1 & E).
    destruct (sane_load c H) as (c0 & L0 & _). destruct (sane_flush c H) as (S1 & I1 & I2 & I3). destruct (sane_load _ S1) as (c1 & L1 & _ & Q). destruct (Q I3) as [Q1 _].
    exists (c0 :: s0), (c1 :: s1). cbn [flush reopen]. rewrite L0, R0, L1, R1. split; [reflexivity|]. split; [reflexivity|]. intros [|i]; cbn [map nth_error].
    + cbn. rewrite Q1, I1. reflexivity.
    + exact (E i).
Qed.
