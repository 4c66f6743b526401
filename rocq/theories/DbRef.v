(** The operations of the database model against their specifications. *)
From Verif Require Import Prelude Lex SubsModel SubsProofs DbModel DbSpec DbProofs.
Ltac Zify.zify_post_hook ::= Z.div_mod_to_equations.
Open Scope N_scope.

Lemma memV_In : forall v l, memV v l = true <-> In v l.
Proof.
  intros v l. unfold memV. rewrite existsb_exists. split.
  - intros (x & A & B). destruct (beq_spec v x); [subst; exact A|discriminate].
  - intros A. exists v. rewrite beq_refl. auto.
Qed.
Lemma memV_app : forall v a b, memV v (a ++ b) = memV v a || memV v b.
Proof. intros. unfold memV. apply existsb_app. Qed.
Lemma bool_eq : forall a b : bool, (a = true <-> b = true) -> a = b.
Proof. intros [|] [|] [A B]; auto; try (symmetry; auto). Qed.

Lemma addAll_oset : forall l S seen A, (forall x, memV x A = memV x seen && negb (memV x S)) ->
  addAll (S ++ A) l = S ++ A ++ filter (fun v => negb (memV v S)) (osetV seen l).
Proof.
  induction l as [|v l IH]; intros S seen A H; cbn; [rewrite app_nil_r; reflexivity|].
  unfold addAll in *. cbn [fold_left]. unfold add1 at 2. rewrite memV_app, H.
  destruct (memV v seen) eqn:M.
  - replace (memV v S || true && negb (memV v S)) with true by (destruct (memV v S); reflexivity). apply IH. exact H.
  - cbn [andb]. rewrite orb_false_r. cbn [filter]. destruct (memV v S) eqn:MS; cbn [negb].
    + apply IH. intros x. rewrite H. unfold memV at 3. cbn [existsb]. fold (memV x seen). destruct (beq_spec x v) as [->|]; [|reflexivity].
      rewrite M, MS. reflexivity.
    + rewrite <- app_assoc. rewrite (IH S (v :: seen) (A ++ [v])).
      * rewrite <- app_assoc. reflexivity.
      * intros x. rewrite memV_app, H. unfold memV at 3 4. cbn [existsb]. fold (memV x seen). rewrite orb_false_r.
        destruct (beq_spec x v) as [->|]; [rewrite MS, orb_true_r; reflexivity|]. rewrite orb_false_r. reflexivity.
Qed.
Lemma addAll_spec : forall S l, addAll S l = S ++ filter (fun v => negb (memV v S)) (osetV [] l).
Proof. intros. pose proof (addAll_oset l S [] []) as X. rewrite app_nil_r in X. apply X. reflexivity. Qed.
Lemma addAll_nil : forall l, addAll [] l = osetV [] l.
Proof. intros. rewrite addAll_spec. cbn. apply filter_all. reflexivity. Qed.
Lemma add1_nodup : forall S v, NoDup S -> NoDup (add1 S v).
Proof.
  intros S v H. unfold add1. destruct (memV v S) eqn:M; [exact H|]. apply NoDup_rev in H. rewrite <- (rev_involutive (S ++ [v])). apply NoDup_rev.
  rewrite rev_app_distr. cbn. constructor; [|exact H]. rewrite <- in_rev. intros X. apply memV_In in X. congruence.
Qed.
Lemma addAll_nodup : forall l S, NoDup S -> NoDup (addAll S l).
Proof. induction l as [|v l IH]; intros S H; [exact H|]. unfold addAll. cbn. apply IH. apply add1_nodup. exact H. Qed.
Lemma sop_eff_nodup : forall o S, NoDup S -> NoDup (sop_eff o S).
Proof.
  intros [k l|k l|k v|k|k v] S H; cbn.
  - apply addAll_nodup. exact H.
  - destruct l; [exact H|]. apply addAll_nodup. constructor.
  - apply add1_nodup. exact H.
  - constructor.
  - apply NoDup_filter. exact H.
Qed.
Lemma filter_len_le : forall A (f : A -> bool) l, (List.length (filter f l) <= List.length l)%nat.
Proof. induction l as [|x l IH]; cbn; [lia|]. destruct (f x); cbn; lia. Qed.
Lemma osetV_len : forall l seen, (List.length (osetV seen l) <= List.length l)%nat.
Proof. induction l as [|x l IH]; intros seen; cbn; [lia|]. destruct (memV x seen); cbn; [specialize (IH seen)|specialize (IH (x :: seen))]; lia. Qed.

Lemma tnext_le : forall l b, tnext l <= b <-> Forall (fun e => fst e < b) l.
Proof.
  intros l b. induction l as [|e l IH] using rev_ind; [cbn; split; [constructor|lia]|]. rewrite tnext_app, Forall_app, <- IH. split.
  - intros X. split; [lia|]. constructor; [lia|constructor].
  - intros [A B]. inversion B; subst. lia.
Qed.
Lemma tput_end : forall ow n v l, Forall (fun e => fst e < n) l -> tput ow n v l = l ++ [(n, v)].
Proof.
  induction l as [|[m w] l IH]; intros F; [reflexivity|]. inversion F; subst. cbn in *. destruct (N.eqb_spec m n); [lia|].
  destruct (N.ltb_spec m n); [|lia]. rewrite IH by assumption. reflexivity.
Qed.
Lemma isnil_false : forall A (l : list A), isnil l = false <-> l <> [].
Proof. intros A [|x l]; cbn; split; congruence. Qed.
Lemma isnil_map : forall A B (f : A -> B) l, isnil (map f l) = isnil l.
Proof. intros A B f [|x l]; reflexivity. Qed.
Lemma isnil_true : forall A (l : list A), isnil l = true <-> l = [].
Proof. intros A [|x l]; cbn; split; congruence. Qed.

Section Ref.
Variable sep : N.
Variable K : bytes -> Prop.
Hypothesis GS : goodsep sep.
Hypothesis FL : flat sep K.
Notation do_sop := (do_sop sep).
Notation do_sops := (do_sops sep).
Notation do_oop := (do_oop sep).
Notation do_oops := (do_oops sep).

Lemma K_ne : forall k, K k -> isnil k = false.
Proof. intros k A. apply isnil_false. intros ->. destruct FL as [X _]. auto. Qed.

Lemma putFrom_view : forall ow k vals ion st r0, wf sep K st -> K k -> tnext (view sep k st) <= ion -> ion + len vals <= 16 ^ 32 ->
  exists st' l, putFrom sep ow k ion vals st r0 = (st', negb (isnil vals) || r0) /\ wf sep K st' /\ view sep k st' = view sep k st ++ l /\
    map snd l = vals /\ tnext (view sep k st') <= ion + len vals /\ (forall k', k' <> k -> view sep k' st' = view sep k' st).
Proof.
  intros ow k. induction vals as [|v vals IH]; intros ion st r0 W KK T B; cbn [putFrom].
  - exists st, []. rewrite app_nil_r. cbn. split; [reflexivity|]. split; [exact W|]. split; [reflexivity|]. split; [reflexivity|]. split; [|auto]. unfold len. cbn. lia.
  - assert (LV : len (v :: vals) = len vals + 1) by (unfold len; cbn [List.length]; lia). rewrite LV in *.
    destruct (put ow (suffix sep k ion) v st) as [st1 b] eqn:P. unfold suffix in P.
    assert (SM : small ion) by (unfold small; lia).
    destruct (put_view sep K GS ow k ion v st st1 b W KK SM P) as (V1 & V2 & V3).
    pose proof (put_wf sep K ow k ion v st st1 b W KK SM P) as W1.
    assert (T' : Forall (fun e => fst e < ion) (view sep k st)) by (apply tnext_le; exact T).
    rewrite tput_end in V1 by exact T'.
    assert (BT : b = true).
    { rewrite V3. apply orb_true_iff. right. apply negb_true_iff. clear - T'. induction (view sep k st) as [|[m w] l IH]; [reflexivity|]. inversion T'; subst. cbn in *.
      rewrite IH by assumption. destruct (N.eqb_spec m ion); [lia|reflexivity]. }
    destruct (IH (ion + 1) st1 (b || r0) W1 KK) as (st' & l & I1 & I2 & I3 & I4 & I5 & I6).
    { rewrite V1, tnext_app. cbn. lia. }
    { lia. }
    exists st', ((ion, v) :: l). rewrite I1, BT. split; [destruct vals; reflexivity|]. split; [exact I2|]. split; [rewrite I3, V1, <- app_assoc; reflexivity|].
    split; [cbn; rewrite I4; reflexivity|]. split; [lia|]. intros k' NK. rewrite I6, V2 by assumption. reflexivity.
Qed.

Definition Inv (st : store) (t : sets) (B : N) : Prop :=
  wf sep K st /\ (forall k, map snd (view sep k st) = t k) /\ (forall k, tnext (view sep k st) <= B) /\ (forall k, NoDup (t k)).

Lemma find_remove : forall v l, asc l -> NoDup (map snd l) ->
  match find (fun e => beq v (snd e)) l with
  | Some (n, _) => map snd (filter (fun e => negb (fst e =? n)) l) = remove1 v (map snd l) /\ memV v (map snd l) = true /\ In n (map fst l)
  | None => memV v (map snd l) = false /\ remove1 v (map snd l) = map snd l
  end.
Proof.
  intros v. induction l as [|[n w] l IH]; intros A D; [cbn; auto|]. destruct A as [A1 A2]. inversion D; subst. specialize (IH A2 H2). cbn [find snd map remove1 filter memV existsb].
  destruct (beq_spec v w) as [<-|NE].
  - cbn [filter fst]. rewrite N.eqb_refl. cbn [negb orb]. split; [|split; [reflexivity|left; reflexivity]].
    replace (filter (fun e : N * bytes => negb (fst e =? n)) l) with l.
    + symmetry. unfold remove1. apply filter_all. intros x IN. destruct (beq_spec v x); [subst; contradiction|reflexivity].
    + symmetry. apply filter_all. intros x IN. rewrite Forall_forall in A1. specialize (A1 _ IN). apply negb_true_iff, N.eqb_neq. lia.
  - cbn [negb orb]. destruct (find (fun e => beq v (snd e)) l) as [[m x]|] eqn:F.
    + destruct IH as (I1 & I2 & I3). cbn [filter fst]. assert (n <> m). { intros ->. rewrite Forall_forall in A1. apply in_map_iff in I3. destruct I3 as (e & E1 & E2). specialize (A1 _ E2). lia. }
      destruct (N.eqb_spec n m); [congruence|]. cbn [negb map snd]. rewrite I1. split; [reflexivity|]. split; [exact I2|right; exact I3].
    + destruct IH as (I1 & I2). split; [exact I1|]. f_equal. exact I2.
Qed.

Lemma existsb_oset : forall S l seen, (forall x, In x seen -> negb (memV x S) = false) ->
  existsb (fun v => negb (memV v S)) l = negb (isnil (filter (fun v => negb (memV v S)) (osetV seen l))).
Proof.
  induction l as [|v l IH]; intros seen H; [reflexivity|]. cbn. destruct (memV v seen) eqn:M.
  - apply memV_In in M. rewrite (H _ M). cbn. apply IH. exact H.
  - cbn. destruct (negb (memV v S)) eqn:N; [reflexivity|]. cbn. apply IH. intros x [<-|IN]; auto.
Qed.

Lemma do_sop_ok : forall o st t B, Inv st t B -> K (sop_key o) -> B + sop_size o <= MaxON ->
  exists st', do_sop o st = Ok (st', sop_out o (t (sop_key o))) /\ Inv st' (sop_spec t o) (B + sop_size o).
Proof.
  intros o st t B (W & V & T & ND) KK SZ. pose proof (K_ne _ KK) as KN.
  assert (MX : MaxON + 1 = 16 ^ 32) by (vm_compute; reflexivity).
  assert (FIN : forall st', wf sep K st' -> map snd (view sep (sop_key o) st') = sop_eff o (t (sop_key o)) -> tnext (view sep (sop_key o) st') <= B + sop_size o ->
     (forall k, k <> sop_key o -> view sep k st' = view sep k st) -> Inv st' (sop_spec t o) (B + sop_size o)).
  { intros st' W' V' T' O'. split; [exact W'|]. split; [|split].
    - intros k. unfold sop_spec. destruct (beq_spec k (sop_key o)) as [->|NE]; [exact V'|]. rewrite O' by exact NE. apply V.
    - intros k. destruct (beq_spec k (sop_key o)) as [->|NE]; [exact T'|]. rewrite O' by exact NE. specialize (T k). lia.
    - intros k. unfold sop_spec. destruct (beq k (sop_key o)); [apply sop_eff_nodup|]; apply ND. }
  assert (RM : forall k, K k -> exists st', remIoSet sep k st = Ok (st', negb (isnil (t k))) /\ wf sep K st' /\ view sep k st' = [] /\ (forall k', k' <> k -> view sep k' st' = view sep k' st)).
  { intros k Kk. destruct (remAll_spec sep K GS FL k 0 st W Kk small0) as (r & b & R1 & R2 & R3 & R4 & R5).
    exists (before (onKey sep k 0) st ++ r). unfold remIoSet. rewrite (K_ne _ Kk). unfold suffix. rewrite R1. cbn [bind].
    assert (Q : filter (fun e => 0 <=? fst e) (view sep k st) = view sep k st) by (apply filter_all; intros; apply N.leb_le; lia).
    rewrite Q in R2. rewrite <- (V k), isnil_map, R2. split; [reflexivity|]. split; [exact R3|]. split; [|exact R5].
    rewrite R4. clear. induction (view sep k st) as [|[n v] l IH]; [reflexivity|]. cbn. destruct (N.ltb_spec n 0); [lia|exact IH]. }
  destruct o as [k vals|k vals|k v|k|k v]; cbn [sop_key sop_size do_sop sop_out sop_eff] in *.
  - unfold putIoSetVals. rewrite KN. cbn [orb]. destruct (isnil vals) eqn:NV.
    + apply isnil_true in NV. subst vals. exists st. split; [reflexivity|]. apply FIN; [exact W|apply V|specialize (T k); lia|reflexivity].
    + rewrite (scan0 sep K GS FL k st W KK). cbn [bind]. rewrite (V k).
      set (nv := filter (fun v => negb (memV v (t k))) (osetV [] vals)).
      assert (NL : len nv <= len vals). { unfold len, nv. pose proof (filter_len_le _ (fun v => negb (memV v (t k))) (osetV [] vals)). pose proof (osetV_len vals []). lia. }
      rewrite <- (tnext_asc _ (view_asc sep K GS k st W)).
      destruct (putFrom_view false k nv (tnext (view sep k st)) st false W KK ltac:(lia)) as (st' & l & P1 & P2 & P3 & P4 & P5 & P6).
      { specialize (T k). lia. }
      exists st'. rewrite P1, orb_false_r. rewrite (existsb_oset (t k) vals [] ltac:(intros x [])). split; [reflexivity|]. apply FIN; [exact P2| | |exact P6].
      * rewrite P3, map_app, P4, (V k). symmetry. apply addAll_spec.
      * specialize (T k). lia.
  - unfold pinIoSetVals. rewrite KN. cbn [orb]. destruct (isnil vals) eqn:NV.
    + apply isnil_true in NV. subst vals. exists st. split; [reflexivity|]. apply FIN; [exact W|apply V|specialize (T k); lia|reflexivity].
    + destruct (RM k KK) as (st1 & R1 & R2 & R3 & R4). rewrite R1. cbn [bind].
      assert (NL : len (osetV [] vals) <= len vals). { unfold len. pose proof (osetV_len vals []). lia. }
      destruct (putFrom_view true k (osetV [] vals) 0 st1 false R2 KK) as (st' & l & P1 & P2 & P3 & P4 & P5 & P6).
      { rewrite R3. cbn. lia. }
      { lia. }
      exists st'. rewrite P1. split.
      * destruct vals; [discriminate|]. reflexivity.
      * apply FIN; [exact P2| |lia|].
        -- rewrite P3, R3. cbn. rewrite P4. destruct vals; [discriminate|]. symmetry. apply addAll_nil.
        -- intros k' NK. rewrite P6, R4 by assumption. reflexivity.
  - unfold addIoSetVal. rewrite KN. rewrite (scan0 sep K GS FL k st W KK). cbn [bind]. rewrite (V k). unfold add1. destruct (memV v (t k)) eqn:M.
    + exists st. split; [reflexivity|]. apply FIN; [exact W| |specialize (T k); lia|reflexivity]. cbn. unfold add1. rewrite M. apply V.
    + rewrite <- (tnext_asc _ (view_asc sep K GS k st W)). specialize (T k).
      destruct (putFrom_view false k [v] (tnext (view sep k st)) st false W KK ltac:(lia)) as (st' & l & P1 & P2 & P3 & P4 & P5 & P6).
      { unfold len. cbn. lia. }
      cbn [putFrom] in P1. unfold suffix in *. destruct (put false (onKey sep k (tnext (view sep k st))) v st) as [st2 b2] eqn:P. rewrite orb_false_r in P1. inversion P1; subst. exists st'. split; [reflexivity|].
      apply FIN; [exact P2| | |exact P6].
      * rewrite P3, map_app, P4, (V k). unfold add1. cbn. unfold add1. rewrite M. reflexivity.
      * unfold len in P5. cbn in P5. cbn. lia.
  - destruct (RM k KK) as (st' & R1 & R2 & R3 & R4). exists st'. split; [exact R1|]. apply FIN; [exact R2|rewrite R3; reflexivity|rewrite R3; cbn; lia|exact R4].
  - unfold remIoSetVal. rewrite KN. rewrite (scan0 sep K GS FL k st W KK). cbn [bind].
    pose proof (find_remove v (view sep k st) (view_asc sep K GS k st W)) as FR. rewrite (V k) in FR. specialize (FR (ND k)).
    destruct (find (fun e => beq v (snd e)) (view sep k st)) as [[n w]|] eqn:F.
    + destruct FR as (F1 & F2 & F3). unfold suffix. destruct (del (onKey sep k n) st) as [st' b] eqn:D.
      assert (SM : small n). { apply in_map_iff in F3. destruct F3 as (e & <- & E2). pose proof (view_small sep K GS k st W) as VS. rewrite Forall_forall in VS. apply VS. exact E2. }
      destruct (del_view sep K GS k n st st' b W SM D) as (D1 & D2 & D3). exists st'. rewrite F2.
      split. { f_equal. f_equal. rewrite D3. apply existsb_exists. apply in_map_iff in F3. destruct F3 as (e & E1 & E2). exists e. split; [exact E2|]. apply N.eqb_eq. exact E1. }
      apply FIN; [eapply del_wf; eauto|rewrite D1; exact F1| |exact D2].
      rewrite D1. specialize (T k). rewrite tnext_le in T. apply tnext_le. rewrite Forall_forall in *. intros e IN. apply filter_In in IN. destruct IN as [IN _]. specialize (T _ IN). cbn. lia.
    + destruct FR as (F1 & F2). exists st. rewrite F1. split; [reflexivity|]. apply FIN; [exact W|cbn; rewrite F2; apply V|specialize (T k); lia|reflexivity].
Qed.

Lemma total_from : forall ops n, fold_left (fun n o => n + sop_size o) ops n = n + total ops.
Proof.
  unfold total. induction ops as [|o ops IH]; intros n; cbn; [lia|]. rewrite IH, (IH (sop_size o)). lia.
Qed.
Lemma do_sops_ok : forall ops st t B, Inv st t B -> Forall (fun o => K (sop_key o)) ops -> B + total ops <= MaxON ->
  exists st', do_sops ops st = Ok (st', outs ops t) /\ Inv st' (fold_left sop_spec ops t) (B + total ops).
Proof.
  induction ops as [|o ops IH]; intros st t B I F SZ.
  - exists st. split; [reflexivity|]. replace (B + total []) with B by (unfold total; cbn; lia). exact I.
  - inversion F; subst. assert (E : total (o :: ops) = sop_size o + total ops) by (unfold total at 1; cbn; rewrite total_from; lia). rewrite E in *.
    destruct (do_sop_ok o st t B I H1 ltac:(lia)) as (st1 & D1 & I1). destruct (IH st1 _ _ I1 H2 ltac:(lia)) as (st' & D2 & I2).
    exists st'. cbn [do_sops]. rewrite D1. cbn [bind]. rewrite D2. cbn [bind fold_left outs]. split; [reflexivity|]. rewrite N.add_assoc. exact I2.
Qed.
Lemma inv0 : Inv [] sets0 0.
Proof. split; [split; constructor|]. split; [reflexivity|]. split; [intros; cbn; lia|constructor]. Qed.

(** reading *)
Lemma reads : forall st t B k, Inv st t B -> K k -> getIoSet sep k 0 st = Ok (t k) /\ getIoSetLast sep k st = Ok (olast (t k)) /\ cntIoSet sep k 0 st = Ok (len (t k)).
Proof.
  intros st t B k (W & V & _) KK. unfold getIoSet, getIoSetLast, cntIoSet. rewrite (K_ne _ KK), (scan0 sep K GS FL k st W KK). cbn [bind]. rewrite <- (V k).
  split; [reflexivity|]. split; [reflexivity|]. unfold len. rewrite map_length. reflexivity.
Qed.

(** ** Ordinal numbered values *)
Definition OInv (st : store) (t : tabs) : Prop := wf sep K st /\ forall k, view sep k st = t k.

Lemma existsb_filter : forall A (f : A -> bool) l, existsb f l = negb (isnil (filter f l)).
Proof. induction l as [|x l IH]; [reflexivity|]. cbn. destruct (f x); [reflexivity|exact IH]. Qed.
Lemma takewhile_all : forall A (f : A -> bool) l, Forall (fun e => f e = true) (takewhile f l).
Proof. induction l as [|x l IH]; cbn; [constructor|]. destruct (f x) eqn:E; constructor; assumption. Qed.

Lemma append_ok : forall k v st, wf sep K st -> K k ->
  (exists st', appendOnVal sep k v st = Ok (st', tnext (view sep k st)) /\ tnext (view sep k st) <= MaxON /\ wf sep K st' /\
     view sep k st' = view sep k st ++ [(tnext (view sep k st), v)] /\ (forall k', k' <> k -> view sep k' st' = view sep k' st)) \/
  (appendOnVal sep k v st = Err ValueError /\ MaxON < tnext (view sep k st)).
Proof.
  intros k v st W KK. pose proof (K_ne _ KK) as KN. unfold appendOnVal. rewrite KN. cbn iota.
  assert (MX : MaxON + 1 = 16 ^ 32) by (vm_compute; reflexivity).
  assert (SM : small MaxON) by (unfold small; lia).
  set (mx := onKey sep k MaxON).
  pose proof (before_setRange mx st) as BS.
  assert (WB : wf sep K (before mx st)).
  { destruct W as [W1 W2]. rewrite <- BS in W1, W2. apply sorted_app in W1. apply Forall_app in W2. split; tauto. }
  assert (LB := last_before sep K GS FL k MaxON (before mx st) WB KK SM (takewhile_all _ _ _)).
  assert (VB : view sep k (before mx st) = filter (fun e => fst e <? MaxON) (view sep k st)) by (apply (before_view sep K GS); assumption).
  assert (CORE : has MaxON (view sep k st) = false ->
     (match olast (before mx st) with None => Ok 0 | Some (ck, _) => '(k0, cn) <- splitOnKey sep ck ;; Ok (if beq k0 k then cn + 1 else 0) end) = Ok (tnext (view sep k st)) /\ tnext (view sep k st) <= MaxON).
  { intros NH. assert (VE : view sep k (before mx st) = view sep k st).
    { rewrite VB. apply filter_all. intros e IN. apply N.ltb_lt. pose proof (view_small sep K GS k st W) as VS. rewrite Forall_forall in VS. specialize (VS _ IN). unfold small in VS.
      assert (fst e <> MaxON). { intros E. assert (X : has MaxON (view sep k st) = true); [|congruence]. apply existsb_exists. exists e. split; [exact IN|apply N.eqb_eq; exact E]. }
      lia. }
    rewrite <- VE. split.
    - rewrite tnext_asc by (apply (view_asc sep K GS); exact WB). unfold nextIon.
      destruct (olast (before mx st)) as [[ck w]|]; [|rewrite LB; reflexivity]. destruct LB as (k' & n & -> & LB). rewrite split_onKey by exact GS. cbn [bind].
      destruct (beq k' k); [destruct LB as (r & ->); rewrite olast_app; reflexivity|rewrite LB; reflexivity].
    - apply tnext_le. rewrite VB, Forall_forall. intros e IN. apply filter_In in IN. apply N.ltb_lt. apply IN. }
  assert (PUT : has MaxON (view sep k st) = false -> exists st', (let '(st', b) := put false (onKey sep k (tnext (view sep k st))) v st in raise_if (negb b) ValueError (Ok (st', tnext (view sep k st)))) = Ok (st', tnext (view sep k st)) /\ tnext (view sep k st) <= MaxON /\ wf sep K st' /\
     view sep k st' = view sep k st ++ [(tnext (view sep k st), v)] /\ (forall k', k' <> k -> view sep k' st' = view sep k' st)).
  { intros NH. destruct (CORE NH) as [_ LE]. destruct (put false (onKey sep k (tnext (view sep k st))) v st) as [st' b] eqn:P.
    assert (SN : small (tnext (view sep k st))) by (unfold small; lia).
    destruct (put_view sep K GS _ _ _ _ _ _ _ W KK SN P) as (P1 & P2 & P3). pose proof (put_wf sep K _ _ _ _ _ _ _ W KK SN P) as W'.
    assert (F : Forall (fun e => fst e < tnext (view sep k st)) (view sep k st)) by (apply tnext_le; lia).
    rewrite tput_end in P1 by exact F. exists st'.
    assert (BT : b = true). { rewrite P3. apply orb_true_iff. right. apply negb_true_iff. clear - F. revert F. generalize (tnext (view sep k st)). intros n F. induction (view sep k st) as [|[m w] l IH]; [reflexivity|]. inversion F; subst. cbn in *. rewrite IH by assumption. destruct (N.eqb_spec m n); [lia|reflexivity]. }
    rewrite BT. cbn. auto. }
  destruct (setRange mx st) as [|[ck w] rest] eqn:SR.
  - assert (NH : has MaxON (view sep k st) = false).
    { rewrite <- BS, app_nil_r, VB. unfold has. clear. generalize MaxON. intros mm. induction (view sep k st) as [|[m w] l IH]; [reflexivity|]. cbn. destruct (N.ltb_spec m mm); [|exact IH]. cbn. rewrite IH. destruct (N.eqb_spec m mm); [lia|reflexivity]. }
    left. destruct (CORE NH) as [C1 C2]. rewrite app_nil_r in BS. rewrite BS in C1. rewrite C1. cbn [bind]. apply PUT. exact NH.
  - pose proof (setRange_wf sep K mx st W) as WR. pose proof (setRange_view sep K GS k MaxON st W SM) as SV. fold mx in SV. rewrite SR in WR, SV.
    apply (wf_cons sep K) in WR. destruct WR as (k0 & n0 & v0 & E & A & B & WR & BL). inversion E; subst ck w. rewrite split_onKey by exact GS. cbn [bind].
    rewrite (view_cons sep GS) in SV. destruct (beq_spec k0 k) as [->|NE].
    + right. split; [reflexivity|]. assert (X : In (n0, v0) (filter (fun e => MaxON <=? fst e) (view sep k st))) by (rewrite <- SV; left; reflexivity).
      apply filter_In in X. destruct X as [X1 X2]. cbn in X2. apply N.leb_le in X2. destruct (N.lt_ge_cases MaxON (tnext (view sep k st))) as [Q|Q]; [exact Q|]. exfalso.
      apply tnext_le in Q. rewrite Forall_forall in Q. specialize (Q _ X1). cbn in Q. lia.
    + assert (VN : view sep k rest = []).
      { destruct (view sep k rest) as [|[m x] l] eqn:V; [reflexivity|]. exfalso. apply NE.
        assert (IN : In (m, x) (view sep k rest)) by (rewrite V; left; reflexivity). apply (view_in sep K GS) in IN; [|exact WR].
        rewrite Forall_forall in BL. pose proof (setRange_ge sep K mx st W) as GE. rewrite SR in GE. inversion GE; subst.
        exact (contiguous sep K FL k k0 n0 MaxON m KK A H1 (BL _ IN)). }
      rewrite VN in SV. assert (NH : has MaxON (view sep k st) = false).
      { unfold has. clear - SV. revert SV. generalize MaxON. intros mm SV. induction (view sep k st) as [|[m w] l IH]; [reflexivity|]. cbn in *. destruct (N.leb_spec mm m); [discriminate|]. rewrite IH by exact SV. destruct (N.eqb_spec m mm); [lia|reflexivity]. }
      left. destruct (CORE NH) as [C1 C2]. rewrite C1. cbn [bind]. apply PUT. exact NH.
Qed.

Lemma do_oop_ok : forall o st t, OInv st t -> K (oop_key o) -> oop_on o <= MaxON ->
  snd (do_oop o st) = oop_out o (t (oop_key o)) /\ OInv (fst (do_oop o st)) (oop_spec t o).
Proof.
  intros o st t (W & V) KK ON. pose proof (K_ne _ KK) as KN.
  assert (MX : MaxON + 1 = 16 ^ 32) by (vm_compute; reflexivity). assert (SM : small (oop_on o)) by (unfold small; lia).
  assert (FIN : forall st', wf sep K st' -> view sep (oop_key o) st' = oop_eff o (t (oop_key o)) -> (forall k, k <> oop_key o -> view sep k st' = view sep k st) -> OInv st' (oop_spec t o)).
  { intros st' W' V' O'. split; [exact W'|]. intros k. unfold oop_spec. destruct (beq_spec k (oop_key o)) as [->|NE]; [exact V'|]. rewrite O' by exact NE. apply V. }
  destruct o as [k n v|k n v|k v|k n|k n]; cbn [oop_key oop_on do_oop oop_out oop_eff] in *.
  - unfold putOnVal. rewrite KN. destruct (put false (onKey sep k n) v st) as [st' b] eqn:P. destruct (put_view sep K GS _ _ _ _ _ _ _ W KK SM P) as (P1 & P2 & P3).
    cbn [fst snd]. split; [rewrite P3, (V k); reflexivity|]. apply FIN; [eapply put_wf; eauto|rewrite P1, (V k); reflexivity|exact P2].
  - unfold pinOnVal. rewrite KN. destruct (put true (onKey sep k n) v st) as [st' b] eqn:P. destruct (put_view sep K GS _ _ _ _ _ _ _ W KK SM P) as (P1 & P2 & P3).
    cbn [fst snd]. split; [rewrite P3; reflexivity|]. apply FIN; [eapply put_wf; eauto|rewrite P1, (V k); reflexivity|exact P2].
  - destruct (append_ok k v st W KK) as [(st' & A1 & A2 & A3 & A4 & A5)|(A1 & A2)]; rewrite A1; cbn [fst snd]; rewrite (V k) in *.
    + replace (tnext (t k) <=? MaxON) with true by (symmetry; apply N.leb_le; exact A2). split; [reflexivity|]. apply FIN; [exact A3| |exact A5].
      cbn [oop_eff oop_key]. replace (tnext (t k) <=? MaxON) with true by (symmetry; apply N.leb_le; exact A2). exact A4.
    + replace (tnext (t k) <=? MaxON) with false by (symmetry; apply N.leb_gt; exact A2). split; [reflexivity|]. apply FIN; [exact W| |reflexivity].
      cbn [oop_eff oop_key]. replace (tnext (t k) <=? MaxON) with false by (symmetry; apply N.leb_gt; exact A2). apply V.
  - unfold remOn. rewrite KN. destruct (del (onKey sep k n) st) as [st' b] eqn:D. destruct (del_view sep K GS k n st st' b W SM D) as (D1 & D2 & D3).
    cbn [fst snd]. split; [rewrite D3, (V k); reflexivity|]. apply FIN; [eapply del_wf; eauto|rewrite D1, (V k); reflexivity|exact D2].
  - unfold remOnAll. rewrite KN. destruct (remAll_spec sep K GS FL k n st W KK SM) as (r & b & R1 & R2 & R3 & R4 & R5). rewrite R1. cbn [bind fst snd].
    split; [rewrite R2, (V k), existsb_filter; reflexivity|]. apply FIN; [exact R3|rewrite R4, (V k); reflexivity|exact R5].
Qed.
Lemma do_oops_ok : forall ops st t, OInv st t -> Forall (fun o => K (oop_key o) /\ oop_on o <= MaxON) ops ->
  snd (do_oops ops st) = oouts ops t /\ OInv (fst (do_oops ops st)) (fold_left oop_spec ops t).
Proof.
  induction ops as [|o ops IH]; intros st t I F; [cbn; auto|]. inversion F; subst. destruct H1 as [A B].
  destruct (do_oop_ok o st t I A B) as [D1 D2]. cbn [do_oops]. destruct (do_oop o st) as [st1 b]. cbn [fst snd] in D1, D2.
  destruct (IH st1 _ D2 H2) as [I1 I2]. destruct (do_oops ops st1) as [st2 l]. cbn [fst snd] in *. cbn [oouts fold_left]. rewrite D1, I1. auto.
Qed.
Lemma oinv0 : OInv [] tabs0.
Proof. split; [split; constructor|reflexivity]. Qed.
Lemma get_view : forall k n st, wf sep K st -> get (onKey sep k n) st = lookup n (view sep k st).
Proof.
  intros k n st. unfold lookup. induction st as [|e st IH]; intros W; [reflexivity|].
  apply (wf_cons sep K) in W. destruct W as (k0 & n0 & v0 & -> & A & B & W & BL). rewrite (view_cons sep GS). cbn [get fst]. specialize (IH W).
  destruct (beq_spec (onKey sep k0 n0) (onKey sep k n)) as [E|NE].
  - apply onKey_inj in E; [|exact GS]. destruct E as [-> ->]. rewrite beq_refl. cbn. rewrite N.eqb_refl. reflexivity.
  - rewrite IH. destruct (beq_spec k0 k) as [->|NK]; [|reflexivity]. cbn. destruct (N.eqb_spec n0 n); [congruence|reflexivity].
Qed.
Lemma cnt_scan : forall k l r, scan sep k l = Ok r ->
  len (takewhile (fun e => match splitOnKey sep (fst e) with Ok (k0, _) => beq k0 k | Err _ => false end) l) = len r.
Proof.
  intros k. induction l as [|[ck v] l IH]; intros r X; cbn in X; [inversion X; reflexivity|]. cbn [takewhile fst].
  destruct (splitOnKey sep ck) as [[k0 n]|]; [|discriminate]. cbn [bind] in X. destruct (beq k0 k); [|inversion X; reflexivity].
  destruct (scan sep k l) as [r0|]; [|discriminate]. cbn [bind] in X. inversion X; subst. specialize (IH _ eq_refl). unfold len in *. cbn [List.length]. lia.
Qed.
Lemma oreads : forall st t k n, OInv st t -> K k -> n <= MaxON ->
  getOnVal sep k n st = lookup n (t k) /\ getOnAll sep k n st = Ok (filter (fun e => n <=? fst e) (t k)) /\ cntOnAll sep k n st = len (filter (fun e => n <=? fst e) (t k)).
Proof.
  intros st t k n (W & V) KK ON. assert (MX : MaxON + 1 = 16 ^ 32) by (vm_compute; reflexivity). assert (SM : small n) by (unfold small; lia).
  assert (S := scan_from sep K GS FL k n st W KK SM). unfold getOnVal. rewrite (K_ne _ KK), (get_view k n st W), <- (V k). split; [reflexivity|]. split; [exact S|].
  apply cnt_scan. exact S.
Qed.
End Ref.
