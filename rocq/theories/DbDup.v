(** Insertion ordered duplicates. *)
From Verif Require Import Prelude Lex SubsModel SubsProofs DbModel DbSpec DbProofs DbRef DbOn.
Ltac Zify.zify_post_hook ::= Z.div_mod_to_equations.
Open Scope N_scope.

Fixpoint dsorted (st : store) : Prop :=
  match st with [] => True | e :: st' => Forall (fun x => pltb e x = true) st' /\ dsorted st' end.

Lemma pltb_trans : forall a b c, pltb a b = true -> pltb b c = true -> pltb a c = true.
Proof.
  intros [a1 a2] [b1 b2] [c1 c2]. unfold pltb. cbn [fst snd]. rewrite !orb_true_iff, !andb_true_iff. intros [A|[A1 A2]] [B|[B1 B2]].
  - left. exact (blt_trans _ _ _ A B).
  - destruct (beq_spec b1 c1); [subst; auto|discriminate].
  - destruct (beq_spec a1 b1); [subst; auto|discriminate].
  - destruct (beq_spec a1 b1); [subst|discriminate]. destruct (beq_spec b1 c1); [subst|discriminate]. right. split; [try apply beq_refl; reflexivity|exact (blt_trans _ _ _ A2 B2)].
Qed.
Lemma pltb_total : forall a b, peq a b = false -> pltb a b = false -> pltb b a = true.
Proof.
  intros [a1 a2] [b1 b2]. unfold pltb, peq. cbn [fst snd]. intros A B. apply orb_false_iff in B. destruct B as [B1 B2].
  apply orb_true_iff. destruct (blt_total a1 b1) as [X|[X|X]]; [unfold blt in X; congruence| |left; exact X]. subst b1. rewrite beq_refl in *. cbn [andb] in *. right.
  destruct (blt_total a2 b2) as [X|[X|X]]; [unfold blt in X; congruence|subst; rewrite beq_refl in A; discriminate|exact X].
Qed.
Lemma dput_in : forall e st x, In x (dput e st) -> x = e \/ In x st.
Proof.
  induction st as [|y st IH]; intros x IN; cbn in IN; [destruct IN as [<-|[]]; auto|].
  destruct (peq y e); [auto|]. destruct (pltb y e); [|destruct IN as [<-|IN]; auto]. destruct IN as [<-|IN]; [right; left; reflexivity|].
  destruct (IH _ IN); [auto|right; right; assumption].
Qed.
Lemma dput_sorted : forall e st, dsorted st -> dsorted (dput e st).
Proof.
  induction st as [|y st IH]; intros S; cbn; [auto|]. destruct S as [S1 S2]. destruct (peq y e) eqn:E; [split; assumption|]. destruct (pltb y e) eqn:L.
  - split; [|auto]. rewrite Forall_forall in *. intros x IN. destruct (dput_in _ _ _ IN) as [->|]; auto.
  - pose proof (pltb_total _ _ E L) as G. split; [|split; assumption]. constructor; [exact G|]. eapply Forall_impl; [|exact S1]. intros x X. eapply pltb_trans; eauto.
Qed.
Lemma dvals_cons : forall key k v st, dvals key ((k, v) :: st) = if beq k key then v :: dvals key st else dvals key st.
Proof. intros. unfold dvals. cbn. destruct (beq k key); reflexivity. Qed.
Lemma dvals_in : forall key v st, In v (dvals key st) <-> In (key, v) st.
Proof.
  intros key v st. unfold dvals. rewrite in_map_iff. split.
  - intros ([k w] & E & IN). apply filter_In in IN. destruct IN as [IN B]. cbn in *. destruct (beq_spec k key); [subst; exact IN|discriminate].
  - intros IN. exists (key, v). split; [reflexivity|]. apply filter_In. split; [exact IN|apply beq_refl].
Qed.
Lemma dput_other : forall key k v st, k <> key -> dvals key (dput (k, v) st) = dvals key st.
Proof.
  intros key k v. induction st as [|[k0 v0] st IH]; intros NE.
  - unfold dvals. cbn. destruct (beq_spec k key); [congruence|reflexivity].
  - cbn [dput]. destruct (peq (k0, v0) (k, v)); [reflexivity|]. destruct (pltb (k0, v0) (k, v)); rewrite !dvals_cons; [rewrite IH by exact NE; reflexivity|].
    destruct (beq_spec k key); [congruence|]. reflexivity.
Qed.
Lemma dput_last : forall key v st, dsorted st -> Forall (fun x => bltb x v = true) (dvals key st) -> dvals key (dput (key, v) st) = dvals key st ++ [v].
Proof.
  intros key v. induction st as [|[k0 v0] st IH]; intros S F.
  - unfold dvals. cbn. rewrite beq_refl. reflexivity.
  - destruct S as [S1 S2]. rewrite dvals_cons in F |- *. cbn [dput]. destruct (peq (k0, v0) (key, v)) eqn:E.
    + exfalso. unfold peq in E. cbn in E. apply andb_true_iff in E. destruct E as [E1 E2]. destruct (beq_spec k0 key); [|discriminate]. subst. try rewrite beq_refl in F. inversion F; subst.
      destruct (beq_spec v0 v); [|discriminate]. subst. rewrite bltb_irrefl in H1. discriminate.
    + destruct (pltb (k0, v0) (key, v)) eqn:L.
      * rewrite dvals_cons. destruct (beq_spec k0 key) as [->|NE]; [inversion F; subst; rewrite IH by assumption; reflexivity|apply IH; assumption].
      * rewrite dvals_cons, beq_refl, dvals_cons. pose proof (pltb_total _ _ E L) as G. unfold pltb in G. cbn in G. destruct (beq_spec k0 key) as [->|NE].
        -- exfalso. rewrite bltb_irrefl in G. rewrite beq_refl in G. cbn in G. inversion F; subst. pose proof (blt_asym _ _ H1) as Q. congruence.
        -- assert (GK : bltb key k0 = true). { apply orb_true_iff in G. destruct G as [G|G]; [exact G|]. apply andb_true_iff in G. destruct G as [G _]. destruct (beq_spec key k0); [congruence|discriminate]. }
           replace (dvals key st) with (@nil bytes); [reflexivity|]. destruct (dvals key st) as [|w l] eqn:V; [reflexivity|]. exfalso.
           assert (IN : In (key, w) st). { apply dvals_in. rewrite V. left. reflexivity. }
           rewrite Forall_forall in S1. specialize (S1 _ IN). unfold pltb in S1. cbn in S1. apply orb_true_iff in S1. rewrite (blt_asym _ _ GK) in S1. destruct S1 as [S1|S1]; [discriminate|].
           apply andb_true_iff in S1. destruct S1 as [S1 _]. destruct (beq_spec k0 key); [congruence|discriminate].
Qed.

(** proems *)
Lemma firstn_exact : forall A (a b : list A) n, List.length a = n -> firstn n (a ++ b) = a.
Proof. intros A a b n <-. rewrite firstn_app, Nat.sub_diag, firstn_all. cbn. apply app_nil_r. Qed.
Lemma skipn_exact : forall A (a b : list A) n, List.length a = n -> skipn n (a ++ b) = b.
Proof. intros A a b n <-. rewrite skipn_app, Nat.sub_diag, skipn_all. reflexivity. Qed.
Lemma unproem_proem : forall n v, small n -> unproem (proem n v) = v.
Proof.
  intros n v S. unfold unproem, proem. change (hexpad 32 n ++ 46 :: v) with (hexpad 32 n ++ [46] ++ v). rewrite app_assoc. apply skipn_exact.
  rewrite app_length, hexpad_len by (lia || exact S). reflexivity.
Qed.
Lemma proemIdx_proem : forall n v, small n -> proemIdx (proem n v) = Ok n.
Proof. intros n v S. unfold proemIdx, proem. rewrite firstn_exact by (apply hexpad_len; [lia|exact S]). apply hexint_hexpad. Qed.
Lemma proem_lt : forall n m v w, small n -> small m -> n < m -> bltb (proem n v) (proem m w) = true.
Proof.
  intros n m v w A B L. unfold proem. apply bltb_app_lt; [rewrite !hexpad_len by (lia || assumption); reflexivity|].
  rewrite hexpad_order by (lia || assumption). apply N.ltb_lt. exact L.
Qed.
Definition pm (e : N * bytes) : bytes := proem (fst e) (snd e).
Definition dview (key : bytes) (st : store) (l : list (N * bytes)) : Prop :=
  dvals key st = map pm l /\ asc l /\ Forall (fun e => small (fst e)) l.
Lemma unproem_map : forall l, Forall (fun e => small (fst e)) l -> map unproem (map pm l) = map snd l.
Proof. induction l as [|[n v] l IH]; intros F; [reflexivity|]. inversion F; subst. cbn [map]. rewrite IH by assumption. change (pm (n, v)) with (proem n v). rewrite unproem_proem by assumption. reflexivity. Qed.
Lemma olast_map : forall A B (f : A -> B) l, olast (map f l) = match olast l with Some x => Some (f x) | None => None end.
Proof. intros A B f l. destruct (olast_cases _ l) as [(-> & ->)|(a & x & -> & ->)]; [reflexivity|]. rewrite map_app. apply olast_app. Qed.
Lemma nextIdx_ok : forall key st l, dview key st l -> nextIdx key st = Ok (tnext l).
Proof.
  intros key st l (V & A & S). unfold nextIdx. rewrite V, olast_map, (tnext_asc _ A). unfold nextIon. destruct (olast_cases _ l) as [(-> & ->)|(a & [n v] & -> & ->)]; [reflexivity|].
  unfold pm. cbn [fst snd]. rewrite proemIdx_proem; [reflexivity|]. apply Forall_app in S. destruct S as [_ S]. inversion S; subst. assumption.
Qed.
Lemma asc_snoc : forall l n v, asc l -> Forall (fun e => fst e < n) l -> asc (l ++ [(n, v)]).
Proof.
  induction l as [|[m w] l IH]; intros n v A F; cbn; [auto|]. destruct A as [A1 A2]. inversion F; subst. split; [|auto]. apply Forall_app. split; [assumption|]. constructor; [assumption|constructor].
Qed.
Lemma dputFrom_ok : forall key dups vals idx st l r0, dsorted st -> dview key st l -> tnext l <= idx -> idx + len vals <= 16 ^ 32 ->
  exists st' l2, dputFrom key idx dups vals st r0 = (st', existsb (fun v => negb (memV v dups)) vals || r0) /\ dsorted st' /\ dview key st' (l ++ l2) /\
    map snd l2 = filter (fun v => negb (memV v dups)) vals /\ tnext (l ++ l2) <= idx + len vals /\ (forall k', k' <> key -> dvals k' st' = dvals k' st).
Proof.
  intros key dups. induction vals as [|v vals IH]; intros idx st l r0 D V T B; cbn [dputFrom].
  - exists st, []. rewrite app_nil_r. cbn. split; [reflexivity|]. split; [exact D|]. split; [exact V|]. split; [reflexivity|]. split; [unfold len; cbn; lia|auto].
  - assert (LV : len (v :: vals) = len vals + 1) by (unfold len; cbn [List.length]; lia). rewrite LV in *. cbn [existsb filter]. destruct (memV v dups).
    + destruct (IH idx st l r0 D V T ltac:(lia)) as (st' & l2 & I1 & I2 & I3 & I4 & I5 & I6). exists st', l2. split; [exact I1|]. split; [exact I2|]. split; [exact I3|]. split; [exact I4|]. split; [lia|exact I6].
    + cbn [negb orb]. destruct V as (V1 & V2 & V3). assert (SM : small idx) by (unfold small; lia). assert (T' : Forall (fun e => fst e < idx) l) by (apply tnext_le; exact T).
      assert (V' : dview key (dput (key, proem idx v) st) (l ++ [(idx, v)])).
      { split; [|split].
        - rewrite dput_last; [rewrite V1, map_app; reflexivity|exact D|]. rewrite V1, Forall_forall. intros x IN. apply in_map_iff in IN. destruct IN as (e & <- & IN). rewrite Forall_forall in T', V3. apply proem_lt; auto.
        - apply asc_snoc; assumption.
        - apply Forall_app. split; [assumption|]. constructor; [exact SM|constructor]. }
      destruct (IH (idx + 1) (dput (key, proem idx v) st) (l ++ [(idx, v)]) true (dput_sorted _ _ D) V') as (st' & l2 & I1 & I2 & I3 & I4 & I5 & I6). { rewrite tnext_app. cbn. lia. } { lia. }
      exists st', ((idx, v) :: l2). rewrite <- app_assoc in I3, I5. cbn [app] in I3, I5. rewrite I1, orb_true_r. split; [reflexivity|]. split; [exact I2|]. split; [exact I3|]. split; [cbn; rewrite I4; reflexivity|].
      split; [lia|]. intros k' NK. rewrite I6 by exact NK. apply dput_other. congruence.
Qed.
Lemma filter_sorted : forall f st, dsorted st -> dsorted (filter f st).
Proof.
  induction st as [|e st IH]; intros S; cbn; [auto|]. destruct S as [S1 S2]. destruct (f e); [|auto]. split; [|auto]. rewrite Forall_forall in *. intros x IN. apply filter_In in IN. apply S1. apply IN.
Qed.
Lemma delAll_vals : forall key k' st, dvals k' (filter (fun e => negb (beq (fst e) key)) st) = if beq k' key then [] else dvals k' st.
Proof.
  intros key k'. induction st as [|[k v] st IH]; [cbn; destruct (beq k' key); reflexivity|]. cbn [filter fst]. rewrite dvals_cons. destruct (beq_spec k key) as [->|NE]; cbn [negb].
  - rewrite IH. destruct (beq_spec k' key) as [->|NK]; [reflexivity|]. destruct (beq_spec key k'); [congruence|reflexivity].
  - rewrite dvals_cons, IH. destruct (beq_spec k' key) as [->|NK]; [|reflexivity]. destruct (beq_spec k key); [congruence|reflexivity].
Qed.
Fixpoint rem1 (v : bytes) (l : list (N * bytes)) : list (N * bytes) :=
  match l with [] => [] | e :: l' => if beq v (snd e) then l' else e :: rem1 v l' end.
Lemma ddel_ok : forall key v st l st' b, dsorted st -> dview key st l -> ddel key v st = (st', b) ->
  dsorted st' /\ (forall x, In x st' -> In x st) /\ dvals key st' = map pm (rem1 v l) /\ b = memV v (map snd l) /\ (forall k', k' <> key -> dvals k' st' = dvals k' st).
Proof.
  intros key v. induction st as [|[k pv] st IH]; intros l st' b D (V1 & V2 & V3) X; cbn [ddel] in X.
  - inversion X; subst. cbn in V1. destruct l; [|discriminate]. cbn. auto.
  - destruct D as [D1 D2]. rewrite dvals_cons in V1. destruct (beq_spec k key) as [->|NE].
    + destruct l as [|[n w] l]; [discriminate|]. inversion V1; subst. inversion V3; subst. destruct V2 as [V2 V4]. unfold pm in X at 1. cbn [fst snd] in *. rewrite unproem_proem in X by assumption. cbn [andb] in X. cbn [rem1 snd map memV existsb].
      destruct (beq_spec v w) as [->|NV].
      * inversion X; subst. split; [exact D2|]. split; [right; assumption|]. split; [assumption|]. split; [reflexivity|]. intros k' NK. rewrite dvals_cons. destruct (beq_spec key k'); [congruence|reflexivity].
      * destruct (ddel key v st) as [r b0] eqn:E. inversion X; subst. destruct (IH l r b D2) as (I1 & I2 & I3 & I4 & I5); [split; [assumption|split; assumption]|reflexivity|].
        split; [|split; [|split; [|split]]].
        -- split; [|exact I1]. rewrite Forall_forall in *. intros x IN. auto.
        -- intros x [<-|IN]; [left; reflexivity|right; auto].
        -- rewrite dvals_cons, beq_refl, I3. reflexivity.
        -- rewrite I4. reflexivity.
        -- intros k' NK. rewrite !dvals_cons, I5 by exact NK. reflexivity.
    + cbn [andb] in X. destruct (ddel key v st) as [r b0] eqn:E. inversion X; subst. destruct (IH l r b D2) as (I1 & I2 & I3 & I4 & I5); [split; [assumption|split; assumption]|reflexivity|].
      split; [|split; [|split; [|split]]].
      * split; [|exact I1]. rewrite Forall_forall in *. intros x IN. auto.
      * intros x [<-|IN]; [left; reflexivity|right; auto].
      * rewrite dvals_cons. destruct (beq_spec k key); [congruence|exact I3].
      * exact I4.
      * intros k' NK. rewrite !dvals_cons, I5 by exact NK. reflexivity.
Qed.
Lemma rem1_sub : forall v l e, In e (rem1 v l) -> In e l.
Proof. induction l as [|x l IH]; intros e IN; cbn in *; [destruct IN|]. destruct (beq v (snd x)); [right; exact IN|]. destruct IN; auto. Qed.
Lemma rem1_asc : forall v l, asc l -> asc (rem1 v l).
Proof.
  induction l as [|[n w] l IH]; intros A; cbn; [auto|]. destruct A as [A1 A2]. destruct (beq v w); [exact A2|]. split; [|auto]. rewrite Forall_forall in *. intros e IN. apply A1. eapply rem1_sub; eauto.
Qed.
Lemma rem1_snd : forall v l, NoDup (map snd l) -> map snd (rem1 v l) = remove1 v (map snd l).
Proof.
  induction l as [|[n w] l IH]; intros D; [reflexivity|]. cbn in D. inversion D; subst. cbn [rem1 snd map remove1 filter]. destruct (beq_spec v w) as [<-|NE]; cbn [negb].
  - symmetry. unfold remove1. apply filter_all. intros x IN. destruct (beq_spec v x); [subst; contradiction|reflexivity].
  - cbn. rewrite IH by assumption. reflexivity.
Qed.

(** ** Operations *)
Definition DInv (st : store) (t : sets) (B : N) : Prop :=
  dsorted st /\ (forall k, exists l, dview k st l /\ map snd l = t k /\ tnext l <= B) /\ (forall k, NoDup (t k)).

Lemma addAll_distinct : forall S vals, NoDup vals -> addAll S vals = S ++ filter (fun v => negb (memV v S)) vals.
Proof.
  intros S vals ND. rewrite addAll_spec. f_equal. f_equal.
  assert (G : forall seen, (forall x, In x vals -> memV x seen = false) -> osetV seen vals = vals); [|apply G; reflexivity].
  induction vals as [|v vals IH]; intros seen H; [reflexivity|]. inversion ND; subst. cbn. rewrite (H v) by (left; reflexivity). f_equal. apply IH; [assumption|].
  intros x IN. unfold memV. cbn [existsb]. destruct (beq_spec x v) as [->|]; [contradiction|]. apply H. right. exact IN.
Qed.
Lemma dop_eff_nodup : forall o s, NoDup s -> NoDup (dop_eff o s).
Proof. intros o s H. unfold dop_eff. destruct o as [k l|k [|v l]|k v|k|k v]; try (apply sop_eff_nodup; exact H). constructor. Qed.
Lemma putIoDup_ok : forall k vals st t B, DInv st t B -> goodkey k -> NoDup vals -> B + len vals <= MaxON ->
  exists st' l, putIoDupVals k vals st = Ok (st', existsb (fun v => negb (memV v (t k))) vals) /\ dsorted st' /\ dview k st' l /\ map snd l = addAll (t k) vals /\ tnext l <= B + len vals /\ (forall k', k' <> k -> dvals k' st' = dvals k' st).
Proof.
  intros k vals st t B (D & V & ND) (G1 & G2) NV SZ. destruct (V k) as (l & VL & VT & VB). unfold putIoDupVals. apply isnil_false in G1 as G1'. rewrite G1'. cbn [orb].
  destruct (isnil vals) eqn:NN.
  - apply isnil_true in NN. subst vals. exists st, l. cbn. split; [reflexivity|]. split; [exact D|]. split; [exact VL|]. split; [exact VT|]. split; [unfold len; cbn; lia|auto].
  - replace (match k with 46 :: _ => true | _ => false end) with false.
    2: { destruct k as [|c k]; [reflexivity|]. destruct (N.eq_dec c 46) as [->|NE]; [exfalso; apply (G2 k); reflexivity|]. destruct c as [|p]; [reflexivity|]. do 6 (destruct p as [p|p|]; try reflexivity). congruence. }
    cbn [orb]. rewrite (nextIdx_ok _ _ _ VL). cbn [bind].
    assert (GD : getIoDupVals k st = t k). { unfold getIoDupVals. rewrite G1'. destruct VL as (V1 & _ & V3). rewrite V1, unproem_map by exact V3. exact VT. }
    rewrite GD. assert (MX : MaxON + 1 = 16 ^ 32) by (vm_compute; reflexivity).
    destruct (dputFrom_ok k (t k) vals (tnext l) st l false D VL ltac:(lia) ltac:(lia)) as (st' & l2 & I1 & I2 & I3 & I4 & I5 & I6).
    exists st', (l ++ l2). rewrite I1, orb_false_r. split; [reflexivity|]. split; [exact I2|]. split; [exact I3|]. split; [rewrite map_app, VT, I4; symmetry; apply addAll_distinct; exact NV|]. split; [lia|exact I6].
Qed.
Lemma do_dop_ok : forall o st t B, DInv st t B -> goodkey (sop_key o) -> distinct o -> B + sop_size o <= MaxON ->
  exists st', do_dop o st = Ok (st', sop_out o (t (sop_key o))) /\ DInv st' (dop_spec t o) (B + sop_size o).
Proof.
  intros o st t B I GK DO SZ. pose proof I as (D & V & ND).
  assert (FIN : forall st' l, dsorted st' -> dview (sop_key o) st' l -> map snd l = dop_eff o (t (sop_key o)) -> tnext l <= B + sop_size o ->
     (forall k, k <> sop_key o -> dvals k st' = dvals k st) -> DInv st' (dop_spec t o) (B + sop_size o)).
  { intros st' l D' V' M' T' O'. split; [exact D'|]. split.
    - intros k. unfold dop_spec. destruct (beq_spec k (sop_key o)) as [->|NE]; [exists l; auto|]. destruct (V k) as (l0 & (A1 & A2 & A3) & A4 & A5). exists l0. split; [split; [rewrite O' by exact NE; exact A1|auto]|]. split; [exact A4|lia].
    - intros k. unfold dop_spec. destruct (beq k (sop_key o)); [apply dop_eff_nodup|]; apply ND. }
  assert (RM : forall k, goodkey k -> delIoDupVals k st = (filter (fun e => negb (beq (fst e) k)) st, negb (isnil (t k)))).
  { intros k (G1 & _). unfold delIoDupVals. apply isnil_false in G1. rewrite G1. f_equal. destruct (V k) as (l & (A1 & _) & A2 & _). rewrite A1, <- A2, !isnil_map. reflexivity. }
  destruct o as [k vals|k vals|k v|k|k v]; cbn [sop_key sop_size do_dop sop_out distinct] in *.
  - destruct (putIoDup_ok k vals st t B I GK DO SZ) as (st' & l & P1 & P2 & P3 & P4 & P5 & P6). exists st'. split; [exact P1|]. eapply FIN; eauto.
  - unfold pinIoDup. rewrite (RM k GK). cbn [fst]. set (st1 := filter (fun e => negb (beq (fst e) k)) st).
    assert (I1 : DInv st1 (fun k' => if beq k' k then [] else t k') B).
    { split; [apply filter_sorted; exact D|]. split.
      - intros k'. destruct (V k') as (l0 & (A1 & A2 & A3) & A4 & A5). destruct (beq_spec k' k) as [->|NE].
        + exists []. split; [split; [unfold st1; rewrite delAll_vals, beq_refl; reflexivity|split; constructor]|]. split; [reflexivity|cbn; lia].
        + exists l0. split; [split; [unfold st1; rewrite delAll_vals; destruct (beq_spec k' k); [congruence|exact A1]|auto]|auto].
      - intros k'. destruct (beq k' k); [constructor|apply ND]. }
    destruct (putIoDup_ok k vals st1 _ B I1 GK DO SZ) as (st' & l & P1 & P2 & P3 & P4 & P5 & P6). rewrite beq_refl in P1, P4. exists st'. split.
    + rewrite P1. f_equal. f_equal. destruct vals; reflexivity.
    + eapply FIN; eauto.
      * rewrite P4. destruct vals; reflexivity.
      * intros k' NK. rewrite P6 by exact NK. unfold st1. rewrite delAll_vals. destruct (beq_spec k' k); [congruence|reflexivity].
  - unfold addIoDupVal. destruct (putIoDup_ok k [v] st t B I GK) as (st' & l & P1 & P2 & P3 & P4 & P5 & P6). { constructor; [intros []|constructor]. } { unfold len. cbn. exact SZ. }
    exists st'. rewrite P1. split; [cbn; rewrite orb_false_r; reflexivity|]. eapply FIN; eauto.
  - rewrite (RM k GK). eexists. split; [reflexivity|]. apply (FIN _ []); [apply filter_sorted; exact D| |reflexivity|cbn; lia|].
    + split; [rewrite delAll_vals, beq_refl; reflexivity|split; constructor].
    + intros k' NK. rewrite delAll_vals. destruct (beq_spec k' k); [congruence|reflexivity].
  - unfold delIoDupVal. destruct GK as (G1 & _). apply isnil_false in G1. rewrite G1. destruct (ddel k v st) as [st' b] eqn:E. destruct (V k) as (l & VL & VT & VB).
    destruct (ddel_ok k v st l st' b D VL E) as (E1 & E2 & E3 & E4 & E5). exists st'. split; [rewrite E4, VT; reflexivity|]. destruct VL as (A1 & A2 & A3). apply (FIN _ (rem1 v l)); [exact E1| | | |exact E5].
    + split; [exact E3|]. split; [apply rem1_asc; exact A2|]. rewrite Forall_forall in *. intros e IN. apply A3. eapply rem1_sub; eauto.
    + cbn. rewrite rem1_snd by (rewrite VT; apply ND). rewrite VT. reflexivity.
    + apply tnext_le in VB. apply tnext_le. rewrite Forall_forall in *. intros e IN. specialize (VB _ (rem1_sub _ _ _ IN)). lia.
Qed.
Lemma do_dops_ok : forall ops st t B, DInv st t B -> Forall (fun o => goodkey (sop_key o) /\ distinct o) ops -> B + total ops <= MaxON ->
  exists st', do_dops ops st = Ok (st', douts ops t) /\ DInv st' (fold_left dop_spec ops t) (B + total ops).
Proof.
  induction ops as [|o ops IH]; intros st t B I F SZ.
  - exists st. split; [reflexivity|]. replace (B + total []) with B by (unfold total; cbn; lia). exact I.
  - inversion F; subst. destruct H1 as [H1 H1']. assert (E : total (o :: ops) = sop_size o + total ops) by (unfold total at 1; cbn; rewrite total_from; lia). rewrite E in *.
    destruct (do_dop_ok o st t B I H1 H1' ltac:(lia)) as (st1 & D1 & I1). destruct (IH st1 _ _ I1 H2 ltac:(lia)) as (st' & D2 & I2).
    exists st'. cbn [do_dops]. rewrite D1. cbn [bind]. rewrite D2. cbn [bind fold_left douts]. split; [reflexivity|]. rewrite N.add_assoc. exact I2.
Qed.
Lemma dinv0 : DInv [] sets0 0.
Proof. split; [exact Logic.I|]. split; [|constructor]. intros k. exists []. split; [split; [reflexivity|split; constructor]|]. split; [reflexivity|cbn; lia]. Qed.
Lemma dreads : forall st t B k, DInv st t B -> goodkey k -> getIoDupVals k st = t k /\ getIoDupValLast k st = olast (t k) /\ cntIoDups k st = len (t k).
Proof.
  intros st t B k (D & V & _) (G1 & _). apply isnil_false in G1. destruct (V k) as (l & (A1 & A2 & A3) & A4 & _). unfold getIoDupVals, getIoDupValLast, cntIoDups. rewrite G1, A1, <- A4. split; [apply unproem_map; exact A3|]. split.
  - rewrite !olast_map. destruct (olast_cases _ l) as [(-> & ->)|(a & [n v] & -> & ->)]; [reflexivity|]. unfold pm. cbn [fst snd]. rewrite unproem_proem; [reflexivity|]. apply Forall_app in A3. destruct A3 as [_ A3]. inversion A3; subst. assumption.
  - unfold len. rewrite !map_length. reflexivity.
Qed.
