(** Lemmas on thresholds. *)
From Coq Require Import Setoid Morphisms.
From Verif Require Import Prelude B64Model B64Proofs MatterModel MatterProofs MatterSpec MatterThms SubsModel SubsProofs SubsThms ThModel ThSpec.
Ltac Zify.zify_post_hook ::= Z.div_mod_to_equations.

(** ** satisfaction *)

Lemma memN_In : forall x l, memN x l = true <-> In x l.
Proof.
  intros. unfold memN. rewrite existsb_exists. split.
  - intros (y & H & E). apply N.eqb_eq in E. subst. exact H.
  - intros H. exists x. split; [exact H|apply N.eqb_refl].
Qed.

Lemma sat_mem : forall size is w, Forall (fun i => i < size) is ->
  sat (map (fun i => memN (N.of_nat i) is) (seq 0 (N.to_nat size))) w = memN w is.
Proof.
  intros size is w H. unfold sat.
  destruct (N.lt_ge_cases w size) as [L|L].
  - rewrite (nth_indep _ _ ((fun i => memN (N.of_nat i) is) 0%nat)) by (rewrite map_length, seq_length; lia).
    rewrite (map_nth (fun i => memN (N.of_nat i) is)). rewrite seq_nth by lia. rewrite Nat.add_0_l, N2Nat.id. reflexivity.
  - rewrite nth_overflow by (rewrite map_length, seq_length; lia).
    destruct (memN w is) eqn:E; [|reflexivity]. apply memN_In in E. rewrite Forall_forall in H. specialize (H _ E). lia.
Qed.

Lemma nestedSum_spec : forall sats is, (forall w, sat sats w = memN w is) -> forall vs p acc,
  exists q, nestedSum sats vs p acc = (q, p + len vs) /\ (q == acc + signed_weight is (number_leaves p vs))%Q.
Proof.
  intros sats is HS. induction vs as [|w vs IH]; intros p acc; cbn [nestedSum number_leaves].
  - exists acc. split; [f_equal; unfold len; cbn; lia|]. unfold signed_weight. cbn. ring.
  - destruct (IH (p + 1) (if sat sats p then acc + w else acc)%Q) as (q & E1 & E2). exists q. split.
    + rewrite E1. f_equal. unfold len. cbn [List.length]. lia.
    + rewrite E2. rewrite HS. unfold signed_weight. cbn [filter fst]. unfold memN.
      destruct (existsb (N.eqb p) is); cbn [map snd total]; ring.
Qed.

Definition contrib (is : list N) (e : nelem) : Q :=
  match e with
  | NW x => signed_weight is [x]
  | NN k xs => if Qle_bool 1 (signed_weight is xs) then k else 0%Q
  end.

Lemma contrib_ok : forall is e, contributes is e (contrib is e).
Proof.
  intros is [x|k xs]; cbn; [reflexivity|]. destruct (Qle_bool 1 (signed_weight is xs)) eqn:E.
  - left. apply Qle_bool_iff in E. auto.
  - right. split; [|reflexivity]. apply Qnot_le_lt. intros L. apply Qle_bool_iff in L. congruence.
Qed.

Lemma contrib_unique : forall is e q, contributes is e q -> q = contrib is e.
Proof.
  intros is [x|k xs] q; cbn; [auto|]. intros [[H ->]|[H ->]].
  - apply Qle_bool_iff in H. rewrite H. reflexivity.
  - destruct (Qle_bool 1 (signed_weight is xs)) eqn:E; [|reflexivity]. apply Qle_bool_iff in E.
    exfalso. apply (Qlt_not_le _ _ H E).
Qed.

Lemma clause_holds_iff : forall is cl, clause_holds is cl <-> (1 <= total (map (contrib is) cl))%Q.
Proof.
  intros is cl. split.
  - intros (qs & F & L). assert (qs = map (contrib is) cl) as <-; [|exact L].
    induction F as [|e q cl qs H F IH]; [reflexivity|]. cbn [map]. f_equal; [apply contrib_unique; exact H|].
    clear L. assert (X : forall l l', Forall2 (contributes is) l l' -> l' = map (contrib is) l).
    { intros l l' G. induction G; [reflexivity|]. cbn. f_equal; [apply contrib_unique; assumption|assumption]. }
    apply X. exact F.
  - intros L. exists (map (contrib is) cl). split; [|exact L]. clear L. induction cl; cbn; constructor; auto. apply contrib_ok.
Qed.

Lemma leaves_EW : forall w cl, len (leaves (EW w :: cl)) = 1 + len (leaves cl).
Proof. intros. unfold leaves, len. cbn [flat_map app List.length]. lia. Qed.
Lemma leaves_EN : forall k vs cl, len (leaves (EN k vs :: cl)) = len vs + len (leaves cl).
Proof. intros. unfold leaves. cbn [flat_map]. rewrite len_app. reflexivity. Qed.

Lemma clauseSum_spec : forall sats is, (forall w, sat sats w = memN w is) -> forall cl p acc,
  exists q, clauseSum sats cl p acc = (q, p + len (leaves cl)) /\ (q == acc + total (map (contrib is) (number_clause p cl)))%Q.
Proof.
  intros sats is HS. induction cl as [|e cl IH]; intros p acc; cbn [clauseSum number_clause].
  - exists acc. split; [f_equal; unfold len; cbn; lia|]. cbn. ring.
  - destruct e as [w|k vs].
    + destruct (IH (p + 1) (if sat sats p then acc + w else acc)%Q) as (q & E1 & E2). exists q. split.
      * rewrite E1. f_equal. rewrite leaves_EW. lia.
      * rewrite E2, HS. cbn [map total contrib]. unfold signed_weight. cbn [filter fst]. unfold memN.
        destruct (existsb (N.eqb p) is); cbn [map snd total]; ring.
    + destruct (nestedSum_spec sats is HS vs p 0%Q) as (vq & V1 & V2). rewrite V1.
      destruct (IH (p + len vs) (if Qle_bool 1 vq then acc + k else acc)%Q) as (q & E1 & E2). exists q. split.
      * rewrite E1. f_equal. rewrite leaves_EN. lia.
      * rewrite E2. cbn [map total contrib].
        assert (Qle_bool 1 vq = Qle_bool 1 (signed_weight is (number_leaves p vs))) as <-.
        { assert (vq == signed_weight is (number_leaves p vs))%Q by (rewrite V2; ring).
          apply eq_true_iff_eq. rewrite !Qle_bool_iff. rewrite H. tauto. }
        destruct (Qle_bool 1 vq); ring.
Qed.

Lemma allClauses_spec : forall sats is, (forall w, sat sats w = memN w is) -> forall th p,
  allClauses sats th p = true <-> Forall (clause_holds is) (number_clauses p th).
Proof.
  intros sats is HS. induction th as [|cl th IH]; intros p; cbn [allClauses number_clauses].
  - split; constructor.
  - destruct (clauseSum_spec sats is HS cl p 0%Q) as (q & E1 & E2). rewrite E1. unfold lt1.
    assert (X : Qle_bool 1 q = true <-> clause_holds is (number_clause p cl)).
    { rewrite clause_holds_iff, Qle_bool_iff. rewrite E2. setoid_replace (0 + total (map (contrib is) (number_clause p cl)))%Q with (total (map (contrib is) (number_clause p cl))) by ring. tauto. }
    destruct (Qle_bool 1 q); cbn [negb].
    + rewrite IH. split; intros H; [constructor; [apply X; reflexivity|exact H]|inv H; assumption].
    + split; [discriminate|]. intros H. inv H. apply X in H2. discriminate.
Qed.

Lemma fold_csize : forall cl a, fold_left (fun s e => s + esize e) cl a = a + len (leaves cl).
Proof.
  induction cl as [|e cl IH]; intros a; cbn [fold_left].
  - unfold len. cbn. lia.
  - rewrite IH. destruct e; cbn [esize]; rewrite ?leaves_EW, ?leaves_EN; lia.
Qed.

Lemma satisfy_weighted_spec : forall th is, is <> [] -> Forall (fun i => i < thsize (TWt th)) is ->
  (satisfy_weighted th is = true <-> holds is th).
Proof.
  intros th is Hne Hb. unfold satisfy_weighted. destruct is as [|i0 is']; [congruence|]. set (is := i0 :: is') in *.
  assert (existsb (fun i => thsize (TWt th) <=? i) is = false) as ->.
  { destruct (existsb _ is) eqn:E; [|reflexivity]. apply existsb_exists in E. destruct E as (x & Hx & E). rewrite Forall_forall in Hb. specialize (Hb _ Hx). lia. }
  apply allClauses_spec. intros w. apply sat_mem. exact Hb.
Qed.

(** monotonicity of the specification for non negative weights *)
Definition nonneg_nelem (e : nelem) : Prop :=
  match e with NW x => (0 <= snd x)%Q | NN k xs => (0 <= k)%Q /\ Forall (fun x : leaf => (0 <= snd x)%Q) xs end.

Lemma signed_weight_mono : forall S T xs, incl S T -> Forall (fun x : leaf => (0 <= snd x)%Q) xs ->
  (0 <= signed_weight S xs /\ signed_weight S xs <= signed_weight T xs)%Q.
Proof.
  intros S T xs Hi H. unfold signed_weight. induction H as [|x xs Hx H IH]; cbn [filter map total].
  - split; apply Qle_refl.
  - destruct IH as [I1 I2].
    destruct (existsb (N.eqb (fst x)) S) eqn:ES.
    + assert (existsb (N.eqb (fst x)) T = true) as ->.
      { apply memN_In in ES. apply memN_In. auto. }
      cbn [map total]. split; [|apply Qplus_le_r; exact I2].
      rewrite <- (Qplus_0_l 0). apply Qplus_le_compat; assumption.
    + split; [exact I1|]. destruct (existsb (N.eqb (fst x)) T); [|exact I2]. cbn [map total].
      rewrite <- (Qplus_0_l (total (map snd (filter (fun x0 => existsb (N.eqb (fst x0)) S) xs)))). apply Qplus_le_compat; assumption.
Qed.

Lemma contrib_mono : forall S T e, incl S T -> nonneg_nelem e -> (contrib S e <= contrib T e)%Q.
Proof.
  intros S T [x|k xs] Hi H; cbn [contrib nonneg_nelem] in *.
  - apply (signed_weight_mono S T [x]); auto.
  - destruct H as [Hk H]. destruct (signed_weight_mono S T xs Hi H) as [_ M].
    destruct (Qle_bool 1 (signed_weight S xs)) eqn:E1.
    + assert (Qle_bool 1 (signed_weight T xs) = true) as ->; [|apply Qle_refl].
      apply Qle_bool_iff in E1. apply Qle_bool_iff. eapply Qle_trans; eassumption.
    + destruct (Qle_bool 1 (signed_weight T xs)); [exact Hk|apply Qle_refl].
Qed.

Lemma total_mono : forall S T cl, incl S T -> Forall nonneg_nelem cl -> (total (map (contrib S) cl) <= total (map (contrib T) cl))%Q.
Proof.
  intros S T cl Hi H. induction H; cbn; [apply Qle_refl|]. apply Qplus_le_compat; [apply contrib_mono; assumption|assumption].
Qed.

Lemma nonneg_leaves : forall vs p, Forall (fun w => 0 <= w)%Q vs -> Forall (fun x : leaf => (0 <= snd x)%Q) (number_leaves p vs).
Proof. induction vs; intros p H; cbn; [constructor|]. inv H. constructor; auto. Qed.

Definition nonneg_elem (e : elem) : Prop := match e with EW w => (0 <= w)%Q | EN k vs => (0 <= k)%Q /\ Forall (fun w => 0 <= w)%Q vs end.

Lemma nonneg_clause : forall cl p, Forall nonneg_elem cl -> Forall nonneg_nelem (number_clause p cl).
Proof.
  induction cl as [|e cl IH]; intros p H; cbn; [constructor|]. inv H. destruct e; constructor; auto.
  destruct H2. split; [assumption|apply nonneg_leaves; assumption].
Qed.

Lemma holds_mono : forall S T th, incl S T -> Forall (Forall nonneg_elem) th -> holds S th -> holds T th.
Proof.
  intros S T th Hi. unfold holds. generalize 0 as p. induction th as [|cl th IH]; intros p HN H; cbn in *; [constructor|].
  inv HN. inv H. constructor; [|apply IH; assumption].
  rewrite clause_holds_iff in *. eapply Qle_trans; [eassumption|]. apply total_mono; [assumption|apply nonneg_clause; assumption].
Qed.

Lemma oke_nonneg : forall e, oke e -> nonneg_elem e.
Proof.
  intros [w|k vs]; cbn; unfold okw; intros H.
  - tauto.
  - destruct H as [H1 H2]. split; [tauto|]. eapply Forall_impl; [|exact H2]. cbn. tauto.
Qed.

Lemma okth_nonneg : forall th, okth th -> Forall (Forall nonneg_elem) th.
Proof. intros th [_ H]. eapply Forall_impl; [|exact H]. intros cl. apply Forall_impl. exact oke_nonneg. Qed.

(** ** representations *)

Definition nosep (sep : N) (s : bytes) : Prop := Forall (fun ch => ch <> sep) s.

Lemma splitb_nosep : forall sep s, nosep sep s -> splitb sep s = [s].
Proof.
  intros sep s H. induction H as [|ch s Hc H IH]; [reflexivity|]. cbn [splitb].
  apply N.eqb_neq in Hc. rewrite Hc, IH. reflexivity.
Qed.

Lemma splitb_app : forall sep s r, nosep sep s -> splitb sep (s ++ sep :: r) = s :: splitb sep r.
Proof.
  intros sep s r H. induction H as [|ch s Hc H IH]; cbn [app splitb].
  - rewrite N.eqb_refl. reflexivity.
  - apply N.eqb_neq in Hc. rewrite Hc, IH. reflexivity.
Qed.

Lemma split_join : forall sep l, l <> [] -> Forall (nosep sep) l -> splitb sep (joinb sep l) = l.
Proof.
  intros sep l. induction l as [|x l IH]; intros Hne H; [congruence|]. inv H. destruct l as [|y l].
  - apply splitb_nosep. assumption.
  - change (joinb sep (x :: y :: l)) with (x ++ sep :: joinb sep (y :: l)). rewrite splitb_app by assumption.
    f_equal. apply IH; [discriminate|assumption].
Qed.

Lemma partition_nosep : forall sep s, nosep sep s -> partitionb sep s = (s, false, []).
Proof.
  intros sep s H. induction H as [|ch s Hc H IH]; [reflexivity|]. cbn [partitionb].
  apply N.eqb_neq in Hc. rewrite Hc, IH. reflexivity.
Qed.

Lemma partition_app : forall sep s r, nosep sep s -> partitionb sep (s ++ sep :: r) = (s, true, r).
Proof.
  intros sep s r H. induction H as [|ch s Hc H IH]; cbn [app partitionb].
  - rewrite N.eqb_refl. reflexivity.
  - apply N.eqb_neq in Hc. rewrite Hc, IH. reflexivity.
Qed.

Lemma join_nosep : forall sep sep' l, sep' <> sep -> Forall (nosep sep) l -> nosep sep (joinb sep' l).
Proof.
  intros sep sep' l Hd H. unfold nosep in *. induction H as [|x l Hx H IH]; [constructor|]. destruct l as [|y l]; [assumption|].
  change (joinb sep' (x :: y :: l)) with (x ++ sep' :: joinb sep' (y :: l)). apply Forall_app. split; [assumption|]. constructor; assumption.
Qed.

Definition digchr (ch : N) : Prop := 48 <= ch <= 57.

Lemma decstr_dig : forall v, Forall digchr (decstr v).
Proof.
  intros v. unfold decstr. apply Forall_map. eapply Forall_impl; [|apply (to_digits_bound 10); lia].
  intros d Hd. unfold digchr. cbn beta in *. lia.
Qed.

Lemma decdigits_map : forall l, Forall (fun d => d < 10) l -> decdigits (map (fun d => 48 + d) l) = Some l.
Proof.
  induction l as [|x l IH]; intros H; [reflexivity|]. inv H. cbn [map decdigits]. rewrite (IH H3).
  unfold decval. replace ((48 <=? 48 + x) && (48 + x <=? 57)) with true by lia. do 2 f_equal. lia.
Qed.

Lemma decstr_ne : forall v, decstr v <> [].
Proof.
  intros v E. apply (f_equal (@List.length _)) in E. unfold decstr in E. rewrite map_length, to_digits_length in E.
  pose proof (ndigits_pos (N.size_nat v) 10 v). cbn in E. lia.
Qed.

Lemma decint_decstr : forall v, decint (decstr v) = Some v.
Proof.
  intros v. unfold decint. pose proof (decstr_ne v) as Hne. destruct (decstr v) eqn:E; [congruence|]. rewrite <- E.
  unfold decstr. rewrite decdigits_map by (apply to_digits_bound; lia). f_equal.
  apply of_to_digits; [lia|]. apply ndigits_bound; [lia|apply size_bound].
Qed.

Lemma decdigits_none : forall s r ch, decval ch = None -> decdigits (s ++ ch :: r) = None.
Proof.
  induction s as [|x s IH]; intros r ch H; cbn [app decdigits].
  - rewrite H. reflexivity.
  - destruct (decval x); [|reflexivity]. rewrite IH by assumption. reflexivity.
Qed.

Lemma dig_nosep : forall sep s, Forall digchr s -> ~ digchr sep -> nosep sep s.
Proof. intros sep s H Hn. eapply Forall_impl; [|exact H]. cbn. intros a Ha E. subst. contradiction. Qed.

Lemma wstr_cases : forall w, okw w ->
  (w = (0 # 1)%Q /\ (forall sep, wstr sep w = decstr 0)) \/ (w = (1 # 1)%Q /\ (forall sep, wstr sep w = decstr 1)) \/
  (exists n d, w = mkQ n d /\ forall sep, wstr sep w = decstr n ++ sep :: decstr (Npos d)).
Proof.
  intros w [[H0 H1] HR]. unfold wstr.
  destruct (Qle_bool w 0) eqn:E0.
  - left. apply Qle_bool_iff in E0. assert (w == 0)%Q by (apply Qle_antisym; assumption).
    assert (w = 0 # 1)%Q as ->; [|split; reflexivity].
    rewrite <- HR. apply Qred_complete in H. rewrite H. reflexivity.
  - destruct (Qle_bool 1 w) eqn:E1.
    + right. left. apply Qle_bool_iff in E1. assert (w == 1)%Q by (apply Qle_antisym; assumption).
      assert (w = 1 # 1)%Q as ->; [|split; reflexivity].
      rewrite <- HR. apply Qred_complete in H. rewrite H. reflexivity.
    + right. right. exists (Z.to_N (Qnum w)), (Qden w). split; [|reflexivity].
      unfold mkQ. destruct w as [n d]. cbn in *. f_equal. rewrite Z2N.id; [reflexivity|].
      unfold Qle in H0. cbn in H0. lia.
Qed.

Lemma weight_wstr : forall w, okw w -> weight (wstr 47 w) = Ok w.
Proof.
  intros w H. destruct (wstr_cases w H) as [(-> & E)|[(-> & E)|(n & d & -> & E)]]; rewrite E.
  - vm_compute. reflexivity.
  - vm_compute. reflexivity.
  - unfold weight. assert (decint (decstr n ++ 47 :: decstr (N.pos d)) = None) as ->.
    { unfold decint. rewrite decdigits_none by reflexivity. destruct (decstr n ++ _); reflexivity. }
    rewrite splitb_app by (apply dig_nosep; [apply decstr_dig|unfold digchr; lia]).
    rewrite splitb_nosep by (apply dig_nosep; [apply decstr_dig|unfold digchr; lia]).
    rewrite !decint_decstr. cbn [bind]. destruct H as [[H0 H1] HR]. rewrite HR.
    apply Qle_bool_iff in H0, H1. rewrite H0, H1. reflexivity.
Qed.

Definition wchr (sep ch : N) : Prop := digchr ch \/ ch = sep.
Lemma wstr_chr : forall sep w, okw w -> Forall (wchr sep) (wstr sep w).
Proof.
  intros sep w H. assert (D : forall v, Forall (wchr sep) (decstr v)).
  { intros v. eapply Forall_impl; [|apply decstr_dig]. left. assumption. }
  destruct (wstr_cases w H) as [(-> & E)|[(-> & E)|(n & d & -> & E)]]; rewrite E; auto.
  apply Forall_app. split; [auto|]. constructor; [right; reflexivity|auto].
Qed.

Lemma wstr_nosep : forall sep s w, okw w -> ~ digchr sep -> sep <> s -> nosep sep (wstr s w).
Proof.
  intros sep s w H Hn Hd. eapply Forall_impl; [|apply wstr_chr; exact H]. intros ch [A|A] E; subst; contradiction.
Qed.

Definition rep (ch : N) : N := if ch =? 115 then 47 else ch.
Lemma map_rep_dig : forall v, map rep (decstr v) = decstr v.
Proof.
  intros v. rewrite <- (map_id (decstr v)) at 2. apply map_ext_in. intros a Ha.
  pose proof (decstr_dig v) as D. rewrite Forall_forall in D. specialize (D _ Ha). unfold digchr in D. unfold rep.
  destruct (N.eqb_spec a 115); [lia|reflexivity].
Qed.

Lemma map_rep_wstr : forall w, okw w -> map rep (wstr 115 w) = wstr 47 w.
Proof.
  intros w H. destruct (wstr_cases w H) as [(-> & E)|[(-> & E)|(n & d & -> & E)]]; rewrite !E.
  - apply map_rep_dig.
  - apply map_rep_dig.
  - rewrite map_app. cbn [map]. rewrite !map_rep_dig. reflexivity.
Qed.

Lemma map_join : forall f sep l, f sep = sep -> map f (joinb sep l) = joinb sep (map (map f) l).
Proof.
  intros f sep l Hf. induction l as [|x l IH]; [reflexivity|]. destruct l as [|y l]; [reflexivity|].
  change (joinb sep (x :: y :: l)) with (x ++ sep :: joinb sep (y :: l)). rewrite map_app. cbn [map] in *. rewrite Hf, IH. reflexivity.
Qed.

(** the text with '/' *)
Definition estr47 (e : elem) : bytes :=
  match e with EW w => wstr 47 w | EN k vs => joinb 107 [wstr 47 k; joinb 118 (map (wstr 47) vs)] end.

Lemma map_rep_estr : forall e, oke e -> map rep (estr e) = estr47 e.
Proof.
  intros [w|k vs] H; cbn [estr estr47 oke] in *.
  - apply map_rep_wstr. exact H.
  - destruct H as [Hk Hv]. rewrite map_join by reflexivity. cbn [map]. rewrite map_rep_wstr by assumption.
    rewrite map_join by reflexivity. rewrite map_map. do 2 f_equal. f_equal. f_equal. apply map_ext_in. intros a Ha.
    rewrite Forall_forall in Hv. apply map_rep_wstr. auto.
Qed.

Lemma map_rep_bext : forall th, Forall (Forall oke) th ->
  map rep (bextOf th) = joinb 97 (map (fun cl => joinb 99 (map estr47 cl)) th).
Proof.
  intros th H. unfold bextOf. rewrite map_join by reflexivity. rewrite map_map. f_equal. apply map_ext_in. intros cl Hcl.
  rewrite map_join by reflexivity. rewrite map_map. f_equal. apply map_ext_in. intros e He. apply map_rep_estr.
  rewrite Forall_forall in H. specialize (H _ Hcl). rewrite Forall_forall in H. auto.
Qed.

Lemma mapr_map : forall A B C (f : B -> res C) (g : A -> B) (h : A -> C) l, (forall a, In a l -> f (g a) = Ok (h a)) ->
  mapr f (map g l) = Ok (map h l).
Proof.
  induction l as [|x l IH]; intros H; [reflexivity|]. cbn [map mapr]. rewrite H by (left; reflexivity). cbn [bind].
  rewrite IH by (intros; apply H; right; assumption). reflexivity.
Qed.

Lemma mapr_weights : forall vs, Forall okw vs -> mapr weight (map (wstr 47) vs) = Ok vs.
Proof.
  intros vs H. rewrite (mapr_map _ _ _ weight (wstr 47) (fun x => x)).
  - rewrite map_id. reflexivity.
  - rewrite Forall_forall in H. intros. apply weight_wstr. auto.
Qed.

Lemma limenElem_estr : forall e, oke e -> badElem e = false -> limenElem (estr47 e) = Ok e.
Proof.
  intros [w|k vs] H B; cbn [estr47 oke badElem] in *; unfold limenElem.
  - rewrite partition_nosep by (apply wstr_nosep; [assumption|unfold digchr; lia|lia]). rewrite weight_wstr by assumption. reflexivity.
  - destruct H as [Hk Hv]. cbn [joinb].
    rewrite partition_app by (apply wstr_nosep; [assumption|unfold digchr; lia|lia]). rewrite weight_wstr by assumption. cbn [bind].
    rewrite split_join.
    + rewrite mapr_weights by assumption. reflexivity.
    + destruct vs; [vm_compute in B; discriminate|discriminate].
    + apply Forall_map. eapply Forall_impl; [|exact Hv]. intros a Ha. apply wstr_nosep; [assumption|unfold digchr; lia|lia].
Qed.

Lemma estr_nosep : forall sep s e, oke e -> ~ digchr sep -> sep <> 47 -> sep <> 115 -> sep <> 107 -> sep <> 118 -> s = estr e \/ s = estr47 e -> nosep sep s.
Proof.
  intros sep s [w|k vs] H H0 H1 H2 H3 H4 [->| ->]; cbn [estr estr47 oke] in *.
  - apply wstr_nosep; auto.
  - apply wstr_nosep; auto.
  - destruct H as [Hk Hv]. apply join_nosep; [auto|]. constructor; [apply wstr_nosep; auto|]. constructor; [|constructor].
    apply join_nosep; [auto|]. apply Forall_map. eapply Forall_impl; [|exact Hv]. intros. apply wstr_nosep; auto.
  - destruct H as [Hk Hv]. apply join_nosep; [auto|]. constructor; [apply wstr_nosep; auto|]. constructor; [|constructor].
    apply join_nosep; [auto|]. apply Forall_map. eapply Forall_impl; [|exact Hv]. intros. apply wstr_nosep; auto.
Qed.

Lemma bad_parts : forall th cl e, existsb badClause th = false -> In cl th -> cl <> [] /\ (In e cl -> badElem e = false).
Proof.
  intros th cl e H Hin. assert (B : badClause cl = false).
  { destruct (badClause cl) eqn:E; [|reflexivity]. exfalso. assert (existsb badClause th = true) by (apply existsb_exists; eauto). congruence. }
  split.
  - intros ->. vm_compute in B. discriminate.
  - intros He. unfold badClause in B. apply orb_false_iff in B. destruct B as [B _].
    destruct (badElem e) eqn:E; [|reflexivity]. exfalso. assert (existsb badElem cl = true) by (apply existsb_exists; eauto). congruence.
Qed.

Lemma limen_parse : forall th, okth th -> existsb badClause th = false ->
  mapr (fun cl => mapr limenElem (splitb 99 cl)) (splitb 97 (map rep (bextOf th))) = Ok th.
Proof.
  intros th [Hne H] B. rewrite map_rep_bext by assumption. rewrite split_join.
  - rewrite (mapr_map _ _ _ (fun cl => mapr limenElem (splitb 99 cl)) (fun cl => joinb 99 (map estr47 cl)) (fun cl => cl)).
    + rewrite map_id. reflexivity.
    + intros cl Hcl. rewrite Forall_forall in H. pose proof (H _ Hcl) as Ho. rewrite Forall_forall in Ho.
      rewrite split_join.
      * rewrite (mapr_map _ _ _ limenElem estr47 (fun e => e)).
        -- rewrite map_id. reflexivity.
        -- intros e He. apply limenElem_estr; [auto|]. destruct (bad_parts th cl e B Hcl); auto.
      * destruct (bad_parts th cl (EW 0) B Hcl) as [C _]. destruct cl; [congruence|discriminate].
      * apply Forall_map. apply Forall_forall. intros e He. eapply (estr_nosep 99 _ e); auto; unfold digchr; lia.
  - destruct th; [congruence|discriminate].
  - apply Forall_map. eapply Forall_impl; [|exact H]. intros cl Ho. apply join_nosep; [lia|].
    apply Forall_map. eapply Forall_impl; [|exact Ho]. intros e He. eapply (estr_nosep 97 _ e); auto; unfold digchr; lia.
Qed.

Lemma sith_parse : forall th, Forall (Forall oke) th -> mapr (mapr selemWeight) (map (map selemOf) th) = Ok th.
Proof.
  intros th H. rewrite (mapr_map _ _ _ (mapr selemWeight) (map selemOf) (fun cl => cl)); [rewrite map_id; reflexivity|].
  intros cl Hcl. rewrite Forall_forall in H. specialize (H _ Hcl). rewrite Forall_forall in H.
  rewrite (mapr_map _ _ _ selemWeight selemOf (fun e => e)); [rewrite map_id; reflexivity|].
  intros e He. specialize (H _ He). destruct e as [w|k vs]; cbn [selemOf selemWeight oke] in *.
  - rewrite weight_wstr by assumption. reflexivity.
  - destruct H as [Hk Hv]. rewrite weight_wstr by assumption. cbn [bind]. rewrite mapr_weights by assumption. reflexivity.
Qed.

Lemma mapr_ok : forall A B (f : A -> res B) (P : B -> Prop), (forall a b, f a = Ok b -> P b) -> forall l r, mapr f l = Ok r -> Forall P r /\ List.length r = List.length l.
Proof.
  intros A B f P HP. induction l as [|x l IH]; intros r H; cbn [mapr] in H; [inv H; split; [constructor|reflexivity]|].
  apply bind_ok in H. destruct H as (y & H1 & H). apply bind_ok in H. destruct H as (r' & H2 & H). inv H.
  destruct (IH _ H2). split; [constructor; eauto|cbn; congruence].
Qed.

Lemma weight_okw : forall s w, weight s = Ok w -> okw w.
Proof.
  intros s w H. unfold weight in H. apply bind_ok in H. destruct H as (q & H1 & H).
  destruct (negb (Qle_bool 0 q && Qle_bool q 1)) eqn:E; [discriminate|]. inv H.
  apply negb_false_iff in E. apply andb_true_iff in E. destruct E as [E0 E1]. apply Qle_bool_iff in E0, E1.
  split; [split; assumption|]. destruct (decint s) as [n|].
  - inv H1. unfold mkQ. unfold Qred. pose proof (Z.ggcd_gcd (Z.of_N n) 1). pose proof (Z.ggcd_correct_divisors (Z.of_N n) 1).
    destruct (Z.ggcd (Z.of_N n) 1) as (g & a & b). cbn in *. rewrite Z.gcd_1_r in H. subst g. destruct H0. f_equal; [lia|]. destruct b; [lia| |lia]. cbn. lia.
  - destruct (splitb 47 s) as [|a [|b [|? ?]]]; try discriminate. destruct (decint a); [|discriminate].
    destruct (decint b) as [[|d]|]; try discriminate. apply ok_inj in H1. subst w. apply Qred_complete, Qred_correct.
Qed.

Lemma selemWeight_ok : forall e e', selemWeight e = Ok e' -> oke e'.
Proof.
  intros [w|k vs] e' H; cbn in H; apply bind_ok in H; destruct H as (q & H1 & H).
  - inv H. cbn. eapply weight_okw; eassumption.
  - apply bind_ok in H. destruct H as (qs & H2 & H). inv H. cbn. split; [eapply weight_okw; eassumption|].
    eapply mapr_ok; [|exact H2]. exact weight_okw.
Qed.

Lemma limenElem_ok : forall e e', limenElem e = Ok e' -> oke e'.
Proof.
  intros s e' H. unfold limenElem in H. destruct (partitionb 107 s) as [[k b] v]. destruct b.
  - apply bind_ok in H; destruct H as (q & H1 & H). apply bind_ok in H. destruct H as (qs & H2 & H). inv H. cbn. split; [eapply weight_okw; eassumption|].
    eapply mapr_ok; [|exact H2]. exact weight_okw.
  - apply bind_ok in H; destruct H as (q & H1 & H). inv H. cbn. eapply weight_okw; eassumption.
Qed.

Lemma processWeighted_inv : forall th t, processWeighted th = Ok t -> t = TWt th /\ existsb badClause th = false /\ exists m, bexter_of_bext (bextOf th) true = Ok m.
Proof.
  intros th t H. unfold processWeighted in H. destruct (existsb badClause th); [discriminate|].
  apply bind_ok in H. destruct H as (m & H1 & H). inv H. eauto.
Qed.

Lemma processUnweighted_inv : forall n t, processUnweighted n = Ok t -> t = TNum n /\ n < 256 ^ 17.
Proof.
  intros n t H. unfold processUnweighted in H. apply bind_ok in H. destruct H as (m & H1 & H). inv H. split; [reflexivity|].
  destruct (N.lt_ge_cases n (256 ^ 17)) as [L|L]; [exact L|]. exfalso. rewrite number_none in H1.
  assert (numCode n = Err InvalidValueError) as E.
  { clear H1. assert (forall k, k <= 17 -> (n <=? 256 ^ k - 1) = false) as X.
    { intros k Hk. assert (256 ^ k <= 256 ^ 17) by (apply N.pow_le_mono_r; lia). assert (256 ^ k <> 0) by (apply N.pow_nonzero; lia). lia. }
    unfold numCode. rewrite !X by lia. reflexivity. }
  rewrite E in H1. discriminate.
Qed.

(** Every threshold has one of the two normal forms. *)
Lemma threshold_norm : forall t, threshold t ->
  (exists n, t = TNum n /\ n < 256 ^ 17) \/
  (exists th, t = TWt th /\ okth th /\ existsb badClause th = false /\ exists m, bexter_of_bext (bextOf th) true = Ok m).
Proof.
  assert (W : forall th t, okth th -> processWeighted th = Ok t -> exists th, t = TWt th /\ okth th /\ existsb badClause th = false /\ exists m, bexter_of_bext (bextOf th) true = Ok m).
  { intros th t Ho H. apply processWeighted_inv in H. destruct H as (-> & ? & ?). eauto. }
  assert (U : forall n t, processUnweighted n = Ok t -> exists n, t = TNum n /\ n < 256 ^ 17).
  { intros n t H. apply processUnweighted_inv in H. destruct H; eauto. }
  intros t H. destruct H as [n t H|th t Ho H|s t H|q t H].
  - left. eauto.
  - right. eauto.
  - destruct s as [n|h|l]; cbn [processSith] in H.
    + left. eauto.
    + destruct h; [discriminate|]. apply bind_ok in H. destruct H as (n' & _ & H). left. eauto.
    + destruct l as [|i l]; [discriminate|]. set (l0 := i :: l) in *. right.
      apply bind_ok in H. destruct H as (cls & H1 & H). apply bind_ok in H. destruct H as (th & H2 & H).
      apply (W th); [|exact H].
      assert (HM : Forall (Forall oke) th /\ List.length th = List.length cls).
      { eapply mapr_ok; [|exact H2]. intros a b Hab. eapply mapr_ok; [|exact Hab]. exact selemWeight_ok. }
      destruct HM as [M1 M2]. split; [|exact M1]. intros ->.
      destruct (forallb isClause l0).
      * inv H1. unfold l0 in M2. discriminate.
      * apply bind_ok in H1. destruct H1 as (cl & _ & H1). inv H1. discriminate.
  - unfold processLimen in H. apply bind_ok in H. destruct H as (m & H1 & H).
    destruct (memB (m_code m) NumDex).
    + apply bind_ok in H. destruct H as (n & _ & H). left. eauto.
    + destruct (memB (m_code m) BexDex); [|discriminate].
      apply bind_ok in H. destruct H as (b & _ & H). apply bind_ok in H. destruct H as (tt & _ & H). apply bind_ok in H. destruct H as (th & H2 & H).
      right. apply (W th); [|exact H].
      assert (HM : Forall (Forall oke) th /\ List.length th = List.length (splitb 97 (map (fun ch => if ch =? 115 then 47 else ch) tt))).
      { eapply mapr_ok; [|exact H2]. intros a b' Hab. eapply mapr_ok; [|exact Hab]. exact limenElem_ok. }
      destruct HM as [M1 M2]. split; [|exact M1]. intros ->.
      destruct (splitb 97 (map (fun ch => if ch =? 115 then 47 else ch) tt)) eqn:E; [|discriminate].
      clear - E. destruct (map _ tt) as [|x l]; [discriminate|]. cbn in E. destruct (x =? 97); [discriminate|]. destruct (splitb 97 l); discriminate.
Qed.

(** rebuilding a Bexter or Number from raw and code *)
Lemma varCode_again : forall k l c s, l < 3 -> varCode StrB64_L0 k l = Ok (c, s) -> varCode c k l = Ok (c, s).
Proof.
  intros k l c s Hl H. unfold varCode in H. change (memN (nth 0 StrB64_L0 0) SmallVrzDex) with true in H. cbv iota in H.
  assert (C : l = 0 \/ l = 1 \/ l = 2) by lia.
  destruct (k <=? 64 ^ 2 - 1) eqn:E1; [|destruct (k <=? 64 ^ 4 - 1) eqn:E2; [|discriminate]];
    destruct C as [->|[->| ->]]; apply ok_inj in H; apply pair_equal_spec in H; destruct H as [<- <-];
    unfold varCode;
    match goal with |- context [memN (nth 0 ?l 0) SmallVrzDex] => let b := eval vm_compute in (memN (nth 0 l 0) SmallVrzDex) in change (memN (nth 0 l 0) SmallVrzDex) with b end; cbv iota.
  all: rewrite ?E1; try reflexivity.
  all: match goal with |- context [memN (nth 0 ?l 0) LargeVrzDex] => change (memN (nth 0 l 0) LargeVrzDex) with true end; cbv iota; rewrite E2; reflexivity.
Qed.

Lemma bex_again : forall raw m, matter_of_raw raw StrB64_L0 [] None = Ok m -> m_raw m = raw /\ matter_of_raw raw (m_code m) [] None = Ok m.
Proof.
  intros raw m H. unfold matter_of_raw in H. change (dget Sizes StrB64_L0) with (Some (mkSizage 2 2 0 None 0)) in H. cbn [fs StrB64_L0] in H.
  unfold StrB64_L0 at 1 in H. cbn [s2b list_ascii_of_string map] in H. cbv zeta in H.
  apply bind_ok in H. destruct H as ((c, s) & H1 & H). rewrite ntake_all in H by lia. rewrite N.eqb_refl in H. cbn [negb] in H.
  apply ok_inj in H. subst m. cbn [m_raw m_code]. split; [reflexivity|].
  set (l := (3 - len raw mod 3) mod 3) in *. assert (Hl : l < 3) by (unfold l; lia).
  set (k := (len raw + l) / 3) in *.
  pose proof (varCode_again _ _ _ _ Hl H1) as A.
  assert (HC : exists sz, dget Sizes c = Some sz /\ fs sz = None /\ c <> []).
  { unfold varCode in H1. change (memN (nth 0 StrB64_L0 0) SmallVrzDex) with true in H1. cbv iota in H1.
    assert (C : l = 0 \/ l = 1 \/ l = 2) by lia. clearbody l k.
    destruct (k <=? 64 ^ 2 - 1); [|destruct (k <=? 64 ^ 4 - 1); [|discriminate]];
    destruct C as [->|[->| ->]]; apply ok_inj in H1; apply pair_equal_spec in H1; destruct H1 as [<- _];
    (eexists; split; [vm_compute; reflexivity|split; [reflexivity|vm_compute; discriminate]]). }
  destruct HC as (sz & C1 & C2 & C3). unfold matter_of_raw. destruct c as [|c0 cr]; [congruence|]. rewrite C1, C2. cbv zeta.
  fold l. fold k. rewrite A. cbn [bind]. rewrite ntake_all by lia. rewrite N.eqb_refl. reflexivity.
Qed.

Lemma num_again : forall n c m, number_of_num n c = Ok m -> matter_of_raw (m_raw m) (m_code m) [] None = Ok m.
Proof.
  intros n c m H. unfold number_of_num in H. apply bind_ok in H. destruct H as (c' & _ & H).
  apply bind_ok in H. destruct H as (raw & _ & H). apply bind_ok in H. destruct H as (m' & H1 & H).
  destruct (memB (m_code m') NumDex) eqn:HD; [|discriminate]. cbn [negb] in H. inv H.
  destruct (numdex_ok _ HD) as (sz & k & D1 & D2 & D3 & D4 & D5 & D6).
  assert (HC : m_code m = c' /\ len (m_raw m) = k /\ m_soft m = []).
  { unfold matter_of_raw in H1. destruct c' as [|c0 cr]; [discriminate|]. destruct (dget Sizes (c0 :: cr)) as [sz'|] eqn:E; [|discriminate].
    destruct (fs sz') eqn:Ef.
    - apply bind_ok in H1. destruct H1 as (rz & R1 & H1). apply bind_ok in H1. destruct H1 as (s' & S1 & H1).
      destruct (len (ntake rz raw) =? rz) eqn:Er; [|discriminate]. cbn [negb] in H1. inv H1. cbn in *.
      rewrite E in D1. inv D1. rewrite D2 in R1. inv R1. rewrite D4 in S1. cbn in S1. inv S1.
      apply N.eqb_eq in Er. auto.
    - apply bind_ok in H1. destruct H1 as ((c1 & s1) & V & H1). destruct (negb _) in H1; [discriminate|]. inv H1. cbn in D6.
      exfalso. assert (c1 <> [] /\ hd 0 c1 <> 0 /\ In (hd 0 c1) (SmallVrzDex ++ LargeVrzDex)).
      { unfold varCode in V. set (l := (3 - len raw mod 3) mod 3) in *.
        assert (C : l = 0 \/ l = 1 \/ l = 2) by (unfold l; lia). clearbody l.
        destruct (memN _ SmallVrzDex); [destruct (_ <=? 64 ^ 2 - 1); [|destruct (_ <=? 64 ^ 4 - 1); [|discriminate]]|destruct (memN _ LargeVrzDex); [|discriminate]; destruct (_ <=? 64 ^ 4 - 1); [|discriminate]];
        apply ok_inj in V; apply pair_equal_spec in V; destruct V as [<- _];
        (split; [discriminate|split; [destruct C as [->|[->| ->]]; vm_compute; discriminate|destruct C as [->|[->| ->]]; vm_compute; tauto]]). }
      destruct H as (_ & _ & H). clear - H D6. cbn in D6.
      repeat (destruct D6 as [<-|D6]; [vm_compute in H; repeat (destruct H as [H|H]; [discriminate|]); contradiction|]). contradiction. }
  destruct HC as (<- & HL & HS). destruct m as [mc ms mr]. cbn [m_code m_soft m_raw] in *. subst ms. unfold matter_of_raw. destruct mc as [|c0 cr]; [vm_compute in HD; discriminate|]. rewrite D1.
  destruct (fs sz); [|congruence]. rewrite D2. cbn [bind]. rewrite D4. cbn [N.ltb N.compare bind]. rewrite ntake_all by lia.
  rewrite HL, N.eqb_refl. reflexivity.
Qed.
