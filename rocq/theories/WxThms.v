(** Properties of gathering receipts with WitnessReceiptor. *)
From Coq Require Import Lia.
From Verif Require Import Prelude GrModel WxModel WxSpec WxProofs.
Ltac Zify.zify_post_hook ::= Z.div_mod_to_equations.
Open Scope N_scope.

Definition J3 : job := mkJob Kixn [] [1; 2; 3] false.
Definition J4 : job := mkJob Kdrt [3] [1; 2; 3] false.
Definition s1 : wiger := (0%nat, 101).
Definition s2 : wiger := (1%nat, 102).
Definition s3 : wiger := (2%nat, 103).

Lemma c143_order_partial : forall J st o1 aw o2, j_wits J <> [] ->
  Forall (fun l => List.length l <> List.length (j_wits J)) (st :: o1) -> inOrder J aw ->
  let x := receiptDo J st (o1 ++ aw :: o2) in
  snd x = Cued /\ forall w v, In w (j_wits J) -> In v (j_wits J) -> (gets J (fst x) w v <-> v <> w).
Proof.
  intros J st o1 aw o2 NE F (LE & OR) x. unfold x. rewrite (receiptDo_found J st o1 aw o2 NE F LE). cbn [fst snd]. split; [reflexivity|].
  intros w v W V. split.
  - intros (gs & g & A & B & C) E. subst v. apply in_app_or in A. destruct A as [A|A]; [destruct (submits_no _ _ _ A)|].
    apply spreadAll_In in A. destruct A as (_ & -> & _). apply picked_In in B. destruct B as (i & u & B1 & B2 & B3).
    unfold sigOf in C. rewrite (OR i g B3) in C. congruence.
  - intros NW. destruct (In_nth_error _ _ V) as (i & I0).
    assert (exists g, nth_error aw i = Some g) as (g & G).
    { destruct (nth_error aw i) as [g|] eqn:G; [eauto|]. apply nth_error_None in G. assert (nth_error (j_wits J) i <> None) as Z by congruence. apply nth_error_Some in Z. lia. }
    assert (PG : In g (picked w (j_wits J) aw)) by (apply picked_In; exists i, v; auto).
    exists (picked w (j_wits J) aw), g. split; [|split; [exact PG|unfold sigOf; rewrite (OR i g G); exact I0]].
    apply in_or_app. right. apply spreadAll_In. split; [exact W|]. split; [reflexivity|]. intros Z. rewrite Z in PG. destruct PG.
Qed.


Lemma c143_order_refuted : (forall J st o1 aw o2 i w v g, NoDup (j_wits J) -> Forall (fun l => List.length l <> List.length (j_wits J)) (st :: o1) ->
    List.length aw = List.length (j_wits J) -> NoDup aw -> nth_error (j_wits J) i = Some w -> nth_error aw i = Some g -> sigOf J g v -> v <> w ->
    ((forall h, In h aw -> sigOf J h v -> h = g) -> ~ gets J (fst (receiptDo J st (o1 ++ aw :: o2))) w v) /\
    ((exists h, In h aw /\ sigOf J h w) -> gets J (fst (receiptDo J st (o1 ++ aw :: o2))) w w)) /\
  receiptDo J3 [] [[s2]; [s2; s1]; [s2; s1; s3]] = ([Post 1; Post 2; Post 3; Spread 1 [s1; s3]; Spread 2 [s2; s3]; Spread 3 [s2; s1]], Cued) /\
  ~ gets J3 (fst (receiptDo J3 [] [[s2]; [s2; s1]; [s2; s1; s3]])) 1 2 /\ gets J3 (fst (receiptDo J3 [] [[s2]; [s2; s1]; [s2; s1; s3]])) 1 1.
Proof.
  split; [|split; [reflexivity|split]].
  - intros J st o1 aw o2 i w v g ND F LE NA IW IG SG NV.
    assert (NE : j_wits J <> []) by (intros Z; rewrite Z in IW; destruct i; discriminate IW).
    rewrite (receiptDo_found J st o1 aw o2 NE F LE). cbn [fst]. split.
    + intros UQ (gs & h & A & B & C). apply in_app_or in A. destruct A as [A|A]; [destruct (submits_no _ _ _ A)|].
      apply spreadAll_In in A. destruct A as (_ & -> & _). apply picked_In in B. destruct B as (j & u & B1 & B2 & B3).
      assert (h = g) by (apply UQ; [eapply nth_error_In; eauto|exact C]). subst h.
      assert (i = j).
      { apply (proj1 (NoDup_nth_error aw) NA); [apply nth_error_Some; congruence|congruence]. }
      subst j. congruence.
    + intros (h & HI & HS). destruct (In_nth_error _ _ HI) as (j & J0).
      assert (exists u, nth_error (j_wits J) j = Some u) as (u & U).
      { destruct (nth_error (j_wits J) j) as [u|] eqn:U; [eauto|]. apply nth_error_None in U. assert (nth_error aw j <> None) as Z by congruence. apply nth_error_Some in Z. lia. }
      assert (UW : u <> w).
      { intros ->. assert (i = j) by (apply (proj1 (NoDup_nth_error (j_wits J)) ND); [apply nth_error_Some; congruence|congruence]). subst j.
        assert (h = g) by congruence. subst h. unfold sigOf in *. congruence. }
      assert (PG : In h (picked w (j_wits J) aw)) by (apply picked_In; exists j, u; auto).
      exists (picked w (j_wits J) aw), h. split; [|split; [exact PG|exact HS]].
      apply in_or_app. right. apply spreadAll_In. split; [eapply nth_error_In; eauto|]. split; [reflexivity|]. intros Z. rewrite Z in PG. destruct PG.
  - intros (gs & g & A & B & C). cbn in A. repeat (destruct A as [A|A]; [try discriminate A; inversion A; subst|]); [|destruct A].
    destruct B as [<-|[<-|[]]]; discriminate C.
  - exists [s1; s3], s1. split; [cbn; auto 10|]. split; [left; reflexivity|reflexivity].
Qed.

Lemma c143_submitted : forall J st obs w, List.length st <> List.length (j_wits J) -> In w (j_wits J) ->
  exists l1 l2, fst (receiptDo J st obs) = l1 ++ Post w :: l2 /\
    (j_kind J = Kicp \/ j_kind J = Kdip \/ In w (j_adds J) -> exists l0, l1 = l0 ++ [Catch w]).
Proof.
  intros J st obs w LE W.
  assert (S0 : exists l1 l2, submits J = l1 ++ Post w :: l2 /\ (isNew J w = true -> exists l0, l1 = l0 ++ [Catch w])).
  { unfold submits. apply in_split in W. destruct W as (a & b & ->). rewrite flat_map_app. cbn [flat_map]. set (p := flat_map _ a). set (q := flat_map _ b).
    destruct (isNew J w); cbn [app].
    - exists (p ++ [Catch w]), q. split; [rewrite <- app_assoc; reflexivity|]. intros _. exists p. reflexivity.
    - exists p, q. split; [reflexivity|discriminate]. }
  assert (NW : j_kind J = Kicp \/ j_kind J = Kdip \/ In w (j_adds J) -> isNew J w = true).
  { unfold isNew. intros [-> | [-> | A]]; [reflexivity|reflexivity|]. assert (existsb (N.eqb w) (j_adds J) = true) as -> by (apply existsb_exists; exists w; split; [exact A|apply N.eqb_refl]).
    destruct (j_kind J); reflexivity. }
  destruct S0 as (l1 & l2 & S1 & S2). assert (R : exists t, fst (receiptDo J st obs) = submits J ++ t).
  { unfold receiptDo. destruct (j_wits J) as [|w0 l0] eqn:E; [destruct W|]. rewrite <- E in *.
    destruct (full J st) eqn:FU; [apply full_len in FU; destruct (LE FU)|]. destruct (find (full J) obs); [eexists; reflexivity|exists []; rewrite app_nil_r; reflexivity]. }
  destruct R as (t & R). exists l1, (l2 ++ t). rewrite R, S1, <- app_assoc. split; [reflexivity|]. intros Z. apply S2. auto.
Qed.


Lemma c143_cued_partial : forall J st obs, Forall (fun l => NoDup (map fst l) /\ Forall (fun g => exists v, sigOf J g v) l) (st :: obs) ->
  snd (receiptDo J st obs) = Cued -> exists l, In l (st :: obs) /\ everyone J l.
Proof.
  intros J st obs F C.
  assert (L : exists l, In l (st :: obs) /\ List.length l = List.length (j_wits J)).
  { unfold receiptDo in C. destruct (j_wits J) as [|w0 l0] eqn:E; [discriminate C|]. rewrite <- E in *. destruct (full J st) eqn:FU.
    - exists st. split; [left; reflexivity|apply full_len; exact FU].
    - destruct (find (full J) obs) as [aw|] eqn:FI; [|discriminate C]. apply find_some in FI. exists aw. split; [right; apply FI|apply full_len; apply FI]. }
  destruct L as (l & IL & LE). exists l. split; [exact IL|]. rewrite Forall_forall in F. destruct (F l IL) as (ND & VA). rewrite Forall_forall in VA.
  intros v V. destruct (In_nth_error _ _ V) as (i & I0).
  assert (INC : incl (seq 0 (List.length (j_wits J))) (map fst l)).
  { apply NoDup_length_incl; [exact ND|rewrite seq_length, map_length; lia|]. intros k K. apply in_map_iff in K. destruct K as (g & <- & G). destruct (VA g G) as (u & U).
    apply in_seq. assert (nth_error (j_wits J) (fst g) <> None) as Z by (unfold sigOf in U; congruence). apply nth_error_Some in Z. lia. }
  assert (II : In i (seq 0 (List.length (j_wits J)))).
  { apply in_seq. assert (nth_error (j_wits J) i <> None) as Z by congruence. apply nth_error_Some in Z. lia. }
  apply INC in II. apply in_map_iff in II. destruct II as (g & G1 & G2). exists g. split; [exact G2|]. unfold sigOf. rewrite G1. exact I0.
Qed.


Lemma c143_cued_refuted : (forall J st obs, j_wits J <> [] -> List.length st = List.length (j_wits J) -> snd (receiptDo J st obs) = Cued) /\
  (let J := mkJob Kixn [] [1; 2] false in receiptDo J [] [[(0%nat, 7)]; [(0%nat, 7); (0%nat, 8)]] = ([Post 1; Post 2; Spread 1 [(0%nat, 8)]; Spread 2 [(0%nat, 7)]], Cued) /\
    forall l, In l [[]; [(0%nat, 7)]; [(0%nat, 7); (0%nat, 8)]] -> ~ everyone J l).
Proof.
  split.
  - intros J st obs NE LE. unfold receiptDo. destruct (j_wits J) eqn:E; [destruct (NE eq_refl)|]. rewrite <- E in LE. apply full_len in LE. rewrite LE. destruct (j_force J); reflexivity.
  - split; [reflexivity|]. intros l L EV. destruct (EV 2) as (g & G & Z); [cbn; auto|]. cbn in L. destruct L as [<-|[<-|[<-|[]]]]; cbn in G.
    + destruct G.
    + destruct G as [<-|[]]. discriminate Z.
    + destruct G as [<-|[<-|[]]]; discriminate Z.
Qed.

Lemma c143_missing_refuted : (forall J st obs, Forall (fun l => List.length l <> List.length (j_wits J)) (st :: obs) ->
    snd (receiptDo J st obs) <> Cued /\ forall w l, ~ In (Spread w l) (fst (receiptDo J st obs))) /\
  forall n, receiptDo J3 [] (repeat [s1; s2] n) = ([Post 1; Post 2; Post 3], Never).
Proof.
  split.
  - intros J st obs F. destruct (j_wits J) as [|w0 l0] eqn:E.
    + unfold receiptDo. rewrite E. cbn. split; [discriminate|auto].
    + rewrite <- E in F. rewrite receiptDo_never; [|congruence|exact F]. cbn. split; [discriminate|]. intros w l. apply submits_no.
  - intros n. rewrite receiptDo_never; [reflexivity|discriminate|]. constructor; [discriminate|]. induction n; [constructor|]. constructor; [discriminate|exact IHn].
Qed.

Lemma c143_again_partial : forall J st obs, j_wits J <> [] -> inOrder J st ->
  snd (receiptDo J st obs) = Cued /\ (forall w, ~ In (Post w) (fst (receiptDo J st obs)) /\ ~ In (Catch w) (fst (receiptDo J st obs))) /\
  (j_force J = false -> fst (receiptDo J st obs) = []) /\
  (j_force J = true -> forall w v, In w (j_wits J) -> In v (j_wits J) -> (gets J (fst (receiptDo J st obs)) w v <-> v <> w)).
Proof.
  intros J st obs NE (LE & OR).
  assert (R : receiptDo J st obs = if j_force J then (spreadAll J st, Cued) else ([], Cued)).
  { unfold receiptDo. destruct (j_wits J) eqn:E; [destruct (NE eq_refl)|]. rewrite <- E in LE. rewrite (proj2 (full_len J st) LE). reflexivity. }
  rewrite R. clear R.
  assert (NS : forall w, ~ In (Post w) (spreadAll J st) /\ ~ In (Catch w) (spreadAll J st)).
  { intros w. split; intros Z; apply in_flat_map in Z; destruct Z as (v & _ & Z); (destruct (picked v (j_wits J) st); [exact Z|destruct Z as [Z|Z]; [discriminate Z|exact Z]]). }
  destruct (j_force J); cbn [fst snd].
  - split; [reflexivity|]. split; [exact NS|]. split; [discriminate|]. intros _ w v W V. split.
    + intros (gs & g & A & B & C) E. subst v. apply spreadAll_In in A. destruct A as (_ & -> & _). apply picked_In in B. destruct B as (i & u & B1 & B2 & B3).
      unfold sigOf in C. rewrite (OR i g B3) in C. congruence.
    + intros NW. destruct (In_nth_error _ _ V) as (i & I0).
      assert (exists g, nth_error st i = Some g) as (g & G).
      { destruct (nth_error st i) as [g|] eqn:G; [eauto|]. apply nth_error_None in G. assert (nth_error (j_wits J) i <> None) as Z by congruence. apply nth_error_Some in Z. lia. }
      assert (PG : In g (picked w (j_wits J) st)) by (apply picked_In; exists i, v; auto).
      exists (picked w (j_wits J) st), g. split; [|split; [exact PG|unfold sigOf; rewrite (OR i g G); exact I0]].
      apply spreadAll_In. split; [exact W|]. split; [reflexivity|]. intros Z. rewrite Z in PG. destruct PG.
  - split; [reflexivity|]. split; [intros w; split; intros []|]. split; [reflexivity|discriminate].
Qed.


Lemma c143_queue_partial : forall ms, Forall (fun m => snd (receiptDo (fst (fst m)) (snd (fst m)) (snd m)) <> Never) ms ->
  receiptAll ms = map (fun m => receiptDo (fst (fst m)) (snd (fst m)) (snd m)) ms.
Proof.
  induction 1 as [|((J, st), obs) ms H F IH]; [reflexivity|]. cbn [receiptAll map fst snd] in *. cbn zeta. f_equal. rewrite <- IH. destruct (snd (receiptDo J st obs)); [reflexivity|destruct (H eq_refl)|reflexivity].
Qed.


Lemma c143_queue_refuted : (forall ms1 J st obs ms2, j_wits J <> [] -> Forall (fun l => List.length l <> List.length (j_wits J)) (st :: obs) ->
    receiptAll (ms1 ++ (J, st, obs) :: ms2) = receiptAll (ms1 ++ [(J, st, obs)]) /\ (List.length (receiptAll (ms1 ++ (J, st, obs) :: ms2)) <= S (List.length ms1))%nat) /\
  receiptAll [(J3, [], [[s1]; [s1; s2]]); (mkJob Kixn [] [8] false, [], [[(0%nat, 108)]])] = [([Post 1; Post 2; Post 3], Never)].
Proof.
  split; [|reflexivity]. intros ms1 J st obs ms2 NE F. induction ms1 as [|((J1, st1), obs1) ms1 IH].
  - cbn [app receiptAll]. rewrite (receiptDo_never J st obs NE F). cbn. split; [reflexivity|lia].
  - destruct IH as (IH1 & IH2). cbn [app receiptAll]. cbn zeta. destruct (snd (receiptDo J1 st1 obs1)); cbn [List.length]; rewrite ?IH1 in *; split; try reflexivity; lia.
Qed.
