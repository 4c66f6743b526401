(** Proofs about annotations. *)
From Coq Require Import Lia.
From Verif Require Import Prelude AnModel AnSpec.
Ltac Zify.zify_post_hook ::= Z.div_mod_to_equations.
Open Scope N_scope.

(** Text *)
Lemma b64_space : forall c, b64 c = true -> isspace c = false.
Proof. intros c. unfold b64, isspace. lia. Qed.
Lemma b64_break : forall c, b64 c = true -> isbreak c = false.
Proof. intros c. unfold b64, isbreak. lia. Qed.
Lemma b64_hash : forall c, b64 c = true -> (c =? 35) = false.
Proof. intros c. unfold b64. lia. Qed.

Lemma splitlines_line : forall l cur r, oneLine l -> splitlines cur (l ++ 10 :: r) = (rev cur ++ l) :: splitlines [] r.
Proof.
  induction l as [|c l IH]; intros cur r O1; cbn [app splitlines].
  - change (isbreak 10) with true. cbn. rewrite app_nil_r. reflexivity.
  - inversion O1; subst. rewrite H1. rewrite IH by assumption. cbn [rev]. rewrite <- app_assoc. reflexivity.
Qed.
Lemma lstrip_spaces : forall g s, Forall (fun c => isspace c = true) g -> lstrip (g ++ s) = lstrip s.
Proof. induction 1 as [|c g C F IH]; cbn; [reflexivity|]. rewrite C. exact IH. Qed.
Lemma lstrip_mid : forall x c y, isspace c = false -> lstrip (x ++ c :: y) = lstrip x ++ c :: y.
Proof. induction x as [|d x IH]; intros c y C; cbn; [rewrite C; reflexivity|]. destruct (isspace d); [apply IH; exact C|reflexivity]. Qed.
Lemma rstrip_mid : forall x c y, isspace c = false -> rev (lstrip (rev (x ++ c :: y))) = x ++ c :: rev (lstrip (rev y)).
Proof.
  intros x c y C. rewrite rev_app_distr. cbn [rev]. rewrite <- app_assoc. cbn [app]. rewrite lstrip_mid by exact C.
  rewrite rev_app_distr. cbn [rev]. rewrite <- app_assoc. rewrite rev_involutive. reflexivity.
Qed.
Lemma front_b64 : forall t s, Forall (fun x => b64 x = true) t -> front (t ++ s) = t ++ front s.
Proof. induction 1 as [|c t C F IH]; cbn; [reflexivity|]. rewrite (b64_hash c C). rewrite IH. reflexivity. Qed.
Lemma strip_b64 : forall t g, Forall (fun x => b64 x = true) t -> Forall (fun c => isspace c = true) g -> strip (t ++ g) = t.
Proof.
  intros t g T G. unfold strip. assert (GR : Forall (fun c => isspace c = true) (rev g)) by (apply Forall_rev; exact G).
  destruct t as [|c t].
  - cbn [app]. rewrite <- (app_nil_r g). rewrite lstrip_spaces by exact G. reflexivity.
  - inversion T; subst. cbn [app]. cbn [lstrip]. rewrite (b64_space c H1).
    change (c :: t ++ g) with ((c :: t) ++ g). rewrite rev_app_distr. rewrite lstrip_spaces by exact GR.
    assert (NS : lstrip (rev (c :: t)) = rev (c :: t)).
    { destruct (rev (c :: t)) as [|d q] eqn:E; [reflexivity|]. cbn [lstrip]. assert (b64 d = true) as D.
      { assert (In d (rev (c :: t))) as DI by (rewrite E; left; reflexivity). apply in_rev in DI. rewrite Forall_forall in T. apply T. exact DI. }
      rewrite (b64_space d D). reflexivity. }
    rewrite NS. apply rev_involutive.
Qed.

(** A line in order: Base64 before the comment, no line break in it. *)
Definition good (l : line) : Prop :=
  Forall (fun x => b64 x = true) (l_txt l) /\ (l_gap l = [] \/ l_gap l = [32]) /\ oneLine (l_note l).
Lemma line_text : forall l, good l -> strip (front (strip (repeat 32 (2 * l_ind l) ++ l_txt l ++ l_gap l ++ 35 :: l_note l))) = l_txt l.
Proof.
  intros l (T & G & O1).
  assert (GS : Forall (fun c => isspace c = true) (l_gap l)) by (destruct G as [-> | ->]; repeat constructor).
  assert (SP : Forall (fun c => isspace c = true) (repeat 32 (2 * l_ind l))) by (apply Forall_forall; intros x X; apply repeat_spec in X; subst; reflexivity).
  assert (GF : forall s, front (l_gap l ++ s) = l_gap l ++ front s) by (destruct G as [-> | ->]; intros; reflexivity).
  assert (ST : exists g n, Forall (fun c => isspace c = true) g /\ (forall s, front (g ++ s) = g ++ front s) /\
     strip (repeat 32 (2 * l_ind l) ++ l_txt l ++ l_gap l ++ 35 :: l_note l) = l_txt l ++ g ++ 35 :: n).
  { unfold strip. rewrite lstrip_spaces by exact SP. destruct (l_txt l) as [|c t] eqn:E.
    - cbn [app]. rewrite lstrip_spaces by exact GS. cbn [lstrip]. change (isspace 35) with false. cbn [rev].
      rewrite lstrip_mid by reflexivity. exists [], (rev (lstrip (rev (l_note l)))). split; [constructor|]. split; [reflexivity|].
      rewrite rev_app_distr. reflexivity.
    - inversion T; subst. cbn [app lstrip]. rewrite (b64_space c H1).
      exists (l_gap l), (rev (lstrip (rev (l_note l)))). split; [exact GS|]. split; [exact GF|].
      change (c :: t ++ l_gap l ++ 35 :: l_note l) with ((c :: t) ++ l_gap l ++ 35 :: l_note l). rewrite app_assoc.
      rewrite rstrip_mid by reflexivity. rewrite <- app_assoc. reflexivity. }
  destruct ST as (g & n & G1 & G2 & ->). rewrite front_b64 by exact T. rewrite G2. cbn [front]. change (35 =? 35) with true. cbn iota. rewrite app_nil_r.
  apply strip_b64; assumption.
Qed.
Lemma denot_render : forall ls, Forall good ls -> denot (flat_map render ls) = flat_map l_txt ls.
Proof.
  unfold denot. induction 1 as [|l ls L F IH]; [reflexivity|]. cbn [flat_map]. unfold render at 1.
  replace ((repeat 32 (2 * l_ind l) ++ l_txt l ++ l_gap l ++ 35 :: l_note l ++ [10]) ++ flat_map render ls)
    with ((repeat 32 (2 * l_ind l) ++ l_txt l ++ l_gap l ++ 35 :: l_note l) ++ 10 :: flat_map render ls).
  2:{ repeat (rewrite <- app_assoc || cbn [app]). reflexivity. }
  rewrite splitlines_line.
  - cbn [rev app flat_map]. rewrite (line_text l L). rewrite IH. reflexivity.
  - destruct L as (T & G & O1). unfold oneLine in *. apply Forall_app. split; [apply Forall_forall; intros x X; apply repeat_spec in X; subst; reflexivity|].
    apply Forall_app. split; [eapply Forall_impl; [|exact T]; intros; apply b64_break; assumption|].
    apply Forall_app. split; [destruct G as [-> | ->]; repeat constructor|]. constructor; [reflexivity|exact O1].
Qed.

(** Reading *)
Definition reads (p : text -> res (list line * text)) : Prop := forall s l r, p s = Ok (l, r) -> s = flat_map l_txt l ++ r /\ Forall good l.
Section Reading.
Variable ext : extractor.
Hypothesis STR : strips ext.
Lemma prim_reads : forall c ind s t l r, prim ext c ind s = Ok (t, l, r) -> s = flat_map l_txt l ++ r /\ Forall good l.
Proof.
  intros c ind s t l r. unfold prim. destruct (ext c s) as [[u q]|] eqn:E; [|discriminate]. intros Q. inversion Q; subst.
  destruct (STR c s t r E) as (A & B & C & D & F0). cbn. rewrite app_nil_r. split; [exact A|]. constructor; [|constructor]. split; [exact C|]. split; [right; reflexivity|exact D].
Qed.
Lemma one_reads : forall c ind, reads (one ext c ind).
Proof.
  intros c ind s l r. unfold one. destruct (prim ext c ind s) as [[[t l0] r0]|] eqn:E; [|discriminate]. intros Q. inversion Q; subst. eapply prim_reads; eauto.
Qed.
Lemma many_reads : forall p, reads p -> forall f s l, many p f s = Ok l -> s = flat_map l_txt l /\ Forall good l.
Proof.
  intros p P. induction f as [|f IH]; intros s l; cbn; (destruct s as [|c s]; [intros Q; inversion Q; subst; split; [reflexivity|constructor]|]); [discriminate|].
  destruct (p (c :: s)) as [[l0 r0]|] eqn:E; [|discriminate]. destruct (many p f r0) as [l1|] eqn:M; [|discriminate]. intros Q. inversion Q; subst.
  destruct (P _ _ _ E) as (A & B). destruct (IH _ _ M) as (C & D). split; [rewrite flat_map_app, <- C; exact A|apply Forall_app; auto].
Qed.
Lemma listOf_reads : forall p ind, (forall i, reads (p i)) -> reads (listOf ext p ind).
Proof.
  intros p ind P s l r. unfold listOf. destruct (prim ext Ctr ind s) as [[[t l0] r0]|] eqn:E; [|discriminate]. cbn zeta.
  destruct (many (p (S ind)) _ _) as [l1|] eqn:M; [|discriminate]. intros Q. inversion Q; subst. apply prim_reads in E. destruct E as (A & B).
  apply many_reads in M; [|apply P]. destruct M as (C & D). split; [|apply Forall_app; auto].
  rewrite flat_map_app, <- C, <- app_assoc, firstn_skipn. exact A.
Qed.
Lemma seal_reads : forall ind, reads (seal ext ind).
Proof.
  intros ind s l r. unfold seal. destruct (ext Sea s) as [[t q]|] eqn:E; [|discriminate]. intros Q. inversion Q; subst.
  destruct (STR Sea s t r E) as (A & B & C & D & F0). split.
  - cbn. replace (flat_map l_txt (map _ (t_fields t))) with (@nil N); [rewrite app_nil_r; exact A|]. clear. induction (t_fields t); [reflexivity|exact IHl].
  - constructor; [split; [exact C|split; [left; reflexivity|exact D]]|]. clear Q. induction F0; [constructor|]. constructor; [|exact IHF0]. split; [constructor|]. split; [left; reflexivity|assumption].
Qed.
Lemma sealGroup_reads : forall ind, reads (sealGroup ext ind).
Proof.
  intros ind s l r. unfold sealGroup. destruct (prim ext Ctr ind s) as [[[t l0] r0]|] eqn:E; [|discriminate]. destruct (t_seal t); [|discriminate]. cbn zeta.
  destruct (many _ _ _) as [l1|] eqn:M; [|discriminate]. intros Q. inversion Q; subst. apply prim_reads in E. destruct E as (A & B).
  apply many_reads in M; [|apply seal_reads]. destruct M as (C & D). split; [|apply Forall_app; auto].
  rewrite flat_map_app, <- C, <- app_assoc, firstn_skipn. exact A.
Qed.
Lemma field_reads : forall f, reads (readField ext f).
Proof.
  intros [c|c|]; cbn; [exact (one_reads c 1)|apply listOf_reads; intros; apply one_reads|apply listOf_reads; intros; apply sealGroup_reads].
Qed.
Lemma readAll_reads : forall fs, reads (readAll ext fs).
Proof.
  induction fs as [|f fs IH]; intros s l r; cbn; [intros Q; inversion Q; subst; split; [reflexivity|constructor]|].
  destruct (readField ext f s) as [[l0 r0]|] eqn:E; [|discriminate]. destruct (readAll ext fs r0) as [[l1 r1]|] eqn:M; [|discriminate]. intros Q. inversion Q; subst.
  destruct (field_reads f _ _ _ E) as (A & B). destruct (IH _ _ _ M) as (C & D). split; [rewrite flat_map_app, <- app_assoc, <- C; exact A|apply Forall_app; auto].
Qed.
Lemma message_reads : reads (message ext).
Proof.
  intros s l r. unfold message. destruct (prim ext Ctr 0 s) as [[[t1 l1] r1]|] eqn:E1; [|discriminate]. destruct (prim ext Ver 1 r1) as [[[t2 l2] r2]|] eqn:E2; [|discriminate].
  destruct (prim ext Ilk 1 r2) as [[[t3 l3] r3]|] eqn:E3; [|discriminate]. intros H.
  assert (exists l4, readAll ext (fields (t_ilk t3)) r3 = Ok (l4, r) /\ l = l1 ++ l2 ++ l3 ++ l4) as (l4 & E4 & ->).
  { destruct (t_ilk t3); try discriminate H; destruct (readAll ext _ r3) as [[l4 r4]|]; try discriminate H; inversion H; subst; eauto. }
  apply prim_reads in E1, E2, E3. apply readAll_reads in E4. destruct E1 as (A1 & B1), E2 as (A2 & B2), E3 as (A3 & B3), E4 as (A4 & B4).
  split; [|repeat (apply Forall_app; split); assumption]. rewrite !flat_map_app, <- !app_assoc, <- A4, <- A3, <- A2. exact A1.
Qed.
Lemma annot_reads : forall n s out o, Forall good out -> annot ext n s out = Some (Ok o) -> exists l, Forall good l /\ o = flat_map render (out ++ l) /\ s = flat_map l_txt l.
Proof.
  induction n as [|n IH]; intros s out o G; cbn [annot]; (destruct s as [|b s]; [intros Q; inversion Q; subst; exists []; split; [constructor|]; rewrite app_nil_r; split; reflexivity|]); [discriminate|].
  cbn zeta. destruct ((b / 32 =? 1) || (b / 32 =? 2)).
  - destruct (message ext (b :: s)) as [[l [|c r]]|] eqn:M; try discriminate. intros Q. destruct (message_reads _ _ _ M) as (A & B).
    destruct (IH [] (out ++ l) o) as (l' & L1 & L2 & L3); [apply Forall_app; auto|exact Q|]. exists (l ++ l'). split; [apply Forall_app; auto|]. split; [rewrite app_assoc; exact L2|].
    rewrite flat_map_app, <- L3. exact A.
  - destruct (b / 32 =? 7); [|discriminate]. intros Q. exact (IH (b :: s) out o G Q).
Qed.
End Reading.

(** Well formed messages are read. *)
Section Writing.
Variable ext : extractor.
Variable V : cls -> tok -> Prop.
Hypothesis RB : readsBack ext V.
Lemma prim_ok : forall c ind t r, V c t -> prim ext c ind (t_txt t ++ r) = Ok (t, [mkLine ind (t_txt t) [32] (t_note t)], r).
Proof. intros c ind t r C. unfold prim. rewrite (proj2 (RB c t r C)). reflexivity. Qed.
Lemma many_ok : forall (A : Type) (tx : A -> text) (p : text -> res (list line * text)) (xs : list A),
  Forall (fun x => tx x <> [] /\ forall r, exists l, p (tx x ++ r) = Ok (l, r)) xs -> forall f, (List.length (flat_map tx xs) <= f)%nat -> exists l, many p f (flat_map tx xs) = Ok l.
Proof.
  intros A tx p. induction 1 as [|x xs (NE & P) F IH]; intros f L; [exists []; destruct f; reflexivity|].
  cbn [flat_map] in *. rewrite app_length in L. destruct (P (flat_map tx xs)) as (l & E).
  destruct (tx x) as [|c s] eqn:T; [destruct (NE eq_refl)|]. cbn [List.length] in L. destruct f as [|f]; [lia|].
  destruct (IH f) as (l' & E'); [lia|]. exists (l ++ l'). cbn [app many]. cbn [app] in E. rewrite E, E'. reflexivity.
Qed.
Lemma framed : forall (s r : text) n, List.length s = n -> firstn n (s ++ r) = s /\ skipn n (s ++ r) = r.
Proof. intros s r n <-. split; [rewrite firstn_app, Nat.sub_diag, firstn_all; cbn; apply app_nil_r|rewrite skipn_app, Nat.sub_diag, skipn_all; reflexivity]. Qed.
Lemma field_ok : forall f x, fits V f x -> forall r, exists l, readField ext f (itemText x ++ r) = Ok (l, r).
Proof.
  intros [c|c|] [t|k ts|k gs] H r; try destruct H; cbn [readField itemText].
  - unfold one. rewrite prim_ok by exact H. eauto.
  - destruct H0 as (T & C). unfold listOf. rewrite <- app_assoc. rewrite prim_ok by assumption. cbn zeta. destruct (framed (flat_map t_txt ts) r _ C) as (-> & ->).
    destruct (many_ok tok t_txt (one ext c 2) ts) with (f := List.length (flat_map t_txt ts)) as (l & E); [|lia|rewrite E; eauto].
    eapply Forall_impl; [|exact T]. intros t VT. split; [apply (RB c t [] VT)|]. intros q. unfold one. rewrite prim_ok by exact VT. eauto.
  - destruct H0 as (C & T). unfold listOf. rewrite <- app_assoc. rewrite prim_ok by assumption. cbn zeta. destruct (framed (flat_map groupText gs) r _ C) as (-> & ->).
    destruct (many_ok _ groupText (sealGroup ext 2) gs) with (f := List.length (flat_map groupText gs)) as (l & E); [|lia|rewrite E; eauto].
    eapply Forall_impl; [|exact T]. intros (k', ts) (K & SL & TS & CT). cbn [fst snd] in *. unfold groupText. cbn [fst snd]. split.
    + intros Z. apply app_eq_nil in Z. destruct Z as (Z & _). exact (proj1 (RB Ctr k' [] K) Z).
    + intros q. unfold sealGroup. rewrite <- app_assoc. rewrite prim_ok by exact K. rewrite SL. cbn zeta. destruct (framed (flat_map t_txt ts) q _ CT) as (-> & ->).
      destruct (many_ok tok t_txt (seal ext 3) ts) with (f := List.length (flat_map t_txt ts)) as (l' & E'); [|lia|rewrite E'; eauto].
      eapply Forall_impl; [|exact TS]. intros t VT. split; [apply (RB Sea t [] VT)|]. intros z. unfold seal. rewrite (proj2 (RB Sea t z VT)). eauto.
Qed.
Lemma readAll_ok : forall fs xs, Forall2 (fits V) fs xs -> forall r, exists l, readAll ext fs (flat_map itemText xs ++ r) = Ok (l, r).
Proof.
  induction 1 as [|f x fs xs H F2 IH]; intros r; [exists []; reflexivity|]. cbn [flat_map readAll]. rewrite <- app_assoc.
  destruct (field_ok f x H (flat_map itemText xs ++ r)) as (l & ->). destruct (IH r) as (l' & ->). eauto.
Qed.
Lemma message_ok : forall k v m xs, V Ctr k -> V Ver v -> V Ilk m -> t_ilk m <> Other -> Forall2 (fits V) (order (t_ilk m)) xs ->
  exists l, message ext (t_txt k ++ t_txt v ++ t_txt m ++ flat_map itemText xs) = Ok (l, []).
Proof.
  intros k v m xs K VV M NO F2. unfold message. rewrite (prim_ok Ctr 0 k _ K), (prim_ok Ver 1 v _ VV), (prim_ok Ilk 1 m _ M).
  assert (EQ : fields (t_ilk m) = order (t_ilk m)) by (destruct (t_ilk m); reflexivity).
  destruct (readAll_ok _ _ F2 []) as (l & E). rewrite app_nil_r in E. rewrite <- EQ in E.
  destruct (t_ilk m); try (rewrite E; eauto; fail). destruct (NO eq_refl).
Qed.
End Writing.
