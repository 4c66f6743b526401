From Coq Require Import Lia.
From Verif Require Import Prelude ExModel MxModel MxSpec.
Ltac Zify.zify_post_hook ::= Z.div_mod_to_equations.
Open Scope N_scope.

Lemma has_In l p : has l p = true <-> In p l.
Proof.
  unfold has. rewrite existsb_exists. split; [intros (x & I & E); apply beq_eq in E; subst; exact I|]. intros I. exists p. split; [exact I|apply beq_refl].
Qed.
Lemma has_false l p : has l p = false <-> ~ In p l.
Proof. rewrite <- has_In. destruct (has l p); split; congruence. Qed.
Lemma anyLocal hs l : existsb (has hs) l = true <-> exists q, In q l /\ In q hs.
Proof. rewrite existsb_exists. split; intros (q & I & H); exists q; (split; [exact I|]); apply has_In; exact H. Qed.
Lemma anyRemote hs l : existsb (fun q => negb (has hs q)) l = true <-> exists q, In q l /\ ~ In q hs.
Proof.
  rewrite existsb_exists. split; intros (q & I & H); exists q; (split; [exact I|]); [apply negb_true_iff in H; apply has_false; exact H|apply negb_true_iff, has_false; exact H].
Qed.
Lemma vals_In l k v : In v (vals l k) <-> In (k, v) l.
Proof.
  unfold vals. rewrite in_map_iff. split; [intros ((a & b) & <- & I); apply filter_In in I; destruct I as (I & E); apply beq_eq in E; cbn in *; subst; exact I|].
  intros I. exists (k, v). split; [reflexivity|]. apply filter_In. split; [exact I|apply beq_refl].
Qed.
Lemma vadd_In l k v a b : In (a, b) (vadd l k v) <-> In (a, b) l \/ (a = k /\ b = v).
Proof.
  unfold vadd. destruct (has (vals l k) v) eqn:H.
  - apply has_In, vals_In in H. split; [auto|]. intros [I|(-> & ->)]; assumption.
  - rewrite in_app_iff. cbn. split; [intros [I|[E|[]]]; [auto|injection E as <- <-; auto]|intros [I|(-> & ->)]; auto].
Qed.

Lemma playEmbeds_spec dig l ms r : playEmbeds dig l = (ms, r) ->
  (forall m, In m ms -> In m (flat_map (fun kv => match snd kv with EMsg m => [m] | _ => [] end) l)) /\
  (r = Ok tt -> ms = flat_map (fun kv => match snd kv with EMsg m => [m] | _ => [] end) l) /\
  (r = Ok tt \/ exists x, r = Err x).
Proof.
  revert ms r. induction l as [|(k & v) l IH]; intros ms r H; cbn [playEmbeds] in H.
  - injection H as <- <-. cbn. auto.
  - destruct v as [t|m| |]; cbn [flat_map snd app].
    + apply IH; exact H.
    + destruct (intact dig m).
      * destruct (playEmbeds dig l) as [ms' r'] eqn:E. injection H as <- <-. destruct (IH _ _ eq_refl) as (A & B & C). split; [intros m' [->|I]; [left; reflexivity|right; apply A; exact I]|]. split; [intros R; rewrite (B R); reflexivity|exact C].
      * injection H as <- <-. split; [intros m' []|]. split; [discriminate|eauto].
    + injection H as <- <-. split; [intros m' []|]. split; [discriminate|eauto].
    + apply IH; exact H.
Qed.
Lemma playEmbeds_good dig l : (forall k v, In (k, v) l -> v <> EMap /\ forall m, v = EMsg m -> dig (c_body m) = c_said m) -> snd (playEmbeds dig l) = Ok tt.
Proof.
  induction l as [|(k & v) l IH]; intros G; [reflexivity|]. specialize (IH (fun a b I => G a b (or_intror I))). destruct (G k v (or_introl eq_refl)) as (N1 & N2).
  destruct v as [t|m| |]; cbn [playEmbeds]; [exact IH| |congruence|exact IH].
  unfold intact. rewrite (N2 m eq_refl), beq_refl. destruct (playEmbeds dig l). exact IH.
Qed.
Lemma replay_spec dig xs s ms r : replay dig xs s = (ms, r) ->
  (forall m, In m ms -> exists p, dget xs s = Some p /\ In m (contents p)) /\
  (r = Ok tt -> exists p, dget xs s = Some p /\ ms = contents p) /\ (r = Ok tt \/ exists x, r = Err x).
Proof.
  unfold replay. destruct (dget xs s) as [p|] eqn:G.
  - destruct (p_nests p) as [|m0 l0] eqn:NS.
    + destruct (p_cig p).
      * intros H. injection H as <- <-. split; [intros m []|]. split; [discriminate|eauto].
      * destruct (p_embeds p) as [l|] eqn:EB.
        -- intros H. apply playEmbeds_spec in H. destruct H as (A & B & C).
           assert (CO : contents p = flat_map (fun kv => match snd kv with EMsg m => [m] | _ => [] end) l) by (unfold contents; rewrite NS, EB; reflexivity).
           split; [intros m I; exists p; split; [reflexivity|rewrite CO; apply A; exact I]|]. split; [intros R; exists p; split; [reflexivity|rewrite CO; apply B; exact R]|exact C].
        -- intros H. injection H as <- <-. split; [intros m []|]. split; [discriminate|eauto].
    + intros H. injection H as <- <-. assert (CO : contents p = m0 :: l0) by (unfold contents; rewrite NS; reflexivity).
      split; [intros m I; exists p; split; [reflexivity|rewrite CO; exact I]|]. split; [intros _; exists p; rewrite CO; auto|auto].
  - intros H. injection H as <- <-. split; [intros m []|]. split; [discriminate|eauto].
Qed.
Lemma replay_good dig xs s p : dget xs s = Some p -> readable dig p -> snd (replay dig xs s) = Ok tt.
Proof.
  intros G R. unfold replay. rewrite G. destruct (p_nests p) as [|m0 l0] eqn:NS; [|reflexivity]. destruct R as [R|(-> & l & -> & GD)]; [congruence|]. apply playEmbeds_good. exact GD.
Qed.
Lemma replays_spec dig xs l ms r : replays dig xs l = (ms, r) ->
  (forall s m, In (s, m) ms -> In s l /\ exists p, dget xs s = Some p /\ In m (contents p)) /\
  (r = Ok tt -> forall s, In s l -> exists p, dget xs s = Some p /\ forall m, In m (contents p) -> In (s, m) ms) /\ (r = Ok tt \/ exists x, r = Err x).
Proof.
  revert ms r. induction l as [|a l IH]; intros ms r H; cbn [replays] in H.
  - injection H as <- <-. split; [intros s m []|]. split; [intros _ s []|auto].
  - destruct (replay dig xs a) as [ma ra] eqn:RA. apply replay_spec in RA. destruct RA as (A & B & C).
    assert (AM : forall s m, In (s, m) (map (pair a) ma) -> s = a /\ In m ma) by (intros s m I; apply in_map_iff in I; destruct I as (m' & E & I); injection E as <- <-; auto).
    destruct ra as [[]|x].
    + destruct (replays dig xs l) as [rest r'] eqn:RL. injection H as <- <-. destruct (IH _ _ eq_refl) as (A' & B' & C'). split; [|split; [|exact C']].
      * intros s m I. apply in_app_or in I. destruct I as [I|I]; [apply AM in I; destruct I as (-> & I); split; [left; reflexivity|apply A; exact I]|]. destruct (A' _ _ I) as (I1 & I2). split; [right; exact I1|exact I2].
      * intros R s [<-|I].
        -- destruct (B eq_refl) as (p & G & ->). exists p. split; [exact G|]. intros m I. apply in_or_app. left. apply in_map. exact I.
        -- destruct (B' R s I) as (p & G & F). exists p. split; [exact G|]. intros m Im. apply in_or_app. right. apply F. exact Im.
    + injection H as <- <-. split; [intros s m I; apply AM in I; destruct I as (-> & I); split; [left; reflexivity|apply A; exact I]|]. split; [discriminate|eauto].
Qed.
Lemma replays_good dig xs l : (forall s, In s l -> exists p, dget xs s = Some p /\ readable dig p) -> snd (replays dig xs l) = Ok tt.
Proof.
  induction l as [|a l IH]; intros G; [reflexivity|]. specialize (IH (fun s I => G s (or_intror I))). destruct (G a (or_introl eq_refl)) as (p & GP & RP). pose proof (replay_good _ _ _ _ GP RP) as S1.
  cbn [replays]. destruct (replay dig xs a) as [ma ra]. cbn [snd] in S1. subst ra. destruct (replays dig xs l). exact IH.
Qed.

(** ** validation *)
Lemma need_ok A (o : option A) a : need o = Ok a -> o = Some a.
Proof. destruct o; cbn; [intros H; apply ok_inj in H; congruence|discriminate]. Qed.
Lemma ident_about dig p e : ident dig p = Ok (Some e) -> about dig p e.
Proof.
  unfold ident. destruct (N.eqb_spec (p_major p) 1) as [M|M].
  - destruct (p_embeds p) as [l|] eqn:EB; [|discriminate]. destruct (dget l (s2b "d")) as [[t|m| |]|] eqn:G; try discriminate. intros H. apply ok_inj in H. injection H as <-. eapply ab_block; eassumption.
  - destruct (p_nests p) as [|m [|m' r]] eqn:NS; try discriminate. destruct (has supported (p_route p)) eqn:SU; [|discriminate]. cbn [negb].
    destruct (dget (p_texts p) (field (p_route p))) as [sg|] eqn:GT; [|discriminate]. destruct (allowed (p_route p) (c_ilk m)) eqn:AL; [|discriminate]. cbn [negb].
    destruct (intact dig m && beq (c_said m) sg) eqn:IT; [|discriminate]. cbn [negb]. intros H. apply ok_inj in H. injection H as ->. apply andb_true_iff in IT. destruct IT as (I1 & I2). unfold intact in I1. apply beq_eq in I1, I2. subst e.
    apply has_In in SU. unfold supported in SU. cbn [map In] in SU. unfold allowed in AL.
    destruct SU as [E|[E|[E|[E|[]]]]]; rewrite <- E in AL, GT; cbn [beq] in AL.
    + change (has (map s2b ["icp"; "dip"]%string) (c_ilk m) = true) in AL. apply has_In in AL. cbn [map In] in AL. destruct AL as [AL|[AL|[]]].
      * eapply (ab_nested _ _ _ m "icp" "icp"); [exact M|exact NS|unfold kinds; cbn; tauto|rewrite <- E; reflexivity|symmetry; exact AL|exact GT|reflexivity|exact I1].
      * eapply (ab_nested _ _ _ m "icp" "dip"); [exact M|exact NS|unfold kinds; cbn; tauto|rewrite <- E; reflexivity|symmetry; exact AL|exact GT|reflexivity|exact I1].
    + change (beq (c_ilk m) (s2b "rot") = true) in AL. apply beq_eq in AL. eapply (ab_nested _ _ _ m "rot" "rot"); [exact M|exact NS|unfold kinds; cbn; tauto|rewrite <- E; reflexivity|exact AL|exact GT|reflexivity|exact I1].
    + change (beq (c_ilk m) (s2b "ixn") = true) in AL. apply beq_eq in AL. eapply (ab_nested _ _ _ m "ixn" "ixn"); [exact M|exact NS|unfold kinds; cbn; tauto|rewrite <- E; reflexivity|exact AL|exact GT|reflexivity|exact I1].
    + change (beq (c_ilk m) (s2b "rpy") = true) in AL. apply beq_eq in AL. eapply (ab_nested _ _ _ m "rpy" "rpy"); [exact M|exact NS|unfold kinds; cbn; tauto|rewrite <- E; reflexivity|exact AL|exact GT|reflexivity|exact I1].
Qed.
Lemma about_ident dig p e : about dig p e -> ident dig p = Ok (Some e).
Proof.
  intros [l M EB G|m k i M NS KI RT IK GT ES EG]; unfold ident.
  - rewrite M. cbn [N.eqb Pos.eqb]. rewrite EB, G. reflexivity.
  - destruct (N.eqb_spec (p_major p) 1) as [|_]; [congruence|]. rewrite NS, RT, IK. unfold intact. rewrite EG, ES, beq_refl. cbn [andb].
    unfold kinds in KI. cbn [In] in KI. destruct KI as [E|[E|[E|[E|[E|[]]]]]]; injection E as <- <-; cbn [negb];
      (match goal with |- context [has supported ?x] => change (has supported x) with true end); (match goal with |- context [field ?x] => let v := eval vm_compute in (field x) in change (field x) with v end); cbn [negb];
      (match type of GT with dget _ ?x = _ => let v := eval vm_compute in x in change x with v in GT end); rewrite GT; (match goal with |- context [allowed ?x ?y] => change (allowed x y) with true end); cbn [negb]; rewrite ?beq_refl; reflexivity.
Qed.
Lemma joint_ok hs l : (exists h, In h l /\ In h hs) -> joint hs l = Ok tt.
Proof. intros H. unfold joint. apply anyLocal in H. rewrite H. reflexivity. Qed.
Lemma forUs_mine hs p : forUs hs p -> mine hs p = Ok tt.
Proof.
  intros [RT NS EX|g RT GG EX|g k IK RT GG IG]; unfold mine; rewrite RT.
  - change (splitB 47 (s2b "/multisig/icp")) with [[]; s2b "multisig"; s2b "icp"]. cbv beta iota. rewrite !beq_refl. cbn [beq andb negb]. unfold members in EX. destruct (p_smids p) as [sm|]; [|congruence]. cbn [need bind]. apply joint_ok. exact EX.
  - change (splitB 47 (s2b "/multisig/rot")) with [[]; s2b "multisig"; s2b "rot"]. cbv beta iota. rewrite !beq_refl. change (beq (s2b "rot") (s2b "icp")) with false. cbn [beq andb negb]. rewrite GG. cbn [need bind]. destruct (has hs g) eqn:HG; [reflexivity|].
    destruct EX as [I|(N1 & N2 & EX)]; [apply has_false in HG; contradiction|]. unfold members in EX. destruct (p_smids p) as [sm|]; [|congruence]. destruct (p_rmids p) as [rm|]; [|congruence]. cbn [need bind]. apply joint_ok. exact EX.
  - apply has_In in IG. cbn [In] in IK. destruct IK as [<-|[<-|[<-|[<-|[<-|[<-|[]]]]]]];
      (match goal with |- context [splitB 47 ?x] => let v := eval vm_compute in (splitB 47 x) in change (splitB 47 x) with v end); cbn [beq andb negb s2b map list_ascii_of_string];
      (match goal with |- context [if negb ?b then _ else _] => let v := eval vm_compute in b in change b with v end); cbn [negb];
      repeat (match goal with |- context [if beq ?a ?b then _ else _] => let v := eval vm_compute in (beq a b) in change (beq a b) with v end; cbn iota);
      rewrite GG; cbn [need bind]; rewrite IG; reflexivity.
Qed.
Lemma validate_about dig hs p e : validate dig hs p = Ok (Some e) -> about dig p e.
Proof.
  unfold validate. destruct (ident dig p) as [[t|]|] eqn:I; cbn [bind]; try discriminate. destruct (mine hs p); cbn [bind]; [|discriminate]. intros H. apply ok_inj in H. injection H as <-. apply ident_about. exact I.
Qed.
Lemma validate_good dig hs p e : about dig p e -> forUs hs p -> validate dig hs p = Ok (Some e).
Proof. intros A F. unfold validate. rewrite (about_ident _ _ _ A). cbn [bind]. rewrite (forUs_mine _ _ F). reflexivity. Qed.
Lemma about_unique dig p e e' : about dig p e -> about dig p e' -> e = e'.
Proof. intros A B. apply about_ident in A, B. rewrite A in B. apply ok_inj in B. congruence. Qed.
