From Coq Require Import Lia.
From Verif Require Import Prelude ExModel MxModel MxSpec MxProofs MxProofs2.
Ltac Zify.zify_post_hook ::= Z.div_mod_to_equations.
Open Scope N_scope.

Lemma vals_vadd_same l k v : vals (vadd l k v) k = vals l k \/ vals (vadd l k v) k = vals l k ++ [v].
Proof.
  unfold vadd. destruct (has (vals l k) v); [auto|]. right. unfold vals. rewrite filter_app, map_app. cbn. rewrite beq_refl. reflexivity.
Qed.
Lemma vals_vadd_other l k v k' : k <> k' -> vals (vadd l k v) k' = vals l k'.
Proof.
  intros N. unfold vadd. destruct (has (vals l k) v); [auto|]. unfold vals. rewrite filter_app, map_app. cbn. rewrite (proj2 (beq_neq k k') N). cbn. apply app_nil_r.
Qed.

Section Q.
Variable dig : bytes -> bytes.
Variable hs : list bytes.

(** nothing is forgotten *)
Definition grows (s s' : mux) : Prop := (forall x, In x (meids s) -> In x (meids s')) /\ (forall x, In x (maids s) -> In x (maids s')) /\
  (forall x, In x (played s) -> In x (played s')) /\ (forall x, In x (notes s) -> In x (notes s')).
Lemma grows_refl s : grows s s.
Proof. split; [|split; [|split]]; auto. Qed.
Lemma grows_trans a b c : grows a b -> grows b c -> grows a c.
Proof. intros (A1 & A2 & A3 & A4) (B1 & B2 & B3 & B4). split; [|split; [|split]]; auto. Qed.
Lemma grows_added s p s' : added dig s p s' -> grows s s'.
Proof.
  intros [|e L ms r n]; [apply grows_refl|]. destruct r; (split; [|split; [|split]]); cbn [record put meids maids played notes]; intros x I; try (apply in_or_app; auto); try exact I; destruct x; apply vadd_In; auto.
Qed.
Lemma grows_step s o : grows s (step dig s o).
Proof.
  assert (W : forall p, grows s (fst (add dig (logged s p) p))) by (intros p; apply (grows_trans _ (logged s p)); [split; [|split; [|split]]; auto|eapply grows_added; apply add_added]).
  destruct o as [p|p|h]; cbn [step]; [unfold arrive; destruct (validate dig (habs s) p) as [[e|]|]; try apply grows_refl; apply W|apply W|split; [|split; [|split]]; auto].
Qed.
Lemma grows_run ops ops' : grows (run dig hs ops) (run dig hs (ops ++ ops')).
Proof.
  induction ops' as [|o ops' IH] using rev_ind; [rewrite app_nil_r; apply grows_refl|]. rewrite app_assoc, run_snoc. eapply grows_trans; [exact IH|apply grows_step].
Qed.

(** what comes is recorded *)
Lemma steady_prefix a b : steady (a ++ b) -> steady a.
Proof. intros H h p I1 I2. apply H; [apply in_or_app; auto|]. rewrite props_app. apply in_or_app. auto. Qed.
Lemma recorded ops p e : identified ops -> steady ops -> (forall q, In q (props ops) -> about dig q e -> readable dig q) -> came hs ops p -> about dig p e ->
  In (e, p_said p) (meids (run dig hs ops)) /\ In (e, p_sender p) (maids (run dig hs ops)).
Proof.
  intros ID ST RD (a & b & o & -> & OP & FU) AB.
  assert (E0 : a ++ o :: b = (a ++ [o]) ++ b) by (rewrite <- app_assoc; reflexivity). rewrite E0 in *. destruct (grows_run (a ++ [o]) b) as (G1 & G2 & _).
  assert (W : In (e, p_said p) (meids (run dig hs (a ++ [o]))) /\ In (e, p_sender p) (maids (run dig hs (a ++ [o])))); [|destruct W; auto].
  assert (ID1 := identified_prefix _ _ ID). assert (ID0 := identified_prefix _ _ ID1). assert (ST0 := steady_prefix _ _ (steady_prefix _ _ ST)).
  destruct (run_inv dig hs a ID0 ST0) as ((A & B & C & _) & _). rewrite run_snoc. set (s := run dig hs a) in *. clearbody s.
  pose proof (validate_good dig _ _ _ AB FU) as V. rewrite <- A in V.
  assert (IP : In p (props (a ++ [o]))) by (rewrite props_app; apply in_or_app; right; destruct OP as [-> | ->]; left; reflexivity).
  assert (X : step dig s o = fst (add dig (logged s p) p)) by (destruct OP as [-> | ->]; cbn [step]; [unfold arrive; rewrite V; reflexivity|reflexivity]). rewrite X.
  destruct (add_added dig (logged s p) p) as [NV|e' L ms r n V' RP LC _ _ _].
  - exfalso. apply (NV e). exact V.
  - assert (EE : e' = e) by (change (habs (logged s p)) with (habs s) in V'; rewrite V in V'; apply ok_inj in V'; congruence). subst e'.
    assert (R : snd (replays dig (exns (logged s p)) L) = Ok tt).
    { apply replays_good. intros k IK.
      assert (H : exists p', In p' (props (a ++ [o])) /\ p_said p' = k /\ about dig p' e /\ dget (exns (logged s p)) k <> None).
      { destruct LC as [->|[(-> & _)|(-> & _)]]; [destruct IK| |].
        - destruct IK as [<-|[]]. exists p. split; [exact IP|]. split; [reflexivity|]. split; [exact AB|]. cbn [logged exns dget]. rewrite beq_refl. discriminate.
        - apply vals_In in IK. destruct (C _ _ IK) as (p' & J1 & J2 & J3 & _ & J5). exists p'. split; [rewrite props_app; apply in_or_app; auto|]. split; [exact J2|]. split; [exact J3|]. cbn [logged exns dget]. destruct (beq k (p_said p)); [discriminate|exact J5]. }
      destruct H as (p' & J1 & J2 & J3 & J4). destruct (dget (exns (logged s p)) k) as [p2|] eqn:G; [|congruence]. exists p2. split; [reflexivity|].
      assert (J5 : p_said p2 = k /\ In p2 (props (a ++ [o]))).
      { cbn [logged exns dget] in G. destruct (beq_spec k (p_said p)) as [->|]; [injection G as <-; auto|]. destruct (B _ _ G) as (S1 & S2). split; [exact S1|]. rewrite props_app. apply in_or_app. auto. }
      assert (p2 = p') by (apply ID1; [apply J5|exact J1|]; destruct J5; congruence). subst p2. apply RD; [rewrite props_app; apply in_or_app; auto|exact J3]. }
    rewrite RP in R. cbn [snd] in R. subst r. cbn [record put meids maids]. split; apply vadd_In; auto.
Qed.

(** ** one bad copy *)
Definition spoiled (bad : prop) (e : bytes) (ops : list op) (s : mux) : Prop :=
  (exists r, vals (meids s) e = p_said bad :: r) /\ (forall q, In (e, q) (maids s) -> ~ In q (locals hs ops)) /\ In (e, p_sender bad) (maids s) /\
  (forall k m, In (k, m) (played s) -> exists p e', In p (props ops) /\ p_said p = k /\ about dig p e' /\ e' <> e).
Lemma spoil ops bad e : identified (Arrive bad :: ops) -> steady (Arrive bad :: ops) -> about dig bad e -> forUs hs bad -> ~ In (p_sender bad) hs ->
  (forall xs, dget xs (p_said bad) = Some bad -> exists x, replay dig xs (p_said bad) = ([], Err x)) -> spoiled bad e (Arrive bad :: ops) (run dig hs (Arrive bad :: ops)).
Proof.
  intros ID ST AB FU NL UN. revert ID ST. induction ops as [|o ops IH] using rev_ind; intros ID ST.
  - change (run dig hs [Arrive bad]) with (arrive dig (mux0 hs) bad). unfold arrive. change (habs (mux0 hs)) with hs. rewrite (validate_good _ _ _ _ AB FU). unfold add. change (habs (logged (mux0 hs) bad)) with hs. rewrite (validate_good _ _ _ _ AB FU).
    rewrite (proj2 (has_false hs (p_sender bad)) NL). cbn. split; [exists []; unfold vals; cbn; rewrite beq_refl; reflexivity|]. split; [|split; [left; reflexivity|intros k m []]]. intros q [E|[]]. injection E as <-. unfold locals. cbn. rewrite app_nil_r. exact NL.
  - change (Arrive bad :: ops ++ [o]) with ((Arrive bad :: ops) ++ [o]) in *. set (h := Arrive bad :: ops) in *. assert (ID' := identified_prefix _ _ ID). assert (ST' := steady_prefix _ _ ST).
    specialize (IH ID' ST'). destruct (run_inv dig hs h ID' ST') as ((A & B & C & D & _) & _). rewrite run_snoc. set (s := run dig hs h) in *. clearbody s.
    destruct IH as ((r0 & HV) & HM & HB & HP).
    assert (IB : In bad (props h)) by (left; reflexivity).
    assert (GB : dget (exns s) (p_said bad) = Some bad).
    { assert (IK : In (e, p_said bad) (meids s)) by (apply vals_In; rewrite HV; left; reflexivity). destruct (C _ _ IK) as (p2 & _ & _ & _ & _ & G). destruct (dget (exns s) (p_said bad)) as [p3|] eqn:G3; [|congruence]. destruct (B _ _ G3) as (S1 & S2). f_equal. apply ID'; auto. }
    assert (K : forall p, In p (props (h ++ [o])) -> (forall h', o <> NewHab h') -> forall s', added dig (logged s p) p s' -> spoiled bad e (h ++ [o]) s').
    { intros p IP N s' AD. assert (LL : locals hs (h ++ [o]) = locals hs h) by (rewrite locals_app; destruct o; cbn; rewrite ?app_nil_r; try reflexivity; destruct (N h0 eq_refl)).
      assert (HP' : forall k m, In (k, m) (played s) -> exists p e', In p (props (h ++ [o])) /\ p_said p = k /\ about dig p e' /\ e' <> e) by (intros k m I; destruct (HP k m I) as (p2 & e2 & J1 & R); exists p2, e2; split; [rewrite props_app; apply in_or_app; auto|exact R]).
      destruct AD as [NV|e' L ms r n V RP LC L1 L2 _].
      - unfold spoiled. rewrite LL. split; [exists r0; exact HV|]. split; [exact HM|]. split; [exact HB|exact HP'].
      - pose proof (validate_about _ _ _ _ V) as AB'. change (habs (logged s p)) with (habs s) in *. rewrite A in *. change (meids (logged s p)) with (meids s) in *. change (maids (logged s p)) with (maids s) in *.
        destruct (list_N_dec e' e) as [->|NE].
        + assert (LL0 : L = [] \/ (L = p_said bad :: r0 /\ In (p_sender p) (locals hs h))) by (destruct LC as [->|[(_ & _ & q & Q1 & Q2)|(-> & IS)]]; [auto|destruct (HM q Q1 Q2)|right; rewrite HV; auto]).
          destruct LL0 as [->|(-> & IS)].
          * cbn in RP. injection RP as <- <-. unfold spoiled. rewrite LL. cbn [record put meids maids played logged exns]. rewrite app_nil_r.
            assert (NS : ~ In (p_sender p) (locals hs h)). { intros IS. assert (X : [] = vals (meids s) e) by (apply L2; [exact IS|exists (p_sender bad); split; [exact HB|apply HM; exact HB]|rewrite HV; discriminate]). rewrite HV in X. discriminate. }
            split; [destruct (vals_vadd_same (meids s) e (p_said p)) as [E|E]; rewrite E, HV; [eauto|exists (r0 ++ [p_said p]); reflexivity]|]. split; [|split; [apply vadd_In; auto|exact HP']].
            intros q I. apply vadd_In in I. destruct I as [I|(_ & ->)]; [apply HM; exact I|exact NS].
          * assert (GL : dget (exns (logged s p)) (p_said bad) = Some bad).
            { cbn [logged exns dget]. destruct (beq_spec (p_said bad) (p_said p)) as [E|]; [|exact GB]. f_equal. apply ID; [exact IP|rewrite props_app; apply in_or_app; auto|auto]. }
            destruct (UN _ GL) as (x & RB). cbn [replays] in RP. rewrite RB in RP. cbn in RP. injection RP as <- <-. unfold spoiled. rewrite LL. cbn [put meids maids played logged exns]. rewrite app_nil_r. split; [exists r0; exact HV|]. split; [exact HM|]. split; [exact HB|exact HP'].
        + assert (PL : forall k m, In (k, m) (played s ++ ms) -> exists p e', In p (props (h ++ [o])) /\ p_said p = k /\ about dig p e' /\ e' <> e).
          { intros k m I. apply in_app_or in I. destruct I as [I|I]; [eapply HP'; exact I|]. pose proof (replays_spec _ _ _ _ _ RP) as (R1 & _). destruct (R1 _ _ I) as (IL & _). destruct LC as [->|[(-> & _)|(-> & _)]]; [destruct IL| |].
            - destruct IL as [<-|[]]. exists p, e'. auto.
            - apply vals_In in IL. destruct (C _ _ IL) as (p2 & J1 & J2 & J3 & _). exists p2, e'. split; [rewrite props_app; apply in_or_app; auto|auto]. }
          unfold spoiled. rewrite LL. destruct r; cbn [record put meids maids played logged exns].
          * split; [rewrite vals_vadd_other by exact NE; eauto|]. split; [|split; [apply vadd_In; auto|exact PL]]. intros q I. apply vadd_In in I. destruct I as [I|(E & _)]; [apply HM; exact I|congruence].
          * split; [eauto|]. split; [exact HM|]. split; [exact HB|exact PL]. }
    destruct o as [p|p|h0]; cbn [step].
    + unfold arrive. destruct (validate dig (habs s) p) as [[e'|]|x] eqn:V.
      2,3: assert (LL : locals hs (h ++ [Arrive p]) = locals hs h) by (rewrite locals_app; cbn; apply app_nil_r); unfold spoiled; rewrite LL; (split; [eauto|]); (split; [exact HM|]); (split; [exact HB|]); intros k m I; destruct (HP k m I) as (p2 & e2 & J1 & R); exists p2, e2; (split; [rewrite props_app; apply in_or_app; auto|exact R]).
      apply (K p); [rewrite props_app; apply in_or_app; right; left; reflexivity|discriminate|apply add_added].
    + apply (K p); [rewrite props_app; apply in_or_app; right; left; reflexivity|discriminate|apply add_added].
    + unfold spoiled. cbn [meids maids played]. split; [eauto|]. split; [|split; [exact HB|]].
      * intros q I IL. rewrite locals_app in IL. apply in_app_or in IL. destruct IL as [IL|[<-|[]]]; [exact (HM q I IL)|]. destruct (D _ _ I) as (p2 & J1 & J2 & _). apply (ST h0 p2); [apply in_or_app; right; left; reflexivity|rewrite props_app; apply in_or_app; auto|exact J2].
      * intros k m I. destruct (HP k m I) as (p2 & e2 & J1 & R). exists p2, e2. split; [rewrite props_app; apply in_or_app; auto|exact R].
Qed.
End Q.
