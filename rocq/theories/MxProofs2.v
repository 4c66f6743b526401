From Coq Require Import Lia.
From Verif Require Import Prelude ExModel MxModel MxSpec MxProofs.
Ltac Zify.zify_post_hook ::= Z.div_mod_to_equations.
Open Scope N_scope.

(** ** what add does *)
Definition put (s : mux) (n : list (bytes * bytes * bool)) (ms : list (bytes * child)) : mux := mkM (habs s) (exns s) (meids s) (maids s) (notes s ++ n) (played s ++ ms).
Lemma put_nil s ms : setPlayed s (played s ++ ms) = put s [] ms.
Proof. unfold setPlayed, put. rewrite app_nil_r. reflexivity. Qed.
Inductive added dig (s : mux) (p : prop) : mux -> Prop :=
| ad_none : (forall e, validate dig (habs s) p <> Ok (Some e)) -> added dig s p s
| ad_some : forall e L ms r n, validate dig (habs s) p = Ok (Some e) -> replays dig (exns s) L = (ms, r) ->
    (L = [] \/
     (L = [p_said p] /\ ~ In (p_sender p) (habs s) /\ exists q, In (e, q) (maids s) /\ In q (habs s)) \/
     (L = vals (meids s) e /\ In (p_sender p) (habs s))) ->
    (~ In (p_sender p) (habs s) -> (exists q, In (e, q) (maids s) /\ In q (habs s)) -> L = [p_said p]) ->
    (In (p_sender p) (habs s) -> (exists q, In (e, q) (maids s) /\ ~ In q (habs s)) -> vals (meids s) e <> [] -> L = vals (meids s) e) ->
    (~ In (p_sender p) (habs s) -> (forall q, In (e, q) (maids s) -> ~ In q (habs s)) -> n = [(p_route p, p_said p, match vals (meids s) e with [] => false | _ => true end)]) ->
    added dig s p (match r with Ok _ => record (put s n ms) e (p_said p) (p_sender p) | Err _ => put s n ms end).
Lemma add_added dig s p : added dig s p (fst (add dig s p)).
Proof.
  unfold add. destruct (validate dig (habs s) p) as [[e|]|x] eqn:V; [|cbn [fst]; apply ad_none; intros e; rewrite V; discriminate|cbn [fst]; apply ad_none; intros e; rewrite V; discriminate].
  destruct (has (habs s) (p_sender p)) eqn:HS; cbn [negb].
  - apply has_In in HS. destruct (vals (meids s) e) as [|d0 dr] eqn:DG.
    + cbn [negb andb fst]. replace (record s e (p_said p) (p_sender p)) with (record (put s [] []) e (p_said p) (p_sender p)) by (unfold record, put; cbn; rewrite !app_nil_r; reflexivity).
      refine (ad_some dig s p e [] [] (Ok tt) [] V eq_refl (or_introl eq_refl) _ _ _); [intros N1; contradiction|intros _ _ N1; congruence|intros N1; contradiction].
    + cbn [negb andb]. destruct (existsb (fun q => negb (has (habs s) q)) (vals (maids s) e)) eqn:AR.
      * rewrite <- DG. destruct (replays dig (exns s) (vals (meids s) e)) as [ms r] eqn:RP. rewrite put_nil.
        replace (fst match r with Ok _ => (record (put s [] ms) e (p_said p) (p_sender p), Ok tt) | Err x => (put s [] ms, Err x) end) with (match r with Ok _ => record (put s [] ms) e (p_said p) (p_sender p) | Err _ => put s [] ms end) by (destruct r; reflexivity).
        refine (ad_some dig s p e _ ms r [] V RP _ _ _ _); [right; right; auto|intros N1; contradiction|reflexivity|intros N1; contradiction].
      * cbn [fst]. replace (record s e (p_said p) (p_sender p)) with (record (put s [] []) e (p_said p) (p_sender p)) by (unfold record, put; cbn; rewrite !app_nil_r; reflexivity).
        refine (ad_some dig s p e [] [] (Ok tt) [] V eq_refl (or_introl eq_refl) _ _ _); [intros N1; contradiction| |intros N1; contradiction].
        intros _ (q & I1 & I2) _. exfalso. assert (X : existsb (fun q => negb (has (habs s) q)) (vals (maids s) e) = true) by (apply anyRemote; exists q; split; [apply vals_In; exact I1|exact I2]). congruence.
  - apply has_false in HS. destruct (existsb (has (habs s)) (vals (maids s) e)) eqn:AL.
    + destruct (replays dig (exns s) [p_said p]) as [ms r] eqn:RP. rewrite put_nil.
      replace (fst match r with Ok _ => (record (put s [] ms) e (p_said p) (p_sender p), Ok tt) | Err x => (put s [] ms, Err x) end) with (match r with Ok _ => record (put s [] ms) e (p_said p) (p_sender p) | Err _ => put s [] ms end) by (destruct r; reflexivity).
      apply anyLocal in AL. destruct AL as (q & I1 & I2). apply vals_In in I1.
      refine (ad_some dig s p e _ ms r [] V RP _ _ _ _); [right; left; split; [reflexivity|split; [exact HS|eauto]]|reflexivity|intros N1; contradiction|intros _ NA; destruct (NA q I1 I2)].
    + cbn [fst]. replace (mkM (habs s) (exns s) (meids s) (maids s) (notes s ++ [(p_route p, p_said p, negb match vals (meids s) e with [] => true | _ => false end)]) (played s)) with (put s [(p_route p, p_said p, match vals (meids s) e with [] => false | _ => true end)] []) by (unfold put; rewrite app_nil_r; destruct (vals (meids s) e); reflexivity).
      refine (ad_some dig s p e [] [] (Ok tt) _ V eq_refl (or_introl eq_refl) _ _ _); [|intros N1; contradiction|reflexivity].
      intros _ (q & I1 & I2). exfalso. assert (X : existsb (has (habs s)) (vals (maids s) e) = true) by (apply anyLocal; exists q; split; [apply vals_In; exact I1|exact I2]). congruence.
Qed.

Section P.
Variable dig : bytes -> bytes.
Variable hs : list bytes.

Definition base (ops : list op) (s : mux) : Prop :=
  habs s = locals hs ops /\
  (forall k p, dget (exns s) k = Some p -> p_said p = k /\ In p (props ops)) /\
  (forall e k, In (e, k) (meids s) -> exists p, In p (props ops) /\ p_said p = k /\ about dig p e /\ In (e, p_sender p) (maids s) /\ dget (exns s) k <> None) /\
  (forall e q, In (e, q) (maids s) -> exists p, In p (props ops) /\ p_sender p = q /\ about dig p e) /\
  (forall k m, In (k, m) (played s) -> exists p l e, In p (props ops) /\ p_said p = k /\ In m (contents p) /\ about dig p e /\
     In l (props ops) /\ about dig l e /\ In (p_sender l) (locals hs ops)).
Lemma props_app a b : props (a ++ b) = props a ++ props b.
Proof. unfold props. apply flat_map_app. Qed.
Lemma locals_app a b : locals hs (a ++ b) = locals hs a ++ flat_map (fun o => match o with NewHab h => [h] | _ => [] end) b.
Proof. unfold locals. rewrite flat_map_app, app_assoc. reflexivity. Qed.
Definition opOf (o : op) (p : prop) : Prop := o = Arrive p \/ o = Submit p.
Lemma base_more ops o s : base ops s -> (forall h, o <> NewHab h) -> base (ops ++ [o]) s.
Proof.
  intros (A & B & C & D & E) N. assert (L : locals hs (ops ++ [o]) = locals hs ops) by (rewrite locals_app; destruct o; cbn; rewrite ?app_nil_r; try reflexivity; destruct (N h eq_refl)).
  assert (P : forall p, In p (props ops) -> In p (props (ops ++ [o]))) by (intros p I; rewrite props_app; apply in_or_app; auto).
  unfold base. rewrite L. split; [exact A|]. split; [intros k p G; destruct (B k p G); auto|]. split; [intros e k I; destruct (C e k I) as (p & I1 & R); exists p; auto|]. split; [intros e q I; destruct (D e q I) as (p & I1 & R); exists p; auto|].
  intros k m I. destruct (E k m I) as (p & l & e & I1 & I2 & I3 & I4 & I5 & R). exists p, l, e. auto 10.
Qed.
Lemma base_logged ops s p : base ops s -> In p (props ops) -> base ops (logged s p).
Proof.
  intros (A & B & C & D & E) I. unfold base, logged. cbn [habs exns meids maids played]. split; [exact A|]. split; [|split; [|split; [exact D|exact E]]].
  - intros k q G. cbn [dget] in G. destruct (beq_spec k (p_said p)) as [->|]; [injection G as <-; auto|apply B; exact G].
  - intros e k I1. destruct (C e k I1) as (q & J1 & J2 & J3 & J4 & J5). exists q. split; [exact J1|]. split; [exact J2|]. split; [exact J3|]. split; [exact J4|]. cbn [dget]. destruct (beq k (p_said p)); [discriminate|exact J5].
Qed.
Lemma base_added ops s p s' : identified ops -> base ops s -> In p (props ops) -> dget (exns s) (p_said p) = Some p -> added dig s p s' -> base ops s'.
Proof.
  intros ID BS IP GP [NV|e L ms r n V RP LC _ _ _]; [exact BS|]. destruct BS as (A & B & C & D & E). pose proof (validate_about _ _ _ _ V) as AB. pose proof (replays_spec _ _ _ _ _ RP) as (R1 & _ & _).
  assert (PL : forall k m, In (k, m) ms -> exists p l e, In p (props ops) /\ p_said p = k /\ In m (contents p) /\ about dig p e /\ In l (props ops) /\ about dig l e /\ In (p_sender l) (locals hs ops)).
  { intros k m I. destruct (R1 _ _ I) as (IL & q & GQ & IM). destruct (B _ _ GQ) as (SQ & IQ). destruct LC as [->|[(-> & NS & a & I1 & I2)|(-> & IS)]].
    - destruct IL.
    - destruct IL as [<-|[]]. rewrite GP in GQ. injection GQ as <-. destruct (D _ _ I1) as (l & J1 & J2 & J3). exists p, l, e. rewrite A in I2. rewrite <- J2 in I2. auto 10.
    - apply vals_In in IL. destruct (C _ _ IL) as (q' & J1 & J2 & J3 & _). assert (q' = q) by (apply ID; auto; congruence). subst q'. exists q, p, e. rewrite A in IS. auto 10. }
  assert (PP : forall k m, In (k, m) (played s ++ ms) -> exists p l e, In p (props ops) /\ p_said p = k /\ In m (contents p) /\ about dig p e /\ In l (props ops) /\ about dig l e /\ In (p_sender l) (locals hs ops)).
  { intros k m I. apply in_app_or in I. destruct I as [I|I]; [apply E; exact I|apply PL; exact I]. }
  destruct r as [u|x]; unfold base; cbn [record put habs exns meids maids played].
  - split; [exact A|]. split; [exact B|]. split; [|split; [|exact PP]].
    + intros e' k I. apply vadd_In in I. destruct I as [I|(-> & ->)].
      * destruct (C _ _ I) as (q & J1 & J2 & J3 & J4 & J5). exists q. split; [exact J1|]. split; [exact J2|]. split; [exact J3|]. split; [apply vadd_In; auto|exact J5].
      * exists p. split; [exact IP|]. split; [reflexivity|]. split; [exact AB|]. split; [apply vadd_In; auto|congruence].
    + intros e' q I. apply vadd_In in I. destruct I as [I|(-> & ->)]; [apply D; exact I|]. exists p. auto.
  - split; [exact A|]. split; [exact B|]. split; [exact C|]. split; [exact D|exact PP].
Qed.

(** what is merged *)
Definition merged (ops : list op) (s : mux) : Prop :=
  forall e k p q m, In (e, k) (meids s) -> In p (props ops) -> p_said p = k -> ~ In (p_sender p) (locals hs ops) ->
    In (e, q) (maids s) -> In q (locals hs ops) -> In m (contents p) -> In (k, m) (played s).
Lemma merged_added ops s p s' : identified ops -> base ops s -> In p (props ops) -> dget (exns s) (p_said p) = Some p -> merged ops s -> added dig s p s' -> merged ops s'.
Proof.
  intros ID BS IP GP MS [NV|e L ms r n V RP LC L1 L2 _]; [exact MS|]. destruct BS as (A & B & C & D & E). pose proof (replays_spec _ _ _ _ _ RP) as (_ & R2 & R3).
  destruct r as [u|x]; unfold merged; cbn [record put habs exns meids maids played].
  2:{ intros e' k p' q m I1 I2 I3 I4 I5 I6 I7. apply in_or_app. left. eapply MS; eassumption. }
  destruct u. specialize (R2 eq_refl). intros e' k p' q m I1 I2 I3 I4 I5 I6 I7. apply vadd_In in I1, I5.
  assert (FromL : In k L -> In (k, m) (played s ++ ms)).
  { intros IL. destruct (R2 k IL) as (q' & G & F). destruct (B _ _ G) as (S1 & S2). assert (q' = p') by (apply ID; auto; congruence). subst q'. apply in_or_app. right. apply F. exact I7. }
  rewrite A in *. destruct I5 as [I5|(-> & ->)].
  - destruct I1 as [I1|(-> & ->)]; [apply in_or_app; left; eapply MS; eassumption|].
    assert (p' = p) by (apply ID; auto). subst p'. apply FromL. rewrite (L1 I4); [left; reflexivity|]. exists q. auto.
  - destruct I1 as [I1|(_ & ->)].
    + apply FromL. assert (V1 : In k (vals (meids s) e)) by (apply vals_In; exact I1). rewrite (L2 I6); [exact V1| |intros E0; rewrite E0 in V1; destruct V1].
      destruct (C _ _ I1) as (p2 & J1 & J2 & J3 & J4 & _). assert (p2 = p') by (apply ID; auto; congruence). subst p2. exists (p_sender p'). auto.
    + assert (p' = p) by (apply ID; auto). subst p'. contradiction.
Qed.

Lemma identified_prefix a b : identified (a ++ b) -> identified a.
Proof. intros H p q I1 I2. apply H; rewrite props_app; apply in_or_app; auto. Qed.
Lemma run_snoc ops o : run dig hs (ops ++ [o]) = step dig (run dig hs ops) o.
Proof. unfold run. apply fold_left_app. Qed.
Lemma step_habs s o : habs (step dig s o) = habs s ++ match o with NewHab h => [h] | _ => [] end.
Proof.
  assert (W : forall s p s', added dig s p s' -> habs s' = habs s) by (intros s0 p s' [|e L ms r n]; [reflexivity|destruct r; reflexivity]).
  destruct o as [p|p|h]; cbn [step]; [unfold arrive; destruct (validate dig (habs s) p) as [[e|]|]; rewrite ?app_nil_r; try reflexivity; apply (W _ _ _ (add_added dig (logged s p) p))|unfold submit; rewrite app_nil_r; apply (W _ _ _ (add_added dig (logged s p) p))|reflexivity].
Qed.
(** both for whole histories *)
Lemma run_inv ops : identified ops -> steady ops -> base ops (run dig hs ops) /\ merged ops (run dig hs ops).
Proof.
  induction ops as [|o ops IH] using rev_ind; intros ID ST.
  - split; [|intros e k p q m []]. split; [cbn; symmetry; apply app_nil_r|]. split; [intros k p; discriminate|]. split; [intros e k []|]. split; [intros e q []|intros k m []].
  - assert (ID' := identified_prefix _ _ ID). assert (ST' : steady ops) by (intros h p I1 I2; apply ST; [apply in_or_app; auto|rewrite props_app; apply in_or_app; auto]).
    destruct (IH ID' ST') as (B & M). rewrite run_snoc. set (s := run dig hs ops) in *. clearbody s.
    assert (G : forall p, In p (props (ops ++ [o])) -> (forall h, o <> NewHab h) -> forall s', added dig (logged s p) p s' -> base (ops ++ [o]) s' /\ merged (ops ++ [o]) s').
    { intros p IP N s' AD. assert (B' := base_logged _ _ p (base_more _ _ _ B N) IP). assert (GP : dget (exns (logged s p)) (p_said p) = Some p) by (cbn [logged exns dget]; rewrite beq_refl; reflexivity).
      split; [eapply base_added; eassumption|]. eapply merged_added; try eassumption.
      assert (LL : locals hs (ops ++ [o]) = locals hs ops) by (rewrite locals_app; destruct o; cbn; rewrite ?app_nil_r; try reflexivity; destruct (N h eq_refl)).
      intros e k p' q m I1 I2 I3 I4 I5 I6 I7. cbn [logged meids maids played] in *. rewrite LL in *. destruct B as (_ & _ & C & _). destruct (C _ _ I1) as (p2 & J1 & J2 & _). assert (p2 = p') by (apply ID; auto; [rewrite props_app; apply in_or_app; auto|congruence]). subst p2. eapply M; eassumption. }
    destruct o as [p|p|h]; cbn [step].
    + assert (N : forall h, Arrive p <> NewHab h) by discriminate. unfold arrive. destruct (validate dig (habs s) p) as [[e|]|x] eqn:V.
      2,3: split; [apply base_more; assumption|].
      2,3: assert (LL : locals hs (ops ++ [Arrive p]) = locals hs ops) by (rewrite locals_app; cbn; apply app_nil_r);
           intros e' k p' q m I1 I2 I3 I4 I5 I6 I7; rewrite LL in *; destruct B as (_ & _ & C & _); destruct (C _ _ I1) as (p2 & J1 & J2 & _); assert (p2 = p') by (apply ID; auto; [rewrite props_app; apply in_or_app; auto|congruence]); subst p2; eapply M; eassumption.
      apply (G p); [rewrite props_app; apply in_or_app; right; left; reflexivity|exact N|apply add_added].
    + apply (G p); [rewrite props_app; apply in_or_app; right; left; reflexivity|discriminate|apply add_added].
    + destruct B as (A & B & C & D & E). assert (PE : props (ops ++ [NewHab h]) = props ops) by (rewrite props_app; cbn; apply app_nil_r). assert (LL : locals hs (ops ++ [NewHab h]) = locals hs ops ++ [h]) by (rewrite locals_app; reflexivity).
      split.
      * unfold base. rewrite PE, LL. cbn [habs exns meids maids played]. split; [rewrite A; reflexivity|]. split; [exact B|]. split; [exact C|]. split; [exact D|]. intros k m I. destruct (E k m I) as (p & l & e & I1 & I2 & I3 & I4 & I5 & I6 & I7). exists p, l, e. split; [exact I1|]. split; [exact I2|]. split; [exact I3|]. split; [exact I4|]. split; [exact I5|]. split; [exact I6|]. apply in_or_app. auto.
      * intros e k p q m I1 I2 I3 I4 I5 I6 I7. cbn [meids maids played] in *. rewrite PE, LL in *. assert (Q : In q (locals hs ops)).
        { apply in_app_or in I6. destruct I6 as [I6|[<-|[]]]; [exact I6|]. exfalso. destruct (D _ _ I5) as (p2 & J1 & J2 & _). apply (ST h p2); [apply in_or_app; right; left; reflexivity|rewrite PE; exact J1|exact J2]. }
        eapply M; try eassumption. intros X. apply I4. apply in_or_app. auto.
Qed.
End P.
