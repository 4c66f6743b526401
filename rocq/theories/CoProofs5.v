From Coq Require Import Lia.
From Verif Require Import Prelude CoModel CoSpec CoProofs CoProofs2 CoProofs3 CoProofs4.
Ltac Zify.zify_post_hook ::= Z.div_mod_to_equations.
Open Scope N_scope.

Lemma run_app proxy a b : run proxy (a ++ b) = fold_left (step proxy) b (run proxy a).
Proof. unfold run. apply fold_left_app. Qed.
Lemma current_unique ops p k k' : current ops p k -> current ops p k' -> k = k'.
Proof.
  intros (a & b & E & N) (a' & b' & E' & N'). subst ops. revert a' E'. induction a as [|x a IH]; intros [|y a'] E'; cbn in E'.
  - congruence.
  - injection E' as _ E'. exfalso. apply (N k'). rewrite E'. apply in_elt.
  - injection E' as _ E'. exfalso. apply (N' k). rewrite <- E'. apply in_elt.
  - injection E' as _ E'. apply (IH a'). exact E'.
Qed.
Lemma current_kever ops w p k : wok ops w -> current ops p k -> kever w p = Some k.
Proof.
  intros W C. destruct (kever w p) as [k'|] eqn:K; [f_equal; eapply current_unique; [eapply kever_current; eassumption|exact C]|].
  exfalso. destruct W as (A & _). unfold kever in K. rewrite A in K. assert (I : In (p, k) (rev (accs ops))) by (apply -> in_rev; apply accs_In; eapply current_In; exact C). clear - I K. induction (rev (accs ops)) as [|[q v] l IH]; [destruct I|]. cbn [dget] in K. destruct (beq_spec p q) as [E|N]; [discriminate K|]. destruct I as [[= -> _]|I]; [congruence|auto].
Qed.
Lemma receipted_len ops w p d k : wok ops w -> receipted ops p d k -> len (of2 (wigs w) p d) = len (k_wits k).
Proof.
  intros (_ & _ & _ & D & E & _) (l & L1 & L2 & L3). unfold len. rewrite <- L2. f_equal. apply Nat.le_antisymm; apply NoDup_incl_length; [apply E|intros i I; apply L3, D; exact I|exact L1|intros i I; apply D, L3; exact I].
Qed.
Lemma run_wo_process proxy ops : wo (run proxy (ops ++ [Process])) = wo (run proxy ops).
Proof. rewrite run_snoc. cbn [step]. apply wo_after. Qed.
Lemma progress proxy ops pre sn dig key keys wits k n : alone ops pre sn dig key keys wits -> In (Start pre sn dig) ops -> accepted ops pre sn dig -> current ops pre k -> receipted ops pre dig k ->
  (List.length (msgs (me (run proxy (ops ++ [Process])))) <= n)%nat -> calm proxy (ops ++ Process :: repeat Serve n ++ [Process]) ->
  nget (cgms (db (run proxy (ops ++ Process :: repeat Serve n ++ [Process])))) pre sn = Some dig.
Proof.
  intros AL ST AC CU RC LE CA. pose proof (calm_prefix proxy ops _ CA) as CA0. destruct (run_under pre sn dig key keys wits proxy ops AL CA0) as (T & U). specialize (U ST).
  pose proof (run_wok proxy ops) as W. pose proof (wf_of pre sn dig key keys wits _ _ W AL) as WF.
  assert (LA : lastAt (wo (run proxy ops)) pre sn <> None) by (destruct (lastAt_some ops _ pre sn W (ex_intro _ dig AC)) as (x & E); rewrite E; discriminate).
  assert (LW : len (of2 (wigs (wo (run proxy ops))) pre dig) = len wits).
  { rewrite (receipted_len _ _ _ _ _ W RC). destruct WF as (_ & W2 & _). destruct (W2 k (current_kever _ _ _ _ W CU)) as (_ & -> & _). reflexivity. }
  assert (Q1 := CA ops Process (repeat Serve n ++ [Process]) eq_refl). cbn [quiet] in Q1.
  assert (Q2 := CA (ops ++ Process :: repeat Serve n) Process [] ltac:(rewrite <- app_assoc; reflexivity)). cbn [quiet] in Q2.
  replace (ops ++ Process :: repeat Serve n ++ [Process]) with ((ops ++ Process :: repeat Serve n) ++ [Process]) by (rewrite <- app_assoc; reflexivity).
  rewrite run_snoc. cbn [step]. rewrite after_db.
  replace (ops ++ Process :: repeat Serve n) with ((ops ++ [Process]) ++ repeat Serve n) in Q2 |- * by (rewrite <- app_assoc; reflexivity).
  rewrite (run_app proxy (ops ++ [Process])) in Q2 |- *.
  destruct (pass _ _ _ _ _ _ _ _ WF T Q1) as (P1 & P2 & P3 & _). specialize (P3 U LA).
  assert (E1 : run proxy (ops ++ [Process]) = mkS (wo (run proxy ops)) (fst (fst (processEscrows (wo (run proxy ops)) (db (run proxy ops), me (run proxy ops))))) (snd (fst (processEscrows (wo (run proxy ops)) (db (run proxy ops), me (run proxy ops)))))) by (rewrite run_snoc; cbn [step]; apply after_ok; exact Q1).
  rewrite E1 in *. clear E1. set (s1 := fst (processEscrows (wo (run proxy ops)) (db (run proxy ops), me (run proxy ops)))) in *. clearbody s1. set (w := wo (run proxy ops)) in *. clearbody w. clear Q1 T U P2. destruct s1 as [d1 m1]. cbn [fst snd me] in *.
  destruct (serve_all proxy n w d1 m1 LE) as (m2 & E & M1 & M2). rewrite E in Q2 |- *. cbn [wo db me] in *.
  assert (T2 : tidy pre sn dig (d1, m2)) by exact P1.
  assert (U2 : under pre sn dig key keys wits (d1, m2)).
  { right. destruct P3 as [(V1 & V2)|V]; [left|right; exact V]. split; [exact V1|]. intros WT. right. cbn. rewrite M2. apply in_or_app. destruct (V2 WT); auto. }
  destruct P3 as [(V1 & V2)|V].
  - destruct (pass _ _ _ _ _ _ _ _ WF T2 Q2) as (_ & _ & _ & R). apply R; [exact U2|exact LA|exact LW|]. intros WT. cbn. rewrite M2. apply in_or_app. destruct (V2 WT); auto.
  - pose proof (kept_step pre sn proxy (mkS w d1 m2) Process dig V) as K. cbn [step wo db me] in K. rewrite after_db in K. exact K.
Qed.

(** ** election *)
Section E.
Variables (pre : bytes) (sn : N) (dig key : bytes) (keys wits : list bytes).
Notation tidy := (tidy pre sn dig).
Notation wf := (wf pre sn dig key keys wits).
Notation mineOk := (mineOk pre sn dig).
Definition waiting (s : st) : Prop := In (pre, (sn, dig)) (gpse (fst s)).
Lemma pw_gpse w x s : gpse (fst (fst (partialWitness w x s))) = gpse (fst s) /\ msgs (snd (fst (partialWitness w x s))) = msgs (snd s).
Proof. destruct x as [p [n g]], s as [d m]. unfold partialWitness. brk; split; reflexivity. Qed.
Lemma de_msgs w x s : msgs (snd (fst (delegateEsc w x s))) = msgs (snd s).
Proof. destruct x as [p [n g]], s as [d m]. unfold delegateEsc. brk; reflexivity. Qed.
Lemma pass_waiting w s : wf w -> tidy s -> lastAt w pre sn = None -> snd (processEscrows w s) = Ok tt -> waiting s -> waiting (fst (processEscrows w s)).
Proof.
  intros W T LA. unfold processEscrows. destruct (each (partialSigned w) (gpse (fst s)) s) as [s1 [[]|x]] eqn:E1; [|discriminate]. cbn [andThen]. intros OK0 WA.
  assert (K1 : tidy s1 /\ waiting s1).
  { pose proof (each_ok (partialSigned w) (fun t => tidy t /\ waiting t) mineOk (gpse (fst s)) s (tidy_mine1 pre sn dig s T)) as H. rewrite E1 in H. apply H; [|reflexivity|auto]. intros [p v] t G (P1 & P2) Q. split; [eapply ps_tidy; eassumption|].
    destruct (list_N_dec p pre) as [->|N]; [|apply (ps_aside pre sn); assumption]. assert (EV : v = (sn, dig)) by exact (G eq_refl); subst v. destruct (ps_own pre sn dig key keys wits w t W P1 Q) as (_ & R). rewrite LA in R. exact (eq_ind_r waiting P2 R). }
  destruct K1 as (T1 & K1). destruct (each (delegateEsc w) (gdee (fst s1)) s1) as [s2 [[]|x]] eqn:E2; [|discriminate OK0]. cbn [andThen] in *.
  assert (K2 : waiting s2).
  { pose proof (each_ok (delegateEsc w) waiting (fun x => fst x <> pre) (gdee (fst s1)) s1 (tidy_mine2 pre sn dig s1 T1)) as H. rewrite E2 in H. apply H; [|reflexivity|exact K1]. intros x t N P _. apply (de_aside pre sn); assumption. }
  apply (each_inv (partialWitness w) waiting (fun _ => True)); [apply Forall_forall; auto| |exact K2]. intros x t _ P. unfold waiting. rewrite (proj1 (pw_gpse w x t)). exact P.
Qed.
Lemma ps_elect w s i : wf w -> lastAt w pre sn = Some dig -> nth_error keys (N.to_nat i) = Some key -> In i (of2 (sigs w) pre dig) -> (forall j, In j (of2 (sigs w) pre dig) -> i <= j) ->
  snd (partialSigned w (pre, (sn, dig)) s) = Ok tt -> In (pre, sn) (msgs (snd (fst (partialSigned w (pre, (sn, dig)) s)))).
Proof.
  intros (W1 & W2 & W3 & W4) LA NK I0 MI. destruct s as [d m]. unfold partialSigned. rewrite LA. destruct (dget (habs w) pre) as [h|] eqn:H; [|discriminate]. destruct (kever w pre) as [k|] eqn:K; [|discriminate]. destruct (W2 k eq_refl) as (K1 & K2 & K3).
  assert (LI : least (of2 (sigs w) pre dig) = i) by (apply N.le_antisymm; [apply least_le; exact I0|apply MI, least_In; intros E; rewrite E in I0; destruct I0]).
  destruct (of2 (sigs w) pre dig) as [|i0 is] eqn:OF; [destruct I0|]. rewrite LI, K1, NK.
  assert (X : match k_del k with Some _ => true | None => false end && (beq (k_ilk k) (s2b "dip") || beq (k_ilk k) (s2b "drt")) = false).
  { destruct K3 as [-> | (N1 & N2)]; [reflexivity|]. rewrite (proj2 (beq_neq _ _) N1), (proj2 (beq_neq _ _) N2). apply andb_false_r. }
  rewrite X. intros _. cbn [good fst snd]. rewrite (W3 h eq_refl), beq_refl. cbn. apply in_or_app. right. left. reflexivity.
Qed.
Lemma ps_msgs w x s : forall y, In y (msgs (snd s)) -> In y (msgs (snd (fst (partialSigned w x s)))).
Proof.
  destruct x as [p [n g]], s as [d m]. intros y I. unfold partialSigned. destruct (lastAt w p n) as [sd|]; [|exact I]. destruct (dget (habs w) p) as [h|]; [|exact I]. destruct (kever w p) as [k|]; [|exact I]. destruct (of2 (sigs w) p sd) as [|i is]; [exact I|]. destruct (nth_error _ _) as [key'|]; [|exact I]. destruct (_ && _).
  - apply (andThen_inv (fun s => In y (msgs (snd s)))); [|intros [d2 m2] E; exact E]. destruct (beq (h_key h) key'); [|exact I]. pose proof (delegation_gside w p n (d_gpse d (erem (gpse d) p), m)) as (_ & _ & _ & _ & B5 & _). rewrite B5. exact I.
  - cbn. destruct (beq (h_key h) key'); cbn; [apply in_or_app; auto|exact I].
Qed.
Lemma pass_elect w s i : wf w -> tidy s -> lastAt w pre sn = Some dig -> nth_error keys (N.to_nat i) = Some key -> In i (of2 (sigs w) pre dig) -> (forall j, In j (of2 (sigs w) pre dig) -> i <= j) ->
  waiting s -> snd (processEscrows w s) = Ok tt -> In (pre, sn) (msgs (snd (fst (processEscrows w s)))).
Proof.
  intros W T LA NK I0 MI WA. unfold processEscrows. destruct (each (partialSigned w) (gpse (fst s)) s) as [s1 [[]|x]] eqn:E1; [|discriminate]. cbn [andThen]. intros OK0.
  assert (K1 : In (pre, sn) (msgs (snd s1))).
  { pose proof (each_reach (partialSigned w) (fun _ => True) (fun t => In (pre, sn) (msgs (snd t))) (fun _ => True) (pre, (sn, dig)) (gpse (fst s)) s) as H. rewrite E1 in H. apply H; [apply Forall_forall; auto|exact WA|auto| | |reflexivity|exact Logic.I].
    - intros t _ Q. apply (ps_elect w t i); assumption.
    - intros a t _ _ R _. apply ps_msgs. exact R. }
  apply (andThen_inv (fun t => In (pre, sn) (msgs (snd t)))).
  - apply (each_inv (delegateEsc w) (fun t => In (pre, sn) (msgs (snd t))) (fun _ => True)); [apply Forall_forall; auto| |exact K1]. intros x t _ P. rewrite de_msgs. exact P.
  - intros s2 K2. apply (each_inv (partialWitness w) (fun t => In (pre, sn) (msgs (snd t))) (fun _ => True)); [apply Forall_forall; auto| |exact K2]. intros x t _ P. rewrite (proj2 (pw_gpse w x t)). exact P.
Qed.
Lemma run_waiting proxy ops : alone ops pre sn dig key keys wits -> calm proxy ops -> (forall a b, ops = a ++ Process :: b -> ~ accepted a pre sn dig) ->
  In (Start pre sn dig) ops -> waiting (db (run proxy ops), me (run proxy ops)).
Proof.
  induction ops as [|o ops IH] using rev_ind; intros AL CA NP; [intros []|]. specialize (IH (alone_prefix _ _ _ _ _ _ _ _ AL) (calm_prefix _ _ _ CA)).
  assert (NP' : forall a b, ops = a ++ Process :: b -> ~ accepted a pre sn dig) by (intros a b E; apply (NP a (b ++ [o])); rewrite E, <- app_assoc; reflexivity). specialize (IH NP').
  pose proof (CA ops o [] eq_refl) as Q. rewrite run_snoc. pose proof (wf_of _ _ _ _ _ _ _ _ (run_wok proxy ops) (alone_prefix _ _ _ _ _ _ _ _ AL)) as W. destruct (run_under pre sn dig key keys wits proxy ops (alone_prefix _ _ _ _ _ _ _ _ AL) (calm_prefix _ _ _ CA)) as (T & _). pose proof (run_wok proxy ops) as WK. set (s := run proxy ops) in *. clearbody s. destruct s as [w d m]. cbn [wo db me] in *.
  intros I. apply in_snoc in I.
  destruct o as [p0 k0|p0 d0 i0|p0 d0 i0|de p0 v0 a0|p0 h0|p0 n0 g0|p0 n0| | | | |p0| ]; cbn [step wo db me quiet] in *; try (destruct I as [I|I]; [|discriminate I]; specialize (IH I)); try exact IH.
  - destruct (existsb _ _); exact IH.
  - destruct I as [I|I]; [unfold waiting; cbn; apply eadd_keep; exact (IH I)|]. injection I as -> -> ->. unfold waiting. cbn. apply eadd_new.
  - rewrite after_ok by exact Q. cbn [db me]. pose proof (delegation_gside w p0 n0 (d, m)) as (B1 & _). unfold waiting. cbn [fst]. rewrite B1. exact IH.
  - rewrite after_ok by exact Q. cbn [db me]. assert (LA : lastAt w pre sn = None).
    { destruct (lastAt w pre sn) as [x|] eqn:L; [|reflexivity]. exfalso. apply (NP ops [] eq_refl). destruct W as (_ & _ & _ & W4). destruct (W4 x L) as (-> & _). eapply lastAt_accepted; eassumption. }
    pose proof (pass_waiting w (d, m) W T LA Q IH) as R. destruct (processEscrows w (d, m)) as [[d1 m1] r]. exact R.
  - rewrite after_ok by exact Q. cbn [db me]. pose proof (sprocess_gside proxy w (d, m)) as (B1 & _). unfold waiting. cbn [fst]. rewrite B1. exact IH.
  - destruct (msgs m); exact IH.
  - destruct (smsgs m); exact IH.
Qed.
Lemma elected proxy ops i : alone ops pre sn dig key keys wits -> calm proxy (ops ++ [Process]) -> (forall a b, ops = a ++ Process :: b -> ~ accepted a pre sn dig) -> In (Start pre sn dig) ops -> accepted ops pre sn dig ->
  nth_error keys (N.to_nat i) = Some key -> In (Sig pre dig i) ops -> (forall j, In (Sig pre dig j) ops -> i <= j) -> In (pre, sn) (msgs (me (run proxy (ops ++ [Process])))).
Proof.
  intros AL CA NP ST AC NK SI MI. pose proof (calm_prefix _ _ _ CA) as CA0. pose proof (run_waiting proxy ops AL CA0 NP ST) as WA. destruct (run_under pre sn dig key keys wits proxy ops AL CA0) as (T & _).
  pose proof (run_wok proxy ops) as WK. pose proof (wf_of _ _ _ _ _ _ _ _ WK AL) as W. pose proof (CA ops Process [] eq_refl) as Q. cbn [quiet] in Q. rewrite run_snoc. cbn [step]. rewrite after_ok by exact Q. cbn [me].
  apply (pass_elect _ _ i W T).
  - destruct (lastAt_some ops _ pre sn WK (ex_intro _ dig AC)) as (x & L). destruct W as (_ & _ & _ & W4). destruct (W4 x L) as (-> & _). exact L.
  - exact NK.
  - destruct WK as (_ & _ & C & _). apply C. exact SI.
  - intros j J. apply MI. destruct WK as (_ & _ & C & _). apply C. exact J.
  - exact WA.
  - exact Q.
Qed.
End E.
