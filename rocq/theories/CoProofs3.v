From Coq Require Import Lia.
From Verif Require Import Prelude CoModel CoSpec CoProofs CoProofs2.
Ltac Zify.zify_post_hook ::= Z.div_mod_to_equations.
Open Scope N_scope.

Lemma each_ok {A} (f : A -> st -> out) (P : st -> Prop) (G : A -> Prop) l s : Forall G l -> (forall a s, G a -> P s -> snd (f a s) = Ok tt -> P (fst (f a s))) -> snd (each f l s) = Ok tt -> P s -> P (fst (each f l s)).
Proof.
  intros F H. revert s. induction F as [|a l GA F IH]; intros s OK0 PS; [exact PS|]. cbn [each] in *. specialize (H a s GA PS). destruct (f a s) as [s' [u|x]]; [|discriminate OK0]. apply IH; [exact OK0|]. apply H. destruct u. reflexivity.
Qed.
Lemma each_reach {A} (f : A -> st -> out) (P R : st -> Prop) (G : A -> Prop) x l s : Forall G l -> In x l -> (forall a s, G a -> P s -> snd (f a s) = Ok tt -> P (fst (f a s))) ->
  (forall s, P s -> snd (f x s) = Ok tt -> R (fst (f x s))) -> (forall a s, G a -> P s -> R s -> snd (f a s) = Ok tt -> R (fst (f a s))) -> snd (each f l s) = Ok tt -> P s -> R (fst (each f l s)).
Proof.
  intros F I H1 H2 H3. revert s. induction F as [|a l GA F IH]; intros s OK0 PS; [destruct I|]. cbn [each] in *. destruct I as [->|I].
  - pose proof (H1 x s GA PS) as H1'. pose proof (H2 s PS) as H2'. clear IH. destruct (f x s) as [s' [[]|e]]; [|discriminate OK0]. specialize (H1' eq_refl). specialize (H2' eq_refl). cbn [fst] in H1', H2'.
    assert (K : (fun s => P s /\ R s) (fst (each f l s'))); [|apply K]. apply (each_ok f (fun s => P s /\ R s) G); [exact F| |exact OK0|auto]. intros b t GB (PT & RT) OKB. split; auto.
  - pose proof (H1 a s GA PS) as H1'. destruct (f a s) as [s' [[]|e]]; [|discriminate OK0]. apply IH; auto.
Qed.
Lemma process_inv w (P : st -> Prop) (G1 G2 G3 : bytes * evt -> Prop) s : (forall s, P s -> Forall G1 (gpse (fst s))) -> (forall s, P s -> Forall G2 (gdee (fst s))) -> (forall s, P s -> Forall G3 (gpwe (fst s))) ->
  (forall x s, G1 x -> P s -> P (fst (partialSigned w x s))) -> (forall x s, G2 x -> P s -> P (fst (delegateEsc w x s))) -> (forall x s, G3 x -> P s -> P (fst (partialWitness w x s))) -> P s -> P (fst (processEscrows w s)).
Proof.
  intros F1 F2 F3 H1 H2 H3 PS. unfold processEscrows. apply andThen_inv; [apply (each_inv _ P G1); auto|]. intros s1 PS1. apply andThen_inv; [apply (each_inv _ P G2); auto|]. intros s2 PS2. apply (each_inv _ P G3); auto.
Qed.
Lemma sprocess_inv proxy w (P : st -> Prop) s :
  (forall x s, P s -> P (fst (sPartialWitness proxy w x s))) -> (forall x s, P s -> P (fst (sUnanchored w x s))) -> (forall x s, P s -> P (fst (sPublication x s))) -> P s -> P (fst (sProcessEscrows proxy w s)).
Proof.
  intros H1 H2 H3 PS. unfold sProcessEscrows. apply andThen_inv; [apply (each_inv _ P (fun _ => True)); auto; apply Forall_forall; auto|]. intros s1 PS1. apply andThen_inv; [apply (each_inv _ P (fun _ => True)); auto; apply Forall_forall; auto|]. intros s2 PS2. apply (each_inv _ P (fun _ => True)); auto; apply Forall_forall; auto.
Qed.
Ltac brk := repeat match goal with |- context[match ?c with _ => _ end] => match c with context[match _ with _ => _ end] => fail 1 | _ => destruct c eqn:? end end.

(** ** what the Anchorer leaves alone *)
Definition gside (s s' : st) : Prop := gpse (fst s') = gpse (fst s) /\ gdee (fst s') = gdee (fst s) /\ gpwe (fst s') = gpwe (fst s) /\ cgms (fst s') = cgms (fst s) /\ msgs (snd s') = msgs (snd s) /\ cues (snd s') = cues (snd s).
Lemma gside_refl s : gside s s.
Proof. unfold gside. auto 10. Qed.
Lemma gside_trans s s' s'' : gside s s' -> gside s' s'' -> gside s s''.
Proof. intros (A1 & A2 & A3 & A4 & A5 & A6) (B1 & B2 & B3 & B4 & B5 & B6). unfold gside. rewrite B1, B2, B3, B4, B5, B6. auto 10. Qed.
Lemma delegation_gside w p n s : gside s (fst (delegation w p n s)).
Proof. destruct s as [d m]. unfold delegation. brk; apply gside_refl || (unfold gside; cbn; auto 10). Qed.
Lemma spw_gside proxy w x s : gside s (fst (sPartialWitness proxy w x s)).
Proof. destruct s as [d m], x as [p [n g]]. unfold sPartialWitness. brk; apply gside_refl || (unfold gside; cbn; auto 10). Qed.
Lemma sun_gside w x s : gside s (fst (sUnanchored w x s)).
Proof. destruct s as [d m], x as [p [n g]]. unfold sUnanchored. brk; apply gside_refl || (unfold gside; cbn; auto 10). Qed.
Lemma spu_gside x s : gside s (fst (sPublication x s)).
Proof. destruct s as [d m], x as [p [n g]]. unfold sPublication. brk; apply gside_refl || (unfold gside; cbn; auto 10). Qed.
Lemma sprocess_gside proxy w s : gside s (fst (sProcessEscrows proxy w s)).
Proof.
  apply (sprocess_inv proxy w (fun s' => gside s s')); [| | |apply gside_refl]; intros x t H; (eapply gside_trans; [exact H|]); [apply spw_gside|apply sun_gside|apply spu_gside].
Qed.

(** ** what a pass of the Counselor leaves alone for entries of other identifiers *)
Section O.
Variables (pre : bytes) (sn : N).
Definition aside (s s' : st) : Prop :=
  (forall v, In (pre, v) (gpse (fst s')) <-> In (pre, v) (gpse (fst s))) /\ (forall v, In (pre, v) (gdee (fst s')) <-> In (pre, v) (gdee (fst s))) /\ (forall v, In (pre, v) (gpwe (fst s')) <-> In (pre, v) (gpwe (fst s))) /\
  nget (cgms (fst s')) pre sn = nget (cgms (fst s)) pre sn /\ (forall x, In x (msgs (snd s)) -> In x (msgs (snd s'))) /\ (forall x, In x (cues (snd s)) -> In x (cues (snd s'))).
Lemma aside_refl s : aside s s.
Proof. unfold aside. repeat (split; [tauto || auto|]). auto. Qed.
Lemma gside_aside s s' : gside s s' -> aside s s'.
Proof. intros (B1 & B2 & B3 & B4 & B5 & B6). unfold aside. rewrite B1, B2, B3, B4, B5, B6. repeat (split; [tauto || auto|]). auto. Qed.
Lemma erem_other l p v : p <> pre -> In (pre, v) (erem l p) <-> In (pre, v) l.
Proof. intros N. unfold erem. rewrite filter_In. split; [tauto|]. intros I. split; [exact I|]. cbn. apply negb_true_iff, beq_neq. congruence. Qed.
Lemma eadd_other l p u v : p <> pre -> In (pre, v) (eadd l p u) <-> In (pre, v) l.
Proof.
  intros N. unfold eadd. match goal with |- context[if ?c then _ else _] => destruct c end; [tauto|]. rewrite in_snoc. split; [intros [I|[= E _]]; [exact I|congruence]|auto].
Qed.
Lemma nput_other l p n d : p <> pre \/ n <> sn -> nget (nput l p n d) pre sn = nget l pre sn.
Proof.
  intros N. unfold nput. destruct (nget l p n); [reflexivity|]. unfold nget. rewrite filter_app. cbn [filter fst snd]. assert (X : beq p pre && (n =? sn) = false) by (apply andb_false_iff; destruct N as [N|N]; [left; apply beq_neq; exact N|right; apply N.eqb_neq; exact N]). rewrite X, app_nil_r. reflexivity.
Qed.
Lemma ps_aside w x s : fst x <> pre -> aside s (fst (partialSigned w x s)).
Proof.
  destruct x as [p [n g]], s as [d m]. cbn [fst]. intros N. unfold partialSigned. destruct (lastAt w p n) as [sd|]; [|apply aside_refl].
  assert (S1 : aside (d, m) (d_gpse d (erem (gpse d) p), m)) by (unfold aside; cbn; split; [intros v; apply erem_other; exact N|]; repeat (split; [tauto || auto|]); auto).
  destruct (dget (habs w) p) as [h|]; [|exact S1]. destruct (kever w p) as [k|]; [|exact S1]. destruct (of2 (sigs w) p sd) as [|i is]; [exact S1|]. destruct (nth_error _ _) as [key|]; [|exact S1]. destruct (_ && _).
  - apply (andThen_inv (fun s => aside (d, m) s)).
    + destruct (beq (h_key h) key); [|exact S1]. pose proof (delegation_gside w p n (d_gpse d (erem (gpse d) p), m)) as (B1 & B2 & B3 & B4 & B5 & B6). unfold aside. rewrite B1, B2, B3, B4, B5, B6. exact S1.
    + intros [d2 m2] (A1 & A2 & A3 & A4 & A5 & A6). unfold aside. cbn in *. split; [exact A1|]. split; [intros v; rewrite eadd_other by exact N; apply A2|]. auto.
  - unfold aside. cbn. split; [intros v; apply erem_other; exact N|]. split; [tauto|]. split; [intros v; apply eadd_other; exact N|]. split; [reflexivity|]. destruct (beq (h_key h) key); cbn; split; auto. intros y I. apply in_or_app. auto.
Qed.
Lemma de_aside w x s : fst x <> pre -> aside s (fst (delegateEsc w x s)).
Proof.
  destruct x as [p [n g]], s as [d m]. cbn [fst]. intros N. unfold delegateEsc. brk; try apply aside_refl.
  - unfold aside. cbn. split; [tauto|]. split; [intros v; apply erem_other; exact N|]. split; [tauto|]. split; [apply nput_other; auto|]. auto.
  - unfold aside. cbn. split; [tauto|]. split; [intros v; apply erem_other; exact N|]. split; [intros v; apply eadd_other; exact N|]. auto.
Qed.
Lemma pw_aside w x s : fst x <> pre -> aside s (fst (partialWitness w x s)).
Proof.
  destruct x as [p [n g]], s as [d m]. cbn [fst]. intros N. unfold partialWitness. brk; try apply aside_refl;
  (unfold aside; cbn; split; [tauto|]; split; [tauto|]; split; [intros v; apply erem_other; exact N|]; split; [apply nput_other; auto|]; auto).
Qed.

(** ** completion is kept *)
Lemma ps_cgms w x s : cgms (fst (fst (partialSigned w x s))) = cgms (fst s).
Proof.
  destruct x as [p [n g]], s as [d m]. unfold partialSigned. destruct (lastAt w p n) as [sd|]; [|reflexivity]. destruct (dget (habs w) p) as [h|]; [|reflexivity]. destruct (kever w p) as [k|]; [|reflexivity]. destruct (of2 (sigs w) p sd) as [|i is]; [reflexivity|]. destruct (nth_error _ _) as [key|]; [|reflexivity]. destruct (_ && _); [|reflexivity].
  apply (andThen_inv (fun s => cgms (fst s) = cgms d)).
  - destruct (beq (h_key h) key); [|reflexivity]. pose proof (delegation_gside w p n (d_gpse d (erem (gpse d) p), m)) as (_ & _ & _ & B4 & _). exact B4.
  - intros [d2 m2] E. exact E.
Qed.
Lemma kept_step proxy s o c : nget (cgms (db s)) pre sn = Some c -> nget (cgms (db (step proxy s o))) pre sn = Some c.
Proof.
  intros G. destruct s as [w d m]. cbn [db] in G. destruct o as [p0 k0|p0 d0 i0|p0 d0 i0|de p0 v0 a0|p0 h0|p0 n0 dig|p0 n0| | | | |p0| ]; cbn [step wo db me]; try exact G.
  - destruct (existsb _ _); exact G.
  - rewrite after_db. pose proof (delegation_gside w p0 n0 (d, m)) as (_ & _ & _ & B & _). rewrite B. exact G.
  - rewrite after_db. apply (process_inv w (fun s => nget (cgms (fst s)) pre sn = Some c) (fun _ => True) (fun _ => True) (fun _ => True)); try (intros; apply Forall_forall; auto); [| | |exact G].
    + intros x s _ H. rewrite ps_cgms. exact H.
    + intros [p [n g]] [d1 m1] _ H. unfold delegateEsc. brk; try exact H. cbn. apply nget_nput. exact H.
    + intros [p [n g]] [d1 m1] _ H. unfold partialWitness. brk; try exact H; cbn; apply nget_nput; exact H.
  - rewrite after_db. pose proof (sprocess_gside proxy w (d, m)) as (_ & _ & _ & B & _). rewrite B. exact G.
  - destruct (msgs m); exact G.
  - destruct (smsgs m); exact G.
Qed.
Lemma kept_run proxy ops s c : nget (cgms (db s)) pre sn = Some c -> nget (cgms (db (fold_left (step proxy) ops s))) pre sn = Some c.
Proof. revert s. induction ops as [|o ops IH]; intros s G; [exact G|]. cbn. apply IH. apply kept_step. exact G. Qed.

(** ** an event that is in no escrow *)
Definition absent (l : list (bytes * evt)) : Prop := forall g, ~ In (pre, (sn, g)) l.
Definition lost (d : dbs) : Prop := absent (gpse d) /\ absent (gdee d) /\ absent (gpwe d) /\ nget (cgms d) pre sn = None.
Definition other (x : bytes * evt) : Prop := ~ (fst x = pre /\ fst (snd x) = sn).
Lemma absent_other l : absent l -> Forall other l.
Proof. intros A. apply Forall_forall. intros [p [n g]] I (E1 & E2). cbn in *. subst. exact (A g I). Qed.
Lemma absent_erem l p : absent l -> absent (erem l p).
Proof. intros A g I. apply erem_In in I. exact (A g (proj1 I)). Qed.
Lemma absent_eadd l p n g : absent l -> other (p, (n, g)) -> absent (eadd l p (n, g)).
Proof. intros A N g' I. apply eadd_In in I. destruct I as [I|[= <- <- <-]]; [exact (A g' I)|]. apply N. auto. Qed.
Lemma other_split p n g : other (p, (n, g)) -> p <> pre \/ n <> sn.
Proof. intros N. destruct (list_N_dec p pre) as [->|]; [|auto]. destruct (N.eq_dec n sn) as [->|]; [|auto]. exfalso. apply N. auto. Qed.
Lemma ps_lost w x s : other x -> lost (fst s) -> lost (fst (fst (partialSigned w x s))).
Proof.
  destruct x as [p [n g]], s as [d m]. cbn [fst]. intros N L0. pose proof L0 as (L1 & L2 & L3 & L4). unfold partialSigned. destruct (lastAt w p n) as [sd|]; [|exact L0].
  assert (S1 : lost (d_gpse d (erem (gpse d) p))) by (unfold lost; cbn; split; [apply absent_erem; exact L1|auto]).
  destruct (dget (habs w) p) as [h|]; [|exact S1]. destruct (kever w p) as [k|]; [|exact S1]. destruct (of2 (sigs w) p sd) as [|i is]; [exact S1|]. destruct (nth_error _ _) as [key|]; [|exact S1]. destruct (_ && _).
  - apply (andThen_inv (fun s => lost (fst s))).
    + destruct (beq (h_key h) key); [|exact S1]. pose proof (delegation_gside w p n (d_gpse d (erem (gpse d) p), m)) as (B1 & B2 & B3 & B4 & B5 & B6). unfold lost. rewrite B1, B2, B3, B4. exact S1.
    + intros [d2 m2] (A1 & A2 & A3 & A4). unfold lost. cbn in *. split; [exact A1|]. split; [apply absent_eadd; auto|auto].
  - unfold lost. cbn. split; [apply absent_erem; exact L1|]. split; [exact L2|]. split; [apply absent_eadd; auto|exact L4].
Qed.
Lemma de_lost w x s : other x -> lost (fst s) -> lost (fst (fst (delegateEsc w x s))).
Proof.
  destruct x as [p [n g]], s as [d m]. cbn [fst]. intros N L0. pose proof L0 as (L1 & L2 & L3 & L4). unfold delegateEsc. brk; try exact L0.
  - unfold lost. cbn. split; [exact L1|]. split; [apply absent_erem; exact L2|]. split; [exact L3|]. rewrite nput_other by (apply (other_split _ _ g); exact N). exact L4.
  - unfold lost. cbn. split; [exact L1|]. split; [apply absent_erem; exact L2|]. split; [apply absent_eadd; auto|exact L4].
Qed.
Lemma pw_lost w x s : other x -> lost (fst s) -> lost (fst (fst (partialWitness w x s))).
Proof.
  destruct x as [p [n g]], s as [d m]. cbn [fst]. intros N L0. pose proof L0 as (L1 & L2 & L3 & L4). unfold partialWitness. brk; try exact L0;
  (unfold lost; cbn; split; [exact L1|]; split; [exact L2|]; split; [apply absent_erem; exact L3|]; rewrite nput_other by (apply (other_split _ _ g); exact N); exact L4).
Qed.
Lemma lost_step proxy s o : (forall g, o <> Start pre sn g) -> lost (db s) -> lost (db (step proxy s o)).
Proof.
  intros NS L. destruct s as [w d m]. cbn [db] in L. destruct o as [p0 k0|p0 d0 i0|p0 d0 i0|de p0 v0 a0|p0 h0|p0 n0 dig|p0 n0| | | | |p0| ]; cbn [step wo db me]; try exact L.
  - destruct (existsb _ _); exact L.
  - destruct L as (L1 & L2 & L3 & L4). unfold lost. cbn. split; [apply absent_eadd; [exact L1|intros (E1 & E2); cbn in *; subst; eapply NS; reflexivity]|auto].
  - rewrite after_db. pose proof (delegation_gside w p0 n0 (d, m)) as (B1 & B2 & B3 & B4 & _). unfold lost. rewrite B1, B2, B3, B4. exact L.
  - rewrite after_db. apply (process_inv w (fun s => lost (fst s)) other other other); [intros s H; apply absent_other; apply H|intros s H; apply absent_other; apply H|intros s H; apply absent_other; apply H| | | |exact L].
    + intros x s H1 H2. apply ps_lost; assumption.
    + intros x s H1 H2. apply de_lost; assumption.
    + intros x s H1 H2. apply pw_lost; assumption.
  - rewrite after_db. pose proof (sprocess_gside proxy w (d, m)) as (B1 & B2 & B3 & B4 & _). unfold lost. rewrite B1, B2, B3, B4. exact L.
  - destruct (msgs m); exact L.
  - destruct (smsgs m); exact L.
Qed.
Lemma lost_run proxy ops s : (forall g, ~ In (Start pre sn g) ops) -> lost (db s) -> lost (db (fold_left (step proxy) ops s)).
Proof.
  revert s. induction ops as [|o ops IH]; intros s NS L; [exact L|]. cbn. apply IH; [intros g I; apply (NS g); right; exact I|]. apply lost_step; [|exact L]. intros g E. apply (NS g). left. exact E.
Qed.

(** ** the elected member has forgotten what it has sent *)
Variable key : bytes.
Definition stuckD (s : st) : Prop := absent (gpse (fst s)) /\ absent (gdee (fst s)) /\ nget (cgms (fst s)) pre sn = None /\ ~ In (pre, sn) (msgs (snd s)) /\ ~ In (pre, sn) (cues (snd s)).
Definition stuckW (w : world) : Prop := (exists h, dget (habs w) pre = Some h /\ h_key h = key) /\ (exists k r, kever w pre = Some k /\ k_keys k = key :: r /\ k_wits k <> []).
Lemma hasMsg_false l : ~ In (pre, sn) l -> hasMsg l pre sn = false.
Proof.
  intros N. unfold hasMsg. match goal with |- existsb ?f l = _ => destruct (existsb f l) eqn:E end; [|reflexivity]. apply existsb_exists in E. destruct E as ([p n] & I & E). cbn in E. apply andb_prop in E. destruct E as (E1 & E2). apply beq_eq in E1. apply N.eqb_eq in E2. subst. destruct (N I).
Qed.
Lemma hasMsg_true l : In (pre, sn) l -> hasMsg l pre sn = true.
Proof. intros I. unfold hasMsg. apply existsb_exists. exists (pre, sn). split; [exact I|]. cbn. rewrite beq_refl, N.eqb_refl. reflexivity. Qed.
Lemma ps_stuck w x s : other x -> stuckD s -> stuckD (fst (partialSigned w x s)).
Proof.
  destruct x as [p [n g]], s as [d m]. intros N L0. pose proof L0 as (L1 & L2 & L3 & L4 & L5). cbn [fst snd] in *. unfold partialSigned. destruct (lastAt w p n) as [sd|]; [|exact L0].
  assert (S1 : stuckD (d_gpse d (erem (gpse d) p), m)) by (unfold stuckD; cbn; split; [apply absent_erem; exact L1|auto]).
  destruct (dget (habs w) p) as [h|]; [|exact S1]. destruct (kever w p) as [k|]; [|exact S1]. destruct (of2 (sigs w) p sd) as [|i is]; [exact S1|]. destruct (nth_error _ _) as [key'|]; [|exact S1]. destruct (_ && _).
  - apply (andThen_inv stuckD).
    + destruct (beq (h_key h) key'); [|exact S1]. pose proof (delegation_gside w p n (d_gpse d (erem (gpse d) p), m)) as (B1 & B2 & B3 & B4 & B5 & B6). unfold stuckD. rewrite B1, B2, B4, B5, B6. exact S1.
    + intros [d2 m2] (A1 & A2 & A3 & A4). unfold stuckD. cbn in *. split; [exact A1|]. split; [apply absent_eadd; auto|auto].
  - unfold stuckD. cbn. split; [apply absent_erem; exact L1|]. split; [exact L2|]. split; [exact L3|]. destruct (beq (h_key h) key'); cbn; split; auto. rewrite in_snoc. intros [I|[= -> ->]]; [auto|]. apply N. auto.
Qed.
Lemma de_stuck w x s : other x -> stuckD s -> stuckD (fst (delegateEsc w x s)).
Proof.
  destruct x as [p [n g]], s as [d m]. intros N L0. pose proof L0 as (L1 & L2 & L3 & L4 & L5). cbn [fst snd] in *. unfold delegateEsc. brk; try exact L0.
  - unfold stuckD. cbn. split; [exact L1|]. split; [apply absent_erem; exact L2|]. rewrite nput_other by (apply (other_split _ _ g); exact N). auto.
  - unfold stuckD. cbn. split; [exact L1|]. split; [apply absent_erem; exact L2|auto].
Qed.
Lemma pw_stuck w x s : stuckW w -> stuckD s -> stuckD (fst (partialWitness w x s)).
Proof.
  destruct x as [p [n g]], s as [d m]. intros ((h & H1 & H2) & (k & r & K1 & K2 & K3)) L0. pose proof L0 as (L1 & L2 & L3 & L4 & L5). cbn [fst snd] in *.
  destruct (list_N_dec p pre) as [->|N]; [destruct (N.eq_dec n sn) as [->|N]|].
  - unfold partialWitness. rewrite H1, K1, K2, H2, beq_refl, (hasMsg_false _ L5). destruct (_ =? _); [|exact L0]. destruct (len (k_wits k) =? 0) eqn:Z; [|exact L0]. apply N.eqb_eq in Z. destruct (k_wits k); [congruence|]. unfold len in Z. cbn in Z. lia.
  - unfold partialWitness. brk; try exact L0; (unfold stuckD; cbn; split; [exact L1|]; split; [exact L2|]; rewrite nput_other by auto; auto).
  - unfold partialWitness. brk; try exact L0; (unfold stuckD; cbn; split; [exact L1|]; split; [exact L2|]; rewrite nput_other by auto; auto).
Qed.
Definition keeps (o : op) : Prop := match o with
  | Start p n _ => ~ (p = pre /\ n = sn)
  | Accept p k => p = pre -> (exists r, k_keys k = key :: r) /\ k_wits k <> []
  | Own p h => p = pre -> h_key h = key
  | _ => True end.
Lemma stuckD_mem0 d m : stuckD (d, m) -> stuckD (d, mem0).
Proof. intros (L1 & L2 & L3 & L4 & L5). unfold stuckD. cbn. auto 10. Qed.
Lemma after_stuck w o : stuckD (fst o) -> stuckD (db (after w o), me (after w o)).
Proof. destruct o as [[d m] [u|x]]; cbn; [auto|apply stuckD_mem0]. Qed.
Lemma stuck_step proxy s o : keeps o -> stuckW (wo s) -> stuckD (db s, me s) -> stuckW (wo (step proxy s o)) /\ stuckD (db (step proxy s o), me (step proxy s o)).
Proof.
  intros KO W L. destruct s as [w d m]. cbn [db wo me] in *. destruct o as [p0 k0|p0 d0 i0|p0 d0 i0|de p0 v0 a0|p0 h0|p0 n0 dig|p0 n0| | | | |p0| ]; cbn [step wo db me]; rewrite ?wo_after.
  - split; [|exact L]. destruct W as (W1 & (k & r & W2)). split; [exact W1|]. unfold kever, w_kel. cbn [kel]. rewrite rev_app_distr. cbn [rev app dget]. destruct (beq_spec pre p0) as [E|E]; [|eauto]. destruct (KO (eq_sym E)) as ((r0 & K1) & K2). eauto.
  - auto.
  - destruct (existsb _ _); auto.
  - auto.
  - split; [|exact L]. destruct W as (W1 & W2). split; [|exact W2]. cbn [habs dget]. destruct (beq_spec pre p0) as [E|E]; [|exact W1]. exists h0. split; [reflexivity|apply KO; auto].
  - split; [exact W|]. destruct L as (L1 & L). unfold stuckD. cbn. split; [|exact L]. apply absent_eadd; [exact L1|exact KO].
  - split; [exact W|]. apply after_stuck. pose proof (delegation_gside w p0 n0 (d, m)) as (B1 & B2 & B3 & B4 & B5 & B6). unfold stuckD. rewrite B1, B2, B4, B5, B6. exact L.
  - split; [exact W|]. apply after_stuck. apply (process_inv w stuckD other other (fun _ => True)); [intros s H; apply absent_other; apply H|intros s H; apply absent_other; apply H|intros s H; apply Forall_forall; auto| | | |exact L].
    + intros x s H1 H2. apply ps_stuck; assumption.
    + intros x s H1 H2. apply de_stuck; assumption.
    + intros x s H1 H2. apply pw_stuck; assumption.
  - split; [exact W|]. apply after_stuck. pose proof (sprocess_gside proxy w (d, m)) as (B1 & B2 & B3 & B4 & B5 & B6). unfold stuckD. rewrite B1, B2, B4, B5, B6. exact L.
  - destruct L as (L1 & L2 & L3 & L4 & L5). cbn [fst snd] in *. destruct (msgs m) as [|x l] eqn:E; cbn [wo db me]; (split; [exact W|]); unfold stuckD; cbn; [rewrite E; auto 10|]. split; [exact L1|]. split; [exact L2|]. split; [exact L3|]. split; [intros I; apply L4; right; exact I|]. rewrite in_snoc. intros [I|I]; [auto|]. apply L4. left. exact I.
  - destruct (smsgs m); auto.
  - auto.
  - split; [exact W|]. eapply stuckD_mem0. exact L.
Qed.
Lemma stuck_run proxy ops s : Forall keeps ops -> stuckW (wo s) -> stuckD (db s, me s) -> nget (cgms (db (fold_left (step proxy) ops s))) pre sn = None.
Proof.
  intros F. revert s. induction F as [|o ops KO F IH]; intros s W L; [apply L|]. cbn. destruct (stuck_step proxy s o KO W L) as (W' & L'). apply IH; assumption.
Qed.
End O.
