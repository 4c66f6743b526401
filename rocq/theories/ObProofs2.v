(** OOBIs are kept, and go on; and what stops them. *)
From Coq Require Import Lia.
From Verif Require Import Prelude ThModel ThProofs JsonModel JsonProofs DbModel Lex ObModel ObSpec ObProofs.
Ltac Zify.zify_post_hook ::= Z.div_mod_to_equations.
Open Scope N_scope.

Lemma dget_none_in {V} : forall (t : table V) k, dget t k = None -> forall v, ~ In (k, v) t.
Proof.
  induction t as [|[a b] t IH]; intros k H v; [intros []|]. cbn [dget] in H. destruct (beq_spec k a) as [EQ|N]; [discriminate H|]. intros [Q|I]; [injection Q as Q1 Q2; congruence|]. apply (IH k H v I).
Qed.
(** the loop gets to an element, and what holds after that holds in the end *)
Lemma each_okind {X} (f : X -> st -> out) (J : st -> Prop) : (forall x s s', J s -> f x s = (s', Ok tt) -> J s') -> forall l s s', J s -> each f l s = (s', Ok tt) -> J s'.
Proof.
  intros H. induction l as [|x l IH]; intros s s' Js Q; [injection Q as <-; exact Js|]. cbn [each] in Q. unfold andThen in Q. destruct (f x s) as [s1 [[]|e]] eqn:F; cbn [fst snd] in Q; [|discriminate Q]. eapply IH; [eapply H; eauto|exact Q].
Qed.
Lemma each_at {X} (f : X -> st -> out) (I J : st -> Prop) x l : In x l -> (forall x s s', J s -> f x s = (s', Ok tt) -> J s') -> (forall x s, I s -> I (fst (f x s))) ->
  (forall s s', J s -> f x s = (s', Ok tt) -> I s') -> forall s s', J s -> each f l s = (s', Ok tt) -> I s'.
Proof.
  intros Hx HJ HI HX s s' Js H. apply in_split in Hx as (l1 & l2 & ->). rewrite each_app in H. destruct (each f l1 s) as [s1 [[]|e]] eqn:E1; unfold andThen in H; cbn [fst snd] in H; [|discriminate H]. cbn [each] in H.
  pose proof (each_okind f J HJ l1 s s1 Js E1) as J1.
  destruct (f x s1) as [s2 [[]|e]] eqn:FX; unfold andThen in H; cbn [fst snd] in H; [|discriminate H]. pose proof (HX s1 s2 J1 FX) as I2. eapply (each_okind f I); [|exact I2|exact H].
  intros y t t' It Q. pose proof (HI y t It) as R. rewrite Q in R. exact R.
Qed.
Lemma each_err {X} (f : X -> st -> out) x l : In x l -> (forall s, exists e, snd (f x s) = Err e) -> forall s, exists e, snd (each f l s) = Err e.
Proof.
  intros I H. induction l as [|y l IH]; intros s; [destruct I|]. cbn [each]. unfold andThen. destruct I as [->|I]; [destruct (H s) as [e Q]; rewrite Q; exists e; exact Q|]. destruct (snd (f y s)) eqn:Q; [apply IH; exact I|exists e; exact Q].
Qed.
Lemma then_ok o f s' : andThen o f = (s', Ok tt) -> exists s1, o = (s1, Ok tt) /\ f s1 = (s', Ok tt).
Proof. unfold andThen. destruct o as [s1 [[]|e]]; cbn [fst snd]; [intros H; exists s1; auto|discriminate]. Qed.
Lemma then_fst_err o f e : snd o = Err e -> andThen o f = o.
Proof. unfold andThen. destruct o as [s1 [[]|e']]; cbn [fst snd]; [discriminate|reflexivity]. Qed.

Section L.
Variable E : env.
Variable U : bytes.
Ltac dbs := cbn [good fst snd D M wr setc cue feed u_oobis u_coobi u_eoobi u_roobi u_moobi u_schema u_named oobis coobi eoobi roobi moobi schema named clients cues fed finish finishCue];
  rewrite ?tpin_get, ?tput_get, ?trem_get, ?dset_get.

(** what a step does to one URL when it works on another *)
Definition sameU (s s' : st) : Prop :=
  dget (oobis (D s')) U = dget (oobis (D s)) U /\ dget (coobi (D s')) U = dget (coobi (D s)) U /\ dget (eoobi (D s')) U = dget (eoobi (D s)) U /\
  dget (roobi (D s')) U = dget (roobi (D s)) U /\ dget (moobi (D s')) U = dget (moobi (D s)) U /\ dget (clients (M s')) U = dget (clients (M s)) U.
Lemma sameU_refl s : sameU s s. Proof. unfold sameU. repeat (split; [reflexivity|]). reflexivity. Qed.
Lemma sameU_trans s s' s'' : sameU s s' -> sameU s' s'' -> sameU s s''.
Proof. intros (A & B & C & F & G & H) (A' & B' & C' & F' & G' & H'). unfold sameU. repeat (split; [congruence|]). congruence. Qed.
Lemma neqb u : u <> U -> beq U u = false. Proof. intros N. destruct (beq_spec U u) as [->|_]; [congruence|reflexivity]. Qed.
Ltac other N := unfold sameU; dbs; rewrite ?(neqb _ N); repeat (split; [first [reflexivity | match goal with |- context [dget ?a ?b] => destruct (dget a b); reflexivity end]|]);
  first [reflexivity | match goal with |- context [dget ?a ?b] => destruct (dget a b); reflexivity end].
Lemma request_other u o s : u <> U -> sameU s (fst (request E u o s)).
Proof. intros N. unfold request. destruct (clientOk E u); other N. Qed.
Lemma finish_other u o b s : u <> U -> sameU s (finish u o b s).
Proof. intros N. other N. Qed.
Lemma finishCue_other u o b s : u <> U -> sameU s (finishCue u o b s).
Proof. intros N. other N. Qed.
Lemma oneOobi_other u o s : u <> U -> sameU s (fst (oneOobi E (u, o) s)).
Proof.
  intros N. unfold oneOobi. destruct (two u); [apply sameU_refl|]. destruct (_ && _); [other N|]. destruct (urlp E u) as [[p n]|e]; [|destruct (isValue e); apply sameU_refl].
  destruct (pathKind p); try apply sameU_refl; apply request_other; exact N.
Qed.
Lemma oneRetry_other now u o s : u <> U -> sameU s (fst (oneRetry now (u, o) s)).
Proof. intros N. unfold oneRetry. destruct (two u); [apply sameU_refl|]. destruct (_ <? _); [other N|apply sameU_refl]. Qed.
Lemma oneMoobi_other u o s : u <> U -> sameU s (fst (oneMoobi (u, o) s)).
Proof. intros N. unfold oneMoobi. destruct (two u); [apply sameU_refl|]. destruct (all _ _); [apply finish_other; exact N|apply sameU_refl]. Qed.
(** with a reply that has URLs, it may be loaded *)
Definition nearU (s s' : st) : Prop :=
  (dget (oobis (D s)) U <> None -> dget (oobis (D s')) U <> None) /\ dget (coobi (D s')) U = dget (coobi (D s)) U /\ dget (eoobi (D s')) U = dget (eoobi (D s)) U /\
  dget (roobi (D s')) U = dget (roobi (D s)) U /\ dget (moobi (D s')) U = dget (moobi (D s)) U /\ dget (clients (M s')) U = dget (clients (M s)) U.
Lemma sameU_near s s' : sameU s s' -> nearU s s'.
Proof. intros (A & B). split; [rewrite A; auto|exact B]. Qed.
Lemma nearU_trans s s' s'' : nearU s s' -> nearU s' s'' -> nearU s s''.
Proof. intros (A & B & C & F & G & H) (A' & B' & C' & F' & G' & H'). unfold nearU. split; [auto|]. repeat (split; [congruence|]). congruence. Qed.
Lemma puts_near o now : forall l s, nearU s (fst (each (putOne o now) l s)).
Proof.
  intros l s. apply (each_ind _ (nearU s) (fun _ => True)); [|apply Forall_forall; auto|apply sameU_near; apply sameU_refl]. intros x s' _ N. eapply nearU_trans; [exact N|].
  unfold putOne. destruct (badKey x); [apply sameU_near; apply sameU_refl|]. unfold nearU. dbs. split; [destruct (dget (oobis (D s')) U); [auto|congruence]|]. repeat (split; [reflexivity|]). reflexivity.
Qed.
Lemma setc_other u l s : u <> U -> sameU s (setc u l s). Proof. intros N. other N. Qed.
Lemma oneClient_other now u o s : u <> U -> nearU s (fst (oneClient E now (u, o) s)).
Proof.
  intros N. unfold oneClient. destruct (two u); [apply sameU_near; apply sameU_refl|]. destruct (dget (clients (M s)) u) as [[|r rs]|]; [apply sameU_near; apply sameU_refl| |apply sameU_near; apply request_other; exact N].
  eapply nearU_trans; [apply sameU_near; apply (setc_other u rs s N)|]. generalize (setc u rs s). clear s. intros s.
  destruct (status r =? 404); [apply sameU_near; other N|]. destruct (negb _); [apply sameU_near; apply finishCue_other; exact N|]. destruct (ctype r) as [ct|]; [|apply sameU_near; apply sameU_refl].
  destruct (cesr ct).
  { set (o' := match r_aid r with Some c => _ | None => _ end). cbn [good fst]. eapply nearU_trans; [|apply sameU_near; apply finishCue_other; exact N]. apply sameU_near. destruct (o_alias o'); [|other N]. destruct (o_cid o') as [c|]; [|other N]. destruct (isnil c); other N. }
  assert (SC : forall said, sameU s (snd (schemed u o (body r) said s))) by (intros said; unfold schemed; destruct (match o_said o with Some x => _ | None => _ end); cbn [snd]; [other N|apply sameU_refl]).
  destruct (beq ct _).
  { destruct (schemer E (body r)) as [said|e]; [|destruct (_ || _); apply sameU_near; [apply finishCue_other; exact N|apply sameU_refl]]. specialize (SC said). destruct (schemed u o (body r) said s) as [b s2]. cbn [good fst snd] in *.
    apply sameU_near. eapply sameU_trans; [exact SC|apply finishCue_other; exact N]. }
  destruct (startswith ct _); [|apply sameU_near; apply finishCue_other; exact N].
  destruct (schemer E (body r)) as [said|e].
  { specialize (SC said). destruct (schemed u o (body r) said s) as [b s2]. cbn [good fst snd] in *. apply sameU_near. eapply sameU_trans; [exact SC|apply finish_other; exact N]. }
  destruct (_ || _); [|apply sameU_near; apply sameU_refl]. destruct (serder E (body r)) as [y|e']; [|destruct (isValue e'); apply sameU_near; [apply finish_other; exact N|apply sameU_refl]].
  destruct (negb _); [apply sameU_near; apply finishCue_other; exact N|]. destruct (_ || _); [|apply sameU_near; apply finishCue_other; exact N].
  unfold multi. destruct (y_aid y); [|apply sameU_near; apply sameU_refl]. destruct (negb _); [apply sameU_near; other N|]. destruct (y_urls y) as [urls|]; [|apply sameU_near; apply sameU_refl].
  apply (then_ind (nearU s) (nearU s)); [apply puts_near|auto|]. intros s' NS. eapply nearU_trans; [exact NS|]. apply sameU_near. other N.
Qed.

(** ** Nothing is lost *)
Definition K (s : st) : Prop := kept (D s) U.
Lemma near_kept s s' : nearU s s' -> K s -> K s'.
Proof. unfold K, kept. intros (A & B & C & F & G & H) J. rewrite B, C, F, G. tauto. Qed.
Lemma done_kept s : dget (roobi (D s)) U <> None -> K s. Proof. unfold K, kept. tauto. Qed.
Hypothesis HC : clientOk E U = true.
Lemma request_kept o s : K (fst (request E U o s)).
Proof. unfold request. rewrite HC. unfold K, kept. dbs. rewrite beq_refl. right. left. discriminate. Qed.
Lemma finish_kept o b s : K (finish U o b s).
Proof. apply done_kept. dbs. rewrite beq_refl. destruct (dget (roobi (D s)) U); discriminate. Qed.
Lemma cue_kept o u s : K s -> K (cue o u s). Proof. exact (fun H => H). Qed.
Lemma setc_kept l u s : K s -> K (setc u l s). Proof. exact (fun H => H). Qed.
Lemma oneOobi_kept x s : True -> K s -> K (fst (oneOobi E x s)).
Proof.
  intros _ H. destruct x as [u o]. destruct (list_N_dec u U) as [->|N]; [|eapply near_kept; [apply sameU_near; apply oneOobi_other; exact N|exact H]].
  unfold oneOobi. destruct (two U); [exact H|]. destruct (dget (roobi (D s)) U) as [f|] eqn:R.
  - destruct (_ && _); [apply done_kept; dbs; rewrite R; discriminate|]. destruct (urlp E U) as [[p n]|e]; [|destruct (isValue e); exact H]. destruct (pathKind p); try exact H; apply request_kept.
  - cbn [andb]. destruct (urlp E U) as [[p n]|e]; [|destruct (isValue e); exact H]. destruct (pathKind p); try exact H; apply request_kept.
Qed.
Lemma oneClient_kept now x s : True -> K s -> K (fst (oneClient E now x s)).
Proof.
  intros _ H. destruct x as [u o]. destruct (list_N_dec u U) as [->|N]; [|eapply near_kept; [apply oneClient_other; exact N|exact H]].
  unfold oneClient. destruct (two U); [exact H|]. destruct (dget (clients (M s)) U) as [[|r rs]|]; [exact H| |apply request_kept].
  apply (setc_kept rs U) in H. revert H. generalize (setc U rs s). clear s. intros s H.
  destruct (status r =? 404); [unfold K, kept; dbs; rewrite beq_refl; right; right; left; discriminate|]. destruct (negb _); [apply cue_kept; apply finish_kept|]. destruct (ctype r) as [ct|]; [|exact H].
  destruct (cesr ct); [apply cue_kept; apply finish_kept|].
  destruct (beq ct _).
  { destruct (schemer E (body r)) as [said|e]; [|destruct (_ || _); [apply cue_kept; apply finish_kept|exact H]]. destruct (schemed U o (body r) said s) as [b s2]. apply cue_kept. apply finish_kept. }
  destruct (startswith ct _); [|apply cue_kept; apply finish_kept].
  destruct (schemer E (body r)) as [said|e]; [destruct (schemed U o (body r) said s) as [b s2]; apply finish_kept|].
  destruct (_ || _); [|exact H]. destruct (serder E (body r)) as [y|e']; [|destruct (isValue e'); [apply finish_kept|exact H]].
  destruct (negb _); [apply cue_kept; apply finish_kept|]. destruct (_ || _); [|apply cue_kept; apply finish_kept].
  unfold multi. destruct (y_aid y); [|exact H]. destruct (negb _); [exact H|]. destruct (y_urls y) as [urls|]; [|exact H].
  apply (then_ind K K); [|auto|].
  - eapply near_kept; [apply puts_near|exact H].
  - intros s' _. unfold K, kept. dbs. rewrite beq_refl. right. right. right. left. destruct (dget (moobi (D s')) U); discriminate.
Qed.
Lemma oneRetry_kept now x s : True -> K s -> K (fst (oneRetry now x s)).
Proof.
  intros _ H. destruct x as [u o]. destruct (list_N_dec u U) as [->|N]; [|eapply near_kept; [apply sameU_near; apply oneRetry_other; exact N|exact H]].
  unfold oneRetry. destruct (two U); [exact H|]. destruct (_ <? _); [|exact H]. unfold K, kept. dbs. rewrite beq_refl. left. discriminate.
Qed.
Lemma oneMoobi_kept x s : True -> K s -> K (fst (oneMoobi x s)).
Proof.
  intros _ H. destruct x as [u o]. destruct (list_N_dec u U) as [->|N]; [|eapply near_kept; [apply sameU_near; apply oneMoobi_other; exact N|exact H]].
  unfold oneMoobi. destruct (two U); [exact H|]. destruct (all _ _); [apply finish_kept|exact H].
Qed.
Lemma flows_kept now s : K s -> K (fst (flows E now s)).
Proof.
  assert (T : forall X (l : list X), Forall (fun _ => True) l) by (intros; apply Forall_forall; auto). intros H. unfold flows. apply (then_ind K K); [apply (each_ind _ K (fun _ => True)); [exact oneOobi_kept|apply T|exact H]|auto|]. clear s H. intros s H.
  apply (then_ind K K); [apply (each_ind _ K (fun _ => True)); [exact (oneClient_kept now)|apply T|exact H]|auto|]. clear s H. intros s H.
  apply (then_ind K K); [apply (each_ind _ K (fun _ => True)); [exact (oneRetry_kept now)|apply T|exact H]|auto|]. clear s H. intros s H.
  apply (each_ind _ K (fun _ => True)); [exact oneMoobi_kept|apply T|exact H].
Qed.
Lemma step_kept s e : (forall k now, e <> Crash k now) -> K s -> K (step E s e).
Proof.
  intros NC H. destruct e as [u a now|c u now|u r|now|k now]; cbn [step].
  - destruct (badKey u); [exact H|]. unfold K, kept in *. dbs. destruct (beq U u); [left; discriminate|exact H].
  - destruct (badKey u); [exact H|]. unfold K, kept in *. dbs. destruct (dget (oobis (D s)) U); [left; discriminate|]. destruct (beq U u); [left; discriminate|exact H].
  - destruct (dget (clients (M s)) u); exact H.
  - pose proof (flows_kept now (mkS (D s) (M s) []) H) as F. destruct (flows E now _) as [s' [[]|e]]; exact F.
  - destruct (NC k now). reflexivity.
Qed.
Lemma load_kept s e : badKey U = false -> ((exists a now, e = Load U a now) \/ exists c now, e = Intro c U now) -> K (step E s e).
Proof.
  intros B [(a & now & ->)|(c & now & ->)]; cbn [step]; rewrite B; unfold K, kept; dbs; rewrite beq_refl; left; [discriminate|destruct (dget (oobis (D s)) U); discriminate].
Qed.
Lemma run_kept es : badKey U = false -> (forall k now, ~ In (Crash k now) es) -> loaded es U -> K (run E es).
Proof.
  intros B NC L. assert (G : exists e l1 l2, es = l1 ++ e :: l2 /\ ((exists a now, e = Load U a now) \/ exists c now, e = Intro c U now)).
  { destruct L as [(a & now & I)|(c & now & I)]; apply in_split in I as (l1 & l2 & ->); eexists; exists l1, l2; (split; [reflexivity|eauto]). }
  destruct G as (e & l1 & l2 & -> & He). unfold run. rewrite fold_left_app. cbn [fold_left]. assert (NC2 : forall e, In e l2 -> forall k now, e <> Crash k now) by (intros e' I k now ->; apply (NC k now); apply in_or_app; right; right; exact I).
  pose proof (load_kept (fold_left (step E) l1 init) e B He) as H. revert H NC2. generalize (step E (fold_left (step E) l1 init) e). clear L He NC. intros s H NC2. revert s H. induction l2 as [|e' l2 IH]; intros s H; [exact H|]. cbn [fold_left].
  apply IH; [intros x I; apply NC2; right; exact I|]. apply step_kept; [apply NC2; left; reflexivity|exact H].
Qed.

(** ** OOBIs go on *)
Definition ended (s : st) : Prop := done (D s) U.
Definition under (s : st) : Prop := ended s \/ asked s U.
Lemma near_under s s' : nearU s s' -> under s -> under s'.
Proof. unfold under, ended, done, asked. intros (A & B & C & F & G & H) J. rewrite B, F, H. exact J. Qed.
Lemma ended_finish o b s : ended (finish U o b s).
Proof. unfold ended, done. dbs. rewrite beq_refl. destruct (dget (roobi (D s)) U); eauto. Qed.
Lemma request_under o s : under (fst (request E U o s)).
Proof. right. unfold asked, request. rewrite HC. dbs. rewrite !beq_refl. split; [discriminate|reflexivity]. Qed.
Lemma request_ended o s : ended s -> ended (fst (request E U o s)).
Proof. unfold ended, done, request. rewrite HC. dbs. auto. Qed.
Lemma oneOobi_under x s : True -> under s -> under (fst (oneOobi E x s)).
Proof.
  intros _ H. destruct x as [u o]. destruct (list_N_dec u U) as [->|N]; [|eapply near_under; [apply sameU_near; apply oneOobi_other; exact N|exact H]].
  unfold oneOobi. destruct (two U); [exact H|]. destruct (_ && _); [exact H|]. destruct (urlp E U) as [[p n]|e]; [|destruct (isValue e); exact H]. destruct (pathKind p); try exact H; apply request_under.
Qed.
Lemma oneOobi_start o s s' : usable E U -> oneOobi E (U, o) s = (s', Ok tt) -> under s'.
Proof.
  intros (_ & T & _ & p & n & HU & KN). unfold oneOobi. destruct (two U) eqn:TW; [apply two_spec in TW; contradiction|]. rewrite HU.
  destruct (dget (roobi (D s)) U) as [f|] eqn:R.
  - destruct (_ && _); [intros [= <-]; left; unfold ended, done; dbs; rewrite R; eauto|]. destruct (pathKind p); intros H; try congruence; match goal with H : request _ _ ?o _ = _ |- _ => pose proof (request_under o s) as Q; rewrite H in Q; exact Q end.
  - cbn [andb]. destruct (pathKind p); intros H; try congruence; match goal with H : request _ _ ?o _ = _ |- _ => pose proof (request_under o s) as Q; rewrite H in Q; exact Q end.
Qed.
(** the clients: as long as there is no answer *)
Lemma ended_mono s s' : dget (roobi (D s')) U = dget (roobi (D s)) U -> ended s -> ended s'. Proof. unfold ended, done. intros ->. auto. Qed.
Lemma puts_ended o now l s : ended s -> ended (fst (each (putOne o now) l s)).
Proof. intros H. destruct (puts_near o now l s) as (_ & _ & _ & R & _). eapply ended_mono; eauto. Qed.
Lemma oneClient_ended now x s : ended s -> ended (fst (oneClient E now x s)).
Proof.
  intros H. destruct x as [u o]. destruct (list_N_dec u U) as [->|N]; [|destruct (oneClient_other now u o s N) as (_ & _ & _ & R & _); eapply ended_mono; eauto].
  unfold oneClient. destruct (two U); [exact H|]. destruct (dget (clients (M s)) U) as [[|r rs]|]; [exact H| |apply request_ended; exact H].
  assert (H1 : ended (setc U rs s)) by exact H. revert H1. generalize (setc U rs s). clear s H. intros s H.
  destruct (status r =? 404); [exact H|]. destruct (negb _); [apply ended_finish|]. destruct (ctype r) as [ct|]; [|exact H].
  destruct (cesr ct); [apply ended_finish|].
  destruct (beq ct _).
  { destruct (schemer E (body r)) as [said|e]; [|destruct (_ || _); [apply ended_finish|exact H]]. destruct (schemed U o (body r) said s) as [b s2]. apply ended_finish. }
  destruct (startswith ct _); [|apply ended_finish].
  destruct (schemer E (body r)) as [said|e]; [destruct (schemed U o (body r) said s) as [b s2]; apply ended_finish|].
  destruct (_ || _); [|exact H]. destruct (serder E (body r)) as [y|e']; [|destruct (isValue e'); [apply ended_finish|exact H]].
  destruct (negb _); [apply ended_finish|]. destruct (_ || _); [|apply ended_finish].
  unfold multi. destruct (y_aid y); [|exact H]. destruct (negb _); [exact H|]. destruct (y_urls y) as [urls|]; [|exact H].
  apply (then_ind ended ended); [apply puts_ended; exact H|auto|intros s' H'; exact H'].
Qed.
Lemma oneClient_under now x s : True -> under s -> under (fst (oneClient E now x s)).
Proof.
  intros _ [H|[H1 H2]]; [left; apply oneClient_ended; exact H|]. destruct x as [u o]. destruct (list_N_dec u U) as [->|N]; [|eapply near_under; [apply oneClient_other; exact N|right; split; assumption]].
  unfold oneClient. destruct (two U); [right; split; assumption|]. rewrite H2. right. split; assumption.
Qed.
Lemma oneRetry_under now x s : True -> under s -> under (fst (oneRetry now x s)).
Proof. intros _ H. destruct x as [u o]. unfold oneRetry. destruct (two u); [exact H|]. destruct (_ <? _); exact H. Qed.
Lemma oneMoobi_under x s : True -> under s -> under (fst (oneMoobi x s)).
Proof.
  intros _ H. destruct x as [u o]. destruct (list_N_dec u U) as [->|N]; [|eapply near_under; [apply sameU_near; apply oneMoobi_other; exact N|exact H]].
  unfold oneMoobi. destruct (two U); [exact H|]. destruct (all _ _); [left; apply ended_finish|exact H].
Qed.
Lemma anyF {X} (l : list X) : Forall (fun _ => True) l. Proof. apply Forall_forall. auto. Qed.
Lemma rest_under now s : under s -> forall s', andThen (processRetries now s) processMOOBIs = (s', Ok tt) -> under s'.
Proof.
  intros H s' Q. assert (J : under (fst (andThen (processRetries now s) processMOOBIs))).
  { apply (then_ind under under); [apply (each_ind _ under (fun _ => True)); [exact (oneRetry_under now)|apply anyF|exact H]|auto|]. intros s1 H1. apply (each_ind _ under (fun _ => True)); [exact oneMoobi_under|apply anyF|exact H1]. }
  rewrite Q in J. exact J.
Qed.
Lemma asks now s s' : usable E U -> dget (oobis (D s)) U <> None -> flows E now s = (s', Ok tt) -> under s'.
Proof.
  intros US H F. unfold flows in F. apply then_ok in F as (s1 & F1 & F). apply then_ok in F as (s2 & F2 & F). destruct (dget (oobis (D s)) U) as [o|] eqn:G; [clear H|congruence].
  assert (U1 : under s1).
  { apply (each_at (oneOobi E) under (fun _ => True) (U, o) (oobis (D s))) with (s := s); auto; [apply dget_in; exact G|intros x t Ht; apply oneOobi_under; auto|intros t t' _ Q; eapply oneOobi_start; eauto]. }
  assert (U2 : under s2).
  { assert (J : under (fst (each (oneClient E now) (coobi (D s1)) s1))) by (apply (each_ind _ under (fun _ => True)); [exact (oneClient_under now)|apply anyF|exact U1]). unfold processClients in F2. rewrite F2 in J. exact J. }
  eapply rest_under; eauto.
Qed.

(** a request that was forgotten is sent again *)
Definition fresh (s : st) : Prop := ended s \/ (dget (coobi (D s)) U <> None /\ (dget (clients (M s)) U = None \/ dget (clients (M s)) U = Some [])).
Lemma near_fresh s s' : nearU s s' -> fresh s -> fresh s'.
Proof. unfold fresh, ended, done. intros (A & B & C & F & G & H) J. rewrite B, F, H. exact J. Qed.
Lemma under_fresh s : under s -> fresh s.
Proof. intros [H|[H1 H2]]; [left; exact H|right; auto]. Qed.
Lemma oneOobi_fresh x s : True -> fresh s -> fresh (fst (oneOobi E x s)).
Proof.
  intros _ H. destruct x as [u o]. destruct (list_N_dec u U) as [->|N]; [|eapply near_fresh; [apply sameU_near; apply oneOobi_other; exact N|exact H]].
  unfold oneOobi. destruct (two U); [exact H|]. destruct (_ && _); [exact H|]. destruct (urlp E U) as [[p n]|e]; [|destruct (isValue e); exact H]. destruct (pathKind p); try exact H; apply under_fresh; apply request_under.
Qed.
Lemma oneClient_fresh now x s : True -> fresh s -> fresh (fst (oneClient E now x s)).
Proof.
  intros _ [H|[H1 H2]]; [left; apply oneClient_ended; exact H|]. destruct x as [u o]. destruct (list_N_dec u U) as [->|N]; [|eapply near_fresh; [apply oneClient_other; exact N|right; split; assumption]].
  unfold oneClient. destruct (two U); [right; split; assumption|]. destruct H2 as [H2|H2]; rewrite H2; [apply under_fresh; apply request_under|right; auto].
Qed.
Lemma again now s s' : dget (coobi (D s)) U <> None -> (dget (clients (M s)) U = None \/ dget (clients (M s)) U = Some []) -> flows E now s = (s', Ok tt) -> under s'.
Proof.
  intros H1 H2 F. unfold flows in F. apply then_ok in F as (s1 & F1 & F). apply then_ok in F as (s2 & F2 & F).
  assert (FR : fresh s1).
  { assert (J : fresh (fst (each (oneOobi E) (oobis (D s)) s))) by (apply (each_ind _ fresh (fun _ => True)); [exact oneOobi_fresh|apply anyF|right; auto]). unfold processOobis in F1. rewrite F1 in J. exact J. }
  assert (U2 : under s2).
  { destruct FR as [EN|[C1 C2]].
    - left. assert (J : ended (fst (each (oneClient E now) (coobi (D s1)) s1))) by (apply (each_ind _ ended (fun _ => True)); [intros x t _; apply oneClient_ended|apply anyF|exact EN]). unfold processClients in F2. rewrite F2 in J. exact J.
    - destruct (dget (coobi (D s1)) U) as [o|] eqn:G; [|congruence]. apply (each_at (oneClient E now) under fresh (U, o) (coobi (D s1))) with (s := s1); auto.
      + apply dget_in; exact G. + intros x t t' Ht Q; pose proof (oneClient_fresh now x t Logic.I Ht) as R; rewrite Q in R; exact R. + intros x t Ht; apply oneClient_under; auto.
      + intros t t' FT Q. destruct FT as [EN|[D1 D2]]; [left; pose proof (oneClient_ended now (U, o) t EN) as J; rewrite Q in J; exact J|]. unfold oneClient in Q. destruct (two U); [discriminate Q|].
        destruct D2 as [D2|D2]; rewrite D2 in Q; [pose proof (request_under o t) as J; rewrite Q in J; exact J|injection Q as <-; right; split; assumption].
      + right. rewrite G. split; [discriminate|exact C2]. }
  eapply rest_under; eauto.
Qed.

(** an answer ends it *)
Lemma rest_ended now s : ended s -> forall s', andThen (processRetries now s) processMOOBIs = (s', Ok tt) -> ended s'.
Proof.
  intros H s' Q. assert (J : ended (fst (andThen (processRetries now s) processMOOBIs))).
  { apply (then_ind ended ended); [apply (each_ind _ ended (fun _ => True)); [|apply anyF|exact H]|auto|].
    - intros [u o] t _ Ht. unfold oneRetry. destruct (two u); [exact Ht|]. destruct (_ <? _); exact Ht.
    - intros s1 H1. apply (each_ind _ ended (fun _ => True)); [|apply anyF|exact H1]. intros [u o] t _ Ht. destruct (list_N_dec u U) as [->|N].
      + unfold oneMoobi. destruct (two U); [exact Ht|]. destruct (all _ _); [apply ended_finish|exact Ht].
      + destruct (oneMoobi_other u o t N) as (_ & _ & _ & R & _). eapply ended_mono; eauto. }
  rewrite Q in J. exact J.
Qed.
Lemma final_ends now o r rs s s' : dget (clients (M s)) U = Some (r :: rs) -> final E r -> oneClient E now (U, o) s = (s', Ok tt) -> ended s'.
Proof.
  intros C (N4 & CT & NR). unfold oneClient. destruct (two U); [discriminate|]. rewrite C. generalize (setc U rs s). clear s C. intros s. destruct (N.eqb_spec (status r) 404); [contradiction|].
  assert (FC : forall o b s, ended (finishCue U o b s)) by (intros; apply ended_finish).
  destruct (negb _); [intros [= <-]; apply FC|]. destruct (ctype r) as [ct|]; [|congruence].
  destruct (cesr ct); [intros [= <-]; apply FC|].
  destruct (beq ct _).
  { destruct (schemer E (body r)) as [said|e]; [|destruct (_ || _); [intros [= <-]; apply FC|discriminate]]. destruct (schemed U o (body r) said s) as [b s2]. intros [= <-]; apply FC. }
  destruct (startswith ct _); [|intros [= <-]; apply FC].
  destruct (schemer E (body r)) as [said|e]; [destruct (schemed U o (body r) said s) as [b s2]; intros [= <-]; apply ended_finish|].
  destruct (_ || _); [|discriminate]. destruct (serder E (body r)) as [y|e']; [|destruct (isValue e'); [intros [= <-]; apply ended_finish|discriminate]].
  destruct (beq_spec (y_ilk y) (s2b "rpy")) as [IL|IL]; [destruct (NR y eq_refl IL)|]. cbn [negb]. intros [= <-]; apply FC.
Qed.
Lemma ends now r rs s s' : dget (oobis (D s)) U = None -> dget (coobi (D s)) U <> None -> dget (clients (M s)) U = Some (r :: rs) -> final E r -> flows E now s = (s', Ok tt) -> ended s'.
Proof.
  intros H1 H2 H3 FI F. unfold flows in F. apply then_ok in F as (s1 & F1 & F). apply then_ok in F as (s2 & F2 & F).
  pose (J := fun t => dget (coobi (D t)) U = dget (coobi (D s)) U /\ dget (clients (M t)) U = Some (r :: rs)).
  assert (J1 : J s1).
  { assert (Q : J (fst (each (oneOobi E) (oobis (D s)) s))).
    { apply (each_ind _ J (fun x => fst x <> U)); [| |split; [reflexivity|exact H3]].
      - intros [u o] t N (A & B). destruct (oneOobi_other u o t N) as (_ & C & _ & _ & _ & G). split; congruence.
      - apply Forall_forall. intros [u o] I Q. cbn in Q. subst u. exact (dget_none_in _ _ H1 _ I). }
    unfold processOobis in F1. rewrite F1 in Q. exact Q. }
  destruct J1 as [C1 C2]. rewrite <- C1 in H2. destruct (dget (coobi (D s1)) U) as [o|] eqn:G; [|congruence].
  assert (E2 : ended s2).
  { apply (each_at (oneClient E now) ended (fun t => ended t \/ dget (clients (M t)) U = Some (r :: rs)) (U, o) (coobi (D s1))) with (s := s1); auto.
    - apply dget_in; exact G.
    - intros [u o'] t t' [Ht|Ht] Q; [left; pose proof (oneClient_ended now (u, o') t Ht) as J2; rewrite Q in J2; exact J2|]. destruct (list_N_dec u U) as [->|N].
      + left. eapply final_ends; eauto.
      + right. destruct (oneClient_other now u o' t N) as (_ & _ & _ & _ & _ & CL). rewrite Q in CL. cbn [fst] in CL. congruence.
    - intros x t Ht. apply oneClient_ended. exact Ht.
    - intros t t' [Ht|Ht] Q; [pose proof (oneClient_ended now (U, o) t Ht) as J2; rewrite Q in J2; exact J2|]. eapply final_ends; eauto. }
  eapply rest_ended; eauto.
Qed.

(** the next try *)
Lemma retried now o s s' : dget (oobis (D s)) U = None -> dget (coobi (D s)) U = None -> dget (eoobi (D s)) U = Some o -> o_date o + 30 < now -> flows E now s = (s', Ok tt) -> dget (oobis (D s')) U <> None.
Proof.
  intros H1 H2 H3 T F. unfold flows in F. apply then_ok in F as (s1 & F1 & F). apply then_ok in F as (s2 & F2 & F). apply then_ok in F as (s3 & F3 & F).
  pose (J := fun t => dget (coobi (D t)) U = None /\ dget (eoobi (D t)) U = Some o).
  assert (J1 : J s1).
  { assert (Q : J (fst (each (oneOobi E) (oobis (D s)) s))).
    { apply (each_ind _ J (fun x => fst x <> U)); [| |split; assumption].
      - intros [u o'] t N (A & B). destruct (oneOobi_other u o' t N) as (_ & C & G & _). split; congruence.
      - apply Forall_forall. intros [u o'] I Q. cbn in Q. subst u. exact (dget_none_in _ _ H1 _ I). }
    unfold processOobis in F1. rewrite F1 in Q. exact Q. }
  assert (J2 : J s2).
  { destruct J1 as [C1 C2]. assert (Q : J (fst (each (oneClient E now) (coobi (D s1)) s1))).
    { apply (each_ind _ J (fun x => fst x <> U)); [| |split; assumption].
      - intros [u o'] t N (A & B). destruct (oneClient_other now u o' t N) as (_ & C & G & _). split; congruence.
      - apply Forall_forall. intros [u o'] I Q. cbn in Q. subst u. exact (dget_none_in _ _ C1 _ I). }
    unfold processClients in F2. rewrite F2 in Q. exact Q. }
  destruct J2 as [_ C2]. pose (I := fun t => dget (oobis (D t)) U <> None).
  assert (J3 : I s3).
  { apply (each_at (oneRetry now) I (fun _ => True) (U, o) (eoobi (D s2))) with (s := s2); auto; [apply dget_in; exact C2| |].
    - intros [u o'] t Ht. unfold oneRetry. destruct (two u); [exact Ht|]. destruct (_ <? _); [|exact Ht]. unfold I. dbs. destruct (beq U u); [discriminate|exact Ht].
    - intros t t' _. unfold oneRetry. destruct (two U); [discriminate|]. replace (o_date o + 30 <? now) with true by (symmetry; apply N.ltb_lt; exact T). intros [= <-]. unfold I. dbs. rewrite beq_refl. discriminate. }
  assert (Q : I (fst (each oneMoobi (moobi (D s3)) s3))).
  { apply (each_ind _ I (fun _ => True)); [|apply anyF|exact J3]. intros [u o'] t _ Ht. unfold oneMoobi. destruct (two u); [exact Ht|]. destruct (all _ _); exact Ht. }
  unfold processMOOBIs in F. rewrite F in Q. exact Q.
Qed.

(** ** A key that cannot be unpacked *)
Definition stuck (s : st) : Prop := dget (oobis (D s)) U <> None /\ Forall (fun d => dget (oobis d) U <> None) (tr s).
Hypothesis HT : In 62 U.
Lemma twoU : two U = true.
Proof. apply two_spec. exact HT. Qed.
Lemma wr_stuck f s : (dget (oobis (D s)) U <> None -> dget (oobis (f (D s))) U <> None) -> stuck s -> stuck (wr f s).
Proof. intros H [A B]. split; [apply H; exact A|]. constructor; [apply H; exact A|exact B]. Qed.
Lemma oneOobi_stuck x s : True -> stuck s -> stuck (fst (oneOobi E x s)).
Proof.
  intros _ H. destruct x as [u o]. unfold oneOobi. destruct (two u) eqn:T; [exact H|]. assert (N : u <> U) by (intros ->; rewrite twoU in T; discriminate T).
  assert (W : forall s, stuck s -> stuck (wr (fun d => u_oobis d (trem u (oobis d))) s)) by (intros t Ht; apply wr_stuck; [dbs; rewrite (neqb _ N); auto|exact Ht]).
  assert (R : forall o s, stuck s -> stuck (fst (request E u o s))).
  { intros o' t Ht. unfold request. destruct (clientOk E u); [|apply W; exact Ht]. cbn [good fst]. apply wr_stuck; [auto|]. apply W. exact Ht. }
  destruct (_ && _); [apply W; exact H|]. destruct (urlp E u) as [[p n]|e]; [|destruct (isValue e); exact H]. destruct (pathKind p); try exact H; apply R; exact H.
Qed.
Lemma flows_stuck now s : stuck s -> stuck (fst (flows E now s)) /\ exists e, snd (flows E now s) = Err e.
Proof.
  intros H. assert (P : stuck (fst (processOobis E s))) by (apply (each_ind _ stuck (fun _ => True)); [exact oneOobi_stuck|apply anyF|exact H]).
  assert (Q : exists e, snd (processOobis E s) = Err e).
  { destruct H as [H _]. destruct (dget (oobis (D s)) U) as [o|] eqn:G; [|congruence]. apply (each_err (oneOobi E) (U, o)); [apply dget_in; exact G|]. intros t. exists ValueError. unfold oneOobi. rewrite twoU. reflexivity. }
  destruct Q as [e Q]. unfold flows. rewrite (then_fst_err _ _ e Q). split; [exact P|exists e; exact Q].
Qed.
Lemma step_stuck s e : stuck s -> stuck (step E s e).
Proof.
  intros H. assert (H0 : stuck (mkS (D s) (M s) [])) by (split; [exact (proj1 H)|constructor]). destruct e as [u a now|c u now|u r|now|k now]; cbn [step].
  - destruct (badKey u); [exact H|]. apply wr_stuck; [|exact H]. dbs. destruct (beq U u); [discriminate|auto].
  - destruct (badKey u); [exact H|]. apply wr_stuck; [|exact H]. dbs. destruct (dget (oobis (D s)) U); [discriminate|congruence].
  - destruct (dget (clients (M s)) u); exact H.
  - destruct (flows_stuck now _ H0) as [F [e G]]. destruct (flows E now _) as [s' [[]|e']]; [discriminate G|]. split; [exact (proj1 F)|constructor].
  - destruct (flows_stuck now _ H0) as [[_ F] _]. split; [|constructor]. cbn [D]. set (l := D s :: rev _). assert (FA : Forall (fun d => dget (oobis d) U <> None) l).
    { constructor; [exact (proj1 H)|]. apply Forall_rev. exact F. }
    destruct (nth_in_or_default k l (D s)) as [I|Q]; [rewrite Forall_forall in FA; apply FA; exact I|rewrite Q; exact (proj1 H)].
Qed.
Lemma fold_stuck : forall es s, stuck s -> stuck (fold_left (step E) es s).
Proof. induction es as [|e es IH]; intros s H; [exact H|]. cbn [fold_left]. apply IH. apply step_stuck. exact H. Qed.
End L.

(** ** An answer that cannot be read *)
Section P.
Variable E : env.
Variable U : bytes.
Variable R : resp.
Hypothesis HC : clientOk E U = true.
Hypothesis HR : poison E R.
Ltac dbs := cbn [good fst snd D M wr setc cue feed u_oobis u_coobi u_eoobi u_roobi u_moobi u_schema u_named oobis coobi eoobi roobi moobi schema named clients cues fed finish finishCue];
  rewrite ?tpin_get, ?tput_get, ?trem_get, ?dset_get.
Definition Q0 (d : db) : Prop := dget (coobi d) U <> None /\ dget (eoobi d) U = None /\ dget (moobi d) U = None.
Definition quiet (s : st) : Prop := forall u l, u <> U -> dget (clients (M s)) u = Some l -> l = [].
Lemma near_Q0 s s' : nearU U s s' -> Q0 (D s) -> Q0 (D s').
Proof. intros (A & B & C & F & G & H) (I & J & K). unfold Q0. rewrite B, C, G. auto. Qed.
Lemma request_Q0 o s : Q0 (D s) -> Q0 (D (fst (request E U o s))).
Proof. intros (I & J & K). unfold request. rewrite HC. unfold Q0. dbs. rewrite beq_refl. split; [discriminate|auto]. Qed.
Lemma request_quiet u o s : quiet s -> quiet (fst (request E u o s)).
Proof. intros H. unfold request, quiet. destruct (clientOk E u); [|exact H]. dbs. intros v l N. rewrite dset_get. destruct (beq v u); [intros [= <-]; reflexivity|apply H; exact N]. Qed.
Lemma oneOobi_quiet x s : quiet s -> quiet (fst (oneOobi E x s)).
Proof.
  intros H. destruct x as [u o]. unfold oneOobi. destruct (two u); [exact H|]. destruct (_ && _); [exact H|]. destruct (urlp E u) as [[p n]|e]; [|destruct (isValue e); exact H]. destruct (pathKind p); try exact H; apply request_quiet; exact H.
Qed.
(** the first pass: nobody has answered *)
Definition P1 (s : st) : Prop := Q0 (D s) /\ quiet s /\ (dget (clients (M s)) U = None \/ (dget (clients (M s)) U = Some [] /\ dget (oobis (D s)) U = None)).
Lemma oneOobi_P1 x s : True -> P1 s -> P1 (fst (oneOobi E x s)).
Proof.
  intros _ (A & B & C). split; [|split; [apply oneOobi_quiet; exact B|]]; destruct x as [u o]; (destruct (list_N_dec u U) as [->|N]; [|destruct (oneOobi_other E U u o s N) as (F & F1 & F2 & F3 & F4 & F5)]).
  - assert (RT : dget (eoobi (D s)) U = None) by (exact (proj1 (proj2 A))). unfold oneOobi. rewrite RT, andb_false_r. destruct (two U); [exact A|]. destruct (urlp E U) as [[p n]|e]; [|destruct (isValue e); exact A]. destruct (pathKind p); try exact A; apply request_Q0; exact A.
  - unfold Q0. rewrite F1, F2, F4. exact A.
  - assert (RT : dget (eoobi (D s)) U = None) by (exact (proj1 (proj2 A))). unfold oneOobi. rewrite RT, andb_false_r. destruct (two U); [exact C|].
    assert (RQ : forall o, dget (clients (M (fst (request E U o s)))) U = Some [] /\ dget (oobis (D (fst (request E U o s)))) U = None) by (intros o'; unfold request; rewrite HC; dbs; rewrite !beq_refl; auto).
    destruct (urlp E U) as [[p n]|e]; [|destruct (isValue e); exact C]. destruct (pathKind p); try exact C; right; apply RQ.
  - rewrite F, F5. exact C.
Qed.
Lemma oneClient_quiet now u o s : quiet s -> (u = U -> forall r rs, dget (clients (M s)) U <> Some (r :: rs)) -> fst (oneClient E now (u, o) s) = s \/ fst (oneClient E now (u, o) s) = fst (request E u o s).
Proof.
  intros H HU. unfold oneClient. destruct (two u); [left; reflexivity|]. destruct (dget (clients (M s)) u) as [[|r rs]|] eqn:G; [left; reflexivity| |right; reflexivity]. exfalso. destruct (list_N_dec u U) as [->|N]; [exact (HU eq_refl _ _ G)|]. discriminate (H _ _ N G).
Qed.
Lemma oneClient_P1 now x s : True -> P1 s -> P1 (fst (oneClient E now x s)).
Proof.
  intros _ (A & B & C). destruct x as [u o]. assert (HU : u = U -> forall r rs, dget (clients (M s)) U <> Some (r :: rs)) by (intros _ r rs G; destruct C as [C|[C _]]; congruence).
  destruct (oneClient_quiet now u o s B HU) as [H|H]; rewrite H; [split; [exact A|split; [exact B|exact C]]|]. destruct (list_N_dec u U) as [->|N].
  - split; [apply request_Q0; exact A|]. split; [apply request_quiet; exact B|]. right. unfold request. rewrite HC. dbs. rewrite !beq_refl. auto.
  - pose proof (request_other E U u o s N) as (F & F1 & F2 & F3 & F4 & F5). split; [unfold Q0; rewrite F1, F2, F4; exact A|]. split; [apply request_quiet; exact B|]. rewrite F, F5. exact C.
Qed.
Definition P2 (s : st) : Prop := Q0 (D s) /\ quiet s /\ dget (clients (M s)) U = Some [] /\ dget (oobis (D s)) U = None.
Lemma oneClient_P2 now x s : P2 s -> P2 (fst (oneClient E now x s)).
Proof.
  intros (A & B & C & G). assert (P : P1 s) by (split; [exact A|split; [exact B|right; auto]]). pose proof (oneClient_P1 now x s Logic.I P) as (A' & B' & C'). split; [exact A'|]. split; [exact B'|]. destruct C' as [C'|C']; [|exact C'].
  exfalso. destruct x as [u o]. destruct (list_N_dec u U) as [->|N]; [|destruct (oneClient_other E U now u o s N) as (_ & _ & _ & _ & _ & F); congruence]. unfold oneClient in C'. destruct (two U); [cbn in C'; congruence|]. rewrite C in C'. cbn in C'. congruence.
Qed.
Lemma oneClient_at now o s s' : P1 s -> oneClient E now (U, o) s = (s', Ok tt) -> P2 s'.
Proof.
  intros P H. assert (P' : P1 s') by (pose proof (oneClient_P1 now (U, o) s Logic.I P) as Q; rewrite H in Q; exact Q). destruct P' as (A' & B' & C'). split; [exact A'|]. split; [exact B'|]. destruct C' as [C'|C']; [|exact C'].
  exfalso. destruct P as (A & B & C). unfold oneClient in H. destruct (two U); [discriminate H|]. destruct C as [C|[C _]]; rewrite C in H.
  - unfold request in H. rewrite HC in H. injection H as <-. revert C'. dbs. rewrite beq_refl. discriminate.
  - injection H as <-. congruence.
Qed.
Lemma rest_P now (I : st -> Prop) s : (forall a b, sameU U a b -> M b = M a -> I a -> I b) -> Q0 (D s) -> I s -> let o := andThen (processRetries now s) processMOOBIs in Q0 (D (fst o)) /\ I (fst o).
Proof.
  intros HI A HIs. cbv zeta. pose (J := fun t => Q0 (D t) /\ I t).
  assert (SJ : forall a b, sameU U a b -> M b = M a -> J a -> J b) by (intros a b Hs HM [Ha Hb]; split; [eapply near_Q0; [apply sameU_near; exact Hs|exact Ha]|eapply HI; eauto]).
  change (J (fst (andThen (processRetries now s) processMOOBIs))). apply (then_ind J J); [|auto|].
  - unfold processRetries. apply (each_ind _ J (fun x => fst x <> U)); [| |split; assumption].
    + intros [u o] t N Ht. eapply SJ; [apply oneRetry_other; exact N| |exact Ht]. unfold oneRetry. destruct (two u); [reflexivity|]. destruct (_ <? _); reflexivity.
    + apply Forall_forall. intros [u o] Hin Q. cbn in Q. subst u. exact (dget_none_in _ _ (proj1 (proj2 A)) _ Hin).
  - intros t Ht. unfold processMOOBIs. apply (each_ind _ J (fun x => fst x <> U)); [| |exact Ht].
    + intros [u o] t' N Ht'. eapply SJ; [apply oneMoobi_other; exact N| |exact Ht']. unfold oneMoobi. destruct (two u); [reflexivity|]. destruct (all _ _); reflexivity.
    + apply Forall_forall. intros [u o] Hin Q. cbn in Q. subst u. destruct Ht as [(_ & _ & Hm) _]. exact (dget_none_in _ _ Hm _ Hin).
Qed.
Lemma pass1 now d : Q0 d -> let o := flows E now (mkS d mem0 []) in Q0 (D (fst o)) /\ (snd o = Ok tt -> P2 (fst o)).
Proof.
  intros H. cbv zeta. set (s := mkS d mem0 []). assert (P : P1 s) by (split; [exact H|split; [intros u l _ Q; discriminate Q|left; reflexivity]]).
  destruct (flows E now s) as [s' [[]|e]] eqn:F; cbn [fst snd].
  - assert (G : P2 s').
    { unfold flows in F. apply then_ok in F as (s1 & F1 & F). apply then_ok in F as (s2 & F2 & F).
      assert (G1 : P1 s1) by (assert (G : P1 (fst (each (oneOobi E) (oobis (D s)) s))) by (apply (each_ind _ P1 (fun _ => True)); [exact oneOobi_P1|apply anyF|exact P]); unfold processOobis in F1; rewrite F1 in G; exact G).
      assert (G2 : P2 s2).
      { destruct (dget (coobi (D s1)) U) as [o|] eqn:C; [|destruct G1 as [[G1 _] _]; congruence]. apply (each_at (oneClient E now) P2 P1 (U, o) (coobi (D s1))) with (s := s1); auto; [apply dget_in; exact C| |intros x t; apply oneClient_P2|intros t t'; apply oneClient_at].
        intros x t t' Ht Q. pose proof (oneClient_P1 now x t Logic.I Ht) as W. rewrite Q in W. exact W. }
      pose proof (rest_P now P2 s2) as W. cbv zeta in W. rewrite F in W. apply W; [|exact (proj1 G2)|exact G2].
      intros a b (S1 & S2 & S3 & S4 & S5 & S6) HM (A & B & C & G). split; [unfold Q0; rewrite S2, S3, S5; exact A|]. split; [unfold quiet; rewrite HM; exact B|]. rewrite S6, S1. auto. }
    split; [exact (proj1 G)|intros _; exact G].
  - split; [|discriminate]. replace s' with (fst (flows E now s)) by (rewrite F; reflexivity). pose (J := fun t => Q0 (D t)). change (J (fst (flows E now s))). unfold flows. apply (then_ind J P1); [apply (each_ind _ P1 (fun _ => True)); [exact oneOobi_P1|apply anyF|exact P]|intros t Ht; exact (proj1 Ht)|]. intros t Ht.
    apply (then_ind J P1); [apply (each_ind _ P1 (fun _ => True)); [exact (oneClient_P1 now)|apply anyF|exact Ht]|intros t' Ht'; exact (proj1 Ht')|]. intros t' Ht'. apply (rest_P now (fun _ => True) t'); auto. exact (proj1 Ht').
Qed.
(** the second pass: the answer raises *)
Definition P3 (s : st) : Prop := Q0 (D s) /\ quiet s /\ dget (clients (M s)) U = Some [R].
Lemma pass2 now s : P2 s -> let o := flows E now (step E s (Answer U R)) in Q0 (D (fst o)) /\ exists e, snd o = Err e.
Proof.
  intros (A & B & C & G). cbv zeta. cbn [step]. rewrite C. cbn [app]. set (s1 := setc U [R] s). assert (P : P3 s1) by (split; [exact A|]; split; [intros u l N; cbn; rewrite dset_get; destruct (beq_spec u U); [congruence|apply B; exact N]|cbn; rewrite dset_get, beq_refl; reflexivity]).
  unfold flows. assert (P' : P3 (fst (processOobis E s1))).
  { apply (each_ind _ P3 (fun x => fst x <> U)); [| |exact P].
    - intros [u o] t N (A1 & B1 & C1). pose proof (oneOobi_other E U u o t N) as O1. split; [eapply near_Q0; [apply sameU_near; exact O1|exact A1]|]. split; [apply oneOobi_quiet; exact B1|]. destruct O1 as (_ & _ & _ & _ & _ & CL). congruence.
    - apply Forall_forall. intros [u o] Hin Q. cbn in Q. subst u. exact (dget_none_in _ _ G _ Hin). }
  destruct (processOobis E s1) as [t [[]|e]]; cbn [fst] in P'; [|split; [exact (proj1 P')|exists e; reflexivity]].
  match goal with |- context [andThen (t, Ok tt) ?f] => change (andThen (t, Ok tt) f) with (f t) end. cbv beta.
  (* the clients *)
  assert (RA : forall o t, P3 t -> fst (oneClient E now (U, o) t) = setc U [] t \/ fst (oneClient E now (U, o) t) = t).
  { intros o t' (_ & _ & C1). unfold oneClient. destruct (two U); [right; reflexivity|]. rewrite C1. destruct HR as (H1 & H2 & H3 & e & H4 & H5). cbv zeta. rewrite H1. cbn [N.eqb negb Pos.eqb]. rewrite H2. change (cesr (s2b "application/json")) with false. change (beq (s2b "application/json") (s2b "application/schema+json")) with false.
    change (startswith (s2b "application/json") (s2b "application/json")) with true. cbv iota. rewrite H3. cbn [isValue isValidation orb]. rewrite H4, H5. left. reflexivity. }
  assert (RE : forall o t, P3 t -> exists e, snd (oneClient E now (U, o) t) = Err e).
  { intros o t' (_ & _ & C1). unfold oneClient. destruct (two U); [exists ValueError; reflexivity|]. rewrite C1. destruct HR as (H1 & H2 & H3 & e & H4 & H5). cbv zeta. rewrite H1. cbn [N.eqb negb Pos.eqb]. rewrite H2. change (cesr (s2b "application/json")) with false. change (beq (s2b "application/json") (s2b "application/schema+json")) with false.
    change (startswith (s2b "application/json") (s2b "application/json")) with true. cbv iota. rewrite H3. cbn [isValue isValidation orb]. rewrite H4, H5. exists e. reflexivity. }
  assert (LP : forall l t, (exists o, In (U, o) l) -> P3 t -> Q0 (D (fst (each (oneClient E now) l t))) /\ exists e, snd (each (oneClient E now) l t) = Err e).
  { induction l as [|[u o] l IH]; intros t' [o' Hin] Pt; [destruct Hin|]. cbn [each]. unfold andThen. destruct (list_N_dec u U) as [->|N].
    - destruct (RE o t' Pt) as [e Ee]. rewrite Ee. split; [destruct (RA o t' Pt) as [X|X]; rewrite X; exact (proj1 Pt)|exists e; exact Ee].
    - destruct Hin as [Hin|Hin]; [congruence|]. destruct Pt as (A1 & B1 & C1). assert (NX : P3 (fst (oneClient E now (u, o) t'))).
      { pose proof (oneClient_other E U now u o t' N) as O1. split; [eapply near_Q0; [exact O1|exact A1]|]. split; [|destruct O1 as (_ & _ & _ & _ & _ & CL); congruence].
        destruct (oneClient_quiet now u o t' B1) as [X|X]; [congruence|rewrite X; exact B1|rewrite X; apply request_quiet; exact B1]. }
      destruct (snd (oneClient E now (u, o) t')) as [[]|e] eqn:K; [apply IH; eauto|]. split; [exact (proj1 NX)|exists e; exact K]. }
  assert (IN : exists o, In (U, o) (coobi (D t))) by (destruct P' as [[C1 _] _]; destruct (dget (coobi (D t)) U) as [o|] eqn:Q; [exists o; apply dget_in; exact Q|congruence]).
  destruct (LP _ t IN P') as [L1 [e L2]]. unfold processClients. rewrite (then_fst_err _ _ e L2). split; [exact L1|exists e; exact L2].
Qed.
Lemma round_Q0 now d : Q0 d -> Q0 (fst (round E now U R d)) /\ snd (round E now U R d) = true.
Proof.
  intros H. unfold round. pose proof (pass1 now d H) as [P1' P2']. destruct (flows E now (mkS d mem0 [])) as [s [[]|e]]; cbn [fst snd] in *; [|split; [exact P1'|reflexivity]].
  pose proof (pass2 now s (P2' eq_refl)) as [X [e Y]]. destruct (flows E now (step E s (Answer U R))) as [s' [[]|e']]; cbn [fst snd] in *; [discriminate Y|]. split; [exact X|reflexivity].
Qed.
Lemma rounds_Q0 now : forall n d, Q0 d -> Q0 (rounds E now U R n d).
Proof. induction n as [|n IH]; intros d H; [exact H|]. cbn [rounds]. apply IH. apply round_Q0. exact H. Qed.
End P.
