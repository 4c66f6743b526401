(** Tables, steps, and what resolved means. *)
From Coq Require Import Lia.
From Verif Require Import Prelude ThModel ThProofs JsonModel JsonProofs DbModel Lex ObModel ObSpec.
Ltac Zify.zify_post_hook ::= Z.div_mod_to_equations.
Open Scope N_scope.

(** ** Tables *)
Lemma tpin_get {V} k (v : V) : forall t k', dget (tpin k v t) k' = if beq k' k then Some v else dget t k'.
Proof.
  induction t as [|[a b] t IH]; intros k'; cbn [tpin dget]; [destruct (beq k' k); reflexivity|].
  destruct (beq_spec k a) as [->|N]; cbn [dget]; [destruct (beq k' a); reflexivity|]. destruct (bltb k a); cbn [dget]; [reflexivity|]. rewrite IH.
  destruct (beq_spec k' a) as [->|N2]; [|reflexivity]. destruct (beq_spec a k) as [->|_]; [congruence|reflexivity].
Qed.
Lemma tput_get {V} k (v : V) t k' : dget (tput k v t) k' = match dget t k' with Some x => Some x | None => if beq k' k then Some v else None end.
Proof.
  unfold tput. destruct (dget t k) eqn:G; [destruct (beq_spec k' k) as [->|N]; [rewrite G; reflexivity|destruct (dget t k'); reflexivity]|].
  rewrite tpin_get. destruct (beq_spec k' k) as [->|N]; [rewrite G; reflexivity|destruct (dget t k'); reflexivity].
Qed.
Lemma trem_get {V} k : forall (t : table V) k', dget (trem k t) k' = if beq k' k then None else dget t k'.
Proof.
  unfold trem. induction t as [|[a b] t IH]; intros k'; cbn [filter fst dget]; [destruct (beq k' k); reflexivity|].
  destruct (beq_spec k a) as [->|N]; cbn [negb dget]; rewrite IH; destruct (beq_spec k' a) as [->|N2]; try reflexivity.
  destruct (beq_spec a k) as [->|_]; [congruence|reflexivity].
Qed.
Lemma dset_get {V} (d : list (bytes * V)) k v k' : dget (dset d k v) k' = if beq k' k then Some v else dget d k'.
Proof.
  induction d as [|[a b] d IH]; cbn [dset dget]; [destruct (beq k' k); reflexivity|].
  destruct (beq_spec k a) as [->|N]; cbn [dget]; [destruct (beq k' a); reflexivity|]. rewrite IH.
  destruct (beq_spec k' a) as [->|N2]; [|reflexivity]. destruct (beq_spec a k) as [->|_]; [congruence|reflexivity].
Qed.
Lemma trem_in {V} k (t : table V) e : In e (trem k t) -> In e t /\ fst e <> k.
Proof. unfold trem. destruct e as [a b]. intros H. apply filter_In in H as [H X]. split; [exact H|]. cbn [fst] in *. intros ->. rewrite beq_refl in X. discriminate X. Qed.
Lemma tpin_in {V} k (v : V) : forall t e, In e (tpin k v t) -> e = (k, v) \/ In e t.
Proof.
  induction t as [|[a b] t IH]; intros e; cbn [tpin]; [intros [<-|[]]; auto|]. destruct (beq k a); [intros [<-|H]; [auto|right; right; exact H]|].
  destruct (bltb k a); [intros [<-|H]; auto|]. intros [<-|H]; [right; left; reflexivity|]. destruct (IH e H); auto. right. right. assumption.
Qed.
Lemma tput_in {V} k (v : V) t e : In e (tput k v t) -> e = (k, v) \/ In e t.
Proof. unfold tput. destruct (dget t k); [auto|apply tpin_in]. Qed.
Lemma dget_in {V} : forall (t : table V) k v, dget t k = Some v -> In (k, v) t.
Proof. induction t as [|[a b] t IH]; intros k v; cbn [dget]; [discriminate|]. destruct (beq_spec k a) as [->|N]; [intros [= ->]; left; reflexivity|intros H; right; apply IH; exact H]. Qed.
Lemma two_spec u : two u = true <-> In 62 u.
Proof. unfold two. rewrite existsb_exists. split; [intros (x & H & X); apply N.eqb_eq in X; subst; exact H|intros H; exists 62; split; [exact H|apply N.eqb_refl]]. Qed.

Lemma split_parts sep : forall s x, In x (splitb sep s) -> ~ In sep x.
Proof.
  induction s as [|ch s IH]; cbn [splitb]; intros x; [intros [<-|[]] []|]. destruct (N.eqb_spec ch sep) as [->|N]; [intros [<-|I]; [intros []|apply IH; exact I]|].
  destruct (splitb sep s) as [|h r]; [intros [<-|[]] [H|[]]; congruence|]. intros [<-|I]; [|apply IH; right; exact I]. intros [H|H]; [congruence|]. apply (IH h); [left; reflexivity|exact H].
Qed.
Lemma join_split sep : forall s, joinb sep (splitb sep s) = s.
Proof.
  assert (NN : forall s, splitb sep s <> []) by (intros [|ch s]; cbn [splitb]; [discriminate|]; destruct (_ =? _); [discriminate|]; destruct (splitb sep s); discriminate).
  induction s as [|ch s IH]; cbn [splitb]; [reflexivity|]. specialize (NN s). destruct (N.eqb_spec ch sep) as [->|N].
  - destruct (splitb sep s) as [|h r] eqn:Q; [congruence|]. cbn [joinb app] in *. rewrite IH. reflexivity.
  - destruct (splitb sep s) as [|h r] eqn:Q; [congruence|]. destruct r as [|h2 r]; cbn [joinb app] in *; rewrite IH; reflexivity.
Qed.

(** ** Loops *)
Lemma each_ind {X} (f : X -> st -> out) (I : st -> Prop) (Q : X -> Prop) : (forall x s, Q x -> I s -> I (fst (f x s))) ->
  forall l s, Forall Q l -> I s -> I (fst (each f l s)).
Proof.
  intros H. induction l as [|x l IH]; intros s F J; cbn [each]; [exact J|]. inversion F; subst. unfold andThen. pose proof (H x s H2 J) as J'. destruct (snd (f x s)); [apply IH; assumption|exact J'].
Qed.
Lemma then_ind (I : st -> Prop) (I' : st -> Prop) o f : I' (fst o) -> (forall s, I' s -> I s) -> (forall s, I' s -> I (fst (f s))) -> I (fst (andThen o f)).
Proof. intros H W F. unfold andThen. destruct (snd o); [apply F; exact H|apply W; exact H]. Qed.
Lemma each_app {X} (f : X -> st -> out) l1 l2 s : each f (l1 ++ l2) s = andThen (each f l1 s) (each f l2).
Proof.
  revert s. induction l1 as [|x l1 IH]; intros s; cbn [app each]; [reflexivity|]. unfold andThen at 1 3. destruct (f x s) as [s' [[]|e]]; cbn [fst snd]; [apply IH|reflexivity].
Qed.

(** ** Resolved *)
Section R.
Variable E : env.
Variable es : list ev.
(** the said of a record is the one its URL asks for *)
Definition saidOk (t : table obr) : Prop := forall u o, In (u, o) t -> forall x, o_said o = Some x -> asksFor E u x.
Definition moOk (t : table obr) : Prop := forall u o, In (u, o) t -> exists r y, answered es u r /\ serder E (body r) = Ok y /\ y_ilk y = s2b "rpy" /\ y_urls y = Some (o_urls o).
Definition roOk (t : table obr) : Prop := forall u o, dget t u = Some o -> o_state o <> None /\ (o_state o = Some true -> fine E es u).
Definition scOk (t : table bytes) : Prop := forall k raw, dget t k = Some raw -> schemer E raw = Ok k /\ exists u r, answered es u r /\ body r = raw /\ asksFor E u k.
Definition dOk (d : db) : Prop := saidOk (oobis d) /\ saidOk (coobi d) /\ saidOk (eoobi d) /\ moOk (moobi d) /\ roOk (roobi d) /\ scOk (schema d).
Definition mOk (m : mem) : Prop := forall u l r, dget (clients m) u = Some l -> In r l -> In (Answer u r) es.
Definition sOk (s : st) : Prop := dOk (D s) /\ mOk (M s) /\ Forall dOk (tr s).
Lemma wr_ok f s : sOk s -> dOk (f (D s)) -> sOk (wr f s).
Proof. intros (A & B & C) H. split; [exact H|]. split; [exact B|]. constructor; assumption. Qed.
Lemma setc_ok u l s : sOk s -> (forall r, In r l -> In (Answer u r) es) -> sOk (setc u l s).
Proof.
  intros (A & B & C) H. split; [exact A|]. split; [|exact C]. intros u' l' r. cbn [setc M clients]. rewrite dset_get. destruct (beq_spec u' u) as [->|N]; [intros [= <-]; apply H|apply B].
Qed.
Lemma cue_ok o u s : sOk s -> sOk (cue o u s). Proof. intros (A & B & C). split; [exact A|]. split; [exact B|exact C]. Qed.
Lemma feed_ok o u s : sOk s -> sOk (feed o u s). Proof. intros (A & B & C). split; [exact A|]. split; [exact B|exact C]. Qed.
Lemma said_rem k t : saidOk t -> saidOk (trem k t). Proof. intros H u o I. apply trem_in in I as [I _]. eapply H; exact I. Qed.
Lemma said_pin k o t : saidOk t -> (forall x, o_said o = Some x -> asksFor E k x) -> saidOk (tpin k o t).
Proof. intros H K u o' I. apply tpin_in in I as [[= -> ->]|I]; [exact K|eapply H; exact I]. Qed.
Lemma said_put k o t : saidOk t -> (forall x, o_said o = Some x -> asksFor E k x) -> saidOk (tput k o t).
Proof. intros H K u o' I. apply tput_in in I as [[= -> ->]|I]; [exact K|eapply H; exact I]. Qed.
Lemma oobis_ok d x : dOk d -> saidOk x -> dOk (u_oobis d x). Proof. intros (A & B & C & F & G & H) K. repeat (split; [assumption|]). assumption. Qed.
Lemma coobi_ok d x : dOk d -> saidOk x -> dOk (u_coobi d x). Proof. intros (A & B & C & F & G & H) K. repeat (split; [assumption|]). assumption. Qed.
Lemma eoobi_ok d x : dOk d -> saidOk x -> dOk (u_eoobi d x). Proof. intros (A & B & C & F & G & H) K. repeat (split; [assumption|]). assumption. Qed.
Lemma roobi_ok d x : dOk d -> roOk x -> dOk (u_roobi d x). Proof. intros (A & B & C & F & G & H) K. repeat (split; [assumption|]). assumption. Qed.
Lemma moobi_ok d x : dOk d -> moOk x -> dOk (u_moobi d x). Proof. intros (A & B & C & F & G & H) K. repeat (split; [assumption|]). assumption. Qed.
Lemma schema_ok d x : dOk d -> scOk x -> dOk (u_schema d x). Proof. intros (A & B & C & F & G & H) K. repeat (split; [assumption|]). assumption. Qed.
Lemma named_ok d x : dOk d -> dOk (u_named d x). Proof. intros (A & B & C & F & G & H). repeat (split; [assumption|]). assumption. Qed.
Definition recOk (u : bytes) (o : obr) : Prop := forall x, o_said o = Some x -> asksFor E u x.

Lemma request_ok u o s : sOk s -> recOk u o -> sOk (fst (request E u o s)).
Proof.
  intros S R. unfold request. destruct (clientOk E u); cbn [good fst].
  - apply wr_ok; [apply wr_ok; [apply setc_ok; [exact S|intros r []]|]|].
    + apply oobis_ok; [apply S|]. apply said_rem. apply S.
    + apply coobi_ok; [apply oobis_ok; [apply S|apply said_rem; apply S]|]. apply said_pin; [apply S|exact R].
  - apply wr_ok; [exact S|]. apply oobis_ok; [apply S|]. apply said_rem. apply S.
Qed.
Lemma kind_data p c : pathKind p = TData c -> exists x, p = 47 :: x ++ 47 :: c /\ c <> [] /\ ~ In 47 x /\ ~ In 47 c.
Proof.
  unfold pathKind. destruct (beq p (s2b "/oobi")); [discriminate|]. pose proof (split_parts 47 p) as NS. pose proof (join_split 47 p) as J.
  destruct (splitb 47 p) as [|[|? ?] [|x [|y [|z [|w [|? ?]]]]]]; try (destruct (well p); discriminate).
  - destruct (isOobi x && negb (isnil y)) eqn:B; [|destruct (well p); discriminate]. intros [= <-]. apply andb_true_iff in B as [_ B]. exists x. cbn [joinb app] in J.
    split; [exact (eq_sym J)|]. split; [intros ->; discriminate B|]. split; [apply (NS x); cbn; auto|apply (NS y); cbn; auto].
  - destruct (_ && _); [discriminate|]. destruct (well p); discriminate.
  - destruct (_ && _); [discriminate|]. destruct (well p); discriminate.
Qed.
Lemma oneOobi_ok x s : recOk (fst x) (snd x) -> sOk s -> sOk (fst (oneOobi E x s)).
Proof.
  destruct x as [u o]. intros R S. unfold oneOobi. destruct (two u); [exact S|]. destruct (_ && _); [cbn [good fst]; apply wr_ok; [exact S|]; apply oobis_ok; [apply S|apply said_rem; apply S]|].
  destruct (urlp E u) as [[p n]|e] eqn:U; [|destruct (isValue e); exact S].
  destruct (pathKind p) eqn:K; try exact S; apply request_ok; try exact S; try exact R.
  intros x [= <-]. destruct (kind_data _ _ K) as (y & A & B & C & F). exists p, n, y. auto.
Qed.
Lemma ro_put t u o b : roOk t -> (b = true -> fine E es u) -> roOk (tput u (w_state o b) t).
Proof.
  intros R F u' o'. rewrite tput_get. destruct (dget t u') eqn:G; [intros [= <-]; apply (R u'); exact G|]. destruct (beq_spec u' u) as [->|N]; [|discriminate].
  intros [= <-]. cbn [w_state o_state]. split; [discriminate|]. intros [= ->]. apply F. reflexivity.
Qed.
Lemma finish_ok u o b s : sOk s -> (b = true -> fine E es u) -> sOk (finish u o b s).
Proof.
  intros S F. unfold finish. apply wr_ok; [apply wr_ok; [exact S|apply coobi_ok; [apply S|apply said_rem; apply S]]|].
  apply roobi_ok; [apply coobi_ok; [apply S|apply said_rem; apply S]|]. apply ro_put; [apply S|exact F].
Qed.
Lemma finishCue_ok u o b s : sOk s -> (b = true -> fine E es u) -> sOk (finishCue u o b s).
Proof. intros. apply cue_ok. apply finish_ok; assumption. Qed.
Lemma schemed_ok u o r said s : sOk s -> recOk u o -> answered es u r -> schemer E (body r) = Ok said ->
  sOk (snd (schemed u o (body r) said s)) /\ (fst (schemed u o (body r) said s) = true -> fine E es u).
Proof.
  intros S R A SC. unfold schemed. destruct (o_said o) as [x|] eqn:X; [|split; [exact S|discriminate]]. destruct (beq_spec said x) as [->|N]; cbn [fst snd]; [|split; [exact S|discriminate]].
  pose proof (R x X) as AF. split; [|intros _; eapply f_schema; eauto]. apply wr_ok; [exact S|]. apply schema_ok; [apply S|]. intros k raw. rewrite tpin_get.
  destruct (beq_spec k x) as [->|N]; [intros [= <-]; split; [exact SC|]; exists u, r; auto|]. apply S.
Qed.
Lemma cesr_stream r ct : ctype r = Some ct -> cesr ct = true -> stream r.
Proof.
  unfold cesr, stream. intros Hc H. rewrite Hc. apply existsb_exists in H as (x & I & Hx). apply beq_eq in Hx. rewrite Hx. destruct I as [<-|[<-|[<-|[]]]]; auto.
Qed.
Lemma putOne_ok o now u s : sOk s -> sOk (fst (putOne o now u s)).
Proof. intros S. unfold putOne. destruct (badKey u); [exact S|]. cbn [good fst]. apply wr_ok; [exact S|]. apply oobis_ok; [apply S|]. apply said_put; [apply S|]. intros x; discriminate. Qed.
Lemma multi_ok u o y now s r : sOk s -> answered es u r -> serder E (body r) = Ok y -> y_ilk y = s2b "rpy" -> sOk (fst (multi u o y now s)).
Proof.
  intros S A SE IL. unfold multi. destruct (y_aid y); [|exact S]. destruct (negb _); [apply cue_ok; exact S|]. destruct (y_urls y) as [urls|] eqn:U; [|exact S].
  apply (then_ind sOk sOk); [|auto|].
  - apply (each_ind _ sOk (fun _ => True)); [intros x s' _; apply putOne_ok|apply Forall_forall; auto|exact S].
  - intros s' S'. cbn [good fst]. apply cue_ok. apply wr_ok; [apply wr_ok; [exact S'|apply coobi_ok; [apply S'|apply said_rem; apply S']]|].
    apply moobi_ok; [apply coobi_ok; [apply S'|apply said_rem; apply S']|]. intros u' o' I. apply tput_in in I as [[= -> ->]|I]; [exists r, y; auto|]. apply S'. exact I.
Qed.
Lemma oneClient_ok now x s : recOk (fst x) (snd x) -> sOk s -> sOk (fst (oneClient E now x s)).
Proof.
  destruct x as [u o]. cbn [fst snd]. intros R S. unfold oneClient. destruct (two u); [exact S|]. destruct (dget (clients (M s)) u) as [[|r rs]|] eqn:C; [exact S| |apply request_ok; assumption].
  assert (AN : In (Answer u r) es) by (apply (proj1 (proj2 S) u _ r C); left; reflexivity).
  assert (S1 : sOk (setc u rs s)) by (apply setc_ok; [exact S|intros r' I; apply (proj1 (proj2 S) u _ r' C); right; exact I]). revert S1. generalize (setc u rs s). clear s S C. intros s S.
  destruct (status r =? 404).
  { cbn [good fst]. apply wr_ok; [apply wr_ok; [exact S|apply coobi_ok; [apply S|apply said_rem; apply S]]|]. apply eoobi_ok; [apply coobi_ok; [apply S|apply said_rem; apply S]|]. apply said_pin; [apply S|exact R]. }
  destruct (N.eqb_spec (status r) 200) as [ST|ST]; cbn [negb]; [|apply finishCue_ok; [exact S|discriminate]]. assert (A : answered es u r) by (split; assumption).
  destruct (ctype r) as [ct|] eqn:CT; [|exact S].
  destruct (cesr ct) eqn:CE.
  { cbn [good fst]. apply finishCue_ok; [|intros _; eapply f_stream; [exact A|eapply cesr_stream; eauto]]. set (o' := match r_aid r with Some c => _ | None => _ end).
    assert (S2 : sOk (feed u (body r) s)) by (apply feed_ok; exact S). destruct (o_alias o') as [a|]; [|exact S2]. destruct (o_cid o') as [c|]; [|exact S2]. destruct (isnil c); [exact S2|]. apply wr_ok; [exact S2|]. apply named_ok. apply S2. }
  destruct (beq ct (s2b "application/schema+json")).
  { destruct (schemer E (body r)) as [said|e] eqn:SC; [|destruct (_ || _); [apply finishCue_ok; [exact S|discriminate]|exact S]].
    destruct (schemed_ok u o r said s S R A SC) as [S2 F]. destruct (schemed u o (body r) said s) as [b s2]. cbn [good fst]. apply finishCue_ok; assumption. }
  destruct (startswith ct (s2b "application/json")); [|apply finishCue_ok; [exact S|discriminate]].
  destruct (schemer E (body r)) as [said|e] eqn:SC.
  { destruct (schemed_ok u o r said s S R A SC) as [S2 F]. destruct (schemed u o (body r) said s) as [b s2]. cbn [good fst]. apply finish_ok; assumption. }
  destruct (_ || _); [|exact S]. destruct (serder E (body r)) as [y|e'] eqn:SE; [|destruct (isValue e'); [apply finish_ok; [exact S|discriminate]|exact S]].
  destruct (beq_spec (y_ilk y) (s2b "rpy")) as [IL|IL]; cbn [negb]; [|apply finishCue_ok; [exact S|discriminate]].
  destruct (_ || _); [eapply multi_ok; eauto|apply finishCue_ok; [exact S|discriminate]].
Qed.
Lemma oneRetry_ok now x s : recOk (fst x) (snd x) -> sOk s -> sOk (fst (oneRetry now x s)).
Proof.
  destruct x as [u o]. cbn [fst snd]. intros R S. unfold oneRetry. destruct (two u); [exact S|]. destruct (_ <? _); [|exact S]. cbn [good fst].
  apply wr_ok; [apply wr_ok; [exact S|apply eoobi_ok; [apply S|apply said_rem; apply S]]|]. apply oobis_ok; [apply eoobi_ok; [apply S|apply said_rem; apply S]|]. apply said_pin; [apply S|exact R].
Qed.
Lemma all_true t : forall urls, roOk t -> all t urls = Some true -> forall u, In u urls -> fine E es u.
Proof.
  induction urls as [|v urls IH]; intros R H u; [intros []|]. cbn [all] in H. destruct (dget t v) as [f|] eqn:G; [|discriminate H]. destruct (all t urls) as [b|] eqn:AL; [|discriminate H].
  destruct (R v f G) as [NN F]. intros [<-|I].
  - destruct (o_state f) as [[]|]; [auto|discriminate H|congruence].
  - apply IH; [exact R| |exact I]. destruct (o_state f) as [[]|]; [exact H|discriminate H|exact H].
Qed.
Lemma oneMoobi_ok x s : (exists r y, answered es (fst x) r /\ serder E (body r) = Ok y /\ y_ilk y = s2b "rpy" /\ y_urls y = Some (o_urls (snd x))) -> sOk s -> sOk (fst (oneMoobi x s)).
Proof.
  destruct x as [u o]. cbn [fst snd]. intros (r & y & A & SE & IL & U) S. unfold oneMoobi. destruct (two u); [exact S|]. destruct (all (roobi (D s)) (o_urls o)) as [b|] eqn:AL; [|exact S].
  cbn [good fst]. apply finish_ok; [exact S|]. intros ->. eapply f_multi; eauto. apply (all_true (roobi (D s))); [apply S|exact AL].
Qed.
Lemma flows_ok now s : sOk s -> sOk (fst (flows E now s)).
Proof.
  intros S. unfold flows. apply (then_ind sOk sOk); [|auto|].
  { apply (each_ind _ sOk (fun x => recOk (fst x) (snd x))); [intros; apply oneOobi_ok; assumption| |exact S]. apply Forall_forall. intros [u o] I. exact (proj1 (proj1 S) u o I). }
  clear s S. intros s S. apply (then_ind sOk sOk); [|auto|].
  { apply (each_ind _ sOk (fun x => recOk (fst x) (snd x))); [intros; apply oneClient_ok; assumption| |exact S]. apply Forall_forall. intros [u o] I. exact (proj1 (proj2 (proj1 S)) u o I). }
  clear s S. intros s S. apply (then_ind sOk sOk); [|auto|].
  { apply (each_ind _ sOk (fun x => recOk (fst x) (snd x))); [intros; apply oneRetry_ok; assumption| |exact S]. apply Forall_forall. intros [u o] I. exact (proj1 (proj2 (proj2 (proj1 S))) u o I). }
  clear s S. intros s S. apply (each_ind _ sOk (fun x => exists r y, answered es (fst x) r /\ serder E (body r) = Ok y /\ y_ilk y = s2b "rpy" /\ y_urls y = Some (o_urls (snd x)))); [intros; apply oneMoobi_ok; assumption| |exact S].
  apply Forall_forall. intros [u o] I. exact (proj1 (proj2 (proj2 (proj2 (proj1 S)))) u o I).
Qed.
Lemma start_ok s : sOk s -> sOk (mkS (D s) (M s) []). Proof. intros (A & B & C). split; [exact A|]. split; [exact B|constructor]. Qed.
Lemma mem0_ok : mOk mem0. Proof. intros u l r H. discriminate H. Qed.
Lemma step_ok s e : sOk s -> In e es -> sOk (step E s e).
Proof.
  intros S I. destruct e as [u a now|c u now|u r|now|k now]; cbn [step].
  - destruct (badKey u); [exact S|]. apply wr_ok; [exact S|]. apply oobis_ok; [apply S|]. apply said_pin; [apply S|intros x; discriminate].
  - destruct (badKey u); [exact S|]. apply wr_ok; [exact S|]. apply oobis_ok; [apply S|]. apply said_put; [apply S|intros x; discriminate].
  - destruct (dget (clients (M s)) u) as [l|] eqn:C; [|exact S]. apply setc_ok; [exact S|]. intros r' J. apply in_app_iff in J as [J|[<-|[]]]; [apply (proj1 (proj2 S) u l r' C J)|exact I].
  - pose proof (flows_ok now _ (start_ok s S)) as F. destruct (flows E now _) as [s' [u|e]]; [exact F|]. split; [apply F|]. split; [apply mem0_ok|constructor].
  - split; [|split; [apply mem0_ok|constructor]]. cbn [D]. pose proof (flows_ok now _ (start_ok s S)) as F. set (l := D s :: _). assert (FL : Forall dOk l) by (constructor; [apply S|apply Forall_rev; apply F]).
    destruct (nth_in_or_default k l (D s)) as [J|J]; [|rewrite J; apply S]. rewrite Forall_forall in FL. apply FL. exact J.
Qed.
End R.
Lemma init_ok E es : sOk E es init.
Proof. split; [|split; [apply mem0_ok|constructor]]. split; [intros u o []|]. split; [intros u o []|]. split; [intros u o []|]. split; [intros u o []|]. split; intros u o H; discriminate H. Qed.
Lemma run_ok E es : sOk E es (run E es).
Proof.
  unfold run. assert (G : forall l s, sOk E es s -> (forall e, In e l -> In e es) -> sOk E es (fold_left (step E) l s)).
  { induction l as [|e l IH]; intros s S H; [exact S|]. cbn [fold_left]. apply IH; [apply step_ok; [exact S|apply H; left; reflexivity]|intros e' I; apply H; right; exact I]. }
  apply G; [apply init_ok|auto].
Qed.
