From Coq Require Import Lia.
From Verif Require Import Prelude CoModel CoSpec CoProofs CoProofs2 CoProofs3.
Ltac Zify.zify_post_hook ::= Z.div_mod_to_equations.
Open Scope N_scope.

(** ** one delegation that cannot be sent *)
Section X.
Variables (pre : bytes) (c0 : list (bytes * N * bytes)).
Definition jam (s : st) : Prop := cdel (fst s) = c0 /\ exists v, In (pre, v) (dpwe (fst s)).
Definition jamW (w : world) : Prop := (forall k, kever w pre = Some k -> k_wits k = []) /\ (forall d, of2 (wigs w) pre d = []) /\ exists h, dget (habs w) pre = Some h /\ h_group h = false.
Lemma each_err {A} (f : A -> st -> out) x l s : In x l -> (forall s, exists e, snd (f x s) = Err e) -> exists e, snd (each f l s) = Err e.
Proof.
  intros I H. revert s. induction l as [|a l IH]; intros s; [destruct I|]. cbn [each]. destruct I as [->|I].
  - destruct (H s) as (e & E). destruct (f x s) as [s' [u|e']]; [discriminate E|]. eexists; reflexivity.
  - destruct (f a s) as [s' [u|e']]; [apply IH; exact I|eexists; reflexivity].
Qed.
Lemma spin_jam l p u : (exists v, In (pre, v) l) -> exists v, In (pre, v) (spin l p u).
Proof.
  intros (v & I). destruct (list_N_dec p pre) as [->|N]; [exists u; unfold spin; apply in_or_app; right; left; reflexivity|]. exists v. unfold spin. apply in_or_app. left. unfold srem. apply filter_In. split; [exact I|]. cbn. rewrite (proj2 (beq_neq pre p)) by congruence. reflexivity.
Qed.
Lemma spw_bad w n g s : jamW w -> fst (sPartialWitness false w (pre, (n, g)) s) = s /\ exists e, snd (sPartialWitness false w (pre, (n, g)) s) = Err e.
Proof.
  intros (W1 & W2 & (h & H1 & H2)). destruct s as [d m]. unfold sPartialWitness. destruct (kever w pre) as [k|] eqn:K; [|cbn; eauto]. rewrite W2, (W1 k eq_refl). cbn [len List.length N.of_nat N.eqb negb andb]. rewrite H1. destruct (match k_del k with Some del => kever w del | None => None end); [|cbn; eauto]. rewrite H2. cbn. eauto.
Qed.
Lemma spw_jam w x s : jamW w -> jam s -> jam (fst (sPartialWitness false w x s)).
Proof.
  intros W J0. destruct x as [p [n g]]. destruct (list_N_dec p pre) as [->|N]; [destruct (spw_bad w n g s W) as (E & _); exact (eq_ind_r jam J0 E)|]. destruct s as [d m]. unfold sPartialWitness. brk; try exact J0. destruct J0 as (J1 & (v & J2)). split; [exact J1|]. exists v. cbn in *. unfold srem. apply filter_In. split; [exact J2|]. cbn. rewrite (proj2 (beq_neq pre p)) by congruence. reflexivity.
Qed.
Lemma sprocess_jam w s : jamW w -> jam s -> jam (fst (sProcessEscrows false w s)).
Proof.
  intros W J0. unfold sProcessEscrows.
  assert (E : exists e, snd (each (sPartialWitness false w) (dpwe (fst s)) s) = Err e) by (destruct J0 as (_ & ([n g] & I)); apply (each_err _ (pre, (n, g))); [exact I|]; intros t; apply (spw_bad w n g t W)).
  assert (J1 : jam (fst (each (sPartialWitness false w) (dpwe (fst s)) s))) by (apply (each_inv _ jam (fun _ => True)); [apply Forall_forall; auto|intros x t _ H; apply spw_jam; assumption|exact J0]).
  destruct (each (sPartialWitness false w) (dpwe (fst s)) s) as [s' [u|e]]; [destruct E as (e & E); discriminate E|]. exact J1.
Qed.
Lemma delegation_jam w p n s : jam s -> jam (fst (delegation w p n s)).
Proof. destruct s as [d m]. intros J0. unfold delegation. brk; try exact J0. destruct J0 as (J1 & J2). split; [exact J1|]. cbn. apply spin_jam. exact J2. Qed.
Lemma ps_jam w x s : jam s -> jam (fst (partialSigned w x s)).
Proof.
  destruct x as [p [n g]], s as [d m]. intros J0. unfold partialSigned. destruct (lastAt w p n) as [sd|]; [|exact J0]. assert (S1 : jam (d_gpse d (erem (gpse d) p), m)) by exact J0.
  destruct (dget (habs w) p) as [h|]; [|exact S1]. destruct (kever w p) as [k|]; [|exact S1]. destruct (of2 (sigs w) p sd) as [|i is]; [exact S1|]. destruct (nth_error _ _) as [key|]; [|exact S1]. destruct (_ && _); [|exact J0].
  apply (andThen_inv jam); [destruct (beq (h_key h) key); [apply delegation_jam; exact S1|exact S1]|]. intros [d2 m2] H. exact H.
Qed.
Definition harmless (o : op) : Prop := match o with
  | Accept p k => p = pre -> k_wits k = []
  | Wig p _ _ => p <> pre
  | Own p h => p = pre -> h_group h = false
  | _ => True end.
Lemma after_jam w o : jam (fst o) -> jam (db (after w o), me (after w o)).
Proof. destruct o as [[d m] [u|x]]; cbn; auto. Qed.
Lemma jam_step s o : harmless o -> jamW (wo s) -> jam (db s, me s) -> jamW (wo (step false s o)) /\ jam (db (step false s o), me (step false s o)).
Proof.
  intros HO W J0. destruct s as [w d m]. cbn [db wo me] in *. destruct o as [p0 k0|p0 d0 i0|p0 d0 i0|de p0 v0 a0|p0 h0|p0 n0 dig|p0 n0| | | | |p0| ]; cbn [step wo db me]; rewrite ?wo_after.
  - split; [|exact J0]. destruct W as (W1 & W2 & W3). split; [|auto]. intros k. unfold kever, w_kel. cbn [kel]. rewrite rev_app_distr. cbn [rev app dget]. destruct (beq_spec pre p0) as [E|E]; [|apply W1]. intros [= <-]. apply HO. auto.
  - auto.
  - destruct (existsb _ _); [auto|]. split; [|exact J0]. destruct W as (W1 & W2 & W3). split; [exact W1|]. split; [|exact W3]. intros d'. etransitivity; [apply (of2_snoc (wigs w) pre d' p0 d0 i0)|]. rewrite W2, (proj2 (beq_neq p0 pre) HO). reflexivity.
  - auto.
  - split; [|exact J0]. destruct W as (W1 & W2 & W3). split; [exact W1|]. split; [exact W2|]. cbn [habs dget]. destruct (beq_spec pre p0) as [E|E]; [|exact W3]. exists h0. split; [reflexivity|apply HO; auto].
  - auto.
  - split; [exact W|]. apply after_jam, delegation_jam. exact J0.
  - split; [exact W|]. apply after_jam. apply (process_inv w jam (fun _ => True) (fun _ => True) (fun _ => True)); try (intros; apply Forall_forall; auto); [| | |exact J0].
    + intros x s _ H. apply ps_jam. exact H.
    + intros [p [n g]] [d1 m1] _ H. unfold delegateEsc. brk; exact H.
    + intros [p [n g]] [d1 m1] _ H. unfold partialWitness. brk; exact H.
  - split; [exact W|]. apply after_jam, sprocess_jam; assumption.
  - destruct (msgs m); auto.
  - destruct (smsgs m); auto.
  - auto.
  - auto.
Qed.
Lemma jam_run ops s : Forall harmless ops -> jamW (wo s) -> jam (db s, me s) -> cdel (db (fold_left (step false) ops s)) = c0.
Proof.
  intros F. revert s. induction F as [|o ops HO F IH]; intros s W J0; [apply J0|]. cbn. destruct (jam_step s o HO W J0) as (W' & J'). apply IH; assumption.
Qed.
End X.

Lemma hd_none (l l' : list (bytes * N * bytes)) : match l with [] => None | x :: _ => Some (snd x) end = None -> match l ++ l' with [] => None | x :: _ => Some (snd x) end = match l' with [] => None | x :: _ => Some (snd x) end.
Proof. destruct l; [reflexivity|discriminate]. Qed.
Lemma nget_new l p n d : nget l p n = None -> nget (l ++ [(p, n, d)]) p n = Some d.
Proof. unfold nget. intros H. rewrite filter_app. etransitivity; [apply hd_none; exact H|]. cbn. rewrite beq_refl, N.eqb_refl. reflexivity. Qed.

(** ** progress of one event *)
Lemma least_le l i : In i l -> least l <= i.
Proof.
  destruct l as [|x l]; [intros []|]. cbn [least]. revert x. induction l as [|y l IH]; intros x I; cbn [fold_left].
  - destruct I as [->|[]]. lia.
  - assert (K : forall z, fold_left N.min l z <= z) by (clear; induction l as [|y l IH]; intros z; cbn; [lia|specialize (IH (N.min z y)); lia]).
    destruct I as [->|[->|I]]; [specialize (K (N.min i y)); lia|specialize (K (N.min x i)); lia|]. apply IH. right. exact I.
Qed.
Lemma least_In l : l <> [] -> In (least l) l.
Proof.
  destruct l as [|x l]; [congruence|]. intros _. cbn [least]. revert x. induction l as [|y l IH]; intros x; cbn [fold_left]; [left; reflexivity|]. destruct (N.min_spec x y) as [(_ & ->)|(_ & ->)]; [destruct (IH x) as [E|E]; [left; exact E|right; right; exact E]|destruct (IH y) as [E|E]; [right; left; exact E|right; right; exact E]].
Qed.
Section L.
Variables (pre : bytes) (sn : N) (dig key : bytes) (keys wits : list bytes).
Definition wf (w : world) : Prop :=
  NoDup keys /\ (forall k, kever w pre = Some k -> k_keys k = keys /\ k_wits k = wits /\ (k_del k = None \/ k_ilk k <> s2b "dip" /\ k_ilk k <> s2b "drt")) /\
  (forall h, dget (habs w) pre = Some h -> h_key h = key) /\
  (forall d, lastAt w pre sn = Some d -> d = dig /\ exists i, In i (of2 (sigs w) pre dig) /\ nth_error keys (N.to_nat i) = Some key).
Definition witer : Prop := (exists r, keys = key :: r) /\ wits <> [].
Definition tidy (s : st) : Prop := (forall v, ~ In (pre, v) (gdee (fst s))) /\ (forall v, In (pre, v) (gpse (fst s)) -> v = (sn, dig)) /\ (forall v, In (pre, v) (gpwe (fst s)) -> v = (sn, dig)) /\ (forall c, nget (cgms (fst s)) pre sn = Some c -> c = dig).
Definition won (s : st) : Prop := nget (cgms (fst s)) pre sn = Some dig.
Definition on (s : st) : Prop := (In (pre, (sn, dig)) (gpwe (fst s)) /\ (witer -> In (pre, sn) (msgs (snd s)) \/ In (pre, sn) (cues (snd s)))) \/ won s.
Definition under (s : st) : Prop := In (pre, (sn, dig)) (gpse (fst s)) \/ on s.
Lemma tidy_aside s s' : aside pre sn s s' -> tidy s -> tidy s'.
Proof.
  intros (A1 & A2 & A3 & A4 & _) (T1 & T2 & T3 & T4). split; [intros v I; apply (T1 v), A2; exact I|]. split; [intros v I; apply T2, A1; exact I|]. split; [intros v I; apply T3, A3; exact I|]. intros c G. rewrite A4 in G. auto.
Qed.
Lemma on_aside s s' : aside pre sn s s' -> on s -> on s'.
Proof.
  intros (A1 & A2 & A3 & A4 & A5 & A6) [(O1 & O2)|O]; [left|right; unfold won in *; congruence]. split; [apply A3; exact O1|]. intros W. destruct (O2 W); auto.
Qed.
Lemma under_aside s s' : aside pre sn s s' -> under s -> under s'.
Proof. intros A [U|U]; [left; apply A; exact U|right; eapply on_aside; eassumption]. Qed.
Definition mineOk (x : bytes * evt) : Prop := fst x = pre -> snd x = (sn, dig).
Lemma eadd_new l p v : In (p, v) (eadd l p v).
Proof.
  unfold eadd. match goal with |- context[if ?c then _ else _] => destruct c eqn:E end; [|apply in_or_app; right; left; reflexivity]. apply existsb_exists in E. destruct E as ([p' [n' g']] & I & E). destruct v as [n g]. cbn in E. unfold evteq in E. cbn in E. apply andb_prop in E. destruct E as (E1 & E). apply andb_prop in E. destruct E as (E2 & E3). apply beq_eq in E1, E3. apply N.eqb_eq in E2. subst. exact I.
Qed.
Lemma eadd_keep l p v x : In x l -> In x (eadd l p v).
Proof. unfold eadd. match goal with |- context[if ?c then _ else _] => destruct c end; [auto|]. intros I. apply in_or_app. auto. Qed.

(** the own entry in the first escrow *)
Lemma ps_own w s : wf w -> tidy s -> snd (partialSigned w (pre, (sn, dig)) s) = Ok tt ->
  tidy (fst (partialSigned w (pre, (sn, dig)) s)) /\
  match lastAt w pre sn with None => fst (partialSigned w (pre, (sn, dig)) s) = s | Some _ => on (fst (partialSigned w (pre, (sn, dig)) s)) end.
Proof.
  intros (W1 & W2 & W3 & W4) T. destruct s as [d m]. unfold partialSigned. destruct (lastAt w pre sn) as [sd|] eqn:L; [|intros _; split; [exact T|reflexivity]].
  destruct (W4 sd eq_refl) as (-> & (i & I1 & I2)). destruct (dget (habs w) pre) as [h|] eqn:H; [|discriminate]. destruct (kever w pre) as [k|] eqn:K; [|discriminate]. destruct (W2 k eq_refl) as (K1 & K2 & K3).
  destruct (of2 (sigs w) pre dig) as [|i0 is] eqn:OF; [destruct I1|]. destruct (nth_error (k_keys k) (N.to_nat (least (i0 :: is)))) as [key'|] eqn:NE; [|discriminate].
  assert (X : match k_del k with Some _ => true | None => false end && (beq (k_ilk k) (s2b "dip") || beq (k_ilk k) (s2b "drt")) = false).
  { destruct K3 as [-> | (N1 & N2)]; [reflexivity|]. rewrite (proj2 (beq_neq _ _) N1), (proj2 (beq_neq _ _) N2). apply andb_false_r. }
  rewrite X. intros _. cbn [good fst]. destruct T as (T1 & T2 & T3 & T4). cbn [fst snd] in *. split.
  - split; [exact T1|]. split; [intros v J; apply T2; cbn in J; apply erem_In in J; apply J|]. split; [|exact T4]. intros v J. cbn in J. apply eadd_In in J. destruct J as [J|[= ->]]; auto.
  - left. split; [cbn; apply eadd_new|]. intros ((r & KR) & _). left.
    assert (I0 : i = 0). { rewrite KR in I2, W1. destruct (N.to_nat i) as [|j] eqn:E; [lia|]. exfalso. apply NoDup_cons_iff in W1. destruct W1 as (N & _). apply N. cbn in I2. eapply nth_error_In. exact I2. }
    subst i. pose proof (least_le _ _ I1) as LE. assert (Z : least (i0 :: is) = 0) by lia. rewrite Z, K1, KR in NE. cbn in NE. injection NE as <-. rewrite (W3 h eq_refl), beq_refl. cbn. apply in_or_app. right. left. reflexivity.
Qed.
Lemma ps_tidy w x s : wf w -> mineOk x -> tidy s -> snd (partialSigned w x s) = Ok tt -> tidy (fst (partialSigned w x s)).
Proof.
  intros W G T OK0. destruct x as [p v]. destruct (list_N_dec p pre) as [->|N]; [|eapply tidy_aside; [apply ps_aside; exact N|exact T]]. assert (EV : v = (sn, dig)) by exact (G eq_refl); subst v. apply (ps_own w s W T OK0).
Qed.
Lemma ps_on w x s : wf w -> mineOk x -> tidy s -> on s -> snd (partialSigned w x s) = Ok tt -> on (fst (partialSigned w x s)).
Proof.
  intros W G T O0 OK0. destruct x as [p v]. destruct (list_N_dec p pre) as [->|N]; [|eapply on_aside; [apply ps_aside; exact N|exact O0]]. assert (EV : v = (sn, dig)) by exact (G eq_refl); subst v. destruct (ps_own w s W T OK0) as (_ & R). destruct (lastAt w pre sn); [exact R|]. exact (eq_ind_r on O0 R).
Qed.
Lemma ps_under w x s : wf w -> mineOk x -> tidy s -> under s -> snd (partialSigned w x s) = Ok tt -> under (fst (partialSigned w x s)).
Proof.
  intros W G T [U|U] OK0; [|right; apply ps_on; assumption]. destruct x as [p v]. destruct (list_N_dec p pre) as [->|N]; [|eapply under_aside; [apply ps_aside; exact N|left; exact U]]. assert (EV : v = (sn, dig)) by exact (G eq_refl); subst v. destruct (ps_own w s W T OK0) as (_ & R). destruct (lastAt w pre sn); [right; exact R|]. exact (eq_ind_r under (or_introl U) R).
Qed.
(** the own entry in the third *)
Lemma pw_own w s : wf w -> tidy s -> snd (partialWitness w (pre, (sn, dig)) s) = Ok tt ->
  tidy (fst (partialWitness w (pre, (sn, dig)) s)) /\ (fst (partialWitness w (pre, (sn, dig)) s) = s \/ won (fst (partialWitness w (pre, (sn, dig)) s))) /\
  (len (of2 (wigs w) pre dig) = len wits -> (witer -> In (pre, sn) (cues (snd s))) -> won (fst (partialWitness w (pre, (sn, dig)) s))).
Proof.
  intros (W1 & W2 & W3 & W4) T. destruct s as [d m]. unfold partialWitness. destruct (dget (habs w) pre) as [h|] eqn:H; [|discriminate]. destruct (kever w pre) as [k|] eqn:K; [|discriminate]. destruct (W2 k eq_refl) as (K1 & K2 & K3). rewrite K1, K2.
  destruct keys as [|key' r] eqn:KR; [discriminate|]. rewrite (W3 h eq_refl). destruct T as (T1 & T2 & T3 & T4). cbn [fst snd] in *.
  assert (WN : won (d_cgms (d_gpwe d (erem (gpwe d) pre)) (nput (cgms d) pre sn dig), m)).
  { unfold won. cbn. unfold nput. destruct (nget (cgms d) pre sn) as [c|] eqn:NG; [rewrite NG; f_equal; auto|]. apply nget_new. exact NG. }
  assert (TD : tidy (d_cgms (d_gpwe d (erem (gpwe d) pre)) (nput (cgms d) pre sn dig), m)).
  { split; [exact T1|]. split; [exact T2|]. split; [intros v J; cbn in J; apply erem_In in J; destruct J as (_ & J); cbn in J; congruence|]. intros c G. unfold won in WN. cbn in WN, G. congruence. }
  assert (T : tidy (d, m)) by (split; [exact T1|]; split; [exact T2|]; split; [exact T3|exact T4]).
  destruct (N.eqb_spec (len (of2 (wigs w) pre dig)) (len wits)) as [EQ|NE]; [|intros _; split; [exact T|]; split; [left; reflexivity|]; intros E; congruence].
  destruct (beq key key' && negb (len wits =? 0) && negb (hasMsg (cues m) pre sn)) eqn:B.
  - intros _. split; [exact T|]. split; [left; reflexivity|]. intros _ HC. exfalso. apply andb_prop in B. destruct B as (B & B3). apply andb_prop in B. destruct B as (B1 & B2). apply beq_eq in B1. subst key'.
    assert (WT : witer) by (split; [exists r; exact KR|]; intros E; rewrite E in B2; discriminate B2). rewrite (hasMsg_true pre sn _ (HC WT)) in B3. discriminate B3.
  - intros _. cbn [good fst]. auto.
Qed.
Lemma pw_tidy w x s : wf w -> mineOk x -> tidy s -> snd (partialWitness w x s) = Ok tt -> tidy (fst (partialWitness w x s)).
Proof.
  intros W G T OK0. destruct x as [p v]. destruct (list_N_dec p pre) as [->|N]; [|eapply tidy_aside; [apply pw_aside; exact N|exact T]]. assert (EV : v = (sn, dig)) by exact (G eq_refl); subst v. apply (pw_own w s W T OK0).
Qed.
Lemma pw_under w x s : wf w -> mineOk x -> tidy s -> under s -> snd (partialWitness w x s) = Ok tt -> under (fst (partialWitness w x s)).
Proof.
  intros W G T U OK0. destruct x as [p v]. destruct (list_N_dec p pre) as [->|N]; [|eapply under_aside; [apply pw_aside; exact N|exact U]]. assert (EV : v = (sn, dig)) by exact (G eq_refl); subst v. destruct (pw_own w s W T OK0) as (_ & [E|R] & _); [exact (eq_ind_r under U E)|right; right; exact R].
Qed.
Lemma pw_on w x s : wf w -> mineOk x -> tidy s -> on s -> snd (partialWitness w x s) = Ok tt -> on (fst (partialWitness w x s)).
Proof.
  intros W G T U OK0. destruct x as [p v]. destruct (list_N_dec p pre) as [->|N]; [|eapply on_aside; [apply pw_aside; exact N|exact U]]. assert (EV : v = (sn, dig)) by exact (G eq_refl); subst v. destruct (pw_own w s W T OK0) as (_ & [E|R] & _); [exact (eq_ind_r on U E)|right; exact R].
Qed.
Lemma pw_won w x s : won s -> won (fst (partialWitness w x s)).
Proof. destruct x as [p [n g]], s as [d m]. unfold won, partialWitness. intros H. brk; try exact H; cbn; apply nget_nput; exact H. Qed.
Lemma pw_cues w x s : cues (snd (fst (partialWitness w x s))) = cues (snd s).
Proof. destruct x as [p [n g]], s as [d m]. unfold partialWitness. brk; reflexivity. Qed.
Lemma ps_cues w x s : cues (snd (fst (partialSigned w x s))) = cues (snd s).
Proof.
  destruct x as [p [n g]], s as [d m]. unfold partialSigned. destruct (lastAt w p n) as [sd|]; [|reflexivity]. destruct (dget (habs w) p) as [h|]; [|reflexivity]. destruct (kever w p) as [k|]; [|reflexivity]. destruct (of2 (sigs w) p sd) as [|i is]; [reflexivity|]. destruct (nth_error _ _) as [key'|]; [|reflexivity]. destruct (_ && _).
  - apply (andThen_inv (fun s => cues (snd s) = cues m)); [|intros [d2 m2] E; exact E]. destruct (beq (h_key h) key'); [|reflexivity]. pose proof (delegation_gside w p n (d_gpse d (erem (gpse d) p), m)) as (_ & _ & _ & _ & _ & B6). exact B6.
  - cbn. destruct (beq (h_key h) key'); reflexivity.
Qed.
Lemma tidy_mine1 s : tidy s -> Forall mineOk (gpse (fst s)).
Proof. intros (_ & T2 & _). apply Forall_forall. intros [p v] I E. cbn in *. subst. apply T2. exact I. Qed.
Lemma tidy_mine3 s : tidy s -> Forall mineOk (gpwe (fst s)).
Proof. intros (_ & _ & T2 & _). apply Forall_forall. intros [p v] I E. cbn in *. subst. apply T2. exact I. Qed.
Lemma tidy_mine2 s : tidy s -> Forall (fun x => fst x <> pre) (gdee (fst s)).
Proof. intros (T & _). apply Forall_forall. intros [p v] I E. cbn in *. subst. apply (T v). exact I. Qed.
Lemma de_cues w x s : cues (snd (fst (delegateEsc w x s))) = cues (snd s).
Proof. destruct x as [p [n g]], s as [d m]. unfold delegateEsc. brk; reflexivity. Qed.

(** a whole pass *)
Lemma pass w s : wf w -> tidy s -> snd (processEscrows w s) = Ok tt ->
  tidy (fst (processEscrows w s)) /\ (under s -> under (fst (processEscrows w s))) /\
  (under s -> lastAt w pre sn <> None -> on (fst (processEscrows w s))) /\
  (under s -> lastAt w pre sn <> None -> len (of2 (wigs w) pre dig) = len wits -> (witer -> In (pre, sn) (cues (snd s))) -> won (fst (processEscrows w s))).
Proof.
  intros W T. unfold processEscrows. destruct (each (partialSigned w) (gpse (fst s)) s) as [s1 [[]|x]] eqn:E1; [|discriminate]. cbn [andThen].
  assert (O1 : snd (each (partialSigned w) (gpse (fst s)) s) = Ok tt) by (rewrite E1; reflexivity).
  assert (T1 : tidy s1). { pose proof (each_ok (partialSigned w) tidy mineOk (gpse (fst s)) s (tidy_mine1 s T) (fun a t G P Q => ps_tidy w a t W G P Q) O1 T) as H. rewrite E1 in H. exact H. }
  assert (C1 : cues (snd s1) = cues (snd s)). { pose proof (each_ok (partialSigned w) (fun t => cues (snd t) = cues (snd s)) (fun _ => True) (gpse (fst s)) s) as H. rewrite E1 in H. apply H; [apply Forall_forall; auto| |reflexivity|reflexivity]. intros a t _ P _. rewrite ps_cues. exact P. }
  assert (U1 : under s -> under s1).
  { intros U. pose proof (each_ok (partialSigned w) (fun t => tidy t /\ under t) mineOk (gpse (fst s)) s (tidy_mine1 s T)) as H. rewrite E1 in H. apply H; [|reflexivity|auto]. intros a t G (P1 & P2) Q. split; [apply ps_tidy; assumption|apply ps_under; assumption]. }
  assert (N1 : under s -> lastAt w pre sn <> None -> on s1).
  { intros [U|U] LA.
    - pose proof (each_reach (partialSigned w) tidy on mineOk (pre, (sn, dig)) (gpse (fst s)) s (tidy_mine1 s T) U) as H. rewrite E1 in H. apply H; [intros a t G P Q; apply ps_tidy; assumption| |intros a t G P R Q; apply ps_on; assumption|reflexivity|exact T].
      intros t P Q. destruct (ps_own w t W P Q) as (_ & R). destruct (lastAt w pre sn); [exact R|congruence].
    - pose proof (each_ok (partialSigned w) (fun t => tidy t /\ on t) mineOk (gpse (fst s)) s (tidy_mine1 s T)) as H. rewrite E1 in H. apply H; [|reflexivity|auto]. intros a t G (P1 & P2) Q. split; [apply ps_tidy; assumption|apply ps_on; assumption]. }
  clear E1 O1. destruct (each (delegateEsc w) (gdee (fst s1)) s1) as [s2 [[]|x]] eqn:E2; [|discriminate]. cbn [andThen].
  assert (A2 : tidy s2 /\ (under s1 -> under s2) /\ (on s1 -> on s2) /\ cues (snd s2) = cues (snd s1)).
  { pose proof (each_ok (delegateEsc w) (fun t => tidy t /\ (under s1 -> under t) /\ (on s1 -> on t) /\ cues (snd t) = cues (snd s1)) (fun x => fst x <> pre) (gdee (fst s1)) s1 (tidy_mine2 s1 T1)) as H. rewrite E2 in H. apply H; [|reflexivity|auto].
    intros a t G (P1 & P2 & P3 & P4) _. pose proof (de_aside pre sn w a t G) as AS. split; [eapply tidy_aside; eassumption|]. split; [intros U; eapply under_aside; [exact AS|auto]|]. split; [intros U; eapply on_aside; [exact AS|auto]|]. rewrite de_cues. exact P4. }
  destruct A2 as (T2 & U2 & N2 & C2). clear E2. destruct (each (partialWitness w) (gpwe (fst s2)) s2) as [s3 [[]|x]] eqn:E3; [|discriminate]. intros _. cbn [fst].
  assert (A3 : tidy s3 /\ (under s2 -> under s3) /\ (on s2 -> on s3)).
  { pose proof (each_ok (partialWitness w) (fun t => tidy t /\ (under s2 -> under t) /\ (on s2 -> on t)) mineOk (gpwe (fst s2)) s2 (tidy_mine3 s2 T2)) as H. rewrite E3 in H. apply H; [|reflexivity|auto].
    intros a t G (P1 & P2 & P3) Q. split; [apply pw_tidy; assumption|]. split; [intros U; apply pw_under; auto|intros U; apply pw_on; auto]. }
  destruct A3 as (T3 & U3 & N3). split; [exact T3|]. split; [auto|]. split; [auto|]. intros U LA LW HC.
  destruct (N2 (N1 U LA)) as [(I & _)|WN].
  - pose proof (each_reach (partialWitness w) (fun t => tidy t /\ cues (snd t) = cues (snd s2)) won mineOk (pre, (sn, dig)) (gpwe (fst s2)) s2 (tidy_mine3 s2 T2) I) as H. rewrite E3 in H. apply H; [| | |reflexivity|auto].
    + intros a t G (P1 & P2) Q. split; [apply pw_tidy; assumption|rewrite pw_cues; exact P2].
    + intros t (P1 & P2) Q. destruct (pw_own w t W P1 Q) as (_ & _ & R). apply R; [exact LW|]. rewrite P2, C2, C1. exact HC.
    + intros a t _ _ R _. apply pw_won. exact R.
  - pose proof (each_ok (partialWitness w) won (fun _ => True) (gpwe (fst s2)) s2) as H. rewrite E3 in H. apply H; [apply Forall_forall; auto|intros a t _ P _; apply pw_won; exact P|reflexivity|exact WN].
Qed.

(** histories *)
Lemma wf_of ops w : wok ops w -> alone ops pre sn dig key keys wits -> wf w.
Proof.
  intros W [A1 A2 A3 A4 A5 A6]. split; [exact A1|]. split; [intros k K; apply A2; eapply current_In, kever_current; eassumption|]. split.
  - intros h H. destruct (habs_ownKey _ _ _ _ W H) as (a & b & h' & E & E2 & _). rewrite <- E2. apply A4. rewrite E. apply in_elt.
  - intros d L. destruct (lastAt_accepted _ _ _ _ _ W L) as (k & I & E1 & E2). split; [rewrite <- E2; apply A3; assumption|]. apply in_split in I. destruct I as (a & b & E). destruct (A6 a b k E E1) as (i & I1 & I2). exists i. split; [|exact I2]. destruct W as (_ & _ & C & _). apply C. rewrite E. apply in_or_app. auto.
Qed.
Lemma alone_prefix a b : alone (a ++ b) pre sn dig key keys wits -> alone a pre sn dig key keys wits.
Proof.
  intros [A1 A2 A3 A4 A5 A6]. constructor; [exact A1|intros k I; apply A2; apply in_or_app; auto|intros k I; apply A3; apply in_or_app; auto|intros h I; apply A4; apply in_or_app; auto|intros n d I; apply A5; apply in_or_app; auto|].
  intros x y k E. apply (A6 x (y ++ b) k). rewrite E, <- app_assoc. reflexivity.
Qed.
Lemma calm_prefix proxy a b : calm proxy (a ++ b) -> calm proxy a.
Proof. intros C x o y E. apply (C x o (y ++ b)). rewrite E, <- app_assoc. reflexivity. Qed.
Lemma after_ok w o : snd o = Ok tt -> after w o = mkS w (fst (fst o)) (snd (fst o)).
Proof. destruct o as [[d m] [u|x]]; [reflexivity|discriminate]. Qed.
Lemma run_under proxy ops : alone ops pre sn dig key keys wits -> calm proxy ops ->
  tidy (db (run proxy ops), me (run proxy ops)) /\ (In (Start pre sn dig) ops -> under (db (run proxy ops), me (run proxy ops))).
Proof.
  induction ops as [|o ops IH] using rev_ind; intros AL CA.
  - split; [|intros []]. split; [intros v []|]. split; [intros v []|]. split; [intros v []|]. discriminate.
  - destruct (IH (alone_prefix _ _ AL) (calm_prefix _ _ _ CA)) as (T & U). pose proof (CA ops o [] eq_refl) as Q. rewrite run_snoc. pose proof (wf_of _ _ (run_wok proxy ops) (alone_prefix _ _ AL)) as W. set (s := run proxy ops) in *. clearbody s. destruct s as [w d m]. cbn [wo db me] in *.
    assert (K : forall s', aside pre sn (d, m) s' -> (forall p n g, o <> Start p n g) -> tidy s' /\ (In (Start pre sn dig) (ops ++ [o]) -> under s')).
    { intros s' AS N. split; [eapply tidy_aside; eassumption|]. intros I. apply in_snoc in I. destruct I as [I|I]; [|destruct (N _ _ _ I)]. eapply under_aside; [exact AS|auto]. }
    destruct o as [p0 k0|p0 d0 i0|p0 d0 i0|de p0 v0 a0|p0 h0|p0 n0 g0|p0 n0| | | | |p0| ]; cbn [step wo db me quiet] in *.
    + apply K; [apply aside_refl|discriminate].
    + apply K; [apply aside_refl|discriminate].
    + destruct (existsb _ _); apply K; try apply aside_refl; discriminate.
    + apply K; [apply aside_refl|discriminate].
    + apply K; [apply aside_refl|discriminate].
    + destruct T as (T1 & T2 & T3 & T4). cbn [fst snd] in *. split.
      * split; [exact T1|]. split; [|split; [exact T3|exact T4]]. intros v I. cbn in I. apply eadd_In in I. destruct I as [I|E]; [auto|]. injection E as <- ->. destruct (al_start _ _ _ _ _ _ _ AL n0 g0) as (-> & ->); [apply in_or_app; right; left; reflexivity|reflexivity].
      * intros I. apply in_snoc in I. destruct I as [I|[= -> -> ->]]; [|left; cbn; apply eadd_new]. destruct (U I) as [V|V]; [left; cbn; apply eadd_keep; exact V|right; exact V].
    + rewrite after_ok by exact Q. cbn [db me]. apply K; [|discriminate]. apply gside_aside. pose proof (delegation_gside w p0 n0 (d, m)) as G. destruct (delegation w p0 n0 (d, m)) as [[d1 m1] r]. exact G.
    + rewrite after_ok by exact Q. cbn [db me]. destruct (pass w (d, m) W T Q) as (P1 & P2 & _). destruct (processEscrows w (d, m)) as [[d1 m1] r]. cbn [fst snd] in *. split; [exact P1|]. intros I. apply in_snoc in I. destruct I as [I|I]; [auto|discriminate I].
    + rewrite after_ok by exact Q. cbn [db me]. apply K; [|discriminate]. apply gside_aside. pose proof (sprocess_gside proxy w (d, m)) as G. destruct (sProcessEscrows proxy w (d, m)) as [[d1 m1] r]. exact G.
    + destruct T as (T1 & T2 & T3 & T4). cbn [fst snd] in *. destruct (msgs m) as [|x l] eqn:E; cbn [db me]; [apply K; [apply aside_refl|discriminate]|]. split; [split; [exact T1|split; [exact T2|split; [exact T3|exact T4]]]|]. intros I. apply in_snoc in I. destruct I as [I|I]; [|discriminate I].
      destruct (U I) as [V|[(V1 & V2)|V]]; [left; exact V| |right; right; exact V]. right. left. split; [exact V1|]. intros WT. cbn [snd msgs cues] in *. specialize (V2 WT). rewrite E in V2. destruct V2 as [[->|V2]|V2]; [right; apply in_or_app; right; left; reflexivity|left; exact V2|right; apply in_or_app; left; exact V2].
    + destruct (smsgs m); cbn [db me]; apply K; try discriminate; apply gside_aside; unfold gside; cbn; auto 10.
    + apply K; [|discriminate]. apply gside_aside; unfold gside; cbn; auto 10.
    + destruct Q.
Qed.
(** serving all messages *)
Lemma serve_all proxy n w d m : (List.length (msgs m) <= n)%nat ->
  exists m', fold_left (step proxy) (repeat Serve n) (mkS w d m) = mkS w d m' /\ msgs m' = [] /\ cues m' = cues m ++ msgs m.
Proof.
  revert m. induction n as [|n IH]; intros m L.
  - destruct (msgs m) eqn:E; [|cbn in L; lia]. exists m. split; [reflexivity|]. split; [exact E|]. rewrite app_nil_r. reflexivity.
  - cbn [repeat fold_left step]. cbn [me db wo]. destruct (msgs m) as [|x l] eqn:E.
    + destruct (IH m) as (m' & R); [rewrite E; cbn; lia|]. exists m'. rewrite E in R. exact R.
    + destruct (IH (mkMem l (cues m ++ [x]) (smsgs m) (scues m) (pubs m))) as (m' & R1 & R2 & R3); [cbn in *; lia|]. exists m'. split; [exact R1|]. split; [exact R2|]. cbn in R3. rewrite <- app_assoc in R3. exact R3.
Qed.
End L.
