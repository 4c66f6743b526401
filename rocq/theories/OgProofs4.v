(** Notices: added, marked, removed and listed as meant; what a crash does. *)
From Verif Require Import Prelude ThModel ThProofs JsonModel JsonProofs Lex DbModel DbProofs OgModel OgSpec OgProofs OgProofs2.
Ltac Zify.zify_post_hook ::= Z.div_mod_to_equations.
Open Scope N_scope.

Definition nosl (s : bytes) : Prop := ~ In 47 s.
Definition okid (r : bytes) : Prop := r <> [] /\ nosl r.
Lemma nkey_inj p f p' f' : nosl p -> nosl p' -> nkey p f = nkey p' f' -> p = p' /\ f = f'.
Proof.
  unfold nkey, nosl. revert p'. induction p as [|x p IH]; intros [|y p'] N N' H; cbn in H.
  - injection H as ->. auto.
  - injection H as H _. exfalso. apply N'. left. congruence.
  - injection H as H _. exfalso. apply N. left. congruence.
  - injection H as -> H. destruct (IH p') as [-> ->]; [intros I; apply N; right; exact I|intros I; apply N'; right; exact I|exact H|]. auto.
Qed.
Lemma nkey_nonnil p f : nkey p f <> [].
Proof. unfold nkey. destruct p; discriminate. Qed.
Lemma split_nkey p f : nosl p -> nosl f -> splitb 47 (nkey p f) = [p; f].
Proof.
  intros A B. unfold nkey. rewrite splitb_app by (apply Forall_forall; intros x I ->; contradiction). rewrite splitb_nosep; [reflexivity|]. apply Forall_forall. intros x I ->. contradiction.
Qed.

Section N.
Variable E : nenv.
Hypothesis HE : nhonest E.

Definition nshape (b : noter) : Prop :=
  sorted (nidx b) /\ sorted (ncigs b) /\ sorted (notes b) /\ forall k v, In (k, v) (notes b) -> exists dt r, k = nkey dt r /\ nosl dt /\ okid r.
Definition nsame (b b' : noter) (q : bytes) : Prop :=
  get q (nidx b') = get q (nidx b) /\ get q (ncigs b') = get q (ncigs b) /\ forall dt, nosl dt -> get (nkey dt q) (notes b') = get (nkey dt q) (notes b).
Inductive onr (r : bytes) : nwrite -> Prop :=
| or_pi : forall v, onr r (PIdx r v)
| or_pc : forall v, onr r (PCig r v)
| or_pn : forall dt v, nosl dt -> onr r (PNote (nkey dt r) v)
| or_ri : onr r (RIdx r)
| or_rc : onr r (RCig r)
| or_rn : forall dt, nosl dt -> onr r (RNote (nkey dt r)).
Lemma nwr_local r b w : okid r -> nshape b -> onr r w -> nshape (nwr b w) /\ forall q, q <> r -> nsame b (nwr b w) q.
Proof.
  intros Or (S1 & S2 & S3 & S4) O. inversion O; subst; cbn [nwr]; unfold nshape, nsame; cbn [nidx ncigs notes].
  - split; [auto using sput_sorted|]. intros q N. split; [apply get_sput_other; congruence|auto].
  - split; [auto using sput_sorted|]. intros q N. split; [reflexivity|]. split; [apply get_sput_other; congruence|auto].
  - split.
    + split; [exact S1|]. split; [exact S2|]. split; [apply sput_sorted; exact S3|]. intros k u H'. apply sput_in in H'. destruct H' as [[= -> ->]|H']; [exists dt, r; auto|eapply S4; eauto].
    + intros q N. split; [reflexivity|]. split; [reflexivity|]. intros g Ng. apply get_sput_other. intros X. apply nkey_inj in X; auto. destruct X; congruence.
  - split; [auto using sdel_sorted|]. intros q N. split; [apply get_sdel_other; congruence|auto].
  - split; [auto using sdel_sorted|]. intros q N. split; [reflexivity|]. split; [apply get_sdel_other; congruence|auto].
  - split.
    + split; [exact S1|]. split; [exact S2|]. split; [apply sdel_sorted; exact S3|]. intros k u H'. apply del_fst_in in H'. eapply S4; eauto.
    + intros q N. split; [reflexivity|]. split; [reflexivity|]. intros g Ng. apply get_sdel_other. intros X. apply nkey_inj in X; auto. destruct X; congruence.
Qed.
Lemma nrun_local r ws : forall b, okid r -> nshape b -> Forall (onr r) ws -> nshape (nrun ws b) /\ forall q, q <> r -> nsame b (nrun ws b) q.
Proof.
  induction ws as [|w ws IH]; intros b Or Sh F; [split; [exact Sh|intros q N; unfold nsame; auto]|]. inversion F; subst. destruct (nwr_local r b w Or Sh H1) as [A B].
  cbn [nrun fold_left]. destruct (IH (nwr b w) Or A H2) as [C D]. split; [exact C|]. intros q N. destruct (B q N) as (B1 & B2 & B3). destruct (D q N) as (D1 & D2 & D3). unfold nrun in *.
  split; [congruence|]. split; [congruence|]. intros dt Nd. rewrite D3 by exact Nd. apply B3. exact Nd.
Qed.

Definition ngood (b : noter) (r : bytes) (o : option note) : Prop :=
  match o with
  | None => get r (nidx b) = None /\ forall dt, nosl dt -> get (nkey dt r) (notes b) = None
  | Some n => n_id n = r /\ nosl (n_dt n) /\ get r (nidx b) = Some (n_dt n) /\ get r (ncigs b) = Some (nsgn E (ndump E n)) /\
      get (nkey (n_dt n) r) (notes b) = Some (ndump E n) /\ forall dt, nosl dt -> dt <> n_dt n -> get (nkey dt r) (notes b) = None
  end.
Lemma ngood_same b b' r o : nsame b b' r -> ngood b r o -> ngood b' r o.
Proof.
  intros (A & B & C) G. destruct o as [n|]; cbn in *.
  - destruct G as (G1 & G2 & G3 & G4 & G5 & G6). split; [exact G1|]. split; [exact G2|]. split; [congruence|]. split; [congruence|]. split; [rewrite C by exact G2; exact G5|]. intros dt N D. rewrite C by exact N. auto.
  - destruct G as [G1 G2]. split; [congruence|]. intros dt N. rewrite C by exact N. auto.
Qed.
Definition ninv (X : bytes -> Prop) (b : noter) (a : board) : Prop :=
  nshape b /\ (forall r n, a r = Some n -> okid r) /\ forall r, okid r -> ~ X r -> ngood b r (a r).
Lemma pin_good b n : nshape b -> okid (n_id n) -> nosl (n_dt n) -> (forall dt, nosl dt -> dt <> n_dt n -> get (nkey dt (n_id n)) (notes b) = None) ->
  Forall (onr (n_id n)) (pinNote E n) /\ ngood (nrun (pinNote E n) b) (n_id n) (Some n).
Proof.
  intros Sh [O1 O2] D H. split; [constructor; [constructor|constructor; [constructor|constructor; [constructor; exact D|constructor]]]|].
  cbn [nrun fold_left pinNote nwr ngood nidx ncigs notes]. split; [reflexivity|]. split; [exact D|]. split; [apply get_sput_same; exact O1|]. split; [apply get_sput_same; exact O1|].
  split; [apply get_sput_same; apply nkey_nonnil|]. intros dt N ND. rewrite get_sput_other; [auto|]. intros X. apply nkey_inj in X; auto. destruct X; congruence.
Qed.
Lemma nget_good b r n : ngood b r (Some n) -> nget E b r = Ok (Some (Some (ndump E n, n), Some (nsgn E (ndump E n)))).
Proof. intros (G1 & G2 & G3 & G4 & G5 & G6). destruct HE as [L _]. unfold nget. rewrite G3, G5, L, G4. reflexivity. Qed.
Lemma get_del_true k st v : get k st = Some v -> snd (del k st) = true.
Proof. induction st as [|[k0 v0] st IH]; cbn; [discriminate|]. destruct (beq k0 k); [reflexivity|]. destruct (del k st) as [s b]. exact IH. Qed.
Lemma nop_step o b a : nfair o -> nshape b -> ngood b (who o) (a (who o)) ->
  exists ws, nplan E b o = (ws, nends a o) /\ Forall (onr (who o)) ws /\ ngood (nrun ws b) (who o) (ndoes a o (who o)).
Proof.
  intros (F1 & F2 & F3) Sh G. destruct o as [r d t|r|r]; cbn [who nplan nends ndoes] in *.
  - unfold nadd. destruct (a r) as [n|] eqn:A.
    + exists []. pose proof G as (_ & _ & G3 & _). rewrite G3. split; [reflexivity|]. split; [constructor|]. rewrite A. exact G.
    + destruct G as [G1 G2]. rewrite G1. exists (pinNote E (mkN r d false t)). split; [reflexivity|]. rewrite put1_same. apply (pin_good b (mkN r d false t)); [exact Sh|split; assumption|exact F3|]. intros dt N _. apply G2. exact N.
  - unfold nrem. rewrite put1_same. destruct (a r) as [n|] eqn:A.
    + rewrite (nget_good b r n G). destruct G as (G1 & G2 & G3 & G4 & G5 & G6). rewrite G1. exists [RIdx r; RCig r; RNote (nkey (n_dt n) r)]. rewrite (get_del_true _ _ _ G5). split; [reflexivity|].
      split; [constructor; [constructor|constructor; [constructor|constructor; [constructor; exact G2|constructor]]]|]. destruct Sh as (S1 & S2 & S3 & _). cbn [nrun fold_left nwr ngood nidx notes].
      split; [apply get_sdel_same; exact S1|]. intros dt N. destruct (list_N_dec dt (n_dt n)) as [->|ND]; [apply get_sdel_same; exact S3|]. rewrite get_sdel_other; [auto|]. intros X. apply nkey_inj in X; auto. destruct X; congruence.
    + exists []. pose proof G as [G1 _]. unfold nget. rewrite G1. split; [reflexivity|]. split; [constructor|exact G].
  - unfold nmar. destruct (a r) as [n|] eqn:A.
    + rewrite (nget_good b r n G). destruct HE as [_ V]. rewrite V. cbn [negb]. pose proof G as (G1 & G2 & G3 & G4 & G5 & G6). rewrite put1_same. destruct (n_read n) eqn:R; cbn [negb].
      * exists []. split; [reflexivity|]. split; [constructor|]. cbn [nrun fold_left]. replace (mkN r (n_dt n) true (n_attr n)) with n; [exact G|]. destruct n; cbn in *; subst; reflexivity.
      * rewrite G1, G3. exists (pinNote E (mkN r (n_dt n) true (n_attr n))). split; [reflexivity|]. apply (pin_good b (mkN r (n_dt n) true (n_attr n))); [exact Sh|split; assumption|exact G2|]. cbn. exact G6.
    + exists []. pose proof G as [G1 _]. unfold nget. rewrite G1. split; [reflexivity|]. split; [constructor|]. rewrite A. exact G.
Qed.
Lemma ndoes_other a o q : q <> who o -> ndoes a o q = a q.
Proof. intros N. destruct o; cbn in *; [destruct (a rid); [reflexivity|]| |destruct (a rid); [|reflexivity]]; try (apply put1_other; exact N). Qed.
Lemma ndoes_ok a o : nfair o -> (forall r n, a r = Some n -> okid r) -> forall r n, ndoes a o r = Some n -> okid r.
Proof. intros (F1 & F2 & _) K r n H. destruct (list_N_dec r (who o)) as [->|N]; [split; assumption|]. rewrite ndoes_other in H by exact N. eapply K; eauto. Qed.
Lemma ninv_none : ninv (fun _ => False) none clear.
Proof.
  split; [unfold nshape; cbn; split; [exact I|]; split; [exact I|]; split; [exact I|]; intros k v []|]. split; [intros r n H; discriminate H|]. intros r _ _. cbn. auto.
Qed.
Lemma ninv_step X b a o : ninv X b a -> nfair o -> ~ X (who o) -> ninv X (nstep E b o) (ndoes a o) /\ snd (nplan E b o) = nends a o.
Proof.
  intros (Sh & K & G) F N. pose proof F as (F1 & F2 & _). assert (O : okid (who o)) by (split; assumption). destruct (nop_step o b a F Sh (G _ O N)) as (ws & E1 & O1 & G1). unfold nstep. rewrite E1. cbn [fst snd]. split; [|reflexivity].
  destruct (nrun_local (who o) ws b O Sh O1) as [Sh' SM]. split; [exact Sh'|]. split; [apply ndoes_ok; assumption|]. intros r Or Nr. destruct (list_N_dec r (who o)) as [->|D]; [exact G1|].
  rewrite ndoes_other by exact D. eapply ngood_same; [apply SM; exact D|]. apply G; assumption.
Qed.
Lemma ninv_crash X b a o n : ninv X b a -> nfair o -> ~ X (who o) -> ninv (fun p => X p \/ p = who o) (ncrash E n b o) a.
Proof.
  intros (Sh & K & G) F N. pose proof F as (F1 & F2 & _). assert (O : okid (who o)) by (split; assumption). destruct (nop_step o b a F Sh (G _ O N)) as (ws & E1 & O1 & G1). unfold ncrash. rewrite E1. cbn [fst].
  assert (O2 : Forall (onr (who o)) (firstn n ws)) by (rewrite <- (firstn_skipn n ws) in O1; apply Forall_app in O1; apply O1).
  destruct (nrun_local (who o) _ b O Sh O2) as [Sh' SM]. split; [exact Sh'|]. split; [exact K|]. intros r Or Nr. eapply ngood_same; [apply SM; tauto|]. apply G; tauto.
Qed.
Lemma ninv_after X : forall os b a, ninv X b a -> (forall o, In o os -> nfair o /\ ~ X (who o)) -> ninv X (nafter E b os) (nmeans a os) /\ nending E b os = nmeantEnds a os.
Proof.
  induction os as [|o os IH]; intros b a I F; [split; [exact I|reflexivity]|]. destruct (F o (or_introl eq_refl)) as [F1 N1]. destruct (ninv_step X b a o I F1 N1) as [I1 E1]. cbn.
  destruct (IH _ _ I1 (fun o' H => F o' (or_intror H))) as [I2 E2]. split; [exact I2|]. rewrite E1, E2. reflexivity.
Qed.

(** ** The list *)
Definition ent (n : note) : bytes * bytes := (nkey (n_dt n) (n_id n), ndump E n).
Lemma entries b a : ninv (fun _ => False) b a -> exists all, notes b = map ent all /\ allOf a all /\ Forall (fun n => nosl (n_dt n) /\ okid (n_id n)) all.
Proof.
  intros ((_ & _ & S & SF) & K & G).
  assert (X : forall l, sorted l -> (forall k v, In (k, v) l -> In (k, v) (notes b)) -> exists all, l = map ent all /\ ordered all /\ Forall (fun n => a (n_id n) = Some n /\ nosl (n_dt n)) all).
  { induction l as [|[k v] l IH]; intros Sl Il; [exists []; split; [reflexivity|]; split; constructor|]. destruct Sl as [S1 S2]. destruct (IH S2) as (all & -> & O & F); [intros; apply Il; right; assumption|].
    pose proof (Il k v (or_introl eq_refl)) as I. destruct (SF _ _ I) as (dt & r & -> & Nd & Or). pose proof (G r Or (fun x => x)) as Gr. pose proof (In_get _ _ _ S I) as Q. destruct (a r) as [n|] eqn:A; cbn in Gr.
    - destruct Gr as (G1 & G2 & G3 & G4 & G5 & G6). destruct (list_N_dec dt (n_dt n)) as [->|D]; [|rewrite (G6 dt Nd D) in Q; discriminate Q].
      rewrite G5 in Q. injection Q as <-. exists (n :: all). split; [cbn [map]; unfold ent at 2; rewrite G1; reflexivity|]. split; [|constructor; [rewrite G1; auto|exact F]]. constructor; [|exact O].
      rewrite Forall_forall in *. intros n' I'. specialize (S1 (ent n')). unfold below in S1. cbn in S1. unfold inOrder. rewrite G1. apply S1. apply in_map. exact I'.
    - destruct Gr as [_ G2]. rewrite (G2 dt Nd) in Q. discriminate Q. }
  destruct (X (notes b) S (fun _ _ H => H)) as (all & EQ & O & F). exists all. split; [exact EQ|]. rewrite Forall_forall in F. split; [|apply Forall_forall; intros n I; destruct (F n I) as [A B]; split; [exact B|eapply K; eauto]].
  split; [exact O|]. intros n. split; [intros I; apply (F n I)|]. intros A. pose proof (K _ _ A) as Or. pose proof (G _ Or (fun x => x)) as Gr. rewrite A in Gr. destruct Gr as (G1 & G2 & G3 & G4 & G5 & G6).
  apply get_In in G5. rewrite EQ in G5. apply in_map_iff in G5. destruct G5 as (n' & Q & I'). destruct HE as [L _]. assert (D : ndump E n' = ndump E n) by (unfold ent in Q; congruence). assert (n' = n) by (pose proof (L n') as L1; rewrite D, (L n) in L1; congruence). congruence.
Qed.
Definition line (n : note) : bytes * note * option bytes := (ndump E n, n, Some (nsgn E (ndump E n))).
Definition cut (left : option Z) (l : list note) : list note := match left with Some k => if (1 <=? k)%Z then firstn (Z.to_nat k) l else l | None => l end.
Lemma nloop_ok b : forall l left, Forall (fun n => nosl (n_dt n) /\ okid (n_id n)) l -> Forall (fun n => get (n_id n) (ncigs b) = Some (nsgn E (ndump E n))) l ->
  nloop E b (map ent l) left = Ok (map line (cut left l)).
Proof.
  induction l as [|n l IH]; intros left F G; [destruct left as [k|]; cbn; [destruct (1 <=? k)%Z; [destruct (Z.to_nat k)|]|]; reflexivity|]. inversion F as [|? ? [N1 N2] F']; subst. inversion G; subst. cbn [map nloop]. unfold ent at 1. cbn [fst].
  rewrite split_nkey by (auto; apply N2). cbn [List.length Nat.eqb negb]. unfold entryOf, ent at 1. cbn [snd]. destruct HE as [L _]. rewrite L. cbn [bind]. rewrite H1. destruct left as [k|].
  - destruct (Z.eqb_spec k 1) as [->|NK]; [reflexivity|]. rewrite IH by assumption. cbn [bind]. unfold cut. destruct (Z.leb_spec 1 (k - 1)); destruct (Z.leb_spec 1 k); try lia.
    + replace (Z.to_nat k) with (Datatypes.S (Z.to_nat (k - 1))) by lia. reflexivity.
    + reflexivity.
  - rewrite IH by assumption. reflexivity.
Qed.
Lemma mapr_entry l : mapr (entryOf E) (map ent l) = Ok (map (fun n => (ndump E n, n)) l).
Proof. destruct HE as [L _]. induction l as [|n l IH]; [reflexivity|]. cbn [map mapr]. unfold entryOf at 1, ent at 1. cbn [snd]. rewrite L. cbn [bind]. rewrite IH. reflexivity. Qed.
Lemma mapr_line l : mapr (fun x : bytes * note * option bytes => let '(raw, n, cg) := x in match cg with None => Err AttributeError | Some cg => if nvfy E raw cg then Ok n else Err ValidationError end) (map line l) = Ok l.
Proof. destruct HE as [_ V]. induction l as [|n l IH]; [reflexivity|]. cbn [map mapr line]. rewrite V. cbn [bind]. rewrite IH. reflexivity. Qed.
Lemma getNotes_ok b all s e : notes b = map ent all -> Forall (fun n => nosl (n_dt n) /\ okid (n_id n)) all -> Forall (fun n => get (n_id n) (ncigs b) = Some (nsgn E (ndump E n))) all ->
  getNotes E b s e = Ok (cut (if (e =? -1)%Z then None else Some (e - Z.of_nat s + 1)%Z) (skipn s all)).
Proof.
  intros EQ F G. unfold getNotes, ngetNotes. rewrite EQ. rewrite firstn_map, skipn_map, mapr_entry. cbn [bind].
  assert (F' : Forall (fun n => nosl (n_dt n) /\ okid (n_id n)) (skipn s all)) by (rewrite <- (firstn_skipn s all) in F; apply Forall_app in F; apply F).
  assert (G' : Forall (fun n => get (n_id n) (ncigs b) = Some (nsgn E (ndump E n))) (skipn s all)) by (rewrite <- (firstn_skipn s all) in G; apply Forall_app in G; apply G).
  rewrite nloop_ok by assumption. cbn [bind]. apply mapr_line.
Qed.
Lemma all_signed b a all : ninv (fun _ => False) b a -> allOf a all -> Forall (fun n => get (n_id n) (ncigs b) = Some (nsgn E (ndump E n))) all.
Proof.
  intros (_ & K & G) [_ A]. apply Forall_forall. intros n I. apply A in I. pose proof (G _ (K _ _ I) (fun x => x)) as Gr. rewrite I in Gr. apply Gr.
Qed.
Lemma listed b a : ninv (fun _ => False) b a -> exists all, allOf a all /\ ncnt b = len all /\
  forall s e, getNotes E b s e = Ok (cut (if (e =? -1)%Z then None else Some (e - Z.of_nat s + 1)%Z) (skipn s all)).
Proof.
  intros I. destruct (entries b a I) as (all & EQ & A & F). exists all. split; [exact A|]. split; [unfold ncnt; rewrite EQ; unfold len; rewrite map_length; reflexivity|]. intros s e. apply getNotes_ok; [exact EQ|exact F|]. eapply all_signed; eauto.
Qed.
(** pages *)
Lemma skipn_skipn {T} : forall x y (l : list T), skipn x (skipn y l) = skipn (x + y) l.
Proof. intros x y. revert x. induction y as [|y IH]; intros x l; [rewrite Nat.add_0_r; reflexivity|]. destruct l as [|e l]; [rewrite !skipn_nil; reflexivity|]. rewrite Nat.add_succ_r. cbn [skipn]. apply IH. Qed.
Lemma pages_cover {T} (k : nat) : forall m i (l : list T), flat_map (fun j => firstn k (skipn (j * k) l)) (seq i m) = firstn (m * k) (skipn (i * k) l).
Proof.
  induction m as [|m IH]; intros i l; [reflexivity|]. cbn [seq flat_map]. rewrite IH. replace (skipn (Datatypes.S i * k) l) with (skipn k (skipn (i * k) l)) by (rewrite skipn_skipn; f_equal; lia).
  set (r := skipn (i * k) l). replace (Datatypes.S m * k)%nat with (k + m * k)%nat by lia. rewrite <- (firstn_skipn k r) at 3. rewrite firstn_app. rewrite firstn_firstn. rewrite Nat.min_r by lia.
  rewrite firstn_length. destruct (Nat.le_ge_cases k (List.length r)) as [H|H].
  - rewrite (Nat.min_l k (List.length r)) by exact H. replace (k + m * k - k)%nat with (m * k)%nat by lia. reflexivity.
  - rewrite (skipn_all2 r) by exact H. rewrite !firstn_nil. reflexivity.
Qed.

(** ** Crashes *)
Lemma add_crash b a r d t k s e : ninv (fun _ => False) b a -> nfair (NAdd r d t) ->
  getNotes E (ncrash E k b (NAdd r d t)) s e = getNotes E b s e \/ getNotes E (ncrash E k b (NAdd r d t)) s e = getNotes E (nstep E b (NAdd r d t)) s e.
Proof.
  intros I F. destruct (entries b a I) as (all & EQ & A & FA). unfold ncrash, nstep. cbn [nplan]. unfold nadd. destruct (get r (nidx b)) as [x|] eqn:Q; [left; cbn [fst]; rewrite firstn_nil; reflexivity|]. cbn [fst].
  destruct (Nat.le_gt_cases 3 k) as [H|H]; [right; rewrite firstn_all2 by exact H; reflexivity|]. left.
  assert (NR : Forall (fun n => n_id n <> r) all).
  { apply Forall_forall. intros n In1 RR. destruct A as [_ A]. apply A in In1. destruct I as (_ & K & G). pose proof (G _ (K _ _ In1) (fun x => x)) as Gr. rewrite In1 in Gr. destruct Gr as (_ & _ & G3 & _). congruence. }
  assert (X : exists i c, nrun (firstn k (pinNote E (mkN r d false t))) b = mkNo i c (notes b) /\ forall q, q <> r -> get q c = get q (ncigs b)).
  { destruct k as [|[|[|k]]]; [| | |lia]; cbn [firstn pinNote nrun fold_left nwr nidx ncigs notes].
    - exists (nidx b), (ncigs b). split; [destruct b; reflexivity|reflexivity].
    - eexists _, (ncigs b). split; [reflexivity|reflexivity].
    - eexists _, _. split; [reflexivity|]. intros q N. apply get_sput_other. exact N. }
  destruct X as (i & c & -> & C). pose proof (all_signed b a all I A) as SG.
  rewrite (getNotes_ok b all s e EQ FA SG). apply getNotes_ok; [exact EQ|exact FA|]. rewrite Forall_forall in *. intros n In1. cbn [ncigs]. rewrite C by (apply NR; exact In1). apply SG. exact In1.
Qed.
(** a notice whose signature and index are gone *)
Definition orphan (r : bytes) (b : noter) : Prop :=
  nshape b /\ get r (nidx b) = None /\ get r (ncigs b) = None /\ exists n, n_id n = r /\ nosl (n_dt n) /\ get (nkey (n_dt n) r) (notes b) = Some (ndump E n).
Lemma nloop_mem b : forall l r, nloop E b l None = Ok r -> forall k raw n, In (k, raw) l -> nload E raw = Ok n -> In (raw, n, get (n_id n) (ncigs b)) r.
Proof.
  induction l as [|[k0 raw0] l IH]; intros r H k raw n I L; [contradiction|]. cbn [nloop fst] in H. destruct (negb _); [discriminate H|]. unfold entryOf in H. cbn [snd] in H. destruct (nload E raw0) as [n0|] eqn:L0; [|discriminate H].
  cbn [bind] in H. destruct (nloop E b l None) as [r0|] eqn:Q; [|discriminate H]. cbn in H. injection H as <-. destruct I as [[= -> ->]|I]; [left; congruence|right; eapply IH; eauto].
Qed.
Lemma mapr_each {A B} (f : A -> res B) : forall l r, mapr f l = Ok r -> forall x, In x l -> exists y, f x = Ok y.
Proof.
  induction l as [|y l IH]; intros r H x I; [contradiction|]. cbn [mapr] in H. destruct (f y) as [z|] eqn:Q; [|discriminate H]. cbn in H. destruct (mapr f l) as [r0|] eqn:Q2; [|discriminate H].
  destruct I as [<-|I]; [eauto|eapply IH; eauto].
Qed.
Lemma orphan_fails r b : orphan r b -> exists x, getNotes E b 0 (-1) = Err x.
Proof.
  intros (_ & _ & C & n & N1 & N2 & N3). destruct (getNotes E b 0 (-1)) as [l|x] eqn:G; [|eauto]. exfalso. unfold getNotes, ngetNotes in G. cbn [firstn mapr bind skipn Z.eqb Pos.eqb] in G.
  destruct (nloop E b (notes b) None) as [l0|] eqn:Q; [|discriminate G]. cbn [bind] in G. destruct HE as [L _]. pose proof (nloop_mem b _ _ Q _ _ n (get_In _ _ _ N3) (L n)) as M. rewrite N1, C in M.
  destruct (mapr_each _ _ _ G _ M) as (y & Y). discriminate Y.
Qed.
Lemma orphan_step r b a o X : orphan r b -> ninv X b a -> X r -> nfair o -> ~ (X (who o) /\ who o <> r) -> (forall d t, o <> NAdd r d t) -> orphan r (nstep E b o) /\ exists a', ninv X (nstep E b o) a'.
Proof.
  intros (Sh & I & C & n & N1 & N2 & N3) V Xr F NX NA. destruct (list_N_dec (who o) r) as [EW|D].
  - assert (Q : nstep E b o = b).
    { unfold nstep. destruct o as [q d t|q|q]; cbn [nplan who] in *; subst q.
      - exfalso. eapply NA. reflexivity.
      - unfold nrem, nget. rewrite I. reflexivity.
      - unfold nmar, nget. rewrite I. reflexivity. }
    rewrite Q. split; [|eauto]. split; [exact Sh|]. split; [exact I|]. split; [exact C|]. exists n. auto.
  - assert (NXo : ~ X (who o)) by tauto. pose proof V as (_ & K & G). pose proof F as (F1 & F2 & _). assert (O : okid (who o)) by (split; assumption).
    destruct (ninv_step X b a o V F NXo) as [V' _]. split; [|eauto]. destruct (nop_step o b a F Sh (G _ O NXo)) as (ws & E1 & O1 & G1). unfold nstep. rewrite E1. cbn [fst].
    destruct (nrun_local (who o) ws b O Sh O1) as [Sh' SM]. destruct (SM r (not_eq_sym D)) as (S1 & S2 & S3). split; [exact Sh'|]. split; [congruence|]. split; [congruence|]. exists n. split; [exact N1|]. split; [exact N2|]. rewrite S3 by exact N2. exact N3.
Qed.
End N.
