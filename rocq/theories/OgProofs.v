(** Contacts read back as they were written. *)
From Verif Require Import Prelude ThModel ThProofs JsonModel JsonProofs Lex DbModel DbProofs OgModel OgSpec.
From Verif Require MbProofs2 DbThms.
Ltac Zify.zify_post_hook ::= Z.div_mod_to_equations.
Open Scope N_scope.

(** ** Stores *)
Lemma get_sput_same k v st : k <> [] -> get k (sput k v st) = Some v.
Proof. intros H. unfold sput. destruct k; [congruence|]. cbn [isnil]. apply MbProofs2.get_put_same. Qed.
Lemma get_sput_other k v st k' : k' <> k -> get k' (sput k v st) = get k' st.
Proof. intros H. unfold sput. destruct k; [reflexivity|]. cbn [isnil]. apply MbProofs2.get_put_other. exact H. Qed.
Lemma sput_sorted k v st : sorted st -> sorted (sput k v st).
Proof. intros S. unfold sput. destruct (isnil k); [exact S|]. destruct (put true k v st) as [s b] eqn:E. eapply put_sorted; eauto. Qed.
Lemma sput_in k v st e : In e (sput k v st) -> e = (k, v) \/ In e st.
Proof. unfold sput. destruct (isnil k); [auto|]. destruct (put true k v st) as [s b] eqn:E. eapply put_in; eauto. Qed.
Lemma get_In k v st : get k st = Some v -> In (k, v) st.
Proof. induction st as [|[k0 v0] st IH]; cbn; [discriminate|]. destruct (beq_spec k0 k) as [->|N]; [intros [= ->]; auto|auto]. Qed.
Lemma In_get k v st : sorted st -> In (k, v) st -> get k st = Some v.
Proof.
  induction st as [|[k0 v0] st IH]; intros S H; [contradiction|]. destruct S as [S1 S2]. cbn. destruct H as [[= -> ->]|H]; [rewrite beq_refl; reflexivity|].
  destruct (beq_spec k0 k) as [->|N]; [|auto]. rewrite Forall_forall in S1. specialize (S1 _ H). apply blt_neq in S1. cbn in S1. congruence.
Qed.
Lemma del_fst_in k st e : In e (sdel k st) -> In e st.
Proof. unfold sdel. destruct (del k st) as [s b] eqn:E. eapply del_in; eauto. Qed.
Lemma sdel_sorted k st : sorted st -> sorted (sdel k st).
Proof. intros S. unfold sdel. destruct (del k st) as [s b] eqn:E. eapply del_sorted; eauto. Qed.
Lemma get_sdel_other k st k' : k' <> k -> get k' (sdel k st) = get k' st.
Proof.
  intros N. unfold sdel. induction st as [|[k0 v0] st IH]; [reflexivity|]. cbn. destruct (beq_spec k0 k) as [->|N0].
  - cbn. apply not_eq_sym in N. apply beq_neq in N. rewrite N. reflexivity.
  - destruct (del k st) as [s b]. cbn in *. rewrite IH. reflexivity.
Qed.
Lemma get_sdel_same k st : sorted st -> get k (sdel k st) = None.
Proof.
  intros S. unfold sdel. induction st as [|[k0 v0] st IH]; [reflexivity|]. destruct S as [S1 S2]. cbn. destruct (beq_spec k0 k) as [->|N0].
  - cbn. destruct (get k st) eqn:G; [|reflexivity]. apply get_In in G. rewrite Forall_forall in S1. specialize (S1 _ G). apply blt_neq in S1. cbn in S1. congruence.
  - specialize (IH S2). destruct (del k st) as [s b]. cbn in *. apply beq_neq in N0. rewrite N0. exact IH.
Qed.
Lemma remTop_eq t st : sorted st -> fst (remTop t st) = filter (fun e => negb (startswith (fst e) t)) st.
Proof. intros S. unfold remTop. cbn [fst]. apply (DbThms.top_split t st S). Qed.
Lemma sorted_filter (g : bytes * bytes -> bool) st : sorted st -> sorted (filter g st).
Proof.
  induction st as [|e st IH]; intros S; [exact S|]. destruct e as [k v]. destruct S as [S1 S2]. cbn. destruct (g (k, v)); [|auto]. split; [|auto].
  rewrite Forall_forall in *. intros x I. apply filter_In in I. apply S1. tauto.
Qed.
Lemma get_filter (g : bytes -> bool) k st : get k (filter (fun e => g (fst e)) st) = if g k then get k st else None.
Proof.
  induction st as [|[k0 v0] st IH]; cbn; [destruct (g k); reflexivity|]. destruct (g k0) eqn:G; cbn.
  - destruct (beq_spec k0 k) as [->|N]; [rewrite G; reflexivity|exact IH].
  - rewrite IH. destruct (beq_spec k0 k) as [->|N]; [rewrite G; reflexivity|reflexivity].
Qed.
Lemma get_remTop t st k : sorted st -> get k (fst (remTop t st)) = if startswith k t then None else get k st.
Proof. intros S. rewrite remTop_eq by exact S. rewrite (get_filter (fun k => negb (startswith k t))). destruct (startswith k t); reflexivity. Qed.
Lemma startswith_app : forall p s, startswith s p = true <-> exists t, s = p ++ t.
Proof.
  induction p as [|x p IH]; intros s; [split; [exists s; reflexivity|destruct s; reflexivity]|]. destruct s as [|y s]; [split; [discriminate|intros (t & [=])]|].
  cbn [startswith]. rewrite andb_true_iff, N.eqb_eq, IH. split; [intros [-> (t & ->)]; exists t; reflexivity|intros (t & [= -> ->]); split; [reflexivity|exists t; reflexivity]].
Qed.

(** ** Keys of fields *)
Lemma fkey_inj p f p' f' : ~ In 46 p -> ~ In 46 p' -> fkey p f = fkey p' f' -> p = p' /\ f = f'.
Proof.
  unfold fkey. revert p'. induction p as [|x p IH]; intros [|y p'] N N' H; cbn in H.
  - injection H as ->. auto.
  - injection H as H _. exfalso. apply N'. left. congruence.
  - injection H as H _. exfalso. apply N. left. congruence.
  - injection H as -> H. destruct (IH p') as [-> ->]; [intros I; apply N; right; exact I|intros I; apply N'; right; exact I|exact H|]. auto.
Qed.
Lemma fkey_inj1 p f f' : fkey p f = fkey p f' -> f = f'.
Proof. unfold fkey. intros H. apply app_inv_head in H. congruence. Qed.
Lemma fkey_nonnil p f : fkey p f <> [].
Proof. unfold fkey. destruct p; discriminate. Qed.
Lemma app_cases : forall (q p s t : bytes), q ++ s = p ++ t -> (exists u, q = p ++ u) \/ exists u, p = q ++ u /\ s = u ++ t.
Proof.
  induction q as [|x q IH]; intros p s t H; [right; exists p; auto|]. destruct p as [|y p]; [left; exists (x :: q); reflexivity|].
  cbn in H. injection H as -> H. destruct (IH _ _ _ H) as [(u & ->)|(u & -> & ->)]; [left; exists u; reflexivity|right; exists u; auto].
Qed.
Lemma top_key P p q f : prefixes P -> P p -> P q -> startswith (fkey q f) p = true -> q = p.
Proof.
  intros HP Pp Pq H. apply startswith_app in H. destruct H as (t & H). unfold fkey in H. destruct (app_cases _ _ _ _ H) as [(u & E)|(u & E & E')].
  - destruct (HP _ Pp) as (_ & _ & _ & K). eapply K; eauto.
  - destruct u as [|y u]; [rewrite app_nil_r in E; congruence|]. cbn in E'. injection E' as <- E'. destruct (HP _ Pp) as (_ & _ & N & _). exfalso. apply N. rewrite E. apply in_or_app. right. left. reflexivity.
Qed.
Lemma top_own p f : startswith (fkey p f) p = true.
Proof. apply startswith_app. exists (46 :: f). reflexivity. Qed.

(** ** Dictionaries *)
Lemma dset_keys : forall (d : dict) k v x, In x (map fst (dset d k v)) -> x = k \/ In x (map fst d).
Proof.
  induction d as [|[k' v'] d IH]; intros k v x H; cbn in *; [destruct H as [<-|[]]; auto|].
  destruct (beq_spec k k') as [->|N]; cbn in H; [destruct H; auto|]. destruct H as [<-|H]; [auto|]. destruct (IH _ _ _ H); auto.
Qed.
Lemma dset_nodup : forall (d : dict) k v, NoDup (map fst d) -> NoDup (map fst (dset d k v)).
Proof.
  induction d as [|[k' v'] d IH]; intros k v H; cbn in *; [constructor; [intros []|constructor]|]. inversion H; subst.
  destruct (beq_spec k k') as [->|N]; cbn; [constructor; assumption|]. constructor; [|auto]. intros I. apply dset_keys in I. destruct I; [congruence|contradiction].
Qed.
Lemma dset_in : forall (d : dict) k v f u, In (f, u) (dset d k v) -> (f = k /\ u = v) \/ In (f, u) d.
Proof.
  induction d as [|[k' v'] d IH]; intros k v f u H; cbn in *; [destruct H as [[= -> ->]|[]]; auto|].
  destruct (beq_spec k k') as [->|N]; cbn in H; [destruct H as [[= -> ->]|H]; auto|]. destruct H as [[= -> ->]|H]; [auto|]. destruct (IH _ _ _ _ H); auto.
Qed.
Lemma dset_texts d k t : texts d -> texts (dset d k (Txt t)).
Proof. intros T f v H. apply dset_in in H. destruct H as [[-> ->]|H]; [exists t; reflexivity|eapply T; eauto]. Qed.
Lemma dget_in : forall {V} (d : list (bytes * V)) k v, dget d k = Some v -> In (k, v) d.
Proof. induction d as [|[k' v'] d IH]; intros k v H; cbn in *; [discriminate|]. destruct (beq_spec k k') as [->|N]; [injection H as ->; auto|auto]. Qed.
Lemma in_dget : forall {V} (d : list (bytes * V)) k v, NoDup (map fst d) -> In (k, v) d -> dget d k = Some v.
Proof.
  induction d as [|[k' v'] d IH]; intros k v N H; [contradiction|]. inversion N; subst. cbn. destruct H as [[= -> ->]|H]; [rewrite beq_refl; reflexivity|].
  destruct (beq_spec k k') as [->|NE]; [exfalso; apply H2; change k' with (fst (k', v)); apply in_map; exact H|auto].
Qed.
Lemma dget_none : forall {V} (d : list (bytes * V)) k, ~ In k (map fst d) -> dget d k = None.
Proof. intros V d k N. destruct (dget d k) eqn:G; [|reflexivity]. exfalso. apply N. apply dget_in in G. change k with (fst (k, v)). apply in_map. exact G. Qed.
Lemma merge_get : forall e d f, NoDup (map fst e) -> dget (merge d e) f = match dget e f with Some v => Some v | None => dget d f end.
Proof.
  induction e as [|[k v] e IH]; intros d f N; [reflexivity|]. inversion N; subst. unfold merge. cbn [fold_left fst snd]. fold (merge (dset d k v) e). rewrite IH by assumption. rewrite dget_dset. cbn.
  destruct (beq_spec f k) as [->|NE]; [|reflexivity]. rewrite (dget_none e) by assumption. reflexivity.
Qed.
Lemma merge_nodup : forall e d, NoDup (map fst d) -> NoDup (map fst (merge d e)).
Proof. induction e as [|[k v] e IH]; intros d N; [exact N|]. unfold merge. cbn [fold_left]. apply IH. apply dset_nodup. exact N. Qed.
Lemma merge_texts : forall e d, texts e -> texts d -> texts (merge d e).
Proof.
  induction e as [|[k v] e IH]; intros d Te Td; [exact Td|]. unfold merge. cbn [fold_left fst snd]. apply IH; [intros f u I; eapply Te; right; exact I|].
  destruct (Te k v (or_introl eq_refl)) as (t & ->). apply dset_texts. exact Td.
Qed.
Lemma ddrop_get : forall d f g, dget (ddrop d f) g = if beq f g then None else dget d g.
Proof.
  induction d as [|[k v] d IH]; intros f g; [cbn; destruct (beq f g); reflexivity|]. unfold ddrop in *. cbn [filter fst]. destruct (beq_spec f k) as [->|N]; cbn [negb].
  - rewrite IH. cbn [dget]. destruct (beq_spec k g) as [->|N']; [reflexivity|]. apply not_eq_sym in N'. apply beq_neq in N'. rewrite N'. reflexivity.
  - cbn [dget]. destruct (beq_spec g k) as [->|N']; [|exact (IH f g)]. apply beq_neq in N. rewrite N. reflexivity.
Qed.
Lemma ddrop_nodup : forall d f, NoDup (map fst d) -> NoDup (map fst (ddrop d f)).
Proof.
  induction d as [|[k v] d IH]; intros f N; [exact N|]. inversion N; subst. unfold ddrop in *. cbn [filter fst]. destruct (negb (beq f k)); cbn [map fst]; [|apply IH; assumption].
  constructor; [|apply IH; assumption]. intros I. apply H1. apply in_map_iff in I. destruct I as (x & <- & I). apply filter_In in I. apply in_map. tauto.
Qed.
Lemma ddrop_texts d f : texts d -> texts (ddrop d f).
Proof. intros T g v H. apply filter_In in H. eapply T. apply H. Qed.

(** ** Writes on one prefix *)
Section P.
Variable P : bytes -> Prop.
Hypothesis HP : prefixes P.

Definition shape (b : book) : Prop :=
  sorted (sig b) /\ sorted (dat b) /\ sorted (fld b) /\ forall k v, In (k, v) (fld b) -> exists p f, k = fkey p f /\ P p /\ ~ In 46 f.
Definition same (b b' : book) (q : bytes) : Prop :=
  get q (sig b') = get q (sig b) /\ get q (dat b') = get q (dat b) /\ forall f, get (fkey q f) (fld b') = get (fkey q f) (fld b).
Inductive onp (p : bytes) : write -> Prop :=
| on_ws : forall v, onp p (WSig p v)
| on_wd : forall v, onp p (WDat p v)
| on_wf : forall f v, ~ In 46 f -> onp p (WFld (fkey p f) v)
| on_ds : onp p (DSig p)
| on_dd : onp p (DDat p)
| on_dt : onp p (DTop p)
| on_df : forall f, onp p (DFld (fkey p f)).
Lemma shape_empty : shape empty.
Proof. cbn. unfold shape. cbn. split; [exact I|]. split; [exact I|]. split; [exact I|]. intros k v []. Qed.
Lemma nodot p : P p -> ~ In 46 p. Proof. intros H. apply HP. exact H. Qed.
Lemma wr_local p b w : P p -> shape b -> onp p w -> shape (wr b w) /\ forall q, P q -> q <> p -> same b (wr b w) q.
Proof.
  intros Pp (S1 & S2 & S3 & S4) O. inversion O; subst; cbn [wr]; unfold shape, same; cbn [sig dat fld].
  - split; [auto using sput_sorted|]. intros q Pq N. split; [apply get_sput_other; congruence|auto].
  - split; [auto using sput_sorted|]. intros q Pq N. split; [reflexivity|]. split; [apply get_sput_other; congruence|auto].
  - split.
    + split; [exact S1|]. split; [exact S2|]. split; [apply sput_sorted; exact S3|]. intros k u H'. apply sput_in in H'. destruct H' as [[= -> ->]|H']; [exists p, f; auto|eapply S4; eauto].
    + intros q Pq N. split; [reflexivity|]. split; [reflexivity|]. intros g. apply get_sput_other. intros E. apply fkey_inj in E; auto using nodot. destruct E; congruence.
  - split; [auto using sdel_sorted|]. intros q Pq N. split; [apply get_sdel_other; congruence|auto].
  - split; [auto using sdel_sorted|]. intros q Pq N. split; [reflexivity|]. split; [apply get_sdel_other; congruence|auto].
  - rewrite remTop_eq by exact S3. split.
    + split; [exact S1|]. split; [exact S2|]. split; [apply sorted_filter; exact S3|]. intros k u H'. apply filter_In in H'. eapply S4. apply H'.
    + intros q Pq N. split; [reflexivity|]. split; [reflexivity|]. intros g. rewrite (get_filter (fun k => negb (startswith k p))). destruct (startswith (fkey q g) p) eqn:T; [|reflexivity].
      apply (top_key P) in T; auto. congruence.
  - split.
    + split; [exact S1|]. split; [exact S2|]. split; [apply sdel_sorted; exact S3|]. intros k u H'. apply del_fst_in in H'. eapply S4; eauto.
    + intros q Pq N. split; [reflexivity|]. split; [reflexivity|]. intros g. apply get_sdel_other. intros E. apply fkey_inj in E; auto using nodot. destruct E; congruence.
Qed.
Lemma same_refl b q : same b b q. Proof. unfold same. auto. Qed.
Lemma same_trans b b' b'' q : same b b' q -> same b' b'' q -> same b b'' q.
Proof. intros (A1 & A2 & A3) (B1 & B2 & B3). split; [congruence|]. split; [congruence|]. intros f. rewrite B3. apply A3. Qed.
Lemma run_local p ws : forall b, P p -> shape b -> Forall (onp p) ws -> shape (run ws b) /\ forall q, P q -> q <> p -> same b (run ws b) q.
Proof.
  induction ws as [|w ws IH]; intros b Pp Sh F; [split; [exact Sh|intros; apply same_refl]|]. inversion F; subst. destruct (wr_local p b w Pp Sh H1) as [A B].
  cbn [run fold_left]. destruct (IH (wr b w) Pp A H2) as [C D]. split; [exact C|]. intros q Pq N. eapply same_trans; [apply B; assumption|apply D; assumption].
Qed.
Lemma run_app a c b : run (a ++ c) b = run c (run a b).
Proof. apply fold_left_app. Qed.

(** ** What is there for a contact *)
Variable E : env.
Hypothesis HE : honest E.

Definition fine (p : bytes) (d : dict) : Prop := NoDup (map fst d) /\ texts d /\ (forall f v, In (f, v) d -> ~ In 46 f /\ len p + 1 + len f <= 511) /\
  (dget d ID = None \/ dget d ID = Some (Txt p)).
Definition lift (o : option bytes) : option fval := match o with Some t => Some (Txt t) | None => None end.
Definition recs (b : book) (p : bytes) (d : dict) : Prop :=
  get p (dat b) = Some (dumps E d) /\ get p (sig b) = Some (sgn E (dumps E d)) /\ fine p d.
Definition good (b : book) (p : bytes) (o : option contact) : Prop :=
  match o with
  | None => get p (dat b) = None /\ forall f, get (fkey p f) (fld b) = None
  | Some m => (exists d, recs b p d /\ forall f, f <> ID -> dget d f = lift (m f)) /\
      (forall f, f <> ID -> get (fkey p f) (fld b) = m f) /\
      (get (fkey p ID) (fld b) = None \/ get (fkey p ID) (fld b) = Some p) /\
      (forall f t, m f = Some t -> field p f)
  end.
Lemma good_same b b' p o : same b b' p -> good b p o -> good b' p o.
Proof.
  intros (A & B & C) G. destruct o as [m|]; cbn in *.
  - destruct G as ((d & (R1 & R2 & R3) & D) & F & I & L). split; [exists d; split; [split; [congruence|split; [congruence|exact R3]]|exact D]|].
    split; [intros f N; rewrite C; auto|]. split; [rewrite C; exact I|exact L].
  - destruct G as [D F]. split; [congruence|]. intros f. rewrite C. apply F.
Qed.
Lemma good_ext b p m m' : (forall f, m f = m' f) -> good b p (Some m) -> good b p (Some m').
Proof.
  intros H G. cbn in *. destruct G as ((d & R & D) & F & I & L). split; [exists d; split; [exact R|intros f N; rewrite <- H; auto]|].
  split; [intros f N; rewrite <- H; auto|]. split; [exact I|]. intros f t M. rewrite <- H in M. eapply L; eauto.
Qed.
Lemma pok p : P p -> isnil p = false /\ long p = false /\ p <> [].
Proof. intros H. destruct (HP _ H) as (N & L & _). split; [destruct p; [congruence|reflexivity]|]. split; [unfold long; lia|exact N]. Qed.
Lemma load_recs b p d : P p -> recs b p d -> load E b p = Ok (Some d).
Proof.
  intros Pp (A & B & (N & T & _)). destruct (pok p Pp) as (X & Y & _). unfold load. rewrite X, Y, A, B. destruct HE as [J V]. rewrite V, J by assumption. reflexivity.
Qed.
Lemma getc_recs b p d : P p -> recs b p d -> getc E b p = Ok (Some (dset d ID (Txt p))).
Proof. intros Pp R. unfold getc. rewrite (load_recs _ _ _ Pp R). reflexivity. Qed.
Lemma getc_none b p : P p -> get p (dat b) = None -> getc E b p = Ok None.
Proof. intros Pp D. destruct (pok p Pp) as (X & Y & _). unfold getc, load. rewrite X, Y, D. reflexivity. Qed.
Lemma good_reads b p a : P p -> good b p (a p) -> reads E b a p.
Proof.
  intros Pp G. unfold reads. destruct (a p) as [m|]; [|apply getc_none; [exact Pp|apply G]]. destruct G as ((d & R & D) & _). exists (dset d ID (Txt p)). split; [apply getc_recs; assumption|].
  split; [rewrite dget_dset; reflexivity|]. intros f N. rewrite dget_dset. apply beq_neq in N. change [105; 100] with ID in N. rewrite N. apply beq_neq in N. rewrite D by exact N. reflexivity.
Qed.
(** the dictionary that get gives *)
Lemma fine_dset p d : P p -> fine p d -> fine p (dset d ID (Txt p)).
Proof.
  intros Pp (N & T & F & I). split; [apply dset_nodup; exact N|]. split; [apply dset_texts; exact T|]. split; [|right; rewrite dget_dset; reflexivity].
  intros f v H. apply dset_in in H. destruct H as [[-> ->]|H]; [|eapply F; eauto]. destruct (HP _ Pp) as (_ & L & _). split; [intros [H|[H|[]]]; discriminate H|]. change (len ID) with 2. lia.
Qed.

(** ** The writes of the operations *)
Lemma pins_run p : forall l b, NoDup (map fst l) -> texts l -> (forall f v, In (f, v) l -> ~ In 46 f /\ len p + 1 + len f <= 511) ->
  exists ws, pins p l = (ws, Ok tt) /\ Forall (onp p) ws /\ sig (run ws b) = sig b /\ dat (run ws b) = dat b /\
    forall f, get (fkey p f) (fld (run ws b)) = match dget l f with Some (Txt t) => Some t | _ => get (fkey p f) (fld b) end.
Proof.
  induction l as [|[k v] l IH]; intros b N T F; [exists []; split; [reflexivity|]; split; [constructor|]; split; [reflexivity|]; split; [reflexivity|]; intros f; reflexivity|].
  inversion N; subst. destruct (T k v (or_introl eq_refl)) as (t & ->). destruct (F k _ (or_introl eq_refl)) as [D L].
  destruct (IH (wr b (WFld (fkey p k) t)) H2) as (ws & E1 & O1 & S1 & D1 & F1); [intros f v I; eapply T; right; exact I|intros f v I; eapply F; right; exact I|].
  exists (WFld (fkey p k) t :: ws). cbn [pins]. assert (LL : long (fkey p k) = false) by (unfold long, fkey, len in *; rewrite app_length; cbn [List.length]; lia). rewrite LL, E1.
  split; [reflexivity|]. split; [constructor; [constructor; exact D|exact O1]|]. cbn [run fold_left]. change (fold_left wr ws (wr b (WFld (fkey p k) t))) with (run ws (wr b (WFld (fkey p k) t))).
  rewrite S1, D1. split; [reflexivity|]. split; [reflexivity|]. intros f. rewrite F1. cbn [dget wr fld]. destruct (beq_spec f k) as [->|NE].
  - rewrite (dget_none l) by assumption. apply get_sput_same. apply fkey_nonnil.
  - destruct (dget l f) as [[u|u]|]; [reflexivity| |]; apply get_sput_other; intros X; apply fkey_inj1 in X; congruence.
Qed.
Definition dflt (o : option dict) : dict := match o with None => [] | Some d => d end.
Lemma update_run p b o data : P p -> getc E b p = Ok o -> fine p data -> fine p (merge (dflt o) data) ->
  exists ws, update E b p data = (ws, Ok tt) /\ Forall (onp p) ws /\ recs (run ws b) p (merge (dflt o) data) /\
    forall f, get (fkey p f) (fld (run ws b)) = match dget data f with Some (Txt t) => Some t | _ => get (fkey p f) (fld b) end.
Proof.
  intros Pp G (N & T & F & I) M. unfold update. rewrite G. set (raw := dumps E (merge match o with None => [] | Some d => d end data)).
  destruct (pins_run p data (wr (wr b (WSig p (sgn E raw))) (WDat p raw)) N T F) as (ws & E1 & O1 & S1 & D1 & F1). rewrite E1.
  exists (WSig p (sgn E raw) :: WDat p raw :: ws). split; [reflexivity|]. split; [constructor; [constructor|constructor; [constructor|exact O1]]|].
  cbn [run fold_left]. change (fold_left wr ws ?x) with (run ws x). destruct (pok p Pp) as (_ & _ & NN). split.
  - split; [rewrite D1; cbn [wr dat]; apply get_sput_same; exact NN|]. split; [rewrite S1; cbn [wr sig]; apply get_sput_same; exact NN|exact M].
  - intros f. rewrite F1. reflexivity.
Qed.
(** the contact that a dictionary gives *)
Definition asContact (d : dict) : contact := fun f => if list_N_dec f ID then None else match dget d f with Some (Txt t) => Some t | _ => None end.
Lemma fine_field p d f v : fine p d -> dget d f = Some v -> f <> ID -> field p f.
Proof. intros (N & T & F & I) G X. apply dget_in in G. destruct (F _ _ G) as [A B]. split; [exact A|]. split; [exact X|exact B]. Qed.
Lemma lift_as d f : texts d -> f <> ID -> lift (asContact d f) = dget d f.
Proof. intros T N. unfold asContact. destruct (list_N_dec f ID); [congruence|]. destruct (dget d f) as [v|] eqn:G; [|reflexivity]. destruct (T f v (dget_in _ _ _ G)) as (t & ->). reflexivity. Qed.
Lemma as_field p d f t : fine p d -> asContact d f = Some t -> field p f.
Proof. intros Fi H. unfold asContact in H. destruct (list_N_dec f ID) as [|NE]; [discriminate|]. destruct (dget d f) as [v|] eqn:G; [|discriminate]. eapply fine_field; eauto. Qed.
Lemma fine_merge_nil p d : fine p d -> fine p (merge [] d) /\ forall f, dget (merge [] d) f = dget d f.
Proof.
  intros (N & T & F & I). assert (G : forall f, dget (merge [] d) f = dget d f) by (intros f; rewrite merge_get by exact N; destruct (dget d f); reflexivity).
  split; [|exact G]. split; [apply merge_nodup; constructor|]. split; [apply merge_texts; [exact T|intros f v []]|]. split; [|rewrite G; exact I].
  intros f v H. apply in_dget in H; [|apply merge_nodup; constructor]. rewrite G in H. apply dget_in in H. eapply F; eauto.
Qed.
Lemma remove_run p b : P p -> shape b -> exists ws, remove p = (ws, Ok tt) /\ Forall (onp p) ws /\ good (run ws b) p None /\ shape (run ws b).
Proof.
  intros Pp Sh. destruct (pok p Pp) as (_ & L & _). unfold remove. rewrite L. exists [DSig p; DDat p; DTop p]. split; [reflexivity|].
  assert (O1 : Forall (onp p) [DSig p; DDat p; DTop p]) by (constructor; [constructor|constructor; [constructor|constructor; [constructor|constructor]]]). split; [exact O1|].
  split; [|apply (run_local p); assumption]. destruct Sh as (S1 & S2 & S3 & S4). cbn [run fold_left wr good dat fld]. split; [apply get_sdel_same; exact S2|].
  intros f. rewrite get_remTop by exact S3. rewrite top_own. reflexivity.
Qed.
Lemma replace_run p b data : P p -> shape b -> fine p data ->
  exists ws, replace E b p data = (ws, Ok tt) /\ Forall (onp p) ws /\ good (run ws b) p (Some (asContact data)) /\
   (forall f, get (fkey p f) (fld (run ws b)) = match dget data f with Some (Txt t) => Some t | _ => None end).
Proof.
  intros Pp Sh Fi. destruct (remove_run p b Pp Sh) as (ws1 & E1 & O1 & G1 & Sh1). destruct (fine_merge_nil p data Fi) as [Fm Gm].
  destruct (update_run p (run ws1 b) None data Pp (getc_none _ _ Pp (proj1 G1)) Fi Fm) as (ws2 & E2 & O2 & R2 & F2).
  exists (ws1 ++ ws2). unfold replace, andThen. rewrite E1, E2. split; [reflexivity|]. split; [apply Forall_app; auto|]. rewrite run_app.
  assert (GF : forall f, get (fkey p f) (fld (run ws2 (run ws1 b))) = match dget data f with Some (Txt t) => Some t | _ => None end) by (intros f; rewrite F2; destruct G1 as [_ G1]; rewrite G1; reflexivity).
  split; [|exact GF]. pose proof Fi as (N & T & F & I). split; [exists (merge [] data); split; [exact R2|]; intros f NE; rewrite Gm, lift_as; auto|]. split; [|split].
  - intros f NE. rewrite GF. unfold asContact. destruct (list_N_dec f ID); [congruence|reflexivity].
  - rewrite GF. destruct I as [-> | ->]; auto.
  - intros f t. apply as_field. exact Fi.
Qed.
End P.
