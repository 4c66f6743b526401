(** The mailbox, its server and its poller: what holds at all times. *)
From Coq Require Import Lia ZifyClasses ZifyInst ZifyN Zify.
From Verif Require Import Prelude Lex SubsModel SubsProofs DbModel DbSpec DbProofs DbRef NmModel MbModel MbSpec MbProofs MbProofs2.
Ltac Zify.zify_post_hook ::= Z.div_mod_to_equations.
Open Scope N_scope.

(** ** Cursors *)
Definition nextOf (t : bytes) (c : list (bytes * N)) : N := match curOf t c with Some n => n + 1 | None => 0 end.
Lemma curSet_same : forall t n c, curOf t (curSet t n c) = Some n.
Proof.
  unfold curOf. intros t n. induction c as [|[t' m] c IH]; cbn [curSet find fst]; [rewrite beq_refl; reflexivity|].
  destruct (beq_spec t' t) as [->|NE]; cbn [find fst]; [rewrite beq_refl; reflexivity|]. destruct (beq_spec t' t); [congruence|exact IH].
Qed.
Lemma curSet_other : forall t n c t', t' <> t -> curOf t' (curSet t n c) = curOf t' c.
Proof.
  unfold curOf. intros t n. induction c as [|[t0 m] c IH]; intros t' NE; cbn [curSet find fst].
  - destruct (beq_spec t t'); [congruence|reflexivity].
  - destruct (beq_spec t0 t) as [->|N0]; cbn [find fst]; [destruct (beq_spec t t'); [congruence|reflexivity]|]. destruct (beq t0 t'); [reflexivity|]. apply IH. exact NE.
Qed.
Lemma curOf_ask : forall t c l, In t l -> curOf t (ask l c) = Some (nextOf t c).
Proof.
  intros t c. unfold ask, nextOf. induction l as [|x l IH]; intros IN; [destruct IN|]. unfold curOf at 1. cbn [map find fst].
  destruct (beq_spec x t) as [->|NE]; [reflexivity|]. destruct IN as [->|IN]; [congruence|]. exact (IH IN).
Qed.
Lemma ask_fst : forall c l, map fst (ask l c) = l.
Proof. intros. unfold ask. rewrite map_map. cbn [fst]. apply map_id. Qed.
Lemma curOf_in : forall t (c : list (bytes * N)) n, curOf t c = Some n -> In (t, n) c.
Proof.
  unfold curOf. intros t c n. destruct (find (fun e => beq (fst e) t) c) as [[x m]|] eqn:F; intros E; [|discriminate].
  apply find_some in F. destruct F as [F1 F2]. cbn [fst] in F2. destruct (beq_spec x t); [|discriminate]. inversion E; subst. exact F1.
Qed.
Lemma in_curOf : forall t (c : list (bytes * N)) n, NoDup (map fst c) -> In (t, n) c -> curOf t c = Some n.
Proof.
  unfold curOf. intros t c n. induction c as [|[x m] c IH]; intros ND IN; [destruct IN|]. cbn [map fst] in ND. inversion ND; subst. cbn [find fst].
  destruct IN as [E|IN]; [inversion E; subst; rewrite beq_refl; reflexivity|]. destruct (beq_spec x t) as [->|NE]; [|auto].
  exfalso. apply H1. apply in_map_iff. exists (t, n). auto.
Qed.

(** ** Events of one topic *)
Definition named (t : bytes) (l : list event) : list event := filter (fun e => beq (eName e) t) l.
Definition evs (t : bytes) (n : N) (l : list bytes) : list event := map (fun e => mkEv (decstr (fst e)) t (snd e)) (enum n l).
Lemma named_app : forall t a b, named t (a ++ b) = named t a ++ named t b.
Proof. intros. unfold named. apply filter_app. Qed.
Lemma evs_app : forall t n a b, evs t n (a ++ b) = evs t n a ++ evs t (n + len a) b.
Proof. intros. unfold evs. rewrite enum_app, map_app. reflexivity. Qed.
Lemma evs_in : forall t l n e, In e (evs t n l) -> exists i, eId e = decstr i /\ eName e = t /\ In (eData e) l.
Proof.
  intros t. induction l as [|x l IH]; intros n e IN; [destruct IN|]. cbn in IN. destruct IN as [<-|IN]; [exists n; cbn; auto|].
  destruct (IH _ _ IN) as (i & A & B & C). exists i. cbn. auto.
Qed.

Lemma Forall2_imp : forall A B (P Q : A -> B -> Prop) l l', (forall x y, P x y -> Q x y) -> Forall2 P l l' -> Forall2 Q l l'.
Proof. intros A B P Q l l' H F. induction F; constructor; auto. Qed.
Lemma len_nil : forall A, len (@nil A) = 0. Proof. reflexivity. Qed.
Lemma len_app' : forall A (a b : list A), len (a ++ b) = len a + len b.
Proof. intros. unfold len. rewrite app_length. lia. Qed.
Lemma len_one : forall A (x : A), len [x] = 1. Proof. reflexivity. Qed.

Lemma mail_app : forall k a b, mail k (a ++ b) = mail k a ++ mail k b.
Proof. intros. unfold mail. apply flat_map_app. Qed.
Lemma mail_len : forall k ops, len (mail k ops) <= len (allMail ops).
Proof.
  intros k. induction ops as [|o ops IH]; [unfold len; cbn; lia|]. unfold mail, allMail in *. cbn [flat_map]. rewrite !len_app'. unfold len in *.
  destruct o as [k' m| | | | | | | | | |]; cbn [List.length]; try lia. destruct (beq k' k); cbn [List.length]; lia.
Qed.
Lemma mail_all : forall k ops m, In m (mail k ops) -> In m (allMail ops).
Proof.
  intros k ops m IN. unfold mail, allMail in *. apply in_flat_map in IN. destruct IN as (o & A & B). apply in_flat_map. exists o. split; [exact A|].
  destruct o; try exact B. destruct (beq key k); [exact B|destruct B].
Qed.
Lemma crashes_app : forall a b, crashes (a ++ b) = crashes a + crashes b.
Proof. intros. unfold crashes. rewrite filter_app, len_app'. reflexivity. Qed.

Section Sys.
Variable dig : bytes -> bytes.
Variable K : bytes -> Prop.
Hypothesis FL : flat 46 K.
Variable pre : bytes.
Variable topics : list bytes.
Hypothesis ND : NoDup topics.
Hypothesis NM : forall t, In t topics -> t <> [] /\ oneLine t /\ K (pre ++ t).

Definition flight (s : sys) : list event := match s_conn s with Some (_, fl) => fl | None => [] end.
Definition pendOn (t : bytes) (s : sys) : bool := match s_pend s with Some e => beq (eName e) t | None => false end.

Definition TI (M : list bytes) (crs : N) (t : bytes) (s : sys) : Prop :=
  exists p a b ids nn r,
    M = p ++ a ++ b /\ named t (flight s) = evs t (len p) a /\
    (forall tp fl, s_conn s = Some (Some tp, fl) -> curOf t tp = Some (len p + len a)) /\
    (if pendOn t s then nextOf t (s_cur s) + 1 = len p /\ (forall e, s_pend s = Some e -> eId e = decstr (nextOf t (s_cur s))) else nextOf t (s_cur s) = len p) /\
    arrives ids nn r /\ Forall2 (fun i m => nth_error M (N.to_nat i) = Some m) ids (got t s) /\
    (nn = len p \/ (nn = len p + 1 /\ pendOn t s = false)) /\ nn <= len M /\ r + (nn - len p) <= crs.

Definition SI (ops : list op) (s : sys) : Prop :=
  MInv dig K (fun k => mail k ops) (s_mb s) /\
  (forall t, In t topics -> TI (mail (pre ++ t) ops) (crashes ops) t s) /\
  Forall (fun e => In (eName e) topics) (flight s) /\
  (forall e, s_pend s = Some e -> In (eName e) topics) /\
  (forall tp fl, s_conn s = Some (Some tp, fl) -> map fst tp = topics).

Lemma si0 : SI [] sys0.
Proof.
  split; [apply minv0|]. split; [|split; [constructor|split; discriminate]].
  intros t IN. exists [], [], [], [], 0, 0. split; [reflexivity|]. split; [reflexivity|]. split; [discriminate|]. split; [reflexivity|]. split; [constructor|].
  split; [constructor|]. split; [left; reflexivity|]. split; [unfold len; cbn; lia|]. unfold len, crashes. cbn. lia.
Qed.

(** ** What the stream reads *)
Definition rest (M : bytes -> list bytes) (e : bytes * N) : list bytes := skipn (N.to_nat (snd e)) (M (pre ++ fst e)).
Lemma iter_ok : forall M mb tp, MInv dig K M mb -> (forall k, Forall clean (M k)) -> (forall k, len (M k) <= MaxON) ->
  Forall (fun e => K (pre ++ fst e) /\ snd e <= len (M (pre ++ fst e))) tp ->
  iterNext mb pre tp = Ok (map (fun e => (fst e, snd e + len (rest M e))) tp,
    flat_map (fun e => map (fun x => mkSent (fst e) (fst x) (snd x)) (enum (snd e) (rest M e))) tp).
Proof.
  intros M mb tp MI C SZ. induction tp as [|[t i] tp IH]; intros F; [reflexivity|]. inversion F; subst. destruct H1 as [KK LE]. cbn [fst snd] in *. cbn [iterNext].
  assert (E : i = len (firstn (N.to_nat i) (M (pre ++ t)))). { unfold len in *. rewrite firstn_length. lia. }
  assert (SP : M (pre ++ t) = firstn (N.to_nat i) (M (pre ++ t)) ++ skipn (N.to_nat i) (M (pre ++ t))) by (symmetry; apply firstn_skipn).
  assert (CL : cloneTopic (pre ++ t) i mb = Ok (enum i (rest M (t, i)))).
  { unfold rest. cbn [fst snd]. rewrite E at 1. rewrite (clone_ok dig K FL M mb (pre ++ t) _ _ MI KK SP).
    - rewrite <- E. reflexivity.
    - rewrite <- E. etransitivity; [exact LE|apply SZ].
    - specialize (C (pre ++ t)). rewrite SP in C. apply Forall_app in C. apply C. }
  rewrite CL. cbn [bind]. rewrite (IH H2). cbn [bind map flat_map fst snd]. rewrite enum_len. reflexivity.
Qed.

Lemma skip_app : forall (p a b : list bytes), skipn (N.to_nat (len p + len a)) (p ++ a ++ b) = b.
Proof.
  intros. rewrite app_assoc. replace (N.to_nat (len p + len a)) with (List.length (p ++ a)); [|unfold len; rewrite app_length; lia].
  rewrite skipn_app, skipn_all, Nat.sub_diag. reflexivity.
Qed.
Lemma named_out : forall M tp t, NoDup (map fst tp) ->
  named t (map evOf (flat_map (fun e => map (fun x => mkSent (fst e) (fst x) (snd x)) (enum (snd e) (rest M e))) tp)) =
  match curOf t tp with Some i => evs t i (rest M (t, i)) | None => [] end.
Proof.
  intros M tp t. unfold curOf. induction tp as [|[t0 i] tp IH]; intros N0; [reflexivity|]. cbn [map fst] in N0. inversion N0; subst. cbn [flat_map fst snd find].
  rewrite map_app, named_app, (IH H2), map_map. cbn [evOf sFn sTopic sMsg]. unfold evOf. cbn [sFn sTopic sMsg].
  destruct (beq_spec t0 t) as [->|NE].
  - unfold named. rewrite filter_all' by (rewrite Forall_map; apply Forall_forall; intros; cbn; apply beq_refl).
    destruct (find (fun e => beq (fst e) t) tp) as [[x m]|] eqn:F; [|rewrite app_nil_r; reflexivity].
    exfalso. apply find_some in F. destruct F as [F1 F2]. cbn [fst] in F2. destruct (beq_spec x t); [subst|discriminate]. apply H1. apply in_map_iff. exists (t, m). auto.
  - unfold named at 1. rewrite filter_none'; [reflexivity|]. rewrite Forall_map. apply Forall_forall. intros x _. cbn. destruct (beq_spec t0 t); [congruence|reflexivity].
Qed.
Lemma curOf_map : forall (f : bytes * N -> N) t tp, curOf t (map (fun e => (fst e, f e)) tp) = match curOf t tp with Some i => Some (f (t, i)) | None => None end.
Proof.
  intros f t. unfold curOf. induction tp as [|[t0 i] tp IH]; [reflexivity|]. cbn [map find fst]. destruct (beq_spec t0 t) as [->|NE]; [reflexivity|exact IH].
Qed.

(** ** Steps *)
Lemma ti_same : forall M crs t s s', TI M crs t s -> flight s' = flight s -> s_pend s' = s_pend s -> s_cur s' = s_cur s -> s_log s' = s_log s ->
  (forall tp fl, s_conn s' = Some (Some tp, fl) -> exists fl', s_conn s = Some (Some tp, fl')) -> TI M crs t s'.
Proof.
  intros M crs t s s' (p & a & b & ids & nn & r & A1 & A2 & A3 & A4 & A5 & A6 & A7 & A8 & A9) E1 E2 E3 E4 E5.
  exists p, a, b, ids, nn, r. unfold pendOn, got in *. rewrite E1, E2, E3, E4. split; [exact A1|]. split; [exact A2|]. split; [|auto 10].
  intros tp fl X. destruct (E5 _ _ X) as (fl' & Y). exact (A3 _ _ Y).
Qed.
Lemma ti_more : forall M crs t s x, TI M crs t s -> TI (M ++ x) crs t s.
Proof.
  intros M crs t s x (p & a & b & ids & nn & r & A1 & A2 & A3 & A4 & A5 & A6 & A7 & A8 & A9). exists p, a, (b ++ x), ids, nn, r.
  split; [rewrite A1, !app_assoc; reflexivity|]. split; [exact A2|]. split; [exact A3|]. split; [exact A4|]. split; [exact A5|].
  split; [|split; [exact A7|split; [rewrite len_app'; lia|exact A9]]].
  eapply Forall2_imp; [|exact A6]. cbn beta. intros i m E. rewrite nth_error_app1; [exact E|]. apply nth_error_Some. congruence.
Qed.

Lemma si_store : forall ops s k m, SI ops s -> K k -> apart dig (allMail (ops ++ [Store k m])) -> len (allMail ops) <= MaxON ->
  SI (ops ++ [Store k m]) (step dig pre topics s (Store k m)).
Proof.
  intros ops s k m (M1 & T1 & F1 & P1 & C1) KK AP SZ. cbn [step].
  assert (IA : forall x, In x (allMail ops) -> In x (allMail (ops ++ [Store k m]))) by (intros x IN; unfold allMail; rewrite flat_map_app; apply in_or_app; left; exact IN).
  assert (IM : In m (allMail (ops ++ [Store k m]))) by (unfold allMail; rewrite flat_map_app; apply in_or_app; right; left; reflexivity).
  destruct (store_ok dig K FL _ _ k m M1 KK) as (mb' & S1 & S2).
  { etransitivity; [apply mail_len|exact SZ]. }
  { intros k' m' IN E. apply AP; [apply IA; exact (mail_all _ _ _ IN)|exact IM|exact E]. }
  rewrite S1. split; [|split; [|split; [exact F1|split; [exact P1|exact C1]]]].
  - cbn [withMb s_mb]. eapply minv_ext; [|exact S2]. intros k'. cbn beta. rewrite mail_app. cbn. rewrite app_nil_r. reflexivity.
  - intros t IN. rewrite mail_app, crashes_app. replace (crashes [Store k m]) with 0 by reflexivity. rewrite N.add_0_r. apply ti_more.
    eapply ti_same; [exact (T1 t IN)|reflexivity|reflexivity|reflexivity|reflexivity|]. intros tp fl E. exists fl. exact E.
Qed.

(** an operation that stores nothing *)
Lemma si_plain : forall ops s s' o, SI ops s -> match o with Store _ _ => False | _ => True end -> s_mb s' = s_mb s ->
  (forall t, In t topics -> TI (mail (pre ++ t) ops) (crashes (ops ++ [o])) t s') -> Forall (fun e => In (eName e) topics) (flight s') ->
  (forall e, s_pend s' = Some e -> In (eName e) topics) -> (forall tp fl, s_conn s' = Some (Some tp, fl) -> map fst tp = topics) -> SI (ops ++ [o]) s'.
Proof.
  intros ops s s' o (M1 & _) NS E T F P C. assert (ME : forall k, mail k (ops ++ [o]) = mail k ops).
  { intros k. rewrite mail_app. destruct o; try contradiction; apply app_nil_r. }
  split; [rewrite E; eapply minv_ext; [|exact M1]; intros; symmetry; apply ME|]. split; [intros t IN; rewrite ME; auto|]. auto.
Qed.
Lemma ti_crs : forall M crs crs' t s, TI M crs t s -> crs <= crs' -> TI M crs' t s.
Proof.
  intros M crs crs' t s (p & a & b & ids & nn & r & A1 & A2 & A3 & A4 & A5 & A6 & A7 & A8 & A9) LE. exists p, a, b, ids, nn, r.
  split; [exact A1|]. split; [exact A2|]. split; [exact A3|]. split; [exact A4|]. split; [exact A5|]. split; [exact A6|]. split; [exact A7|]. split; [exact A8|]. lia.
Qed.
(** the connection loses what it carries *)
Lemma ti_cut : forall M crs t s s', TI M crs t s -> pendOn t s = false \/ s_pend s' = s_pend s -> s_cur s' = s_cur s -> s_log s' = s_log s -> flight s' = [] ->
  (forall tp fl, s_conn s' = Some (Some tp, fl) -> curOf t tp = Some (nextOf t (s_cur s))) -> s_pend s' = None -> TI M (crs + (if pendOn t s then 1 else 0)) t s'.
Proof.
  intros M crs t s s' (p & a & b & ids & nn & r & A1 & A2 & A3 & A4 & A5 & A6 & A7 & A8 & A9) PE EC EL EF CN PN.
  unfold TI. unfold got in *. rewrite EC, EL, EF. assert (PO : pendOn t s' = false) by (unfold pendOn; rewrite PN; reflexivity). rewrite PO.
  destruct (pendOn t s) eqn:PT.
  - destruct PE as [PE|PE]; [discriminate|]. unfold pendOn in PT. rewrite <- PE, PN in PT. discriminate.
  - exists p, [], (a ++ b), ids, nn, r. split; [exact A1|]. split; [reflexivity|]. split; [intros tp fl E; rewrite (CN _ _ E), A4, len_nil, N.add_0_r; reflexivity|].
    split; [exact A4|]. split; [exact A5|]. split; [exact A6|]. split; [exact A7|]. split; [exact A8|lia].
Qed.
Lemma ti_crash : forall M crs t s, TI M crs t s -> TI M (crs + 1) t (crash s).
Proof.
  intros M crs t s (p & a & b & ids & nn & r & A1 & A2 & A3 & A4 & A5 & A6 & A7 & A8 & A9). unfold TI, crash, flight, pendOn. cbn [s_conn s_pend s_cur s_log]. unfold got in *. cbn [s_log].
  destruct (pendOn t s) eqn:PT.
  - destruct A4 as [A4 _]. destruct A7 as [A7|[_ X]]; [|discriminate].
    destruct p as [|x p' _] using rev_ind; [rewrite len_nil in A4; clear - A4; lia|].
    rewrite len_app', len_one in A4, A7, A9.
    exists p', [], ([x] ++ a ++ b), ids, nn, r. split; [rewrite A1, <- !app_assoc; reflexivity|]. split; [reflexivity|]. split; [discriminate|]. split; [lia|].
    split; [exact A5|]. split; [exact A6|]. split; [right; split; [lia|reflexivity]|]. split; [exact A8|lia].
  - exists p, [], (a ++ b), ids, nn, r. split; [exact A1|]. split; [reflexivity|]. split; [discriminate|]. split; [exact A4|]. split; [exact A5|]. split; [exact A6|].
    split; [destruct A7 as [A7|[A7 _]]; [left|right; split; [|reflexivity]]; exact A7|]. split; [exact A8|lia].
Qed.

(** receiving the next event of a topic *)
Lemma ti_recv : forall M crs t s sv e fl, TI M crs t s -> s_conn s = Some (sv, e :: fl) -> s_pend s = None -> clean (eData e) \/ True ->
  TI M crs t (mkSys (s_mb s) (s_cur s) (Some (sv, fl)) (Some e) (s_queue s ++ [eData e]) (s_taken s) (s_log s ++ [e])).
Proof.
  intros M crs t s sv e fl (p & a & b & ids & nn & r & A1 & A2 & A3 & A4 & A5 & A6 & A7 & A8 & A9) EC EP _.
  unfold flight in A2. rewrite EC in A2. unfold pendOn in A4, A7. rewrite EP in A4, A7.
  unfold TI, flight, pendOn, got in *. cbn [s_conn s_pend s_cur s_log]. rewrite filter_app, map_app. cbn [filter].
  unfold named in A2. cbn [filter] in A2. destruct (beq_spec (eName e) t) as [ET|NT].
  - destruct a as [|x a]; [discriminate|]. unfold evs in A2. cbn [enum map] in A2. fold (evs t (len p + 1) a) in A2. injection A2 as EE A2.
    assert (NN : nth_error M (N.to_nat (len p)) = Some x).
    { rewrite A1. rewrite nth_error_app2 by (unfold len; lia). replace (N.to_nat (len p) - List.length p)%nat with 0%nat by (unfold len; lia). reflexivity. }
    assert (LP : len p + 1 <= len M). { rewrite A1, len_app'. unfold len. cbn [List.length app]. lia. }
    assert (FX : forall j, j = len p -> Forall2 (fun i m => nth_error M (N.to_nat i) = Some m) (ids ++ [j]) (map eData (filter (fun e0 => beq (eName e0) t) (s_log s)) ++ map eData [e])).
    { intros j ->. apply Forall2_app; [exact A6|]. constructor; [|constructor]. rewrite EE. cbn [eData]. exact NN. }
    destruct A7 as [A7|[A7 _]].
    + exists (p ++ [x]), a, b, (ids ++ [nn]), (nn + 1), r. rewrite len_app', len_one. split; [rewrite A1, <- app_assoc; reflexivity|]. split; [exact A2|].
      split; [intros tp fl' E; inversion E; subst sv; rewrite (A3 _ _ EC); f_equal; unfold len; cbn [List.length]; lia|].
      split; [split; [lia|intros e0 E; inversion E; subst e0; rewrite EE; cbn [eId]; f_equal; lia]|].
      split; [constructor; exact A5|]. split; [apply FX; exact A7|]. split; [left; lia|]. split; [lia|lia].
    + exists (p ++ [x]), a, b, (ids ++ [len p]), nn, (r + 1). rewrite len_app', len_one. split; [rewrite A1, <- app_assoc; reflexivity|]. split; [exact A2|].
      split; [intros tp fl' E; inversion E; subst sv; rewrite (A3 _ _ EC); f_equal; unfold len; cbn [List.length]; lia|].
      split; [split; [lia|intros e0 E; inversion E; subst e0; rewrite EE; cbn [eId]; f_equal; lia]|].
      split; [constructor; [exact A5|lia]|]. split; [apply FX; reflexivity|]. split; [left; lia|]. split; [exact A8|lia].
  - exists p, a, b, ids, nn, r. split; [exact A1|]. split; [exact A2|]. split; [intros tp fl' E; inversion E; subst sv; exact (A3 _ _ EC)|]. split; [exact A4|].
    split; [exact A5|]. split; [cbn [map]; rewrite app_nil_r; exact A6|]. split; [exact A7|]. split; [exact A8|exact A9].
Qed.
Lemma ti_pin : forall M crs t s e n, TI M crs t s -> s_pend s = Some e -> (eName e = t -> decint (eId e) = Ok n) ->
  TI M crs t (mkSys (s_mb s) (curSet (eName e) n (s_cur s)) (s_conn s) None (s_queue s) (s_taken s) (s_log s)).
Proof.
  intros M crs t s e n (p & a & b & ids & nn & r & A1 & A2 & A3 & A4 & A5 & A6 & A7 & A8 & A9) EP DE.
  unfold TI, flight, pendOn, got in *. cbn [s_conn s_pend s_cur s_log]. rewrite EP in A4, A7. destruct (beq_spec (eName e) t) as [ET|NT].
  - destruct A4 as [A4 A4']. specialize (A4' e eq_refl). specialize (DE ET). rewrite A4', decint_decstr in DE. apply ok_inj in DE.
    exists p, a, b, ids, nn, r. split; [exact A1|]. split; [exact A2|]. split; [exact A3|].
    split; [unfold nextOf; rewrite ET, curSet_same, <- DE; exact A4|]. split; [exact A5|]. split; [exact A6|]. split; [destruct A7 as [A7|[_ X]]; [left; exact A7|discriminate]|]. auto.
  - exists p, a, b, ids, nn, r. split; [exact A1|]. split; [exact A2|]. split; [exact A3|].
    split; [unfold nextOf; rewrite curSet_other by congruence; exact A4|]. split; [exact A5|]. split; [exact A6|]. split; [exact A7|]. auto.
Qed.

Lemma pend_id : forall ops s e, SI ops s -> s_pend s = Some e -> exists n, decint (eId e) = Ok n.
Proof.
  intros ops s e (_ & T & _ & P & _) EP. destruct (T _ (P e EP)) as (p & a & b & ids & nn & r & _ & _ & _ & A4 & _).
  unfold pendOn in A4. rewrite EP, beq_refl in A4. destruct A4 as [_ A4]. rewrite (A4 e eq_refl), decint_decstr. eauto.
Qed.
Lemma flight_good : forall ops s e, SI ops s -> (forall k, Forall clean (mail k ops)) -> In e (flight s) -> isnil (eId e) || isnil (eData e) || isnil (eName e) = false.
Proof.
  intros ops s e (_ & T & F & _) C IN. rewrite Forall_forall in F. pose proof (F e IN) as IT. destruct (T _ IT) as (p & a & b & ids & nn & r & A1 & A2 & _).
  assert (IE : In e (evs (eName e) (len p) a)). { rewrite <- A2. unfold named. apply filter_In. split; [exact IN|apply beq_refl]. }
  destruct (evs_in _ _ _ _ IE) as (i & B1 & _ & B3). specialize (C (pre ++ eName e)). rewrite A1 in C. apply Forall_app in C. destruct C as [_ C]. apply Forall_app in C. destruct C as [C _].
  rewrite Forall_forall in C. destruct (C _ B3) as (C1 & _). destruct (NM _ IT) as (N1 & _). rewrite B1.
  pose proof (decstr_ne i). destruct (decstr i); [congruence|]. destruct (eData e); [congruence|]. destruct (eName e); [congruence|]. reflexivity.
Qed.

Lemma next_ok : forall ops s tp fl, SI ops s -> (forall k, Forall clean (mail k ops)) -> len (allMail ops) <= MaxON -> s_conn s = Some (Some tp, fl) ->
  exists tp' out, iterNext (s_mb s) pre tp = Ok (tp', out) /\ Forall okSent out /\ map fst tp' = topics /\ Forall (fun e => In (sTopic e) topics) out /\
    forall t, In t topics -> exists i, curOf t tp = Some i /\ named t (map evOf out) = evs t i (skipn (N.to_nat i) (mail (pre ++ t) ops)) /\
      curOf t tp' = Some (i + len (skipn (N.to_nat i) (mail (pre ++ t) ops))).
Proof.
  intros ops s tp fl (M1 & T1 & F1 & P1 & C1) C SZ EC. pose proof (C1 _ _ EC) as ET.
  assert (NDT : NoDup (map fst tp)) by (rewrite ET; exact ND).
  assert (FT : Forall (fun e => K (pre ++ fst e) /\ snd e <= len (mail (pre ++ fst e) ops)) tp).
  { apply Forall_forall. intros [t i] IN. cbn [fst snd]. assert (IT : In t topics) by (rewrite <- ET; apply in_map_iff; exists (t, i); auto).
    split; [apply NM; exact IT|]. destruct (T1 t IT) as (p & a & b & ids & nn & r & A1 & _ & A3 & _). specialize (A3 _ _ EC). rewrite (in_curOf _ _ _ NDT IN) in A3. inversion A3; subst i. rewrite A1, !len_app'. lia. }
  assert (LM : forall k, len (mail k ops) <= MaxON) by (intros k; etransitivity; [apply mail_len|exact SZ]).
  eexists. eexists. split; [exact (iter_ok _ _ tp M1 C LM FT)|].
  assert (TO : forall e, In e (flat_map (fun e => map (fun x => mkSent (fst e) (fst x) (snd x)) (enum (snd e) (rest (fun k => mail k ops) e))) tp) -> In (sTopic e) topics /\ exists k, In (sMsg e) (mail k ops)).
  { intros e IN. apply in_flat_map in IN. destruct IN as ([t i] & B1 & B2). cbn [fst snd] in B2. apply in_map_iff in B2. destruct B2 as ([j m] & <- & B2). cbn [sTopic sMsg fst snd].
    split; [rewrite <- ET; apply in_map_iff; exists (t, i); auto|]. exists (pre ++ t).
    assert (Y : In m (rest (fun k => mail k ops) (t, i))). { clear - B2. revert B2. generalize (rest (fun k => mail k ops) (t, i)). intros l. revert i. induction l as [|x l IH]; intros i IN; [destruct IN|]. cbn in IN. destruct IN as [E|IN]; [inversion E; left; reflexivity|right; eapply IH; exact IN]. }
    unfold rest in Y. cbn [fst snd] in Y. rewrite <- (firstn_skipn (N.to_nat i) (mail (pre ++ t) ops)). apply in_or_app. right. exact Y. }
  split; [apply Forall_forall; intros e IN; destruct (TO e IN) as [X (k & Y)]; split; [apply NM; exact X|]; specialize (C k); rewrite Forall_forall in C; apply (C _ Y)|].
  split; [rewrite map_map; cbn [fst]; exact ET|].
  split; [apply Forall_forall; intros e IN; apply (TO e IN)|].
  intros t IN. destruct (T1 t IN) as (p & a & b & ids & nn & r & A1 & _ & A3 & _). specialize (A3 _ _ EC). exists (len p + len a). split; [exact A3|].
  split; [rewrite named_out by exact NDT; rewrite A3; reflexivity|]. rewrite (curOf_map (fun e => snd e + len (rest (fun k => mail k ops) e))), A3. reflexivity.
Qed.

Lemma si_step : forall ops s o, SI ops s -> plainOp K o -> apart dig (allMail (ops ++ [o])) -> len (allMail ops) <= MaxON -> (forall k, Forall clean (mail k ops)) ->
  SI (ops ++ [o]) (step dig pre topics s o).
Proof.
  intros ops s o S0 PO AP SZ C. pose proof S0 as (M1 & T1 & F1 & P1 & C1).
  assert (TX : forall t, In t topics -> TI (mail (pre ++ t) ops) (crashes (ops ++ [o])) t s).
  { intros t IN. eapply ti_crs; [exact (T1 t IN)|]. rewrite crashes_app. lia. }
  assert (SAME : match o with Store _ _ => False | _ => True end -> SI (ops ++ [o]) s) by (intros NS; eapply si_plain; eauto).
  destruct o as [k m|k m|k n| | | | | | | |]; try contradiction.
  - apply si_store; assumption.
  - cbn [step]. destruct (s_conn s) as [[sv fl]|] eqn:EC; [|apply SAME; exact Logic.I].
    eapply si_plain; [exact S0|exact Logic.I|reflexivity| | |exact P1|discriminate].
    + intros t IN. eapply ti_same; [exact (TX t IN)|unfold flight; cbn; rewrite EC; reflexivity|reflexivity|reflexivity|reflexivity|discriminate].
    + unfold flight in *. rewrite EC in F1. exact F1.
  - cbn [step]. destruct (s_conn s) as [[sv fl]|] eqn:EC; [apply SAME; exact Logic.I|]. destruct (s_pend s) as [e|] eqn:EP; [apply SAME; exact Logic.I|].
    eapply si_plain; [exact S0|exact Logic.I|reflexivity| |constructor|cbn; rewrite EP; discriminate|intros tp fl E; inversion E; apply ask_fst].
    intros t IN. assert (PF : pendOn t s = false) by (unfold pendOn; rewrite EP; reflexivity).
    pose proof (ti_cut _ _ t s (withConn s (Some (Some (ask topics (s_cur s)), []))) (TX t IN)) as X. rewrite PF in X. rewrite N.add_0_r in X.
    apply X; [left; reflexivity|reflexivity|reflexivity|reflexivity| |exact EP]. intros tp fl E. inversion E. apply curOf_ask. exact IN.
  - cbn [step]. destruct (s_conn s) as [[[tp|] fl]|] eqn:EC; [|apply SAME; exact Logic.I|apply SAME; exact Logic.I].
    destruct (next_ok _ _ _ _ S0 C SZ EC) as (tp' & out & E1 & E2 & E3 & E4 & E5). rewrite E1, sse_render by exact E2.
    eapply si_plain; [exact S0|exact Logic.I|reflexivity| | |exact P1|intros tp0 fl0 E; inversion E; subst; exact E3].
    + intros t IN. destruct (E5 t IN) as (i & B1 & B2 & B3). destruct (TX t IN) as (p & a & b & ids & nn & r & A1 & A2 & A3 & A4 & A5 & A6 & A7 & A8 & A9).
      specialize (A3 _ _ EC). rewrite B1 in A3. inversion A3; subst i. rewrite A1, skip_app in B2, B3.
      exists p, (a ++ b), [], ids, nn, r. split; [rewrite app_nil_r; exact A1|].
      split; [unfold flight in *; rewrite EC in A2; cbn [withConn s_conn]; rewrite named_app, A2, B2, evs_app; reflexivity|].
      split; [intros tp0 fl0 E; inversion E; subst; rewrite B3, len_app'; f_equal; lia|]. split; [exact A4|]. split; [exact A5|]. split; [exact A6|]. split; [exact A7|]. split; [exact A8|exact A9].
    + unfold flight in *. rewrite EC in F1. cbn. apply Forall_app. split; [exact F1|]. rewrite Forall_map. eapply Forall_impl; [|exact E4]. intros e X. exact X.
  - cbn [step]. destruct (s_conn s) as [[sv [|e fl]]|] eqn:EC; [apply SAME; exact Logic.I| |apply SAME; exact Logic.I].
    destruct (s_pend s) as [e0|] eqn:EP; [apply SAME; exact Logic.I|].
    assert (IN0 : In e (flight s)) by (unfold flight; rewrite EC; left; reflexivity). rewrite (flight_good ops s e S0 C IN0).
    unfold flight in F1. rewrite EC in F1. inversion F1; subst.
    eapply si_plain; [exact S0|exact Logic.I|reflexivity| |exact H2|intros e1 E; inversion E; subst; exact H1|intros tp fl0 E; inversion E; subst; eapply C1; reflexivity].
    intros t IN. eapply ti_recv; [exact (TX t IN)|exact EC|exact EP|right; exact Logic.I].
  - cbn [step]. destruct (s_pend s) as [e|] eqn:EP; [|apply SAME; exact Logic.I]. destruct (pend_id _ _ _ S0 EP) as (n & DE). rewrite DE.
    eapply si_plain; [exact S0|exact Logic.I|reflexivity| |exact F1|discriminate|exact C1]. intros t IN. apply ti_pin; [exact (TX t IN)|exact EP|intros _; exact DE].
  - cbn [step]. destruct (s_pend s) as [e|] eqn:EP; [apply SAME; exact Logic.I|].
    eapply si_plain; [exact S0|exact Logic.I|reflexivity| |constructor|cbn; rewrite EP; discriminate|discriminate].
    intros t IN. assert (PF : pendOn t s = false) by (unfold pendOn; rewrite EP; reflexivity).
    pose proof (ti_cut _ _ t s (withConn s None) (TX t IN)) as X. rewrite PF in X. rewrite N.add_0_r in X.
    apply X; [left; reflexivity|reflexivity|reflexivity|reflexivity|discriminate|exact EP].
  - cbn [step]. eapply si_plain; [exact S0|exact Logic.I|reflexivity| |exact F1|exact P1|exact C1].
    intros t IN. eapply ti_same; [exact (TX t IN)|reflexivity|reflexivity|reflexivity|reflexivity|]. intros tp fl E. exists fl. exact E.
  - cbn [step]. eapply si_plain; [exact S0|exact Logic.I|reflexivity| |constructor|discriminate|discriminate].
    intros t IN. rewrite crashes_app. replace (crashes [Crash]) with 1 by reflexivity. apply ti_crash. exact (T1 t IN).
Qed.
End Sys.
