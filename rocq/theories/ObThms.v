(** Properties of the resolution of OOBIs and of well known authentication. *)
From Coq Require Import Lia.
From Verif Require Import Prelude ThModel JsonModel DbModel Lex ObModel ObSpec ObProofs ObProofs2.
Ltac Zify.zify_post_hook ::= Z.div_mod_to_equations.
Open Scope N_scope.

Definition cidU := s2b "http://h/oobi/EA/witness/BW".
Definition saidU := s2b "http://h/oobi/ES".
Definition wellU := s2b "http://h/.well-known/keri/oobi/EA".
Definition oddU := s2b "http://h/nothing".
Definition sepU := s2b "http://h/oobi/EA/witness/BW?a>b".
Definition urlx (u : bytes) : res (bytes * option bytes) := if startswith u (s2b "http://h/") then Ok (skipn 8 u, None) else Err ValueError.
Definition serderx (b : bytes) : res rpy :=
  if beq b (s2b "short") then Err ShortageError else
  if beq b (s2b "rpyA") then Ok (mkY (s2b "rpy") (s2b "/oobi/witness") (Some (s2b "EA")) (Some [saidU; wellU])) else
  if beq b (s2b "rpyB") then Ok (mkY (s2b "rpy") (s2b "/oobi/witness") (Some (s2b "EB")) (Some [])) else Err ValueError.
Definition envx : env := mkE urlx (fun _ => true) (fun b => if beq b (s2b "schema") then Ok (s2b "ES") else Err ValidationError) serderx.
Definition cesrR (b : bytes) := mkR 200 (Some (s2b "application/json+cesr")) None b.
Definition jsonR (b : bytes) := mkR 200 (Some (s2b "application/json")) None b.
Lemma usablex : usable envx cidU.
Proof.
  split; [reflexivity|]. split; [intros H; apply (proj2 (two_spec cidU)) in H; discriminate H|]. split; [reflexivity|]. exists (s2b "/oobi/EA/witness/BW"), None. split; [reflexivity|]. vm_compute. discriminate.
Qed.

(** ** C117: only good answers count *)

Lemma c117_schema : forall E es said raw, dget (schema (D (run E es))) said = Some raw ->
  schemer E raw = Ok said /\ exists url r, answered es url r /\ body r = raw /\ asksFor E url said.
Proof. intros E es said raw H. destruct (run_ok E es) as ((_ & _ & _ & _ & _ & SC) & _). exact (SC said raw H). Qed.
Definition schemax : list ev := [Load saidU None 0; Pass 1; Answer saidU (jsonR (s2b "schema")); Pass 2].
Example schema_ex : dget (schema (D (run envx schemax))) (s2b "ES") = Some (s2b "schema") /\ says (D (run envx schemax)) saidU true.
Proof. split; [vm_compute; reflexivity|]. eexists. split; vm_compute; reflexivity. Qed.
Lemma c117_resolved : forall E es url, (says (D (run E es)) url true -> fine E es url) /\ (done (D (run E es)) url -> exists b, says (D (run E es)) url b).
Proof.
  intros E es url. destruct (run_ok E es) as ((_ & _ & _ & _ & RO & _) & _). split.
  - intros (o & H & S). apply (RO url o H). exact S.
  - intros (o & H). destruct (RO url o H) as [N _]. destruct (o_state o) as [b|] eqn:S; [|congruence]. exists b, o. auto.
Qed.
Definition multix : list ev := [Load cidU None 0; Pass 1; Answer cidU (jsonR (s2b "rpyA")); Pass 2; Pass 3;
  Answer saidU (jsonR (s2b "schema")); Answer wellU (cesrR (s2b "{}")); Pass 4].
Example resolved_ex : says (D (run envx multix)) cidU true /\ says (D (run envx (firstn 7 multix ++ [Crash 2 4; Pass 5; Answer saidU (jsonR []); Answer wellU (cesrR []); Pass 6]))) cidU false.
Proof. split; eexists; (split; [vm_compute; reflexivity|vm_compute; reflexivity]). Qed.
Lemma c117_empty_refuted : ~ (forall E es url, says (D (run E es)) url true -> exists r, answered es url r /\ body r <> []).
Proof.
  intros H. destruct (H envx [Load cidU None 0; Pass 1; Answer cidU (cesrR []); Pass 2] cidU) as (r & [I _] & N).
  - eexists. split; vm_compute; reflexivity.
  - destruct I as [I|[I|[I|[I|[]]]]]; try discriminate I. injection I as <-. apply N. reflexivity.
Qed.
Lemma c117_alias_refuted : ~ (forall E es c a url p n c', In (c, a, url) (named (D (run E es))) -> urlp E url = Ok (p, n) -> pathKind p = TCid c' -> c = c').
Proof.
  intros H. specialize (H envx [Load cidU (Some (s2b "bob")) 0; Pass 1; Answer cidU (mkR 200 (Some (s2b "application/json+cesr")) (Some (s2b "EM")) (s2b "{}")); Pass 2] (s2b "EM") (s2b "bob") cidU (s2b "/oobi/EA/witness/BW") None (s2b "EA")).
  discriminate H; vm_compute; auto.
Qed.

(** ** C118: an OOBI goes on until it is done *)

Lemma c118_asks : forall E now s s' url, usable E url -> dget (oobis (D s)) url <> None -> flows E now s = (s', Ok tt) -> done (D s') url \/ asked s' url.
Proof. intros E now s s' url U H F. exact (asks E url (proj1 U) now s s' U H F). Qed.
Example asks_ex : asked (run envx [Load cidU None 0; Pass 1]) cidU /\ exists s', flows envx 1 (run envx [Load cidU None 0]) = (s', Ok tt).
Proof. split; [split; vm_compute; [discriminate|reflexivity]|]. eexists. vm_compute. reflexivity. Qed.
Lemma c118_restart : forall E now d s' url, clientOk E url = true -> dget (coobi d) url <> None -> flows E now (mkS d mem0 []) = (s', Ok tt) -> done (D s') url \/ asked s' url.
Proof. intros E now d s' url C H F. refine (again E url C now (mkS d mem0 []) s' H _ F). left. reflexivity. Qed.
Example restart_ex : let s := run envx [Load cidU None 0; Pass 1; Crash 0 2] in dget (clients (M s)) cidU = None /\ asked (run envx [Load cidU None 0; Pass 1; Crash 0 2; Pass 3]) cidU.
Proof. split; [vm_compute; reflexivity|]. split; vm_compute; [discriminate|reflexivity]. Qed.
Lemma c118_ends_partial : forall E now s s' url r rs, clientOk E url = true -> dget (oobis (D s)) url = None -> dget (coobi (D s)) url <> None ->
  dget (clients (M s)) url = Some (r :: rs) -> final E r -> flows E now s = (s', Ok tt) -> done (D s') url.
Proof. intros E now s s' url r rs C H1 H2 H3 F G. exact (ends E url C now r rs s s' H1 H2 H3 F G). Qed.
Example ends_ex : final envx (cesrR (s2b "{}")) /\ done (D (run envx [Load cidU None 0; Pass 1; Answer cidU (cesrR (s2b "{}")); Pass 2])) cidU.
Proof. split; [split; [discriminate|]; split; [discriminate|]; intros y H; discriminate H|]. eexists. vm_compute. reflexivity. Qed.
Lemma c118_stays_done : forall E now s url, clientOk E url = true -> done (D s) url -> done (D (fst (flows E now s))) url.
Proof.
  intros E now s url C H. pose (I := fun t => done (D t) url). change (I (fst (flows E now s))). unfold flows.
  assert (A : I (fst (processOobis E s))).
  { apply (each_ind _ I (fun _ => True)); [|apply anyF|exact H]. intros [u o] t _ Ht. destruct (list_N_dec u url) as [->|N]; [|destruct (oneOobi_other E url u o t N) as (_ & _ & _ & R & _); exact (ended_mono url t _ R Ht)].
    unfold oneOobi. destruct (two url); [exact Ht|]. destruct (_ && _); [exact Ht|]. destruct (urlp E url) as [[p n]|e]; [|destruct (isValue e); exact Ht]. destruct (pathKind p); try exact Ht; apply (request_ended E url C); exact Ht. }
  apply (then_ind I I); [exact A|auto|]. intros t Ht. apply (then_ind I I); [|auto|].
  - apply (each_ind _ I (fun _ => True)); [|apply anyF|exact Ht]. intros x t' _ Ht'. apply (oneClient_ended E url C now x t' Ht').
  - intros t' Ht'. destruct (andThen (processRetries now t') processMOOBIs) as [t2 [[]|e]] eqn:Q; [exact (rest_ended url now t' Ht' t2 Q)|].
    replace (fst (t2, Err e)) with (fst (andThen (processRetries now t') processMOOBIs)) by (rewrite Q; reflexivity). apply (then_ind I I); [|auto|].
    + apply (each_ind _ I (fun _ => True)); [|apply anyF|exact Ht']. intros [u o] t3 _ Ht3. unfold oneRetry. destruct (two u); [exact Ht3|]. destruct (_ <? _); exact Ht3.
    + intros t3 Ht3. apply (each_ind _ I (fun _ => True)); [|apply anyF|exact Ht3]. intros [u o] t4 _ Ht4. destruct (list_N_dec u url) as [->|N].
      * unfold oneMoobi. destruct (two url); [exact Ht4|]. destruct (all _ _); [apply ended_finish|exact Ht4].
      * destruct (oneMoobi_other url u o t4 N) as (_ & _ & _ & R & _). exact (ended_mono url t4 _ R Ht4).
Qed.
Example stays_ex : let s := run envx schemax in done (D s) saidU /\ done (D (fst (flows envx 9 (step envx s (Load saidU None 8))))) saidU.
Proof. split; eexists; vm_compute; reflexivity. Qed.
Lemma c118_retry : forall E now s s' url o, dget (oobis (D s)) url = None -> dget (coobi (D s)) url = None -> dget (eoobi (D s)) url = Some o ->
  o_date o + 30 < now -> flows E now s = (s', Ok tt) -> dget (oobis (D s')) url <> None.
Proof. intros E now s s' url o. exact (retried E url now o s s'). Qed.
Definition gone : list ev := [Load cidU None 0; Pass 1; Answer cidU (mkR 404 None None []); Pass 2].
Example retry_ex : dget (eoobi (D (run envx gone))) cidU <> None /\ dget (oobis (D (run envx (gone ++ [Pass 30])))) cidU = None /\ dget (oobis (D (run envx (gone ++ [Pass 31])))) cidU <> None.
Proof. split; [|split]; vm_compute; [discriminate|reflexivity|discriminate]. Qed.
Lemma c118_kept_partial : forall E es url, clientOk E url = true -> badKey url = false -> (forall k now, ~ In (Crash k now) es) -> loaded es url -> kept (D (run E es)) url.
Proof. intros E es url C B N L. exact (run_kept E url C es B N L). Qed.
Example kept_ex : loaded multix cidU /\ forall k now, ~ In (Crash k now) multix.
Proof. split; [left; exists None, 0; left; reflexivity|]. intros k now H. unfold multix in H. cbn [In] in H. repeat (destruct H as [H|H]; [discriminate H|]). exact H. Qed.

Lemma c118_lost_refuted : ~ (forall E es url, usable E url -> loaded es url -> kept (D (run E es)) url).
Proof.
  intros H. specialize (H envx [Load cidU None 0; Crash 1 1] cidU usablex). destruct H as [H|[H|[H|[H|H]]]]; [left; exists None, 0; left; reflexivity| | | | |]; apply H; vm_compute; reflexivity.
Qed.
Lemma c118_dropped_refuted : exists E url, forall ts, ~ kept (D (run E (Load url None 0 :: map Pass (0 :: ts)))) url.
Proof.
  exists (mkE urlx (fun _ => false) (fun _ => Err ValidationError) serderx), cidU. set (E := mkE _ _ _ _). intros ts. unfold run. cbn [map fold_left]. set (s := step E _ (Pass 0)).
  assert (G : forall ts s, D s = db0 -> M s = mem0 -> D (fold_left (step E) (map Pass ts) s) = db0).
  { clear. induction ts as [|t ts IH]; intros s HD HM; [exact HD|]. cbn [map fold_left]. apply IH; cbn [step]; rewrite HD, HM; reflexivity. }
  rewrite G by (subst s; vm_compute; reflexivity). unfold kept, db0. cbn. intros [H|[H|[H|[H|H]]]]; congruence.
Qed.
Lemma c118_again_refuted : ~ (forall E es url r now s, asked (run E es) url -> stream r -> status r = 200 ->
  flows E now (run E (es ++ [Answer url r])) = (s, Ok tt) -> says (D s) url true).
Proof.
  intros H. pose (es := [Load cidU None 0; Pass 1; Answer cidU (mkR 500 None None []); Pass 2; Load cidU None 3; Pass 4]).
  destruct (H envx es cidU (cesrR (s2b "{}")) 5 (fst (flows envx 5 (run envx (es ++ [Answer cidU (cesrR (s2b "{}"))]))))) as (o & O1 & O2).
  - split; vm_compute; [discriminate|reflexivity].
  - right. left. reflexivity.
  - reflexivity.
  - vm_compute. reflexivity.
  - revert O1. vm_compute. intros [= <-]. discriminate O2.
Qed.
(** One whose server does not answer is not done, however often it is looked at: there is no time limit. *)
Lemma still : forall E d m, (forall now, exists l, flows E now (mkS d m []) = (mkS d m l, Ok tt)) -> forall ts s, D s = d -> M s = m -> D (fold_left (step E) (map Pass ts) s) = d.
Proof.
  intros E d m H. induction ts as [|t ts IH]; intros s HD HM; [exact HD|]. cbn [map fold_left]. destruct (H t) as [l Q]. apply IH; cbn [step]; rewrite HD, HM, Q; reflexivity.
Qed.
Lemma c118_silent_refuted : exists E url, usable E url /\ forall ts, ~ done (D (run E (Load url None 0 :: map Pass (0 :: ts)))) url.
Proof.
  exists envx, cidU. split; [exact usablex|]. intros ts. unfold run. cbn [map fold_left]. set (s := step envx _ (Pass 0)). rewrite (still envx (D s) (M s)); [|intros now; eexists; vm_compute; reflexivity|reflexivity|reflexivity].
  intros [o H]. revert H. vm_compute. discriminate.
Qed.
Lemma c118_mismatch_refuted : exists E url r, usable E url /\ forall ts, ~ done (D (run E ([Load url None 0; Pass 0; Answer url r] ++ map Pass (0 :: ts)))) url.
Proof.
  exists envx, cidU, (jsonR (s2b "rpyB")). split; [exact usablex|]. intros ts. unfold run. cbn [app map fold_left]. set (s := step envx (step envx (step envx (step envx init (Load cidU None 0)) (Pass 0)) _) (Pass 0)). rewrite (still envx (D s) (M s)); [|intros now; eexists; vm_compute; reflexivity|reflexivity|reflexivity].
  intros [o H]. revert H. vm_compute. discriminate.
Qed.
Lemma c118_unmatched_refuted : exists E url, clientOk E url = true /\ forall ts, let d := D (run E (Load url None 0 :: map Pass ts)) in ~ done d url /\ dget (coobi d) url = None.
Proof.
  exists envx, oddU. split; [reflexivity|]. intros ts. unfold run. cbn [fold_left]. set (s := step envx _ (Load oddU None 0)). rewrite (still envx (D s) (M s)); [|intros now; eexists; vm_compute; reflexivity|reflexivity|reflexivity].
  split; [intros [o H]; revert H; vm_compute; discriminate|vm_compute; reflexivity].
Qed.
Lemma c118_separator_refuted : forall E es url a t es' now, In 62 url -> badKey url = false -> raises E (run E (es ++ Load url a t :: es')) now.
Proof.
  intros E es url a t es' now H B. unfold run. rewrite fold_left_app. cbn [fold_left]. set (s := fold_left (step E) es init).
  assert (W : stuck url (mkS (D (step E s (Load url a t))) (M (step E s (Load url a t))) [])).
  { split; [|constructor]. cbn [step]. rewrite B. cbn [wr D u_oobis oobis]. rewrite tpin_get, beq_refl. discriminate. }
  assert (V : forall es s, dget (oobis (D s)) url <> None -> dget (oobis (D (fold_left (step E) es s))) url <> None).
  { clear - H. induction es as [|e es IH]; intros s G; [exact G|]. cbn [fold_left]. apply IH. assert (T : stuck url (mkS (D s) (M s) [])) by (split; [exact G|constructor]). pose proof (step_stuck E url H _ e T) as [X _].
    destruct e; cbn [step] in *; try (destruct (badKey _); exact X); try exact X. destruct (dget (clients (M s)) _); exact G. }
  destruct W as [W _]. pose proof (V es' (step E s (Load url a t)) W) as W'. unfold raises. apply (flows_stuck E url H). split; [exact W'|constructor].
Qed.
Example separator_ex : In 62 sepU /\ badKey sepU = false /\ snd (flows envx 9 (run envx [Load cidU None 0; Load sepU None 1; Pass 2; Crash 1 3; Load saidU None 4; Pass 5])) = Err ValueError.
Proof. split; [apply two_spec; vm_compute; reflexivity|]. split; vm_compute; reflexivity. Qed.
Lemma c118_poison_refuted : forall E now url r d n, clientOk E url = true -> poison E r -> dget (coobi d) url <> None -> dget (eoobi d) url = None -> dget (moobi d) url = None ->
  snd (round E now url r (rounds E now url r n d)) = true.
Proof.
  intros E now url r d n C P H1 H2 H3. apply (round_Q0 E url r C P now). apply (rounds_Q0 E url r C P now n d). split; [exact H1|]. split; [exact H2|exact H3].
Qed.
Example poison_ex : poison envx (jsonR (s2b "short")) /\ let d := D (run envx [Load cidU None 0; Pass 1]) in dget (coobi d) cidU <> None /\ dget (eoobi d) cidU = None /\ dget (moobi d) cidU = None.
Proof. split; [split; [reflexivity|]; split; [reflexivity|]; split; [vm_compute; reflexivity|]; exists ShortageError; split; vm_compute; reflexivity|]. split; [vm_compute; discriminate|]. split; vm_compute; reflexivity. Qed.

(** ** C119: well known authentication *)
(** the path is that of a well known OOBI of this identifier, but for the character before the name *)
Lemma well_spec p c : well p = Some c -> exists ch, p = 47 :: ch :: s2b "well-known/keri/oobi/" ++ c /\ c <> [] /\ ~ In 47 c.
Proof.
  unfold well. destruct p as [|x [|ch r]]; [discriminate|destruct x as [|x]; [discriminate|]; do 6 (destruct x; try discriminate)|]. intros H.
  assert (X : x = 47) by (destruct x as [|x]; [discriminate H|]; do 6 (destruct x; try discriminate H); reflexivity). subst x.
  pose proof (firstn_skipn 21 r) as FS. cbv zeta in H. revert H FS. generalize (firstn 21 r) as f, (skipn 21 r) as w. intros f w H FS.
  destruct (negb (ch =? 10) && beq f (s2b "well-known/keri/oobi/") && negb (isnil w) && negb (existsb (N.eqb 47) w)) eqn:B; [|discriminate H]. assert (w = c) by congruence. subst w. clear H.
  apply andb_prop in B as [B B4]. apply andb_prop in B as [B B3]. apply andb_prop in B as [B1 B2]. exists ch. split; [|split].
  - apply beq_eq in B2. rewrite <- B2, FS. reflexivity.
  - intros Q. rewrite Q in B3. discriminate B3.
  - intros I. apply negb_true_iff in B4. assert (Y : existsb (N.eqb 47) c = true) by (apply existsb_exists; exists 47; split; [exact I|reflexivity]). congruence.
Qed.
Section A.
Variable E : env.
Variable es : list aev.
Definition vouched (u c : bytes) : Prop := (exists p n, urlp E u = Ok (p, n) /\ well p = Some c) /\ In (AKnown c) es.
Definition aOk (a : au) : Prop :=
  (forall u c, In (u, c) (woobi a) -> c = None) /\ (forall u c, In (u, Some c) (mfa a) -> vouched u c) /\ (forall c u, In (c, u) (wkas a) -> vouched u c /\ exists n, n <= 200 /\ In (AAnswer u n) es) /\
  (forall u l n, dget (acl a) u = Some (Some l) -> In n l -> In (AAnswer u n) es) /\ (forall c, In c (kevers a) -> In (AKnown c) es).
Lemma arequest_ok u c a : aOk a -> (forall c', c = Some c' -> vouched u c') -> aOk (arequest E u c a).
Proof.
  intros (A1 & A2 & A3 & A4 & A5) H. unfold arequest. split; [|split; [|split; [exact A3|split; [|exact A5]]]]; cbn [woobi mfa acl].
  - intros v w I. apply (A1 v w). apply trem_in in I as [I _]. exact I.
  - intros v w I. apply tpin_in in I as [Q|I]; [injection Q as -> <-; apply H; reflexivity|apply A2; exact I].
  - intros v l n. rewrite dset_get. destruct (beq v u); [|apply A4]. destruct (clientOk E u); [intros [= <-] []|discriminate].
Qed.
Lemma aeach_ind {X} (f : X -> au -> au * res unit) (I : au -> Prop) (Q : X -> Prop) : (forall x a, Q x -> I a -> I (fst (f x a))) -> forall l a, Forall Q l -> I a -> I (fst (aeach f l a)).
Proof.
  intros H. induction l as [|x l IH]; intros a F Ha; [exact Ha|]. inversion F; subst. cbn [aeach]. pose proof (H x a H2 Ha) as G. destruct (f x a) as [a' [[]|e]]; [apply IH; assumption|exact G].
Qed.
Lemma oneWoobi_ok x a : True -> aOk a -> aOk (fst (oneWoobi E x a)).
Proof.
  intros _ H. destruct x as [u c]. unfold oneWoobi. destruct (two u); [exact H|]. destruct (urlp E u) as [[p n]|e] eqn:U; [|exact H]. destruct (well p) as [cid|] eqn:W.
  - destruct (existsb (beq cid) (kevers a)) eqn:K; [|exact H]. apply arequest_ok; [exact H|]. intros c' [= <-]. split; [exists p, n; auto|]. apply existsb_exists in K as (k & I & B). apply beq_eq in B. subst k. apply H. exact I.
  - destruct H as (A1 & A2 & A3 & A4 & A5). split; [intros v w I; apply trem_in in I as [I _]; exact (A1 v w I)|]. split; [exact A2|split; [exact A3|split; assumption]].
Qed.
Lemma oneMfa_ok x a : (forall c, snd x = Some c -> vouched (fst x) c) -> aOk a -> aOk (fst (oneMfa E x a)).
Proof.
  intros V H. destruct x as [u c]. cbn [fst snd] in V. unfold oneMfa. destruct (two u); [exact H|]. destruct (dget (acl a) u) as [[[|n rs]|]|] eqn:G; [exact H| |exact H|apply arequest_ok; assumption].
  destruct H as (A1 & A2 & A3 & A4 & A5). cbv zeta. split; [exact A1|]. split; [intros v w I; apply trem_in in I as [I _]; exact (A2 v w I)|]. split; [|split; [|exact A5]].
  - cbn [fst wkas]. destruct ((n <=? 200) && (n <=? 399)) eqn:B; [|exact A3]. destruct c as [c|]; [|exact A3]. intros c' u' I. apply in_app_or in I as [I|[Q|[]]]; [apply A3; exact I|]. injection Q as <- <-. split; [apply V; reflexivity|]. exists n. apply andb_prop in B as [B _]. split; [apply N.leb_le; exact B|]. apply (A4 u (n :: rs) n G). left. reflexivity.
  - intros v l m. cbn [fst acl]. rewrite dset_get. destruct (beq_spec v u) as [->|N]; [intros [= <-] I; apply (A4 u (n :: rs) m G); right; exact I|apply A4].
Qed.
Lemma aflows_ok a : aOk a -> aOk (fst (aflows E a)).
Proof.
  intros H. unfold aflows. assert (W : aOk (fst (aeach (oneWoobi E) (woobi a) a))) by (apply (aeach_ind _ aOk (fun _ => True)); [exact oneWoobi_ok|apply anyF|exact H]). destruct (aeach (oneWoobi E) (woobi a) a) as [a' [[]|e]]; [|exact W].
  cbn [fst] in W. apply (aeach_ind _ aOk (fun x => forall c, snd x = Some c -> vouched (fst x) c)); [exact oneMfa_ok| |exact W]. apply Forall_forall. intros [u c] I c' Q. cbn in Q. subst c. destruct W as (_ & W2 & _). exact (W2 u c' I).
Qed.
Lemma astep_ok a e : aOk a -> In e es -> aOk (astep E a e).
Proof.
  intros H I. destruct e as [u|c|u n|]; cbn [astep].
  - destruct (badKey u); [exact H|]. destruct H as (A1 & A2 & A3 & A4 & A5). split; [|split; [exact A2|split; [exact A3|split; assumption]]]. intros v w J. apply tpin_in in J as [Q|J]; [injection Q as _ ->; reflexivity|exact (A1 v w J)].
  - destruct H as (A1 & A2 & A3 & A4 & A5). split; [exact A1|]. split; [exact A2|]. split; [exact A3|]. split; [exact A4|]. intros k [<-|J]; [exact I|apply A5; exact J].
  - destruct (dget (acl a) u) as [[l|]|] eqn:G; try exact H. destruct H as (A1 & A2 & A3 & A4 & A5). split; [exact A1|]. split; [exact A2|]. split; [exact A3|]. split; [|exact A5]. intros v l' m. cbn [acl]. rewrite dset_get. destruct (beq_spec v u) as [->|N]; [|apply A4].
    intros [= <-] J. apply in_app_or in J as [J|[<-|[]]]; [apply (A4 u l m G J)|exact I].
  - pose proof (aflows_ok a H) as F. destruct (aflows E a) as [a' [[]|e]]; [exact F|]. destruct F as (A1 & A2 & A3 & A4 & A5). split; [exact A1|]. split; [exact A2|]. split; [exact A3|]. split; [|exact A5]. intros v l n Q. discriminate Q.
Qed.
End A.
Lemma arun_ok E es : aOk E es (arun E es).
Proof.
  unfold arun. assert (G : forall l a, aOk E es a -> (forall e, In e l -> In e es) -> aOk E es (fold_left (astep E) l a)).
  { induction l as [|e l IH]; intros a H S; [exact H|]. cbn [fold_left]. apply IH; [apply astep_ok; [exact H|apply S; left; reflexivity]|intros e' I; apply S; right; exact I]. }
  apply G; [|auto]. split; [intros u c []|]. split; [intros u c []|]. split; [intros c u []|]. split; [intros u l n H; discriminate H|intros c []].
Qed.
Lemma c119_confirmed : forall E es cid url, In (cid, url) (wkas (arun E es)) ->
  (exists p n ch, urlp E url = Ok (p, n) /\ p = 47 :: ch :: s2b "well-known/keri/oobi/" ++ cid /\ cid <> [] /\ ~ In 47 cid) /\ In (AKnown cid) es /\ exists stat, stat <= 200 /\ In (AAnswer url stat) es.
Proof.
  intros E es cid url H. destruct (arun_ok E es) as (_ & _ & A & _). destruct (A cid url H) as [[(p & n & U & W) K] S]. destruct (well_spec _ _ W) as (ch & P). split; [exists p, n, ch; split; [exact U|exact P]|]. split; [exact K|exact S].
Qed.
Definition wellx : list aev := [ALoad wellU; AKnown (s2b "EA"); APass; AAnswer wellU 200; APass].
Example confirmed_ex : wkas (arun envx wellx) = [(s2b "EA", wellU)].
Proof. vm_compute. reflexivity. Qed.
Lemma c119_success_refuted : forall E es cid url, (forall stat, In (AAnswer url stat) es -> 200 < stat) -> ~ In (cid, url) (wkas (arun E es)).
Proof. intros E es cid url S H. destruct (c119_confirmed E es cid url H) as (_ & _ & n & L & I). specialize (S n I). lia. Qed.
Example success_ex : let a := arun envx [ALoad wellU; AKnown (s2b "EA"); APass; AAnswer wellU 204; APass] in wkas a = [] /\ dget (rmfa a) wellU = Some (Some (s2b "EA"), false).
Proof. split; vm_compute; reflexivity. Qed.
Lemma c119_dot_refuted : ~ (forall E es cid url p n, In (cid, url) (wkas (arun E es)) -> urlp E url = Ok (p, n) -> p = s2b "/.well-known/keri/oobi/" ++ cid).
Proof.
  intros H. pose (u := s2b "http://h/xwell-known/keri/oobi/EA"). specialize (H envx [ALoad u; AKnown (s2b "EA"); APass; AAnswer u 200; APass] (s2b "EA") u (s2b "/xwell-known/keri/oobi/EA") None). discriminate H; vm_compute; auto.
Qed.
Lemma c119_client_refuted : exists E url cid, forall n, exists e, snd (aflows E (arun E ([ALoad url; AKnown cid] ++ repeat APass (n + n)))) = Err e.
Proof.
  exists (mkE urlx (fun _ => false) (fun _ => Err ValidationError) serderx), wellU, (s2b "EA"). set (E := mkE _ _ _ _). intros n. unfold arun. rewrite fold_left_app. set (a := fold_left (astep E) [ALoad wellU; AKnown (s2b "EA")] ainit).
  destruct n as [|n]; [eexists; vm_compute; reflexivity|]. replace (Datatypes.S n + Datatypes.S n)%nat with (Datatypes.S (Datatypes.S (n + n))) by lia. cbn [repeat fold_left]. set (b := astep E (astep E a APass) APass).
  assert (Q : astep E (astep E b APass) APass = b) by (vm_compute; reflexivity). assert (G : fold_left (astep E) (repeat APass (n + n)) b = b).
  { induction n as [|n IH]; [reflexivity|]. replace (Datatypes.S n + Datatypes.S n)%nat with (Datatypes.S (Datatypes.S (n + n))) by lia. cbn [repeat fold_left]. rewrite Q. exact IH. }
  rewrite G. eexists. vm_compute. reflexivity.
Qed.
