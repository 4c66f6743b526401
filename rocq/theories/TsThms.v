(** Properties of notices of transaction states. *)
From Coq Require Import Lia.
From Verif Require Import Prelude SubsModel ThModel JsonModel RpModel RpSpec TsModel TsSpec TsProofs TsProofs2.
Ltac Zify.zify_post_hook ::= Z.div_mod_to_equations.
Open Scope N_scope.

(** an issuer EI with witness BW, a registry ER without backers and a credential EC; signatures are key and message *)
Definition rvx : renv := mkEnv (fun p => startswith (s2b "E") p) (fun k s m => beq s (k ++ m)) (fun _ => true) (fun _ => true) (fun _ => []) false false [] [].
Definition notice (said : string) (dt : N) (rt : string) : reply := mkReply (s2b said) (s2b said) dt (s2b rt) [] None.
Definition asRegx (r : reply) : option regst :=
  if beq (q_said r) (s2b "NR0") then Some (mkRs (s2b "ER") (s2b "EI") 0 (s2b "ev0") [] true) else
  if beq (q_said r) (s2b "NR1") then Some (mkRs (s2b "ER") (s2b "EI") 1 (s2b "ev1") [] true) else
  if beq (q_said r) (s2b "NX0") then Some (mkRs (s2b "ER") (s2b "EI") 0 (s2b "ev0") [s2b "BX"] false) else None.
Definition asVcx (r : reply) : option vcst :=
  if beq (q_said r) (s2b "NC0") then Some (mkVs (s2b "EC") (s2b "ER") 0 (s2b "iss") 0) else
  if beq (q_said r) (s2b "NC1") then Some (mkVs (s2b "EC") (s2b "ER") 1 (s2b "rev") 0) else
  if beq (q_said r) (s2b "NE0") then Some (mkVs (s2b "ER") (s2b "ER") 0 (s2b "ev0") 0) else
  if beq (q_said r) (s2b "ND") then Some (mkVs (s2b "E.D") (s2b "EQ") 0 (s2b "iss") 0) else None.
Definition Ex : tenv := mkTe rvx false [] asRegx asVcx.
Definition telx (id : bytes) (n : N) : option (bytes * N) :=
  if beq id (s2b "ER") then (if n =? 0 then Some (s2b "ev0", 0) else if n =? 1 then Some (s2b "ev1", 1) else None) else
  if beq id (s2b "EC") then (if n =? 0 then Some (s2b "iss", 0) else if n =? 1 then Some (s2b "rev", 1) else None) else None.
Definition kvx : kview := mkKv (fun _ _ => None) (fun _ => None).
(** nothing is known; the issuer and the registry are; and the events are *)
Definition v0 : view := mkV kvx (fun _ => false) (fun _ => []) (fun _ => None) (fun _ _ => None).
Definition tvx (sn : N) (id : bytes) := if beq id (s2b "ER") then Some (mkTv sn (s2b "EI") true []) else None.
Definition witx (p : bytes) : list bytes := if beq p (s2b "EI") then [s2b "BW"] else [].
Definition v1 : view := mkV kvx (fun p => beq p (s2b "EI")) witx (tvx 0) (fun _ _ => None).
Definition v2 : view := mkV kvx (fun p => beq p (s2b "EI")) witx (tvx 1) telx.
(** the view while only the first event of the registry is there *)
Definition v3 : view := mkV kvx (fun p => beq p (s2b "EI")) witx (tvx 0) (fun id n => if n =? 0 then telx id n else None).
Definition NR0 := notice "NR0" 5 "/tsn/registry/BW".
Definition NR1 := notice "NR1" 6 "/tsn/registry/BW".
Definition NX0 := notice "NX0" 5 "/tsn/registry/BX".
Definition NC0 := notice "NC0" 5 "/tsn/credential/BW".
Definition NC1 := notice "NC1" 6 "/tsn/credential/BW".
Definition NE0 := notice "NE0" 7 "/tsn/credential/BW".
Definition ND := notice "ND" 5 "/tsn/credential/BX".
Definition sigx (k : string) (r : reply) : cigar := mkCig (s2b k) (s2b k ++ q_raw r).
Definition msg (v : view) (k : string) (r : reply) : ev := Msg v r [sigx k r] [].

(** ** C120: what is recorded has been said by one who may *)

Lemma c120_recorded_partial : forall E es id aid d, current (B (run E es)) id aid = Some d ->
  exists e r n, In e es /\ received es r /\ saidOk (rv E) r = true /\ signed E (viewOf e) r aid /\ inLog (viewOf e) id d n /\
    ((vcSource E (viewOf e) r aid /\ saysVc E r id d n) \/ (regSource E (viewOf e) r aid /\ saysReg E r id d n)).
Proof.
  intros E es id aid d H. destruct (run_because E es id aid d H) as (e & reg & r & I & (RC & SO) & SG & RD). exists e, r. destruct reg.
  - destruct RD as (S1 & n & S2 & S3 & _). exists n. do 5 (split; [assumption|]). right. split; assumption.
  - destruct RD as (S1 & n & m & S2 & S3 & _). exists n. assert (L : inLog (viewOf e) id d n) by (exists m; exact S3). do 5 (split; [assumption|]). left. split; assumption.
Qed.
Example recorded_ex : current (B (run Ex [msg v2 "BW" NC1])) (s2b "EC") (s2b "BW") = Some (s2b "rev") /\
  current (B (run Ex [msg v2 "BX" ND; msg v0 "BW" NR0; Pass v3 10])) (s2b "ER") (s2b "BW") = None /\
  current (B (run Ex [msg v0 "BW" NR0; Pass v3 10])) (s2b "ER") (s2b "BW") = Some (s2b "ev0").
Proof. vm_compute. auto. Qed.
Lemma c120_source_refuted : ~ (forall E es id aid d, current (B (run E es)) id aid = Some d ->
  (forall r x, received es r -> asVc E r = Some x -> v_i x <> id) -> exists e, In e es /\ regTrusted E (viewOf e) id aid).
Proof.
  intros H. destruct (H Ex [msg v3 "BX" NX0] (s2b "ER") (s2b "BX") (s2b "ev0")) as (e & I & t & T & M).
  - vm_compute. reflexivity.
  - intros r x (v & cs & gs & [I|[]]) A. injection I as <- <- <- <-. discriminate A.
  - destruct I as [<-|[]]. cbn in T. vm_compute in T. injection T as <-. destruct M as [M|[M|[M|M]]]; [discriminate M|discriminate M| |destruct M].
    vm_compute in M. destruct M as [M|[]]. discriminate M.
Qed.

(** ** C121: a recorded state does not go back *)

Lemma c121_registry_partial : forall E es1 es2 id aid n, grows (es1 ++ es2) -> Forall (fun e => capped id (viewOf e)) (es1 ++ es2) ->
  (forall r x, received (es1 ++ es2) r -> asVc E r = Some x -> v_i x <> id) -> recordedAt es1 (run E es1) id aid n ->
  exists n', recordedAt (es1 ++ es2) (run E (es1 ++ es2)) id aid n' /\ n <= n'.
Proof. intros E es1 es2 id aid n G C V RC. exact (latest E id aid es2 es1 G C V n RC). Qed.
Lemma capped2 : capped (s2b "ER") v2.
Proof.
  intros n x H. exists (mkTv 1 (s2b "EI") true []). split; [reflexivity|]. cbn [tv_sn]. cbn [v2 telAt] in H. unfold telx in H. rewrite beq_refl in H.
  destruct (N.eqb_spec n 0); [lia|]. destruct (N.eqb_spec n 1); [lia|discriminate].
Qed.
Lemma capped3 : capped (s2b "ER") v3.
Proof. intros n x H. exists (mkTv 0 (s2b "EI") true []). split; [reflexivity|]. cbn [tv_sn]. cbn [v3 telAt] in H. destruct (N.eqb_spec n 0); [lia|discriminate]. Qed.
Lemma grows32 : forall a b c, viewOf a = v3 -> viewOf b = v2 -> viewOf c = v2 -> grows [a; b; c].
Proof.
  intros a b c A Bq C. cbn [grows]. rewrite A, Bq. assert (K : forall id n x, telAt v3 id n = Some x -> telAt v2 id n = Some x) by (intros id n x H; cbn [v3 v2 telAt] in *; destruct (n =? 0); [exact H|discriminate]).
  split; [intros e' id n x [<-|[<-|[]]] H; [rewrite Bq|rewrite C]; exact (K _ _ _ H)|]. split; [intros e' id n x [<-|[]] H; rewrite C; exact H|]. split; [intros e' id n x []|exact Logic.I].
Qed.
Example registry_ex : let es := [msg v3 "BW" NR0; msg v2 "BW" NR1; msg v2 "BW" NR0] in grows es /\ Forall (fun e => capped (s2b "ER") (viewOf e)) es /\
  current (B (run Ex (firstn 1 es))) (s2b "ER") (s2b "BW") = Some (s2b "ev0") /\ current (B (run Ex es)) (s2b "ER") (s2b "BW") = Some (s2b "ev1").
Proof.
  split; [apply grows32; reflexivity|]. split; [|split; vm_compute; reflexivity].
  apply Forall_cons; [exact capped3|]. apply Forall_cons; [exact capped2|]. apply Forall_cons; [exact capped2|]. apply Forall_nil.
Qed.
Lemma c121_credential_refuted : ~ (forall E es1 es2 id aid n, grows (es1 ++ es2) -> recordedAt es1 (run E es1) id aid n ->
  exists n', recordedAt (es1 ++ es2) (run E (es1 ++ es2)) id aid n' /\ n <= n').
Proof.
  intros H. destruct (H Ex [msg v3 "BW" NC0; msg v2 "BW" NC1] [msg v2 "BW" NC0] (s2b "EC") (s2b "BW") 1) as (n' & (d & e & CU & I & m & T) & LE).
  - apply grows32; reflexivity.
  - exists (s2b "rev"), (msg v2 "BW" NC1). split; [vm_compute; reflexivity|]. split; [cbn; auto|]. exists 1. vm_compute. reflexivity.
  - assert (D : d = s2b "iss"). { assert (C : current (B (run Ex ([msg v3 "BW" NC0; msg v2 "BW" NC1] ++ [msg v2 "BW" NC0]))) (s2b "EC") (s2b "BW") = Some (s2b "iss")) by (vm_compute; reflexivity). congruence. }
    subst d. assert (Z : telx (s2b "EC") n' = Some (s2b "iss", m)).
    { destruct I as [<-|[<-|[<-|[]]]]; cbn [msg viewOf v3 v2 telAt] in T; [destruct (n' =? 0); [exact T|discriminate]|exact T|exact T]. }
    unfold telx in Z. change (beq (s2b "EC") (s2b "ER")) with false in Z. rewrite beq_refl in Z. destruct (N.eqb_spec n' 0); [lia|].
    destruct (n' =? 1); [|discriminate Z]. discriminate Z.
Qed.
Lemma c121_route_refuted : ~ (forall E es1 es2 id aid n, grows (es1 ++ es2) -> Forall (fun e => capped id (viewOf e)) (es1 ++ es2) -> recordedAt es1 (run E es1) id aid n ->
  exists n', recordedAt (es1 ++ es2) (run E (es1 ++ es2)) id aid n' /\ n <= n').
Proof.
  intros H. destruct (H Ex [msg v3 "BW" NR0; msg v2 "BW" NR1] [msg v2 "BW" NE0] (s2b "ER") (s2b "BW") 1) as (n' & (d & e & CU & I & m & T) & LE).
  - apply grows32; reflexivity.
  - apply Forall_cons; [exact capped3|]. apply Forall_cons; [exact capped2|]. apply Forall_cons; [exact capped2|]. apply Forall_nil.
  - exists (s2b "ev1"), (msg v2 "BW" NR1). split; [vm_compute; reflexivity|]. split; [cbn; auto|]. exists 1. vm_compute. reflexivity.
  - assert (D : d = s2b "ev0"). { assert (C : current (B (run Ex ([msg v3 "BW" NR0; msg v2 "BW" NR1] ++ [msg v2 "BW" NE0]))) (s2b "ER") (s2b "BW") = Some (s2b "ev0")) by (vm_compute; reflexivity). congruence. }
    subst d. assert (Z : telx (s2b "ER") n' = Some (s2b "ev0", m)).
    { destruct I as [<-|[<-|[<-|[]]]]; cbn [msg viewOf v3 v2 telAt] in T; [destruct (n' =? 0); [exact T|discriminate]|exact T|exact T]. }
    unfold telx in Z. rewrite beq_refl in Z. destruct (N.eqb_spec n' 0); [lia|]. destruct (n' =? 1); [|discriminate Z]. discriminate Z.
Qed.

(** ** C122: a notice that comes early waits, and is recorded in the end *)

Lemma c122_prompt_partial : forall E ds v s t r aid cg cs id d, saidOk (rv E) r = true -> onRoute E t r aid -> good E r aid cg -> In cg cs ->
  apart ds s -> ready E v (isReg t) r aid id d ->
  snd (deliver E v r cs [] s) = inl tt /\ current (B (fst (deliver E v r cs [] s))) id aid = Some d /\ dget (sns (B (fst (deliver E v r cs [] s)))) d = Some r /\
  In (Saved id d) (cues (fst (deliver E v r cs [] s))).
Proof.
  intros E ds v s t r aid cg cs id d SO RT GD CI A RD. destruct (handle_ready E ds v t aid r cg GD RT s cs id d A CI RD) as (s1 & H & C1 & B1).
  unfold deliver. rewrite SO. cbn [negb]. rewrite (route_eq E t aid r RT), H. cbn [fst snd]. split; [reflexivity|]. split.
  { unfold current. cbn [save B nas]. apply naset_same. }
  split; [cbn [save B sns]; rewrite JsonProofs.dget_dset, beq_refl; reflexivity|].
  - cbn [save cues]. apply in_or_app. right. left. reflexivity.
Qed.
Lemma c122_escrowed_partial : forall E ds v s t r aid cg cs, saidOk (rv E) r = true -> onRoute E t r aid -> good E r aid cg -> In cg cs ->
  apart ds s -> proper s r -> lacks E v t r aid ->
  exists id, about E t r id /\ waiting (fst (deliver E v r cs [] s)) t id aid r cg /\
    (t <> CredMae -> ~ In (t, id, aid, q_said r) (nes (B s)) -> exists q, helps E v t r q /\ cues (fst (deliver E v r cs [] s)) = cues s ++ [q]).
Proof.
  intros E ds v s t r aid cg cs SO RT GD CI A (P1 & P2) L. destruct (handle_lacks E ds v t aid r cg GD RT s cs A CI L) as (s1 & id & q & e & H & W & ID & AS & C1 & B1).
  assert (DL : fst (deliver E v r cs [] s) = fst (park t id aid r cs [] q e s1)).
  { unfold deliver. rewrite SO. cbn [negb]. rewrite (route_eq E t aid r RT), H. reflexivity. }
  rewrite DL. exists id. split; [|split].
  - unfold idOf in ID. unfold about. destruct (isReg t); [destruct (asReg E r) as [z|]|destruct (asVc E r) as [z|]]; try discriminate; injection ID as <-; exists z; auto.
  - split; [apply park_nes; right; reflexivity|]. split; [rewrite park_dts, B1; apply dget_dput_new; exact P1|]. split; [rewrite park_sns, B1; apply dget_dput_new; exact P2|].
    rewrite park_bcgs. apply putCigs_new. exact CI.
  - intros NT NI. exists q. destruct (park_cues t id aid r cs [] q e s1) as (new & E1 & E2). split.
    + unfold asks in AS. unfold helps. destruct t; try congruence; [destruct (asVc E r) as [z|]|destruct (asVc E r) as [z|]|destruct (asReg E r) as [z|]|destruct (asReg E r) as [z|]];
        try discriminate; injection AS as <-; exists z; auto.
    + rewrite E1, E2, C1; [reflexivity|]. rewrite B1. exact NI.
Qed.
Lemma goodx : forall r, good Ex r (s2b "BW") (sigx "BW" r).
Proof. intros r. split; [reflexivity|]. split; [reflexivity|]. split; [|cbn; auto]. cbn [Ex rv rvx vrfy sigx c_raw]. apply beq_refl. Qed.
Definition dsx (d : bytes) : Prop := In d [s2b "ev0"; s2b "ev1"; s2b "iss"; s2b "rev"].
Lemma apart0 : forall ds, apart ds st0.
Proof. intros ds. split; [intros id a d H; discriminate H|]. split; [intros k H; elim H; reflexivity|]. split; [intros k r H; discriminate H|intros t p a d []]. Qed.
Example escrowed_ex : saidOk (rv Ex) NC1 = true /\ onRoute Ex CredMre NC1 (s2b "BW") /\ good Ex NC1 (s2b "BW") (sigx "BW" NC1) /\ apart dsx st0 /\ proper st0 NC1 /\ lacks Ex v0 CredMre NC1 (s2b "BW") /\
  lacks Ex v1 CredOoo NC1 (s2b "BW") /\ ready Ex v2 false NC1 (s2b "BW") (s2b "EC") (s2b "rev").
Proof.
  assert (NS : ~ In 47 (s2b "BW")) by (intros H; vm_compute in H; destruct H as [H|[H|[]]]; discriminate H).
  split; [reflexivity|]. split; [split; [reflexivity|]; split; [discriminate|exact NS]|]. split; [apply goodx|]. split; [apply apart0|]. split; [split; left; reflexivity|].
  split; [eexists; split; [reflexivity|]; intros u H; discriminate H|].
  assert (VS : forall v, tevers v (s2b "ER") = Some (mkTv 0 (s2b "EI") true []) \/ tevers v (s2b "ER") = Some (mkTv 1 (s2b "EI") true []) -> knows v (s2b "EI") = true -> wits v (s2b "EI") = [s2b "BW"] -> vcSource Ex v NC1 (s2b "BW")).
  { intros v TV KN WT. destruct TV as [TV|TV]; eexists; eexists; (split; [reflexivity|]); (split; [exact TV|]); cbn [v_ra tv_sn tv_pre tv_nob]; (split; [lia|]); (split; [exact KN|]); right; right; left; rewrite WT; left; reflexivity. }
  split.
  - split; [apply VS; [left; reflexivity|reflexivity|reflexivity]|]. intros x H. reflexivity.
  - split; [apply VS; [right; reflexivity|reflexivity|reflexivity]|]. exists 1, 1. split; [eexists; split; [reflexivity|]; auto|]. split; [vm_compute; reflexivity|lia].
Qed.
Lemma c122_waits_partial : forall E ds v now s t pre aid r cg, digests ds v -> apart ds s -> dotless E s -> plain s (q_said r) -> good E r aid cg -> onRoute E t r aid ->
  now - q_dt r <= 3600 * 1000000 -> waiting s t pre aid r cg -> lacks E v t r aid ->
  let s' := fst (pass E v now s) in snd (pass E v now s) = true /\ waiting s' t pre aid r cg /\ apart ds s' /\ dotless E s' /\ plain s' (q_said r).
Proof.
  intros E ds v now s t pre aid r cg DS A DL PL GD RT TM (W1 & W2 & W3 & W4) L.
  destruct (pass_waits E ds v now t pre aid r cg DS GD RT TM L s) as ((C1 & C2 & C3 & C4 & C5 & C6) & I & T).
  { split; [exact W2|]. split; [exact W3|]. split; [exact W4|]. auto. }
  { exact W1. }
  cbv zeta. split; [exact T|]. split; [split; [exact I|auto]|auto].
Qed.
Lemma c122_recorded_partial : forall E ds v now s t pre aid r cg id d, digests ds v -> apart ds s -> dotless E s -> plain s (q_said r) -> good E r aid cg -> onRoute E t r aid ->
  now - q_dt r <= 3600 * 1000000 -> waiting s t pre aid r cg -> ready E v (isReg t) r aid id d ->
  ~ In (t, pre, aid, q_said r) (nes (B (fst (pass E v now s)))) /\ exists new, cues (fst (pass E v now s)) = cues s ++ new /\ In (Saved id d) new.
Proof.
  intros E ds v now s t pre aid r cg id d DS A DL PL GD RT TM (W1 & W2 & W3 & W4) RD.
  apply (pass_saves E ds v now t pre aid r cg DS GD RT TM id d RD s); [|exact W1]. split; [exact W2|]. split; [exact W3|]. split; [exact W4|]. auto.
Qed.
Definition s1x : st := run Ex [msg v0 "BW" NC1].
Lemma nodot : forall s, In s [s2b "EC"; s2b "BW"; s2b "ER"] -> ~ In 46 s.
Proof. intros s I H. cbn in I. destruct I as [<-|[<-|[<-|[]]]]; vm_compute in H; destruct H as [H|[H|[]]]; discriminate H. Qed.
Example waits_ex : digests dsx v2 /\ apart dsx s1x /\ dotless Ex s1x /\ plain s1x (q_said NC1) /\ waiting s1x CredMre (s2b "EC") (s2b "BW") NC1 (sigx "BW" NC1) /\
  current (B (run Ex [msg v0 "BW" NC1; Pass v0 7; Pass v1 8; Pass v2 9])) (s2b "EC") (s2b "BW") = Some (s2b "rev").
Proof.
  assert (SE : s1x = mkS rdb0 (mkB [(s2b "NC1", 6)] [(s2b "NC1", NC1)] [] [(s2b "NC1", [sigx "BW" NC1])] [(CredMre, s2b "EC", s2b "BW", s2b "NC1")] []) [AskTel (s2b "ER") None]) by (vm_compute; reflexivity).
  assert (DX : forall d, dsx d -> d <> s2b "NC1") by (intros d H ->; vm_compute in H; destruct H as [H|[H|[H|[H|[]]]]]; discriminate H).
  assert (SN : forall k r, dget (sns (B s1x)) k = Some r -> k = s2b "NC1" /\ r = NC1).
  { intros k r H. rewrite SE in H. cbn [B sns dget] in H. destruct (beq k (s2b "NC1")) eqn:K; [apply beq_eq in K; injection H as <-; auto|discriminate]. }
  assert (NE : forall x, In x (nes (B s1x)) -> x = (CredMre, s2b "EC", s2b "BW", s2b "NC1")) by (intros x H; rewrite SE in H; destruct H as [<-|[]]; reflexivity).
  split.
  { intros id n d m H. cbn [v2 telAt] in H. unfold telx in H. destruct (beq id (s2b "ER")); [|destruct (beq id (s2b "EC")); [|discriminate]]; (destruct (n =? 0); [|destruct (n =? 1); [|discriminate]]); injection H as <- _; unfold dsx; cbn; auto. }
  split.
  { split; [intros id a d H; rewrite SE in H; discriminate H|]. split; [intros k H; rewrite SE in H; elim H; reflexivity|]. split.
    - intros k r H. destruct (SN k r H) as [-> ->]. split; [intros D; exact (DX _ D eq_refl)|left; reflexivity].
    - intros t p a d H. apply NE in H. injection H as -> -> -> ->. intros D. exact (DX _ D eq_refl). }
  split.
  { split; [intros t p a d H; apply NE in H; injection H as -> -> -> ->; split; apply nodot; cbn; auto|]. intros k r H. destruct (SN k r H) as [-> ->].
    split; [intros x X; discriminate X|]. intros x X. vm_compute in X. injection X as <-. apply nodot. cbn. auto. }
  split; [rewrite SE; reflexivity|]. split; [|vm_compute; reflexivity].
  rewrite SE. split; [left; reflexivity|]. split; [reflexivity|]. split; [reflexivity|]. eexists. split; [reflexivity|left; reflexivity].
Qed.
Lemma c122_old_refuted : ~ (forall E ds v now s t pre aid r cg id d, digests ds v -> apart ds s -> dotless E s -> plain s (q_said r) -> good E r aid cg -> onRoute E t r aid ->
  waiting s t pre aid r cg -> ready E v (isReg t) r aid id d -> exists new, cues (fst (pass E v now s)) = cues s ++ new /\ In (Saved id d) new).
Proof.
  intros H. destruct waits_ex as (X1 & X2 & X3 & X4 & X5 & _). destruct escrowed_ex as (_ & Y1 & Y2 & _ & _ & _ & _ & Y3).
  destruct (H Ex dsx v2 3600000007 s1x CredMre (s2b "EC") (s2b "BW") NC1 (sigx "BW" NC1) (s2b "EC") (s2b "rev") X1 X2 X3 X4 Y2 Y1 X5 Y3) as (new & N & I).
  assert (C : cues (fst (pass Ex v2 3600000007 s1x)) = [AskTel (s2b "ER") None]) by (vm_compute; reflexivity).
  assert (C' : cues s1x = [AskTel (s2b "ER") None]) by (vm_compute; reflexivity). rewrite C, C' in N. destruct new as [|x new]; [destruct I|]. discriminate N.
Qed.
Lemma c122_dots_refuted : forall E v s r aid x cs gs, saidOk (rv E) r = true -> onRoute E CredMre r aid -> asVc E r = Some x -> In 46 (v_i x) -> tevers v (v_ri x) = None ->
  forall es, let s' := fold_left (step E) es (fst (deliver E v r cs gs s)) in
  (forall v' now, snd (pass E v' now s') = false) /\ forall t pre a d, t <> CredMre -> In (t, pre, a, d) (nes (B s)) -> In (t, pre, a, d) (nes (B s')).
Proof.
  intros E v s r aid x cs gs SO RT AX DT TV es.
  assert (DL : exists q e, fst (deliver E v r cs gs s) = fst (park CredMre (v_i x) aid r cs gs q e s)).
  { unfold deliver. rewrite SO. cbn [negb]. rewrite (route_eq E CredMre aid r RT). cbn [isReg handle]. unfold credential. rewrite (route_ok E CredMre aid r RT), AX, TV. cbn [negb]. eexists. eexists. reflexivity. }
  destruct DL as (q & e & ->). cbv zeta. set (s1 := fst (park _ _ _ _ _ _ _ _ _)).
  assert (I1 : In (CredMre, v_i x, aid, q_said r) (nes (B s1))) by (apply park_nes; right; reflexivity).
  destruct (fold_stuck E (v_i x) aid (q_said r) (or_introl DT) es s1 I1) as [I2 K]. split.
  - intros v' now. exact (proj1 (pass_stuck E v' now _ (v_i x) aid (q_said r) (or_introl DT) I2)).
  - intros t pre a d NT I. apply K; [exact NT|]. apply park_nes. left. exact I.
Qed.
Example dots_ex : onRoute Ex CredMre ND (s2b "BX") /\ (exists x, asVc Ex ND = Some x /\ In 46 (v_i x) /\ tevers v2 (v_ri x) = None) /\
  current (B (run Ex [msg v1 "BW" NC1; Msg v2 ND [] []; Pass v2 7; Pass v2 8])) (s2b "EC") (s2b "BW") = None /\
  current (B (run Ex [msg v1 "BW" NC1; Pass v2 7])) (s2b "EC") (s2b "BW") = Some (s2b "rev").
Proof.
  split; [split; [reflexivity|]; split; [discriminate|intros H; vm_compute in H; destruct H as [H|[H|[]]]; discriminate H]|].
  split; [eexists; split; [reflexivity|]; split; [vm_compute; auto|reflexivity]|]. vm_compute. auto.
Qed.
Lemma c122_left_refuted : forall E v s r aid x, saidOk (rv E) r = true -> onRoute E RegMae r aid -> asReg E r = Some x -> knows v (r_ii x) = false ->
  forall es, dget (sns (B (fold_left (step E) es (fst (deliver E v r [] [] s))))) (q_said r) <> None.
Proof.
  intros E v s r aid x SO RT AX KN es. apply fold_sns.
  assert (DL : exists q e, fst (deliver E v r [] [] s) = fst (park RegMae (r_i x) aid r [] [] q e s)).
  { unfold deliver. rewrite SO. cbn [negb]. rewrite (route_eq E RegMae aid r RT). cbn [isReg handle]. unfold registry. rewrite (route_ok E RegMae aid r RT), AX, KN. cbn [negb]. eexists. eexists. reflexivity. }
  destruct DL as (q & e & ->). rewrite park_sns. intros H. rewrite RpProofs.dget_dput, beq_refl in H. destruct (dget (sns (B s)) (q_said r)); discriminate H.
Qed.
Example left_ex : nes (B (run Ex [Msg v0 NR0 [] []; Pass v0 7])) = [] /\ dget (sns (B (run Ex [Msg v0 NR0 [] []; Pass v0 7]))) (s2b "NR0") = Some NR0.
Proof. vm_compute. auto. Qed.
Lemma c122_query_refuted : forall E ds v s r aid cg cs x u, saidOk (rv E) r = true -> onRoute E CredMae r aid -> good E r aid cg -> In cg cs -> apart ds s ->
  asVc E r = Some x -> tevers v (v_ri x) = Some u -> v_ra x <= tv_sn u -> knows v (tv_pre u) = false -> aid <> tv_pre u ->
  ~ In (CredMae, v_i x, aid, q_said r) (nes (B s)) -> cues (fst (deliver E v r cs [] s)) = cues s ++ [AskKel aid] /\ ~ helps E v CredMae r (AskKel aid).
Proof.
  intros E ds v s r aid cg cs x u SO RT GD CI A AX TV RA KN NA NI. assert (L : lacks E v CredMae r aid) by (exists x, u; auto).
  destruct (handle_lacks E ds v CredMae aid r cg GD RT s cs A CI L) as (s1 & id & q & e & H & W & ID & AS & C1 & B1).
  unfold deliver. rewrite SO. cbn [negb]. rewrite (route_eq E CredMae aid r RT), H. destruct (park_cues CredMae id aid r cs [] q e s1) as (new & E1 & E2).
  unfold idOf in ID. cbn [isReg] in ID. rewrite AX in ID. injection ID as <-. cbn [asks] in AS. injection AS as <-. split.
  - rewrite E1, E2, C1; [reflexivity|]. rewrite B1. exact NI.
  - intros (z & w & Z & T & Q). rewrite AX in Z. injection Z as <-. rewrite TV in T. injection T as <-. injection Q as Q. contradiction.
Qed.
Definition v4 : view := mkV kvx (fun _ => false) witx (tvx 0) telx.
Example query_ex : cues (run Ex [msg v4 "BW" NC1]) = [AskKel (s2b "BW")] /\ tevers v4 (s2b "ER") = Some (mkTv 0 (s2b "EI") true []).
Proof. vm_compute. auto. Qed.
