From Verif Require Import Prelude B64Model MatterModel SubsModel ThModel ThProofs KelModel TlModel TlSpec TlProofs TlInv TlThms VcModel VcSpec VcTel VcProofs VcInv VcLive.
Open Scope N_scope.
Ltac Zify.zify_post_hook ::= Z.div_mod_to_equations.

(** ** Concrete credentials *)
(** Issuer 1 has registry 10 and issues credential 100 to 2; 2 has registry 20 and issues credential
    200 to 3, with an edge to 100.  Schemas accept raw texts that start with their number. *)
Definition yX : cenv := mkCenv (fun _ => 0) (fun s raw => match raw with b :: _ => b =? s | [] => false end) 36000000000000000.
Definition yFar : cred := mkCred [7] 100 10 1 (Some 2) 7 (Some []).
Definition yNear (ops : list eop) : cred := mkCred [8] 200 20 2 (Some 3) 8 (Some [Skip; Node 100 ops None]).
Definition yView : kelview := sealv [(1, 1, xvcp 10 1); (1, 2, xiss 100 101 10); (2, 1, xvcp 20 2); (2, 2, xiss 200 201 20); (1, 3, xrev 100 1 102 10 101)].
Definition yTel (e : tev) (k : N) : vact := VTel (TDeliver yView e (at_ k) []).
Definition yAnc : N * N * N := (0, 0, 0).
(** the near credential comes first and waits for its registry, its schema and its chain *)
Definition yHist : list vact :=
  [VCred (yNear [I2I]) yAnc 5; VCred yFar yAnc 6; VSweep 7; yTel (xvcp 20 2) 1; yTel (xiss 200 201 20) 2; VSweep 8; VSchema 8; VSweep 9;
   yTel (xvcp 10 1) 1; yTel (xiss 100 101 10) 2; VSchema 7].
Definition yRun (h : list vact) : vdb := vruns xE xCf yX h vdb0.

Lemma yOne : forall l, (forall c, In c l -> forall c', In c' l -> c_said c = c_said c' -> c = c') -> forall h, (forall c, sent h c -> In c l) -> oneCred h.
Proof. intros l L h S c c' A B C. apply L; auto. Qed.
Ltac ysent := let a := fresh in let t := fresh in let H := fresh in intros ? (a & t & H); repeat (destruct H as [H|H]; [try discriminate; try (injection H as <- _ _)|]); try destruct H; cbn; tauto.

Lemma c62_saved_grounded : forall E cf X h, let d := vruns E cf X h vdb0 in
  exists o, NoDup o /\ (forall s, saved d s = true <-> In s o)
    /\ forall l1 s l2, o = l1 ++ s :: l2 -> exists c h1 h2, h = h1 ++ h2 /\ sent h c /\ c_said c = s
         /\ acceptable X (truns E cf (telOf h1) tdb0) (fun s => In (VSchema s) h1) l1 (creds d) c
         /\ (oneCred h -> creds d s = Some c).
Proof.
  intros E cf X h d. destruct (vruns_inv E cf X h) as (o & V). fold d in V. exists o. split; [apply (g_nodup _ _ _ _ _ _ V)|]. split; [apply (g_saved _ _ _ _ _ _ V)|].
  intros l1 s l2 Q. destruct (g_ord _ _ _ _ _ _ V l1 s l2 Q) as (c & h1 & h2 & A & B & C & D). exists c, h1, h2. repeat (split; [assumption|]). intros One.
  assert (Sv : saved d s = true) by (apply (g_saved _ _ _ _ _ _ V); rewrite Q; apply in_or_app; right; left; reflexivity).
  pose proof (g_has _ _ _ _ _ _ V s Sv) as Z. destruct (creds d s) as [c'|] eqn:Cr; [|congruence]. destruct (g_creds _ _ _ _ _ _ V s c' Cr) as [Z1 Z2]. f_equal. apply One; congruence.
Qed.


Lemma c62_saved_kept : forall E cf X h h' s, saved (vruns E cf X h vdb0) s = true ->
  saved (vruns E cf X (h ++ h') vdb0) s = true /\ exists c, creds (vruns E cf X h vdb0) s = Some c /\ creds (vruns E cf X (h ++ h') vdb0) s = Some c.
Proof.
  intros E cf X h h' s H. rewrite vruns_app. destruct (keeps_runs E cf X h' (vruns E cf X h vdb0)) as [K1 K2]. split; [apply K1; exact H|].
  destruct (vruns_inv E cf X h) as (o & V). pose proof (g_has _ _ _ _ _ _ V s H) as Z. destruct (creds (vruns E cf X h vdb0) s) as [c|] eqn:C; [|congruence]. exists c. split; [reflexivity|apply K2; exact C].
Qed.


Lemma c62_variant_refuted : exists E cf X h s c, let d := vruns E cf X h vdb0 in
  saved d s = true /\ creds d s = Some c /\ validS X (c_schema c) (c_raw c) = false.
Proof.
  exists xE, xCf, yX, ([VCred (mkCred [6; 6] 100 10 1 None 7 None) yAnc 5; yTel (xvcp 10 1) 1; yTel (xiss 100 101 10) 2; VSchema 7; VCred yFar yAnc 6]), 100, (mkCred [6; 6] 100 10 1 None 7 None).
  vm_compute. repeat split.
Qed.
Lemma c62_hidden_issuee_refuted : exists E cf X h c f n, let d := vruns E cf X h vdb0 in
  saved d (c_said c) = true /\ creds d (c_said c) = Some c /\ c_edges c = Some [Node n [] None]
  /\ sent h f /\ c_said f = n /\ (exists i, c_issuee f = Some i /\ i <> c_issuer c).
Proof.
  exists xE, xCf, yX, [VSchema 7; VSchema 8; yTel (xvcp 10 1) 1; yTel (xiss 100 101 10) 2; yTel (xvcp 20 2) 1; yTel (xiss 200 201 20) 2;
     VCred (mkCred [7] 100 10 1 None 7 (Some [])) yAnc 5; VCred (mkCred [7] 100 10 1 (Some 9) 7 (Some [])) yAnc 5; VCred (mkCred [8] 200 20 2 (Some 3) 8 (Some [Node 100 [] None])) yAnc 6],
    (mkCred [8] 200 20 2 (Some 3) 8 (Some [Node 100 [] None])), (mkCred [7] 100 10 1 (Some 9) 7 (Some [])), 100.
  split; [vm_compute; reflexivity|]. split; [vm_compute; reflexivity|]. split; [reflexivity|]. split; [exists yAnc, 5; cbn; tauto|]. split; [reflexivity|]. exists 9. split; [reflexivity|discriminate].
Qed.

Lemma c63_issued_somewhere_partial : forall E cf X h s, saved (vruns E cf X h vdb0) s = true -> (forall r, delivered (telOf h) r -> t_ilk r = Vcp -> t_pre r <> s) ->
  exists e ii, delivered (telOf h) e /\ t_pre e = s /\ t_sn e = 0 /\ (t_ilk e = Iss \/ t_ilk e = Bis) /\ controls (telOf h) (registryOf e) ii /\ anchoredIn (telOf h) ii e.
Proof.
  intros E cf X h s Sv Nr. destruct (c62_saved_grounded E cf X h) as (o & _ & So & Or). apply So in Sv. apply in_split in Sv. destruct Sv as (l1 & l2 & Eo). destruct (Or l1 s l2 Eo) as (c & h1 & h2 & Eh & _ & Cs & Ac & _).
  pose proof (ac_issued _ _ _ _ _ _ Ac) as Is. rewrite Cs in Is. set (t := truns E cf (telOf h1) tdb0) in *. pose proof (truns_inv E cf (telOf h1)) as I0. fold t in I0.
  assert (At : exists g, telAt t s 0 = Some g). { apply telAt_iff; [apply (i_num _ _ I0)|]. unfold issuedIn, vcState in Is. destruct (tels t s); [destruct (Is eq_refl)|]. rewrite len_cons. lia. }
  destruct At as (g & At). destruct (i_ent _ _ I0 s 0 g At) as (e & ii & A1 & A2 & A3 & A4 & A5 & A6 & A7 & A8 & _).
  assert (Pf : telOf h = telOf h1 ++ telOf h2) by (rewrite Eh; apply telOf_app).
  exists e, ii. split; [rewrite Pf; apply delivered_app'; exact A1|]. split; [exact A2|]. split; [exact A3|]. split.
  - destruct (proj1 A8 eq_refl) as [K|K]; [|exact K]. exfalso. apply (Nr e); [rewrite Pf; apply delivered_app'; exact A1|exact K|exact A2].
  - split; [rewrite Pf; apply controls_app'; exact A6|rewrite Pf; apply anchoredIn_app'; exact A7].
Qed.


Lemma c63_issuer_refuted : exists E cf X h c, let d := vruns E cf X h vdb0 in
  oneCred h /\ saved d (c_said c) = true /\ creds d (c_said c) = Some c /\ c_issuer c = 9
  /\ (forall ii, controls (telOf h) (c_reg c) ii -> ii = 1) /\ (forall v k, viewIn (telOf h) v -> v 9 k = None).
Proof.
  pose (c := mkCred [7] 100 10 9 (Some 2) 7 (Some [])).
  exists xE, xCf, yX, [VSchema 7; yTel (xvcp 10 1) 1; yTel (xiss 100 101 10) 2; VCred c yAnc 5], c. split; [|split; [vm_compute; reflexivity|split; [vm_compute; reflexivity|split; [reflexivity|split]]]].
  - apply (yOne [c]); [intros x [<-|[]] y [<-|[]] _; reflexivity|]. ysent.
  - intros ii (r & (v & a & bs & H) & K & P & I & _). cbn in H. destruct H as [H|[H|[]]]; injection H as _ <- _ _; [cbn in I; congruence|discriminate].
  - intros v k H. assert (V : v = yView) by (destruct H as [(e & a & bs & H)|H]; cbn in H; repeat (destruct H as [H|H]; [try discriminate; injection H as <- _ _ _; reflexivity|]); destruct H).
    rewrite V. reflexivity.
Qed.
Lemma c63_registry_refuted : exists E cf X h c, let d := vruns E cf X h vdb0 in
  oneCred h /\ saved d (c_said c) = true /\ creds d (c_said c) = Some c /\ c_issuer c = 1 /\ c_reg c = 10
  /\ (forall ii, controls (telOf h) (c_reg c) ii -> ii = c_issuer c)
  /\ (forall e, delivered (telOf h) e -> t_pre e = c_said c -> registryOf e = 20) /\ (forall ii, controls (telOf h) 20 ii -> ii = 2).
Proof.
  pose (c := mkCred [7] 200 10 1 (Some 2) 7 (Some [])).
  exists xE, xCf, yX, [VSchema 7; yTel (xvcp 10 1) 1; yTel (xvcp 20 2) 1; yTel (xiss 200 201 20) 2; VCred c yAnc 5], c.
  split; [|split; [vm_compute; reflexivity|split; [vm_compute; reflexivity|split; [reflexivity|split; [reflexivity|split; [|split]]]]]].
  - apply (yOne [c]); [intros x [<-|[]] y [<-|[]] _; reflexivity|]. ysent.
  - intros ii (r & (v & a & bs & H) & K & P & I & _). cbn in H. destruct H as [H|[H|[H|[]]]]; injection H as _ <- _ _; [cbn in I; cbn; congruence|discriminate P|discriminate K].
  - intros e (v & a & bs & H) P. cbn in H. destruct H as [H|[H|[H|[]]]]; injection H as _ <- _ _; [discriminate P|discriminate P|reflexivity].
  - intros ii (r & (v & a & bs & H) & K & P & I & _). cbn in H. destruct H as [H|[H|[H|[]]]]; injection H as _ <- _ _; [discriminate P|cbn in I; congruence|discriminate K].
Qed.

Lemma c64_supplied_are_saved : forall E cf X h cs ts, oneCred h -> supplied E cf X h cs -> timely X (h ++ map VSweep ts) cs -> (List.length cs <= List.length ts)%nat ->
  forall c, In c cs -> saved (vruns E cf X (h ++ map VSweep ts) vdb0) (c_said c) = true.
Proof. exact all_saved. Qed.


Lemma c64_escrows_run_to_end : forall E cf X h now, snd (vsweep X now (vruns E cf X h vdb0)) = true.
Proof. exact sweep_runs. Qed.


Lemma c64_private_edges_refuted : forall E cf X h c, oneCred h -> sent h c -> (c_edges c = None \/ exists es, c_edges c = Some es /\ In (BadNode TypeError) es) ->
  saved (vruns E cf X h vdb0) (c_said c) = false.
Proof.
  intros E cf X h c One Sn Bad. destruct (saved (vruns E cf X h vdb0) (c_said c)) eqn:Sv; [|reflexivity]. exfalso.
  destruct (c62_saved_grounded E cf X h) as (o & _ & So & Or). apply So in Sv. apply in_split in Sv. destruct Sv as (l1 & l2 & Eo). destruct (Or l1 _ l2 Eo) as (c' & h1 & h2 & _ & Sn' & Cs & Ac & _).
  assert (c' = c) by (apply One; assumption). subst c'. destruct (ac_edges _ _ _ _ _ _ Ac) as (es & Es & Q). destruct Bad as [Bad|(es' & Es' & Bad)]; [congruence|]. assert (es' = es) by congruence. subst es'.
  destruct (Q _ Bad) as [Z|(n & ops & s & f & Z & _)]; discriminate.
Qed.


Lemma c65_anchor_sent_partial : forall E cf X h s a, cancs (vruns E cf X h vdb0) s = Some a -> exists c now, In (VCred c a now) h /\ c_said c = s.
Proof. intros E cf X h s a H. destruct (vruns_inv E cf X h) as (o & V). apply (g_canc _ _ _ _ _ _ V). exact H. Qed.

Lemma c65_anchor_changed_refuted : exists E cf X h c a b now,
  saved (vruns E cf X h vdb0) (c_said c) = true /\ cancs (vruns E cf X h vdb0) (c_said c) = Some a
  /\ cancs (vruns E cf X (h ++ [VCred c b now]) vdb0) (c_said c) = Some b /\ a <> b.
Proof.
  exists xE, xCf, yX, (yHist ++ [VSweep 10; VSweep 11]), yFar, yAnc, (66, 66, 66), 12. split; [vm_compute; reflexivity|]. split; [vm_compute; reflexivity|]. split; [vm_compute; reflexivity|discriminate].
Qed.

Lemma c66_indexes_exact : forall E cf X h s i, oneCred h -> let d := vruns E cf X h vdb0 in
  (In s (issus d i) <-> saved d s = true /\ exists c, creds d s = Some c /\ c_issuer c = i)
  /\ (In s (schms d i) <-> saved d s = true /\ exists c, creds d s = Some c /\ c_schema c = i)
  /\ (In s (subjs d i) <-> saved d s = true /\ exists c, creds d s = Some c /\ c_issuee c = Some i).
Proof.
  intros E cf X h s i One d. destruct (vruns_inv E cf X h) as (o & V). fold d in V.
  assert (Is : forall c, saved d s = true -> sent h c -> c_said c = s -> creds d s = Some c).
  { intros c Sv Sn Cs. pose proof (g_has _ _ _ _ _ _ V s Sv) as Z. destruct (creds d s) as [c'|] eqn:Cr; [|congruence]. destruct (g_creds _ _ _ _ _ _ V s c' Cr) as [Z1 Z2]. f_equal. apply One; congruence. }
  assert (Bk : saved d s = true -> forall c, creds d s = Some c -> In s (issus d (c_issuer c)) /\ In s (schms d (c_schema c)) /\ forall j, c_issuee c = Some j -> In s (subjs d j)).
  { intros Sv c Cr. destruct (g_idx _ _ _ _ _ _ V s Sv) as (c' & A & B & C & D & F). assert (creds d s = Some c') by (apply Is; assumption). assert (c' = c) by congruence. subst c'. auto. }
  split; [|split]; (split; [intros Q|intros (Sv & c & Cr & K)]).
  - destruct (g_iss _ _ _ _ _ _ V s i Q) as (Sv & c & A & B & C). split; [exact Sv|]. exists c. auto.
  - rewrite <- K. apply (Bk Sv c Cr).
  - destruct (g_sch _ _ _ _ _ _ V s i Q) as (Sv & c & A & B & C). split; [exact Sv|]. exists c. auto.
  - rewrite <- K. apply (Bk Sv c Cr).
  - destruct (g_sub _ _ _ _ _ _ V s i Q) as (Sv & c & A & B & C). split; [exact Sv|]. exists c. auto.
  - apply (Bk Sv c Cr). exact K.
Qed.

