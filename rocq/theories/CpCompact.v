(** Lemmas about Compactor: degrees of disclosure, binding, and a loop that does not end. *)
From Verif Require Import Prelude B64Model B64Proofs MatterModel SubsModel VerModel ThModel JsonModel JsonProofs SerModel SerSpec SerProofs SerInv CpModel CpSpec CpProofs CpRoll CpAgg.
Open Scope N_scope.
Ltac Zify.zify_post_hook ::= Z.div_mod_to_equations.

Section C.
Variable digest : bytes -> bytes -> bytes.
Variable dumpm : bool -> list bytes -> sad -> res bytes.
Hypothesis Hd : digest_ok digest.
Variable L dflt : bytes.
Notation saids := [(L, dflt)].
Notation topCode := (topCode L dflt).

Lemma compactF_mono : forall s n m l r, compactF digest dumpm s n m l = Some r -> forall n', (n <= n')%nat -> compactF digest dumpm s n' m l = Some r.
Proof.
  intros s n. induction n as [|n IH]; intros m l r H n' Hn; [discriminate|]. destruct n' as [|n']; [lia|]. cbn [compactF] in *.
  destruct (trace digest dumpm s [] m) as [[m1 ls]|]; [|exact H]. destruct (assignAll s _ _ m1); [|exact H]. destruct (isCompact _ _ _ || _); [exact H|]. eapply IH; [exact H|lia].
Qed.
Lemma compactor_mono : forall n strict s m r, compactor digest dumpm n strict s m = Some r -> forall n', (n <= n')%nat -> compactor digest dumpm n' strict s m = Some r.
Proof.
  intros n strict s m r H n' Hn. unfold compactor in *. destruct (mapperMake digest dumpm strict s m) as [[m1 s1]|]; [|exact H]. destruct (compactF digest dumpm s1 n (VMap m1) []) as [x|] eqn:E; [|discriminate]. rewrite (compactF_mono _ _ _ _ _ E n' Hn). exact H.
Qed.
Lemma compactor_ends : forall n strict m, wfv (VMap m) -> dotless L (VMap m) -> (saidCount L (VMap m) < n)%nat -> exists r, compactor digest dumpm n strict saids m = Some r.
Proof.
  intros n strict m W D C. destruct (dget m L) as [x|] eqn:G.
  - pose proof (compactor_spec digest dumpm Hd L dflt n strict m W D) as H. destruct (mapperMake digest dumpm strict saids m); [|eauto using Nat.lt_le_incl].
    + rewrite G in H. specialize (H ltac:(discriminate) ltac:(lia)). destruct (rollTop _ _ _ _ _); [eauto|destruct H; eauto].
    + eexists. apply H; [congruence|lia].
  - pose proof (compactor_nosaid digest dumpm Hd L dflt n strict m W D G C) as H. destruct (mapperMake digest dumpm strict saids m); [|eauto]. destruct (rollTop _ _ _ _ _); [eauto|destruct H; eauto].
Qed.
(** what the Compactor makes, whatever the number of rounds it was given *)
Lemma compactor_said : forall n strict m m3 s, wfv (VMap m) -> dotless L (VMap m) -> dget m L <> None -> compactor digest dumpm n strict saids m = Some (Ok (m3, s)) ->
  (exists y, mapperMake digest dumpm strict saids m = Ok y) /\ rollTop digest dumpm L (topCode m) (dset m L (VStr [])) = Ok m3 /\ s = [(L, topCode m)].
Proof.
  intros n strict m m3 s W D N H. pose proof (compactor_mono _ _ _ _ _ H (n + saidCount L (VMap m))%nat ltac:(lia)) as H'.
  pose proof (compactor_spec digest dumpm Hd L dflt (n + saidCount L (VMap m))%nat strict m W D N ltac:(lia)) as Q. destruct (mapperMake digest dumpm strict saids m) as [y|]; [|congruence].
  destruct (rollTop _ _ _ _ _) as [m3'|]; [|destruct Q; congruence]. split; [eauto|]. rewrite H' in Q. injection Q as -> ->. split; reflexivity.
Qed.
Lemma compactor_plain : forall n strict m m3 s, wfv (VMap m) -> dotless L (VMap m) -> dget m L = None -> compactor digest dumpm n strict saids m = Some (Ok (m3, s)) ->
  rollTop digest dumpm L dflt m = Ok m3 /\ s = saids.
Proof.
  intros n strict m m3 s W D N H. pose proof (compactor_mono _ _ _ _ _ H (S (n + saidCount L (VMap m)))%nat ltac:(lia)) as H'.
  pose proof (compactor_nosaid digest dumpm Hd L dflt (S (n + saidCount L (VMap m)))%nat strict m W D N ltac:(lia)) as Q. destruct (mapperMake digest dumpm strict saids m) as [y|]; [|congruence].
  destruct (rollTop _ _ _ _ _) as [m3'|]; [|destruct Q; congruence]. rewrite H' in Q. injection Q as -> ->. split; reflexivity.
Qed.

(** ** Redaction *)
Lemma redacts_keep : forall code v w, redacts digest dumpm L code w v -> (wfv v -> wfv w) /\ (saidCount L w <= saidCount L v)%nat /\ (dotless L v -> dotless L w).
Proof.
  intros code. induction v as [| | z | s | l IH | m IH] using val_ind'; intros w R; try (inversion R; subst; auto with arith; fail).
  inversion R as [? E1 E2|? q Hq E1 E2|w' ? Hw E1 E2]; subst; [auto| |].
  - split; [intros; exact Logic.I|]. split; [cbn; lia|intros; exact Logic.I].
  - pose proof (forall2_keys _ _ _ Hw) as K. rewrite !saidCount_eq. unfold hasKey. cbn [wfv dotless]. change (map fst w') with (keysOf w'). change (map fst m) with (keysOf m). rewrite K. clear K R.
    assert (X : (fold_right (fun kv P => wfv (snd kv) /\ P) True m -> fold_right (fun kv P => wfv (snd kv) /\ P) True w') /\
      (fold_right (fun kv n => (saidCount L (snd kv) + n)%nat) 0%nat w' <= fold_right (fun kv n => (saidCount L (snd kv) + n)%nat) 0%nat m)%nat /\
      (fold_right (fun kv P => ((0 < saidCount L (snd kv))%nat -> noDot (fst kv)) /\ dotless L (snd kv) /\ P) True m -> fold_right (fun kv P => ((0 < saidCount L (snd kv))%nat -> noDot (fst kv)) /\ dotless L (snd kv) /\ P) True w')).
    { induction Hw as [|a b w m [E Hr] Hw IHw]; [auto|]. inversion IH as [|? ? Hb IHm]; subst. specialize (IHw IHm). destruct (Hb _ Hr) as (A1 & A2 & A3). destruct IHw as (B1 & B2 & B3). cbn [fold_right]. split; [tauto|]. split; [lia|]. rewrite E. intros (Y1 & Y2 & Y3). split; [intros; apply Y1; lia|tauto]. }
    destruct X as (X1 & X2 & X3). split; [tauto|]. split; [destruct (memB L (keysOf m)); lia|exact X3].
Qed.
Lemma redactsMap_redacts : forall w m, redactsMap digest dumpm L dflt w m -> Forall2 (fun a b => fst a = fst b /\ redacts digest dumpm L (topCode m) (snd a) (snd b)) w m.
Proof. intros w m. unfold redactsMap. generalize (topCode m). intros c F. induction F as [|[k x] [k' y] w m [E H] F IH]; constructor; [|exact IH]. cbn [fst snd] in *. split; [exact E|]. destruct (beq k L); [subst y; apply rd_same|exact H]. Qed.
Lemma redactsMap_get : forall w m, redactsMap digest dumpm L dflt w m -> dget w L = dget m L.
Proof.
  intros w m. unfold redactsMap. generalize (topCode m). intros c F. induction F as [|[k x] [k' y] w m [E H] F IH]; [reflexivity|]. cbn [fst snd] in *. subst k'. cbn [dget]. destruct (beq L k) eqn:Q; [|exact IH].
  apply beq_eq in Q. subst k. rewrite beq_refl in H. subst y. reflexivity.
Qed.
Lemma forall2_dset : forall (R : val -> val -> Prop) x w m, R x x -> Forall2 (fun a b => fst a = fst b /\ R (snd a) (snd b)) w m -> Forall2 (fun a b => fst a = fst b /\ R (snd a) (snd b)) (dset w L x) (dset m L x).
Proof.
  intros R x w m Rx F. induction F as [|[k y] [k' z] w m [E H] F IH]; cbn [dset]; [constructor; [auto|constructor]|]. cbn [fst snd] in *. subst k'. destruct (beq L k); constructor; auto.
Qed.
Lemma rollTop_redacts : forall code w m r, Forall2 (fun a b => fst a = fst b /\ redacts digest dumpm L code (snd a) (snd b)) w m -> rollTop digest dumpm L code m = Ok r -> rollTop digest dumpm L code w = Ok r.
Proof.
  intros code w m r F H. unfold rollTop in *. destruct (rolls digest dumpm L code m) as [m'|] eqn:R; cbn [bind] in H; [|discriminate]. rewrite (redacts_rolls _ _ _ _ _ _ _ F R). cbn [bind].
  pose proof (forall2_keys _ _ _ F) as K. destruct (dget m L) as [x|] eqn:G.
  - assert (I : In L (keysOf w)) by (rewrite K; apply dget_keys; eauto). apply dget_keys in I. destruct I as (y & ->). exact H.
  - destruct (dget w L) as [y|] eqn:Gw; [|exact H]. exfalso. assert (I : In L (keysOf w)) by (apply dget_keys; eauto). rewrite K in I. apply dget_keys in I. destruct I as (z & I). congruence.
Qed.
Lemma compactor_redacts : forall n strict m m3 s w y, wfv (VMap m) -> dotless L (VMap m) -> compactor digest dumpm n strict saids m = Some (Ok (m3, s)) ->
  redactsMap digest dumpm L dflt w m -> mapperMake digest dumpm strict saids w = Ok y -> exists n', compactor digest dumpm n' strict saids w = Some (Ok (m3, s)).
Proof.
  intros n strict m m3 s w y W D H R M. pose proof (redactsMap_redacts _ _ R) as F. destruct (redacts_keep (topCode m) (VMap m) (VMap w)) as (Ww & _ & Dw); [constructor; exact F|]. specialize (Ww W). specialize (Dw D). exists (S (saidCount L (VMap w))).
  pose proof (redactsMap_get _ _ R) as G. destruct (dget m L) as [x|] eqn:Gm.
  - destruct (compactor_said _ _ _ _ _ W D ltac:(congruence) H) as (_ & T & ->). assert (TC : topCode w = topCode m) by (unfold CpSpec.topCode; rewrite G, Gm; reflexivity).
    pose proof (compactor_spec digest dumpm Hd L dflt (S (saidCount L (VMap w))) strict w Ww Dw ltac:(congruence) ltac:(lia)) as Q. rewrite M, TC in Q. erewrite rollTop_redacts in Q; [exact Q| |exact T]. apply forall2_dset; [constructor|exact F].
  - destruct (compactor_plain _ _ _ _ _ W D Gm H) as (T & ->). pose proof (compactor_nosaid digest dumpm Hd L dflt (S (saidCount L (VMap w))) strict w Ww Dw G ltac:(lia)) as Q. rewrite M in Q.
    unfold CpSpec.topCode in F. rewrite Gm in F. rewrite (rollTop_redacts _ _ _ _ F T) in Q. exact Q.
Qed.
Lemma compactor_text : forall n strict m m3 s, wfv (VMap m) -> dotless L (VMap m) -> dget m L <> None -> compactor digest dumpm n strict saids m = Some (Ok (m3, s)) ->
  exists m' q, rolls digest dumpm L (topCode m) (dset m L (VStr [])) = Ok m' /\ saidText digest dumpm L (topCode m) m' = Ok q /\ m3 = dset m' L (VStr q) /\ dget m' L = Some (VStr []).
Proof.
  intros n strict m m3 s W D N H. destruct (compactor_said _ _ _ _ _ W D N H) as (_ & T & _). unfold rollTop in T. destruct (rolls digest dumpm L (topCode m) (dset m L (VStr []))) as [m'|] eqn:R; cbn [bind] in T; [|discriminate].
  rewrite dget_dset, beq_refl in T. destruct (saidText digest dumpm L (topCode m) m') as [q|] eqn:Q; cbn [bind] in T; [|discriminate]. injection T as <-. exists m', q. split; [reflexivity|]. split; [exact Q|]. split; [reflexivity|].
  pose proof (rolls_dset digest dumpm L (topCode m) m (VStr []) (VStr []) eq_refl eq_refl) as X. rewrite R in X. cbn [bind] in X. injection X as X. rewrite X, dget_dset, beq_refl. reflexivity.
Qed.
Lemma compactor_verifies : forall n strict m m3 s, wfv (VMap m) -> dotless L (VMap m) -> dget m L <> None -> compactor digest dumpm n strict saids m = Some (Ok (m3, s)) ->
  mapperVerify digest dumpm true saids m3 = Ok tt.
Proof.
  intros n strict m m3 s W D N H. destruct (compactor_text _ _ _ _ _ W D N H) as (m' & q & _ & T & -> & G). unfold saidText in T. rewrite G, codeFor_nil in T.
  destruct (memB (topCode m) DigDex) eqn:I; cbn [negb] in T; [|discriminate]. destruct (dumpm true [L] _) as [raw|] eqn:R; cbn [bind] in T; [|discriminate]. destruct (digerOf digest (topCode m) raw) as [t|] eqn:Q; cbn [bind] in T; [|discriminate].
  destruct (dumpm true [] _) as [r|] eqn:Z; cbn [bind] in T; [|discriminate]. injection T as ->. destruct (digerOf_inv _ _ _ _ Hd Q) as (X & _).
  unfold mapperVerify. rewrite Z. cbn [bind dummyMad keysOf map fst filter]. rewrite dget_dset, beq_refl, (codeOf_digest _ _ _ _ X), I. cbn [negb bind]. rewrite hasKey_dset, dset_dset, R. cbn [bind fillMad]. rewrite hasKey_dset, Q. cbn [bind forallb]. rewrite dset_dset, dget_dset, beq_refl, beq_refl. reflexivity.
Qed.

(** ** Binding *)
Hypothesis Hi : injDump dumpm.
Lemma agree_dset : forall c (m1 m2 : sad) v, Forall2 (fun x y => fst x = fst y /\ (fst x = L \/ agree digest dumpm L c (snd x) (snd y))) (dset m1 L v) (dset m2 L v) -> In L (keysOf m1) -> In L (keysOf m2) ->
  Forall2 (fun x y => fst x = fst y /\ (fst x = L \/ agree digest dumpm L c (snd x) (snd y))) m1 m2.
Proof.
  intros c m1. induction m1 as [|[k x] m1 IH]; intros m2 v F I1 I2; [destruct I1|]. destruct m2 as [|[k' y] m2]; [destruct I2|]. cbn [dset] in F. destruct (beq L k) eqn:K1, (beq L k') eqn:K2; inversion F as [|? ? ? ? [E H] F']; cbn [fst snd] in *; subst.
  - constructor; [|exact F']. apply beq_eq in K1. apply beq_eq in K2. subst k k'. cbn. split; [reflexivity|left; reflexivity].
  - rewrite beq_refl in K2. discriminate.
  - rewrite beq_refl in K1. discriminate.
  - constructor; [cbn [fst snd]; split; [reflexivity|exact H]|]. cbn [keysOf map fst] in I1, I2. destruct I1 as [I1|I1]; [subst; rewrite beq_refl in K1; discriminate|]. destruct I2 as [I2|I2]; [subst; rewrite beq_refl in K1; discriminate|]. eapply IH; eassumption.
Qed.
Lemma saidText_code : forall c m q, saidText digest dumpm L c m = Ok q -> exists x raw, dget m L = Some x /\ isDigestOf digest (codeFor c x) raw q.
Proof.
  intros c m q H. unfold saidText in H. destruct (dget m L) as [x|]; [|discriminate]. destruct (negb (memB (codeFor c x) DigDex)); [discriminate|]. destruct (dumpm true [L] _) as [raw|]; cbn [bind] in H; [|discriminate].
  destruct (digerOf digest (codeFor c x) raw) as [t|] eqn:Q; cbn [bind] in H; [|discriminate]. destruct (dumpm true [] _); cbn [bind] in H; [|discriminate]. injection H as <-. exists x, raw. split; [reflexivity|]. exact (proj1 (digerOf_inv _ _ _ _ Hd Q)).
Qed.
Lemma saidText_same : forall c a b q, saidText digest dumpm L c a = Ok q -> saidText digest dumpm L c b = Ok q -> (forall v, dset a L v = dset b L v) \/ collision digest.
Proof.
  intros c a b q A B. unfold saidText in A, B. destruct (dget a L) as [x|]; [|discriminate]. destruct (dget b L) as [y|]; [|discriminate]. destruct (negb (memB (codeFor c x) DigDex)); [discriminate|]. destruct (negb (memB (codeFor c y) DigDex)); [discriminate|].
  destruct (dumpm true [L] (dset a _ _)) as [ra|] eqn:Ra; cbn [bind] in A; [|discriminate]. destruct (dumpm true [L] (dset b _ _)) as [rb|] eqn:Rb; cbn [bind] in B; [|discriminate].
  destruct (digerOf digest (codeFor c x) ra) as [t|] eqn:Qa; cbn [bind] in A; [|discriminate]. destruct (dumpm true [] _); cbn [bind] in A; [|discriminate]. injection A as ->. destruct (digerOf digest (codeFor c y) rb) as [t|] eqn:Qb; cbn [bind] in B; [|discriminate]. destruct (dumpm true [] _); cbn [bind] in B; [|discriminate]. injection B as ->.
  destruct (digerOf_inv _ _ _ _ Hd Qa) as ((I1 & Xa & _) & _). destruct (digerOf_inv _ _ _ _ Hd Qb) as ((_ & Xb & _) & _). rewrite Xa in Xb. injection Xb as EC ED. rewrite <- EC in *. destruct (list_eq_dec N.eq_dec ra rb) as [->|N].
  - left. intros v. pose proof (Hi _ _ _ _ _ Ra Rb) as E. rewrite <- (dset_dset a L (dummy (fullSize (codeFor c x))) v), E, dset_dset. reflexivity.
  - right. exists (codeFor c x), ra, rb. split; [exact I1|]. split; assumption.
Qed.
Lemma rolled_blank : forall c m m', rolls digest dumpm L c (dset m L (VStr [])) = Ok m' -> dget m' L = Some (VStr []).
Proof. intros c m m' R. pose proof (rolls_dset digest dumpm L c m (VStr []) (VStr []) eq_refl eq_refl) as X. rewrite R in X. cbn [bind] in X. injection X as X. rewrite X, dget_dset, beq_refl. reflexivity. Qed.
Lemma text_binds : forall a b a' b' q, dget a L <> None -> dget b L <> None ->
  rolls digest dumpm L (topCode a) (dset a L (VStr [])) = Ok a' -> saidText digest dumpm L (topCode a) a' = Ok q ->
  rolls digest dumpm L (topCode b) (dset b L (VStr [])) = Ok b' -> saidText digest dumpm L (topCode b) b' = Ok q ->
  (agreeMap digest dumpm L dflt a b /\ dset a' L (VStr q) = dset b' L (VStr q)) \/ collision digest.
Proof.
  intros a b a' b' q Na Nb Ra Ta Rb Tb. pose proof (rolled_blank _ _ _ Ra) as Ea. pose proof (rolled_blank _ _ _ Rb) as Eb.
  destruct (saidText_code _ _ _ Ta) as (x & r1 & X1 & (_ & X2 & _)). destruct (saidText_code _ _ _ Tb) as (y & r2 & Y1 & (_ & Y2 & _)).
  rewrite Ea in X1. rewrite Eb in Y1. injection X1 as <-. injection Y1 as <-. rewrite !codeFor_nil in *. rewrite X2 in Y2. injection Y2 as EC _. rewrite <- EC in *. destruct (saidText_same _ _ _ _ Ta Tb) as [S1|C]; [|right; exact C].
  destruct (saidText_inj digest dumpm L _ Hd Hi _ _ _ Ta Tb) as [F|C]; [|right; exact C]. destruct (rolls_agree digest dumpm L _ Hd Hi _ _ _ _ Ra Rb F) as [G|C]; [|right; exact C]. left. split.
  - eapply agree_dset; [exact G| |]; apply dget_keys; [destruct (dget a L)|destruct (dget b L)]; eauto; congruence.
  - apply S1.
Qed.
Lemma compactor_binds : forall n1 n2 st1 st2 a b ma mb sa sb q, wfv (VMap a) -> wfv (VMap b) -> dotless L (VMap a) -> dotless L (VMap b) -> dget a L <> None -> dget b L <> None ->
  compactor digest dumpm n1 st1 saids a = Some (Ok (ma, sa)) -> compactor digest dumpm n2 st2 saids b = Some (Ok (mb, sb)) -> dget ma L = Some (VStr q) -> dget mb L = Some (VStr q) ->
  (agreeMap digest dumpm L dflt a b /\ ma = mb) \/ collision digest.
Proof.
  intros n1 n2 st1 st2 a b ma mb sa sb q Wa Wb Da Db Na Nb Ha Hb Ga Gb. destruct (compactor_text _ _ _ _ _ Wa Da Na Ha) as (a' & qa & Ra & Ta & -> & Ea). destruct (compactor_text _ _ _ _ _ Wb Db Nb Hb) as (b' & qb & Rb & Tb & -> & Eb).
  rewrite dget_dset, beq_refl in Ga, Gb. injection Ga as ->. injection Gb as ->. eapply text_binds; eassumption.
Qed.
End C.

(** ** JSON *)
Lemma jsonInj : injDump jsonDump.
Proof. intros s dl m m' r A B. unfold jsonDump in *. assert (E : json (VMap m) = json (VMap m')) by congruence. apply json_inj in E. congruence. Qed.
Lemma jsonInjl : injDumpl jsonDumpl.
Proof. intros n l l' r _ _ A B. unfold jsonDumpl in *. assert (E : json (VList (dummy n :: l)) = json (VList (dummy n :: l'))) by congruence. apply json_inj in E. congruence. Qed.
Lemma json_nonempty : forall v, json v <> [].
Proof. intros v E. pose proof (json_len v) as H. rewrite E in H. cbn in H. lia. Qed.
Lemma make_json : forall digest strict L dflt m x, digest_ok digest -> dget m L = Some x -> In (codeFor dflt x) DigDex ->
  exists q, mapperMake digest jsonDump strict [(L, dflt)] m = Ok (dset m L (VStr q), [(L, codeFor dflt x)]) /\ isDigestOf digest (codeFor dflt x) (json (VMap (dset m L (dummy (fullSize (codeFor dflt x)))))) q.
Proof.
  intros digest strict L dflt m x Hd G I. destruct (digerOf_ok digest (codeFor dflt x) (json (VMap (dset m L (dummy (fullSize (codeFor dflt x)))))) Hd I (json_nonempty _)) as (q & Q & T & _). exists q. split; [|exact T].
  unfold mapperMake. cbn [dummyMad keysOf map fst filter]. rewrite G. change (match codeOf (Some x) with Ok x0 => x0 | Err _ => dflt end) with (codeFor dflt x). apply memB_In in I. rewrite I. cbn [negb bind].
  assert (K : hasKey m L = true) by (apply hasKey_iff; eauto). rewrite K. unfold jsonDump at 1. cbn [bind fillMad]. rewrite K, Q. reflexivity.
Qed.
Lemma make_json_nosaid : forall digest strict L dflt m, dget m L = None -> mapperMake digest jsonDump strict [(L, dflt)] m = Ok (m, [(L, dflt)]).
Proof.
  intros digest strict L dflt m G. assert (K : hasKey m L = false) by (apply hasKey_none; exact G). unfold mapperMake. cbn [dummyMad keysOf map fst filter]. rewrite G, K. cbn [bind]. unfold jsonDump at 1. cbn [bind fillMad]. rewrite K. reflexivity.
Qed.

(** a label with a dot above a map with a said *)
Definition dotted : sad := [(s2b "d", VStr []); (s2b "a.b", VMap [(s2b "d", VStr [])])].
Lemma hang : forall digest, digest_ok digest -> forall n, compactor digest jsonDump n true SaidsD dotted = None.
Proof.
  intros digest Hd n. unfold compactor.
  destruct (make_json digest true (s2b "d") (s2b "E") dotted (VStr []) Hd eq_refl ltac:(left; reflexivity)) as (q0 & M & _). unfold SaidsD. rewrite M. clear M. rewrite codeFor_nil.
  change (dset dotted (s2b "d") (VStr q0)) with [(s2b "d", VStr q0); (s2b "a.b", VMap [(s2b "d", VStr [])])].
  assert (X : forall n x leaves, codeFor (s2b "E") x = s2b "E" -> memB [] (keysOf leaves) = false -> isMap x = false ->
    compactF digest jsonDump [(s2b "d", s2b "E")] n (VMap [(s2b "d", VStr q0); (s2b "a.b", VMap [(s2b "d", x)])]) leaves = None).
  { induction n0 as [|n0 IH]; intros x leaves C NL NM; [reflexivity|]. cbn [compactF].
    destruct (make_json digest true (s2b "d") (s2b "E") [(s2b "d", x)] x Hd eq_refl ltac:(rewrite C; left; reflexivity)) as (q1 & M & Q). rewrite C in Q.
    assert (T : trace digest jsonDump [(s2b "d", s2b "E")] [] (VMap [(s2b "d", VStr q0); (s2b "a.b", VMap [(s2b "d", x)])]) = Ok (VMap [(s2b "d", VStr q0); (s2b "a.b", VMap [(s2b "d", VStr q1)])], [(s2b ".a.b", [(s2b "d", VStr q1)])])).
    { rewrite C in M. destruct x as [| | |t|l|m]; try discriminate; cbn -[mapperMake exfil] in M |- *; rewrite M; reflexivity. }
    rewrite T. cbn [fold_left fst snd map assignAll]. rewrite dget_dset, beq_refl. cbn [bind].
    change (assignAt (s2b ".a.b") (saidOf [(s2b "d", s2b "E")] [(s2b "d", VStr q1)]) (VMap [(s2b "d", VStr q0); (s2b "a.b", VMap [(s2b "d", VStr q1)])])) with (Ok (VMap [(s2b "d", VStr q0); (s2b "a.b", VMap [(s2b "d", VStr q1)])])). cbn [bind].
    assert (NL' : memB [] (keysOf (dset leaves (s2b ".a.b") [(s2b "d", VStr q1)])) = false).
    { apply memB_nIn. apply memB_nIn in NL. intros I. apply dget_keys in I. destruct I as (y & I). rewrite dget_dset in I. apply NL. apply dget_keys. exists y. exact I. }
    unfold isCompact. rewrite NL', andb_false_r. cbn [orb]. apply IH; [exact (codeFor_digest _ _ _ _ _ Q)|exact NL'|reflexivity]. }
  rewrite X; reflexivity.
Qed.

(** elements without a said field *)
Lemma null_elements : forall digest, digest_ok digest -> exists q, digText q = Ok q /\ forall a, (a = VMap [(s2b "x", VInt 1)] \/ a = VMap [(s2b "x", VInt 2)]) ->
  aggorMake digest jsonDump jsonDumpl (s2b "E") SaidsD [VStr []; a] = Ok [VStr q; a] /\ aggorVerify digest jsonDump jsonDumpl (s2b "E") SaidsD [VStr q; a] = Ok tt /\
  disclose digest jsonDump SaidsD [VStr q; a] [0%Z] = Ok [VStr q; VNull] /\ verifyDisclosure digest jsonDump jsonDumpl (s2b "E") SaidsD [VStr q; VNull] = Ok false.
Proof.
  intros digest Hd. destruct (digerOf_ok digest (s2b "E") (json (VList [dummy (fullSize (s2b "E")); VNull])) Hd ltac:(left; reflexivity) (json_nonempty _)) as (q & Q & T & _). exists q. split; [eapply digText_digest; exact T|]. intros a Ha.
  assert (M : exists m, a = VMap m /\ dget m (s2b "d") = None) by (destruct Ha as [-> | ->]; eexists; split; reflexivity). destruct M as (m & -> & G). clear Ha.
  assert (K : hasKey m (s2b "d") = false) by (apply hasKey_none; exact G).
  assert (MM : mapperMake digest jsonDump true SaidsD m = Ok (m, SaidsD)) by (apply make_json_nosaid; exact G).
  assert (MV : mapperVerify digest jsonDump true SaidsD m = Ok tt).
  { unfold mapperVerify, SaidsD. cbn [dummyMad keysOf map fst filter]. rewrite G, K. unfold jsonDump. cbn [bind fillMad forallb]. rewrite K. cbn [bind]. rewrite G. reflexivity. }
  assert (SO : saidOf SaidsD m = VNull) by (unfold saidOf, SaidsD; rewrite G; reflexivity).
  split; [|split; [|split]].
  - cbn [aggorMake aggMake]. rewrite MM. cbn [bind]. rewrite SO. unfold jsonDumpl at 1. cbn [bind]. rewrite Q. reflexivity.
  - unfold aggorVerify. unfold jsonDumpl at 1. cbn [bind aggCheck]. rewrite MV. cbn [bind]. rewrite SO. unfold jsonDumpl at 1. cbn [bind]. rewrite Q. cbn [bind]. rewrite beq_refl. reflexivity.
  - unfold disclose. cbn [atoms]. rewrite (digText_digest _ _ _ _ T), MV. cbn [bind]. rewrite SO. reflexivity.
  - reflexivity.
Qed.
