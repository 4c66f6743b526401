(** The said of a native message commits to all of it. *)
From Verif Require Import Prelude B64Model B64Proofs MatterModel MatterProofs MatterInv MatterSpec MatterThms SubsModel SubsProofs SubsThms CtrModel CtrProofs CtrThms ThModel VerModel VerThms JsonModel JsonProofs SerModel SerSpec SerProofs SerInv PsProofs NmModel NmSpec NmProofs NmProofs2 NkModel NkSpec NkProofs NkProofs2 NkProofs3 NkProofs4.
Open Scope N_scope.
Ltac Zify.zify_post_hook ::= Z.div_mod_to_equations.
Notation val := JsonModel.val.
Notation versionage := VerModel.versionage.

Lemma enclose_len : forall v c a b x y, len a = len b -> enclose v c a = Ok x -> enclose v c b = Ok y -> exists h, x = h ++ a /\ y = h ++ b.
Proof.
  intros v c a b x y L A B. unfold enclose in A, B. rewrite <- L in B. apply raise_if_ok in A. destruct A as [_ A]. apply raise_if_ok in B. destruct B as [_ B].
  apply bind_ok in A. destruct A as (k & K & A). rewrite K in B. cbn [bind] in B. apply raise_if_ok in A. destruct A as [_ A]. apply raise_if_ok in B. destruct B as [_ B].
  apply bind_ok in A. destruct A as (h & H & A). rewrite H in B. cbn [bind] in B. apply ok_inj in A, B. exists h. auto.
Qed.
Lemma run_eq : forall n m a b, repeat 35 n ++ a = repeat 35 m ++ b -> (forall r, a <> 35 :: r) -> (forall r, b <> 35 :: r) -> n = m /\ a = b.
Proof.
  intros n m a b. revert m. induction n as [|n IH]; intros [|m] E A B; cbn [repeat app] in E.
  - auto.
  - exfalso. apply (A _ E).
  - exfalso. symmetry in E. apply (B _ E).
  - injection E as E. destruct (IH m E A B) as [-> ->]. auto.
Qed.
Lemma prim_no35 : forall dex q a n b, isPrimOf dex q -> repeat 35 (List.length n) ++ a = q ++ b -> n <> ([] : bytes) -> False.
Proof.
  intros dex q a n b P E N. destruct (isPrimOf_prim _ _ P) as (m & PR & _). destruct (pr_first _ _ PR) as (x & r & -> & _). pose proof (pr_text _ _ PR) as T. inversion T as [|? ? T1 _]; subst.
  destruct n as [|y n]; [congruence|]. cbn [List.length repeat app] in E. injection E as E _. subst x. apply T1. reflexivity.
Qed.
Lemma blank_out : forall L fs, (forall k, In k (keysOf fs) -> ~ In k L) -> blank L fs = fs.
Proof.
  intros L fs. induction fs as [|[k v] fs IH]; intros H; [reflexivity|]. cbn [blank map fst]. assert (M : memB k L = false) by (apply memB_nIn; apply H; left; reflexivity). rewrite M. f_equal. apply IH. intros k' I. apply H. right. exact I.
Qed.
Lemma isPrim_ne : forall dex q, isPrimOf dex q -> q <> [].
Proof. intros dex q P. destruct (isPrimOf_prim _ _ P) as (m & PR & _). destruct (pr_first _ _ PR) as (x & r & -> & _). discriminate. Qed.

Section Commit.
Variable digest : bytes -> bytes -> bytes.
Notation nverified := (nverified digest).

Lemma nv_loads : forall s ilk vs dq fs ls vt it b D, nverified s ilk vs dq fs ls vt it b D -> nativeLoads (2, 0) G2 (d_raw s) = Ok (d_sad s).
Proof.
  intros s ilk vs dq fs ls vt it b D [A1 A2 A3 A4 A5 (fd & LA) A7 A8 [A9 _] A10 A11 A12 A13 A14 A15]. rewrite (loads_parts _ _ _ _ _ _ A10), (layout_fixed _ _ _ LA). cbn [bind]. rewrite (la_keys _ _ _ LA). cbn [loadFields].
  change (loadField (2, 0) G2 (len (d_raw s)) ilk (s2b "v") (dq ++ b)) with (vs <- versify (s2b "KERI") (2, 0) KindCesr (len (d_raw s)) G2 ;; Ok (VStr vs, dq ++ b)). rewrite A9. cbn [bind].
  change (loadField (2, 0) G2 (len (d_raw s)) ilk (s2b "t") (dq ++ b)) with (Ok (VStr ilk, dq ++ b)). cbn [bind].
  change (loadField (2, 0) G2 (len (d_raw s)) ilk (s2b "d") (dq ++ b)) with ('(q, r) <- stripDex DigDex (dq ++ b) ;; Ok (VStr q, r)). rewrite (rd_read _ _ _ (stripDex_reads _ _ A13)). cbn [bind]. rewrite A12. cbn [bind]. rewrite A7. reflexivity.
Qed.
Lemma same_raw : forall s1 ilk1 vs1 dq1 fs1 ls1 vt1 it1 b1 D1 s2 ilk2 vs2 dq2 fs2 ls2 vt2 it2 b2 D2, nverified s1 ilk1 vs1 dq1 fs1 ls1 vt1 it1 b1 D1 -> nverified s2 ilk2 vs2 dq2 fs2 ls2 vt2 it2 b2 D2 ->
  d_raw s1 = d_raw s2 -> s1 = s2.
Proof.
  intros s1 ilk1 vs1 dq1 fs1 ls1 vt1 it1 b1 D1 s2 ilk2 vs2 dq2 fs2 ls2 vt2 it2 b2 D2 V1 V2 E. pose proof (nv_loads _ _ _ _ _ _ _ _ _ _ V1) as A. pose proof (nv_loads _ _ _ _ _ _ _ _ _ _ V2) as B. rewrite E, B in A. apply ok_inj in A.
  destruct V1 as [P1 P2 P3 P4 P5 _ _ _ _ _ _ _ _ _ _]. destruct V2 as [Q1 Q2 Q3 Q4 Q5 _ _ _ _ _ _ _ _ _ _]. destruct s1 as [x1 x2 x3 x4 x5 x6 x7], s2 as [y1 y2 y3 y4 y5 y6 y7]. cbn [d_proto d_kind d_pvrsn d_gvrsn d_size d_raw d_sad] in *. congruence.
Qed.

Lemma native_commits : forall s1 ilk1 vs1 dq fs1 ls1 vt1 it1 b1 D1 s2 ilk2 vs2 fs2 ls2 vt2 it2 b2 D2, nverified s1 ilk1 vs1 dq fs1 ls1 vt1 it1 b1 D1 -> nverified s2 ilk2 vs2 dq fs2 ls2 vt2 it2 b2 D2 ->
  In (s2b "d") (saidFields (Some ilk1)) -> In (s2b "d") (saidFields (Some ilk2)) ->
  s1 = s2 \/ collision digest \/
  (ilk1 = ilk2 /\ In (s2b "i") (saidFields (Some ilk1)) /\ keysOf (d_sad s1) = keysOf (d_sad s2) /\ (forall l, l <> s2b "i" -> dget (d_sad s1) l = dget (d_sad s2) l) /\
   exists D i1 i2 c1 c2, c1 <> c2 /\ dget (d_sad s1) (s2b "i") = Some (VStr i1) /\ dget (d_sad s2) (s2b "i") = Some (VStr i2) /\ isDigestOf digest c1 D i1 /\ isDigestOf digest c2 D i2).
Proof.
  intros s1 ilk1 vs1 dq fs1 ls1 vt1 it1 b1 D1 s2 ilk2 vs2 fs2 ls2 vt2 it2 b2 D2 V1 V2 I1 I2. pose proof V1 as V1'. pose proof V2 as V2'.
  destruct V1 as [A1 A2 A3 A4 A5 (fd1 & LA) A7 A8 [A9 _] A10 A11 A12 A13 A14 A15]. destruct V2 as [B1 B2 B3 B4 B5 (fd2 & LB) B7 B8 [B9 _] B10 B11 B12 B13 B14 B15].
  destruct (primCode _ _ A13) as (cd & CD & ID).
  assert (DE : D1 = D2 \/ collision digest).
  { destruct (A15 _ I1) as (t1 & c1 & T1 & _ & C1 & X1). destruct (B15 _ I2) as (t2 & c2 & T2 & _ & C2 & X2). rewrite A7 in T1. rewrite B7 in T2. change (Some (VStr dq) = Some (VStr t1)) in T1. change (Some (VStr dq) = Some (VStr t2)) in T2.
    injection T1 as <-. injection T2 as <-. rewrite CD in C1, C2. apply ok_inj in C1, C2. subst c1 c2. destruct (X1 ID) as (_ & E1 & _). destruct (X2 ID) as (_ & E2 & _). rewrite E1 in E2. apply ok_inj in E2. injection E2 as E2.
    destruct (list_N_dec D1 D2) as [E|N]; [left; exact E|right]. exists cd, D1, D2. auto. }
  destruct DE as [<-|C]; [|auto].
  (* the blanked messages *)
  assert (BD : forall s ilk vs fs, In (s2b "d") (saidFields (Some ilk)) -> d_sad s = (s2b "v", VStr vs) :: (s2b "t", VStr ilk) :: (s2b "d", VStr dq) :: fs ->
    blank (saidFields (Some ilk)) (d_sad s) = (s2b "v", VStr vs) :: (s2b "t", VStr ilk) :: (s2b "d", VStr (repeat 35 (List.length dq))) :: blank (saidFields (Some ilk)) fs).
  { intros s ilk vs fs I ->. cbn [blank map fst snd].
    assert (Mv : memB (s2b "v") (saidFields (Some ilk)) = false) by (apply memB_nIn; intros X; destruct (in_said _ _ X) as [E|[E _]]; discriminate E).
    assert (Mt : memB (s2b "t") (saidFields (Some ilk)) = false) by (apply memB_nIn; intros X; destruct (in_said _ _ X) as [E|[E _]]; discriminate E).
    rewrite Mv, Mt, (memB_true _ _ I). assert (X : digestCode (VStr dq) = Some cd) by (apply digestCode_some; auto). rewrite X. reflexivity. }
  rewrite (BD _ _ _ _ I1 A7) in A14. rewrite (BD _ _ _ _ I2 B7) in B14. clear BD.
  destruct (dumps_parts _ _ _ _ A14) as (k1 & u1 & j1 & e1 & E & _ & PA). injection E as <-. destruct (dumps_parts _ _ _ _ B14) as (k2 & u2 & j2 & e2 & E & _ & PB). injection E as <-.
  assert (U : u1 = u2 /\ vt1 = u1 /\ vt2 = u1) by (pose proof (pa_vt _ _ _ _ _ _ PA); pose proof (pa_vt _ _ _ _ _ _ PB); pose proof (pa_vt _ _ _ _ _ _ A10); pose proof (pa_vt _ _ _ _ _ _ B10); repeat split; congruence).
  destruct U as (<- & -> & ->).
  assert (BODY : ilk1 = ilk2 /\ e1 = e2).
  { destruct (fix_head _ _ (pa_raw _ _ _ _ _ _ PA)) as (_ & h1 & c1 & _ & _ & _ & _ & _ & _ & _ & S1 & _). destruct (fix_head _ _ (pa_raw _ _ _ _ _ _ PB)) as (_ & h2 & c2 & _ & _ & _ & _ & _ & _ & _ & S2 & _).
    specialize (S1 []). specialize (S2 []). rewrite !app_nil_r in S1, S2. rewrite S1 in S2. apply ok_inj in S2. apply pair_equal_spec in S2. destruct S2 as [_ E]. apply app_inv_head in E.
    pose proof (rd_read _ _ _ (ilker_reads _ _ (pa_it _ _ _ _ _ _ PA)) e1) as R1. pose proof (rd_read _ _ _ (ilker_reads _ _ (pa_it _ _ _ _ _ _ PB)) e2) as R2. rewrite E, R2 in R1. apply ok_inj in R1. apply pair_equal_spec in R1. destruct R1; auto. }
  destruct BODY as [<- <-]. clear I2.
  assert (EI : it1 = it2) by (pose proof (pa_it _ _ _ _ _ _ A10); pose proof (pa_it _ _ _ _ _ _ B10); congruence). subst it2.
  assert (LS : ls1 = ls2). { pose proof (ilks_once _ _ (la_in _ _ _ LA)) as X. rewrite (ilks_once _ _ (la_in _ _ _ LB)) in X. apply some_inj in X. subst fd2. pose proof (la_keys _ _ _ LA) as X. rewrite (la_keys _ _ _ LB) in X. injection X as X. auto. } rewrite <- LS in LB, B8, B12.
  (* equal tails give equal messages *)
  assert (TAIL : b1 = b2 -> s1 = s2).
  { intros E. eapply same_raw; [exact V1'|exact V2'|]. pose proof (pa_raw _ _ _ _ _ _ A10) as X. pose proof (pa_raw _ _ _ _ _ _ B10) as Y. rewrite E in X. rewrite X in Y. apply ok_inj in Y. exact Y. }
  pose proof (pa_b _ _ _ _ _ _ PA) as FA. pose proof (pa_b _ _ _ _ _ _ PB) as FB. unfold fields in FA, FB. cbn [concatr fst snd] in FA, FB.
  change (dumpField (2, 0) G2 ilk1 (s2b "d") (VStr (repeat 35 (List.length dq)))) with (Ok (repeat 35 (List.length dq))) in FA, FB. cbn [bind] in FA, FB.
  apply bind_ok in FA. destruct FA as (g1 & FA & E1). apply bind_ok in FB. destruct FB as (g2 & FB & E2). apply ok_inj in E1, E2. rewrite <- E1 in E2. apply app_inv_head in E2. subst g2. clear E1 e1 PA PB A14 B14.
  fold (fields ilk1 (blank (saidFields (Some ilk1)) fs1)) in FA. fold (fields ilk1 (blank (saidFields (Some ilk1)) fs2)) in FB.
  destruct (in_dec list_N_dec (s2b "i") (saidFields (Some ilk1))) as [Ii|Ni].
  2:{ left. apply TAIL. assert (NO : forall k, In k ls1 -> ~ In k (saidFields (Some ilk1))). { intros k I X. destruct (in_said _ _ X) as [-> | [-> _]]; [exact (la_d _ _ _ LA I)|contradiction]. }
      rewrite blank_out in FA by (rewrite A8; exact NO). rewrite blank_out in FB by (rewrite B8; exact NO). rewrite A11 in FA. rewrite B11 in FB. apply ok_inj in FA, FB. congruence. }
  destruct (la_i _ _ _ LA Ii) as (r & EL & NI). rewrite EL in A8, B8.
  destruct fs1 as [|[k1 x1] fs1]; [discriminate A8|]. destruct fs2 as [|[k2 x2] fs2]; [discriminate B8|]. cbn [keysOf map fst] in A8, B8. injection A8 as -> A8. injection B8 as -> B8. change (map fst fs1) with (keysOf fs1) in A8. change (map fst fs2) with (keysOf fs2) in B8.
  destruct (A15 _ Ii) as (q1 & c1 & T1 & P1 & C1 & X1). destruct (B15 _ Ii) as (q2 & c2 & T2 & P2 & C2 & X2). rewrite A7 in T1. rewrite B7 in T2. change (Some x1 = Some (VStr q1)) in T1. change (Some x2 = Some (VStr q2)) in T2.
  apply some_inj in T1, T2. subst x1 x2.
  assert (NO : forall k, In k (s2b "s" :: r) -> ~ In k (saidFields (Some ilk1))).
  { intros k I X. destruct (in_said _ _ X) as [-> | [-> _]]; [apply (la_d _ _ _ LA); rewrite EL; right; exact I|exact (NI I)]. }
  assert (SPLIT : forall q fs f b g size, keysOf fs = s2b "s" :: r -> fields ilk1 ((s2b "i", VStr q) :: fs) = Ok b -> fields ilk1 (blank (saidFields (Some ilk1)) ((s2b "i", VStr q) :: fs)) = Ok g ->
     loadFields (2, 0) G2 size ilk1 (s2b "i" :: s2b "s" :: r) b = Ok f -> isPrimOf PreDex q ->
     exists b', b = q ++ b' /\ loadFields (2, 0) G2 size ilk1 (s2b "s" :: r) b' = Ok (tl f) /\ g = (match digestCode (VStr q) with Some _ => repeat 35 (List.length q) | None => q end) ++ b' /\ forall t, b' <> 35 :: t).
  { intros q fs f b g size KF FB' FG LO PQ. unfold fields in FB', FG. cbn [blank map fst snd] in FG. rewrite (memB_true _ _ Ii) in FG. change (map _ fs) with (blank (saidFields (Some ilk1)) fs) in FG. rewrite blank_out in FG by (rewrite KF; exact NO).
    cbn [concatr fst snd] in FB'. change (dumpField (2, 0) G2 ilk1 (s2b "i") (VStr q)) with (Ok q) in FB'. cbn [bind] in FB'. apply bind_ok in FB'. destruct FB' as (b' & FB' & E). apply ok_inj in E. subst b. exists b'. split; [reflexivity|].
    cbn [loadFields] in LO. change (loadField (2, 0) G2 size ilk1 (s2b "i") (q ++ b')) with ('(q, r) <- stripDex PreDex (q ++ b') ;; Ok (VStr q, r)) in LO. rewrite (rd_read _ _ _ (stripDex_reads _ _ PQ)) in LO. cbn [bind] in LO.
    apply bind_ok in LO. destruct LO as (m & LO & E). apply ok_inj in E. subst f. cbn [tl]. split; [exact LO|]. split.
    - destruct (digestCode (VStr q)); cbn [concatr fst snd] in FG.
      + change (dumpField (2, 0) G2 ilk1 (s2b "i") (VStr (repeat 35 (List.length q)))) with (Ok (repeat 35 (List.length q))) in FG. cbn [bind] in FG. rewrite FB' in FG. cbn [bind] in FG. apply ok_inj in FG. auto.
      + change (dumpField (2, 0) G2 ilk1 (s2b "i") (VStr q)) with (Ok q) in FG. cbn [bind] in FG. rewrite FB' in FG. cbn [bind] in FG. apply ok_inj in FG. auto.
    - intros t ->. apply bind_ok in LO. destruct LO as (x & LO & _). change (loadField (2, 0) G2 size ilk1 (s2b "s") (35 :: t)) with ('(q, r) <- numberStrip (35 :: t) ;; Ok (VStr q, r)) in LO.
      apply bind_ok in LO. destruct LO as (y & LO & _). unfold numberStrip in LO. apply bind_ok in LO. destruct LO as (z & LO & _). unfold matter_strip in LO. apply bind_ok in LO. destruct LO as (w & LO & _). discriminate LO. }
  rewrite EL in A12, B12.
  destruct (SPLIT _ _ _ _ _ _ A8 A11 FA A12 P1) as (b1' & -> & L1 & G1 & N1). destruct (SPLIT _ _ _ _ _ _ B8 B11 FB B12 P2) as (b2' & -> & L2 & G2' & N2). cbn [tl] in L1, L2. rewrite G1 in G2'. clear SPLIT.
  destruct (digestCode (VStr q1)) as [d1|] eqn:E1, (digestCode (VStr q2)) as [d2|] eqn:E2.
  - destruct (run_eq _ _ _ _ G2' N1 N2) as [EQ EB]. subst b2'.
    apply digestCode_some in E1. destruct E1 as [E1 D1']. apply digestCode_some in E2. destruct E2 as [E2 D2']. rewrite C1 in E1. rewrite C2 in E2. apply ok_inj in E1, E2. subst d1 d2. specialize (X1 D1'). specialize (X2 D2').
    destruct (list_N_dec c1 c2) as [EC|NC]; [subst c2; left; apply TAIL; rewrite (isDigestOf_fun _ _ _ _ _ X1 X2); reflexivity|]. right. right. split; [reflexivity|]. split; [exact Ii|].
    pose proof (pa_raw _ _ _ _ _ _ A10) as XA. pose proof (pa_raw _ _ _ _ _ _ B10) as XB.
    assert (LQ : len q1 = len q2) by (unfold len; rewrite EQ; reflexivity).
    assert (LE : len (u1 ++ it1 ++ dq ++ q1 ++ b1') = len (u1 ++ it1 ++ dq ++ q2 ++ b1')) by (rewrite !len_app, LQ; reflexivity).
    destruct (enclose_len _ _ _ _ _ _ LE XA XB) as (h & R1 & R2). assert (LR : len (d_raw s1) = len (d_raw s2)) by (rewrite R1, R2, !len_app, LQ; reflexivity).
    rewrite LR in A9, L1. rewrite L2 in L1. rewrite B9 in A9. apply ok_inj in L1, A9. subst fs2 vs2. rewrite A7, B7. split; [reflexivity|]. split; [|exists D1, q1, q2, c1, c2; auto].
    intros l NL. cbn [dget]. apply beq_neq in NL. rewrite NL. reflexivity.
  - exfalso. eapply prim_no35; [exact P2|exact G2'|]. eapply isPrim_ne; exact P1.
  - exfalso. symmetry in G2'. eapply prim_no35; [exact P1|exact G2'|]. eapply isPrim_ne; exact P2.
  - left. apply TAIL. exact G2'.
Qed.
End Commit.
