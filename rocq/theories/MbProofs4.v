(** Runs of the mailbox: arrival, progress, and the messages that block it. *)
From Coq Require Import Lia ZifyClasses ZifyInst ZifyN Zify.
From Verif Require Import Prelude Lex SubsModel SubsProofs DbModel DbSpec DbProofs DbRef NmModel MbModel MbSpec MbProofs MbProofs2 MbProofs3.
Ltac Zify.zify_post_hook ::= Z.div_mod_to_equations.
Open Scope N_scope.

Lemma run_app : forall dig pre topics a b s, run dig pre topics (a ++ b) s = run dig pre topics b (run dig pre topics a s).
Proof. intros. unfold run. apply fold_left_app. Qed.
Lemma allMail_app : forall a b, allMail (a ++ b) = allMail a ++ allMail b.
Proof. intros. unfold allMail. apply flat_map_app. Qed.
Lemma setting_app : forall dig pre topics K a b, setting dig pre topics K (a ++ b) -> setting dig pre topics K a.
Proof.
  intros dig pre topics K a b [S1 S2 S3 S4 S5 S6]. apply Forall_app in S4. constructor; try assumption; [apply S4| |].
  - intros m m' A B. apply S5; rewrite allMail_app; apply in_or_app; left; assumption.
  - rewrite allMail_app, len_app' in S6. lia.
Qed.
Lemma mail_clean : forall k ops, Forall clean (allMail ops) -> Forall clean (mail k ops).
Proof. intros k ops F. rewrite Forall_forall in *. intros m IN. apply F. eapply mail_all. exact IN. Qed.
Lemma run_si : forall dig pre topics K ops, setting dig pre topics K ops -> Forall clean (allMail ops) -> SI dig K pre topics ops (run dig pre topics ops sys0).
Proof.
  intros dig pre topics K. induction ops as [|o ops IH] using rev_ind; intros ST C; [apply si0; apply ST|].
  pose proof (setting_app _ _ _ _ _ _ ST) as ST'. rewrite allMail_app in C. apply Forall_app in C. destruct C as [C _]. specialize (IH ST' C).
  rewrite run_app. cbn [run fold_left]. destruct ST as [S1 S2 S3 S4 S5 S6]. destruct ST' as [_ _ _ _ _ S6'].
  apply Forall_app in S4. destruct S4 as [_ S4]. inversion S4; subst.
  apply (si_step dig K S1 pre topics S2 S3); try assumption. intros k. apply mail_clean. exact C.
Qed.

Lemma arrives_all : forall ids n r, arrives ids n r -> forall i, i < n -> In i ids.
Proof.
  intros ids n r A. induction A as [|l n r A IH|l n r m A IH L]; intros i LI; [lia| |].
  - apply in_or_app. destruct (N.eq_dec i n) as [->|NE]; [right; left; reflexivity|left; apply IH; lia].
  - apply in_or_app. left. apply IH. exact LI.
Qed.
Lemma arrives_len : forall ids n r, arrives ids n r -> len ids = n + r.
Proof. intros ids n r A. induction A as [|l n r A IH|l n r m A IH L]; [reflexivity| |]; rewrite len_app', len_one; lia. Qed.
Lemma Forall2_snoc : forall A B (P : A -> B -> Prop) a x l, Forall2 P (a ++ [x]) l -> exists l' y, l = l' ++ [y] /\ Forall2 P a l' /\ P x y.
Proof.
  intros A B P a x l F. apply Forall2_app_inv_l in F. destruct F as (l1 & l2 & F1 & F2 & ->). inversion F2; subst. inversion H3; subst. exists l1, y. auto.
Qed.
Lemma f2_len : forall A B (P : A -> B -> Prop) a b, Forall2 P a b -> List.length a = List.length b.
Proof. intros A B P a b F. induction F; cbn; congruence. Qed.
Lemma arrives_once : forall ids n r, arrives ids n r -> r = 0 -> forall (M l : list bytes), Forall2 (fun i m => nth_error M (N.to_nat i) = Some m) ids l -> M = l ++ skipn (N.to_nat n) M.
Proof.
  intros ids n r A. induction A as [|l0 n r A IH|l0 n r m A IH L]; intros R0 M l F; [inversion F; reflexivity| |lia].
  apply Forall2_snoc in F. destruct F as (l' & y & -> & F1 & F2). specialize (IH R0 M l' F1).
  rewrite <- app_assoc. cbn [app]. rewrite IH at 1. f_equal. replace (N.to_nat (n + 1)) with (S (N.to_nat n)) by lia.
  clear - F2. revert M F2. generalize (N.to_nat n). induction n0 as [|k IHk]; intros [|z M] F2; try discriminate; cbn in *; [congruence|auto].
Qed.

(** ** Progress *)
Lemma drain_S : forall n, drain (S n) = Recv :: Pin :: drain n.
Proof. reflexivity. Qed.
Lemma drain_plain : forall K n, Forall (plainOp K) (drain n).
Proof. induction n as [|n IH]; [constructor|]. rewrite drain_S. constructor; [exact Logic.I|]. constructor; [exact Logic.I|exact IH]. Qed.
Lemma drain_mail : forall n, allMail (drain n) = [].
Proof. induction n as [|n IH]; [reflexivity|]. rewrite drain_S. exact IH. Qed.
Lemma more_setting : forall dig pre topics K a b, setting dig pre topics K a -> Forall (plainOp K) b -> allMail b = [] -> setting dig pre topics K (a ++ b).
Proof.
  intros dig pre topics K a b [S1 S2 S3 S4 S5 S6] F E. constructor; try assumption.
  - apply Forall_app. auto.
  - rewrite allMail_app, E, app_nil_r. exact S5.
  - rewrite allMail_app, E, app_nil_r. exact S6.
Qed.
Lemma no_mail : forall k b, allMail b = [] -> mail k b = [].
Proof. intros k b E. destruct (mail k b) as [|m l] eqn:X; [reflexivity|]. assert (IN : In m (allMail b)) by (eapply mail_all; rewrite X; left; reflexivity). rewrite E in IN. destruct IN. Qed.

Section Go.
Variable dig : bytes -> bytes.
Variable pre : bytes.
Variable topics : list bytes.
Variable K : bytes -> Prop.
Notation R := (run dig pre topics).

Lemma drain_run : forall n ops sv fl, setting dig pre topics K ops -> Forall clean (allMail ops) ->
  s_conn (R ops sys0) = Some (sv, fl) -> s_pend (R ops sys0) = None -> List.length fl = n ->
  s_conn (R (ops ++ drain n) sys0) = Some (sv, []) /\ s_pend (R (ops ++ drain n) sys0) = None.
Proof.
  induction n as [|n IH]; intros ops sv fl ST C EC EP LN.
  - cbn [drain repeat List.concat]. rewrite app_nil_r. destruct fl; [auto|discriminate].
  - destruct fl as [|e fl]; [discriminate|]. rewrite drain_S. change (Recv :: Pin :: drain n) with ([Recv; Pin] ++ drain n). rewrite app_assoc.
    assert (ST1 : setting dig pre topics K (ops ++ [Recv])) by (apply more_setting; [exact ST|constructor; [exact Logic.I|constructor]|reflexivity]).
    assert (C1 : Forall clean (allMail (ops ++ [Recv]))) by (rewrite allMail_app; cbn [allMail flat_map]; rewrite app_nil_r; exact C).
    assert (ST2 : setting dig pre topics K (ops ++ [Recv; Pin])) by (apply more_setting; [exact ST|constructor; [exact Logic.I|constructor; [exact Logic.I|constructor]]|reflexivity]).
    assert (C2 : Forall clean (allMail (ops ++ [Recv; Pin]))) by (rewrite allMail_app; cbn [allMail flat_map]; rewrite app_nil_r; exact C).
    pose proof (run_si _ _ _ _ _ ST C) as S0. pose proof (run_si _ _ _ _ _ ST1 C1) as S1.
    assert (G : isnil (eId e) || isnil (eData e) || isnil (eName e) = false).
    { destruct ST as [Q1 Q2 Q3 _ _ _]. apply (flight_good dig K pre topics Q3 ops (R ops sys0)); [exact S0|intros k; apply mail_clean; exact C|]. unfold flight. rewrite EC. left. reflexivity. }
    rewrite run_app in S1. cbn [run fold_left] in S1. fold (R ops sys0) in S1.
    assert (E1 : step dig pre topics (R ops sys0) Recv = mkSys (s_mb (R ops sys0)) (s_cur (R ops sys0)) (Some (sv, fl)) (Some e) (s_queue (R ops sys0) ++ [eData e]) (s_taken (R ops sys0)) (s_log (R ops sys0) ++ [e])).
    { cbn [step]. rewrite EC, EP, G. reflexivity. }
    rewrite E1 in S1. destruct (pend_id _ _ _ _ _ _ e S1 eq_refl) as (i & DI).
    apply (IH (ops ++ [Recv; Pin]) sv fl ST2 C2).
    + rewrite run_app. cbn [run fold_left]. fold (R ops sys0). rewrite E1. cbn [step s_pend]. rewrite DI. reflexivity.
    + rewrite run_app. cbn [run fold_left]. fold (R ops sys0). rewrite E1. cbn [step s_pend]. rewrite DI. reflexivity.
    + cbn [List.length] in LN. congruence.
Qed.

Lemma pinned : forall ops, setting dig pre topics K ops -> Forall clean (allMail ops) -> s_pend (R (ops ++ [Pin]) sys0) = None.
Proof.
  intros ops ST C. rewrite run_app. cbn [run fold_left step]. fold (R ops sys0). pose proof (run_si _ _ _ _ _ ST C) as S0.
  destruct (s_pend (R ops sys0)) as [e|] eqn:EP; [|exact EP]. destruct (pend_id _ _ _ _ _ _ e S0 EP) as (i & DI). rewrite DI. reflexivity.
Qed.

Lemma progress : forall ops, setting dig pre topics K ops -> Forall clean (allMail ops) ->
  exists n, forall t, In t topics ->
    exists ids r, arrives ids (len (mail (pre ++ t) ops)) r /\ r <= crashes ops /\
      Forall2 (fun i m => nth_error (mail (pre ++ t) ops) (N.to_nat i) = Some m) ids (got t (R (ops ++ [Pin; Drop; Connect; Next] ++ drain n) sys0)).
Proof.
  intros ops ST C. set (o4 := ops ++ [Pin; Drop; Connect; Next]).
  assert (PL : Forall (plainOp K) [Pin; Drop; Connect; Next]) by (repeat (constructor; [exact Logic.I|]); constructor).
  assert (ST4 : setting dig pre topics K o4) by (apply more_setting; [exact ST|exact PL|reflexivity]).
  assert (C4 : Forall clean (allMail o4)) by (unfold o4; rewrite allMail_app; cbn [allMail flat_map]; rewrite app_nil_r; exact C).
  set (o3 := ops ++ [Pin; Drop; Connect]).
  assert (ST3 : setting dig pre topics K o3) by (apply more_setting; [exact ST|repeat (constructor; [exact Logic.I|]); constructor|reflexivity]).
  assert (C3 : Forall clean (allMail o3)) by (unfold o3; rewrite allMail_app; cbn [allMail flat_map]; rewrite app_nil_r; exact C).
  assert (E3 : exists tp, s_conn (R o3 sys0) = Some (Some tp, []) /\ s_pend (R o3 sys0) = None).
  { unfold o3. change [Pin; Drop; Connect] with ([Pin] ++ [Drop; Connect]). rewrite app_assoc, run_app. cbn [run fold_left]. fold (R (ops ++ [Pin]) sys0).
    pose proof (pinned ops ST C) as EP. cbn [step]. rewrite EP. cbn [withConn s_conn s_pend]. rewrite EP. cbn [s_conn s_pend]. eexists. split; [reflexivity|exact EP]. }
  destruct E3 as (tp & EC3 & EP3). pose proof (run_si _ _ _ _ _ ST3 C3) as S3.
  assert (L3 : len (allMail o3) <= MaxON) by apply ST3. pose proof ST as [Q1 Q2 Q3 _ _ _].
  destruct (next_ok dig K Q1 pre topics Q2 Q3 o3 (R o3 sys0) tp [] S3 (fun k => mail_clean k _ C3) L3 EC3) as (tp' & out & I1 & I2 & I3 & I4 & I5).
  assert (E4 : s_conn (R o4 sys0) = Some (Some tp', sse (render out)) /\ s_pend (R o4 sys0) = None).
  { unfold o4. change [Pin; Drop; Connect; Next] with ([Pin; Drop; Connect] ++ [Next]). rewrite app_assoc. fold o3. rewrite run_app. cbn [run fold_left step]. fold (R o3 sys0). rewrite EC3, I1. cbn [withConn s_conn s_pend app]. auto. }
  destruct E4 as [EC4 EP4]. exists (List.length (sse (render out))). rewrite app_assoc. fold o4. set (n := List.length (sse (render out))).
  destruct (drain_run n o4 (Some tp') _ ST4 C4 EC4 EP4 eq_refl) as [EC5 EP5].
  assert (ST5 : setting dig pre topics K (o4 ++ drain n)) by (apply more_setting; [exact ST4|apply drain_plain|apply drain_mail]).
  assert (C5 : Forall clean (allMail (o4 ++ drain n))) by (rewrite allMail_app, drain_mail, app_nil_r; exact C4).
  pose proof (run_si _ _ _ _ _ ST5 C5) as (_ & T5 & _). intros t IN.
  assert (ME : mail (pre ++ t) (o4 ++ drain n) = mail (pre ++ t) ops).
  { unfold o4. rewrite !mail_app. rewrite (no_mail _ (drain n)) by apply drain_mail. cbn [mail flat_map]. rewrite !app_nil_r. reflexivity. }
  assert (ME3 : mail (pre ++ t) o3 = mail (pre ++ t) ops) by (unfold o3; rewrite mail_app; cbn [mail flat_map]; apply app_nil_r).
  assert (CE : crashes (o4 ++ drain n) = crashes ops).
  { unfold o4. rewrite !crashes_app. replace (crashes (drain n)) with 0; [cbn; lia|]. clear. induction n as [|n IH]; [reflexivity|]. rewrite drain_S. exact IH. }
  destruct (T5 t IN) as (p & a & b & ids & nn & r & A1 & A2 & A3 & A4 & A5 & A6 & A7 & A8 & A9). rewrite ME, CE in *.
  specialize (A3 _ _ EC5). destruct (I5 t IN) as (i & J1 & J2 & J3). rewrite ME3 in J3. rewrite A3 in J3. inversion J3 as [J4]. clear J3.
  unfold flight in A2. rewrite EC5 in A2. destruct a as [|x a]; [|discriminate]. cbn [app] in A1. rewrite len_nil, N.add_0_r in *.
  assert (LI : i <= len (mail (pre ++ t) ops)).
  { destruct S3 as (_ & T3 & _). destruct (T3 t IN) as (p3 & a3 & b3 & _ & _ & _ & B1 & _ & B3 & _). specialize (B3 _ _ EC3). rewrite J1 in B3. inversion B3. rewrite ME3 in B1. rewrite B1, !len_app'. lia. }
  assert (LM : len p = len (mail (pre ++ t) ops)). { rewrite J4. unfold len in *. rewrite skipn_length. lia. }
  assert (NN : nn = len (mail (pre ++ t) ops)) by (clear - LM A7 A8; lia). subst nn. exists ids, r. split; [exact A5|]. split; [clear - A9; lia|exact A6].
Qed.
End Go.
