(** Lemmas on out of order delivery: the log delivered in order, and one step of the receiver. *)
From Verif Require Import Prelude B64Model MatterModel SubsModel ThModel ThSpec ThProofs ThThms KelModel KelSpec KelProofs KelInv OoSpec OoProofs OoProofs2.
Open Scope N_scope.
Ltac Zify.zify_post_hook ::= Z.div_mod_to_equations.

Lemma kadd_end : forall l s, kadd l (List.length l) s = l ++ [[s]].
Proof. induction l as [|r l IH]; intros s; cbn; [reflexivity|]. rewrite IH. reflexivity. Qed.
Definition singles (l : list N) : list (list N) := map (fun s => [s]) l.

Lemma saids_app : forall a b, saids (a ++ b) = saids a ++ saids b.
Proof. intros. apply map_app. Qed.
Lemma firstn_snoc : forall A (l : list A) n a, nth_error l n = Some a -> firstn (S n) l = firstn n l ++ [a].
Proof.
  induction l as [|b l IH]; intros [|n] a X; try discriminate; cbn in X.
  - inv X. reflexivity.
  - cbn [firstn app]. f_equal. apply IH. exact X.
Qed.
Lemma nth_error_len : forall A (l : list A) n a, nth_error l n = Some a -> (n < List.length l)%nat.
Proof. intros. apply nth_error_Some. congruence. Qed.

Lemma fels_step : forall E cf m dx p, e_pre (m_evt m) = p ->
  fels (fst (step E cf (Deliver m) dx)) p = fels (fst dx) p \/
  (fels (fst (step E cf (Deliver m) dx)) p = fels (fst dx) p ++ [e_said (m_evt m)] /\
   exists d' x' r ko k' sg wg dp cpl, processEvent E cf m dx = ((d', x'), r) /\
     accept E cf m (fst dx) (snd dx) d' x' r ko k' sg wg dp cpl).
Proof.
  intros E cf m [d x] p P. cbn [step fst snd]. destruct (processEvent E cf m (d, x)) as [[d' x'] r] eqn:X. cbn [fst].
  pose proof (process_inv _ _ _ _ _ _ _ _ X) as [(_ & (_ & _ & F & _) & _)|(ko & k' & sg & wg & dp & cpl & A)].
  - left. rewrite F. reflexivity.
  - right. split; [rewrite (a_fels _ _ _ _ _ _ _ _ _ _ _ _ _ _ A), P, fset_same; reflexivity|].
    exists d', x', r, ko, k', sg, wg, dp, cpl. auto.
Qed.
Lemma fels_len : forall E cf p l dx, (forall m, In m l -> e_pre (m_evt m) = p) ->
  (List.length (fels (fst (run E cf (map Deliver l) dx)) p) <= List.length (fels (fst dx) p) + List.length l)%nat.
Proof.
  intros E cf p. induction l as [|m l IH]; intros dx P; cbn [map List.length]; [unfold run; cbn; lia|].
  change (run E cf (Deliver m :: map Deliver l) dx) with (run E cf (map Deliver l) (step E cf (Deliver m) dx)).
  etransitivity; [apply IH; intros; apply P; cbn; auto|].
  destruct (fels_step E cf m dx p (P m (or_introl eq_refl))) as [->|(-> & _)]; [lia|]. rewrite app_length. cbn. lia.
Qed.

Section Log.
Variables (E : env) (H : N -> option evt) (cf : conf) (p : N) (ms : list msg).
Hypothesis W : world H.
Hypothesis SN : sane H.
Hypothesis RE : forall m, In m ms -> real H (m_evt m).
Hypothesis CL : complete_log E cf p ms.
Hypothesis ST : stranger cf p ms.

Definition ref (n : nat) : db := run E cf (map Deliver (firstn n ms)) db0.

Lemma ref_S : forall n m, nth_error ms n = Some m -> ref (S n) = step E cf (Deliver m) (ref n).
Proof.
  intros n m X. unfold ref. rewrite (firstn_snoc _ _ _ _ X), map_app. unfold run. rewrite fold_left_app. reflexivity.
Qed.
Lemma ref_sinv : forall n, sinv E H (fst (ref n)) (snd (ref n)).
Proof.
  intros n. apply sinv_run; auto. apply Forall_forall. intros o I. apply in_map_iff in I. destruct I as (m & <- & I).
  apply RE. rewrite <- (firstn_skipn n ms). apply in_app_iff. auto.
Qed.
Lemma ref_len : forall n, (n <= List.length ms)%nat -> List.length (fels (fst (ref n)) p) = n.
Proof.
  intros n L. pose proof (cl_pre _ _ _ _ CL) as P. pose proof (cl_acc _ _ _ _ CL) as A.
  assert (A' : List.length (fels (fst (run E cf (map Deliver (skipn n ms)) (ref n))) p) = List.length ms).
  { rewrite <- (firstn_skipn n ms), map_app in A. unfold run in A. rewrite fold_left_app in A. unfold run, ref, run. rewrite A.
    unfold saids. rewrite map_length, (firstn_skipn n ms). reflexivity. }
  pose proof (fels_len E cf p (skipn n ms) (ref n)) as B.
  pose proof (fels_len E cf p (firstn n ms) db0) as C.
  assert (In1 : forall m, In m (skipn n ms) -> e_pre (m_evt m) = p).
  { intros m I. apply P. rewrite <- (firstn_skipn n ms). apply in_app_iff. auto. }
  assert (In2 : forall m, In m (firstn n ms) -> e_pre (m_evt m) = p).
  { intros m I. apply P. rewrite <- (firstn_skipn n ms). apply in_app_iff. auto. }
  specialize (B In1). specialize (C In2). fold (ref n) in C.
  rewrite A', skipn_length in B. rewrite firstn_length in C. cbn in C. lia.
Qed.

(** facts about the key states of the log *)
Record kfact (i : nat) (k : kever) : Prop := mkKfact {
  kf_pre : k_pre k = p;
  kf_sn : k_sn k = N.of_nat i;
  kf_fn : k_fn k = N.of_nat i;
  kf_del : k_delpre k = None;
  kf_est : exists m, In m ms /\ isEst (e_ilk (m_evt m)) = true /\ k_keys k = e_keys (m_evt m) /\ k_tholder k = e_kt (m_evt m) /\
             k_ndigs k = e_ndigs (m_evt m) /\ k_nt k = e_nt (m_evt m);
  kf_wits : forall w, In w (k_wits k) -> exists m, In m ms /\ In w (e_wits (m_evt m) ++ e_adds (m_evt m)) }.

Definition prev (ks : list kever) (i : nat) : option kever := match i with O => None | S j => nth_error ks j end.

Lemma in_wits_rot : forall d x k e wits cuts adds, rotate d x k e = Ok (wits, cuts, adds) ->
  forall w, In w wits -> In w (k_wits k) \/ In w (e_adds e).
Proof.
  intros d x k e wits cuts adds X w I. unfold rotate in X. apply bind_ok in X. destruct X as (u & _ & X).
  apply raise_if_ok in X. destruct X as [_ X]. apply raise_if_ok in X. destruct X as [_ X].
  apply bind_ok in X. destruct X as ([[wi cu] ad] & DB & X). apply raise_if_ok in X. destruct X as [_ X]. apply ok_inj in X. inv X.
  unfold deriveBacks in DB. match type of DB with (if ?b then _ else _) = _ => destruct b end.
  - apply ok_inj in DB. inv DB. auto.
  - cbv zeta in DB. do 6 (apply raise_if_ok in DB; destruct DB as [_ DB]). apply ok_inj in DB. inv DB.
    apply addNs_In in I. destruct I as [I|I]; [left|right; apply oset_In; exact I].
    apply diff_In in I. apply oset_In. tauto.
Qed.

Definition upto (n : nat) (ks : list kever) : Prop :=
  List.length ks = n /\
  (forall i, (i <= n)%nat -> fels (fst (ref i)) p = saids (firstn i ms) /\ kels (fst (ref i)) p = singles (saids (firstn i ms)) /\
     keyState (ref i) p = prev ks i) /\
  (forall i k, nth_error ks i = Some k -> kfact i k /\ exists m', nth_error ms i = Some m' /\ astep E cf m' (prev ks i) k).
Lemma ref_step : forall n m, nth_error ms n = Some m -> (exists ks, upto n ks) -> exists ks, upto (S n) ks.
Proof.
  intros n m X (ks & KL & ALL & KF). destruct (ALL n (le_n _)) as (FL & KE & KS).
  pose proof (nth_error_In _ _ X) as MI. pose proof (cl_pre _ _ _ _ CL _ MI) as MP.
  pose proof (cl_sn _ _ _ _ CL _ _ X) as MS. pose proof (cl_ilk _ _ _ _ CL _ MI) as MK.
  pose proof (nth_error_len _ _ _ _ X) as NL.
  pose proof (ref_len n ltac:(lia)) as L1. pose proof (ref_len (S n) ltac:(lia)) as L2.
  pose proof (ref_sinv n) as SI.
  destruct (fels_step E cf m (ref n) p MP) as [F|(F & d' & x' & r & ko & k' & sg & wg & dp & cpl & PE & A)].
  { exfalso. rewrite <- (ref_S n m X) in F. rewrite F in L2. lia. }
  rewrite <- (ref_S n m X) in F. pose proof (ref_S n m X) as RS. cbn [step] in RS. rewrite PE in RS. cbn [fst] in RS.
  destruct (accept_sinv _ _ _ _ _ _ _ _ _ _ _ _ _ _ _ W SN SI (RE _ MI) A) as (SI' & RO & KV & SF).
  rewrite MP in KV.
  pose proof (a_valid _ _ _ _ _ _ _ _ _ _ _ _ _ _ A) as VA. pose proof (a_tr _ _ _ _ _ _ _ _ _ _ _ _ _ _ A) as TR.
  pose proof (a_fn _ _ _ _ _ _ _ _ _ _ _ _ _ _ A) as FN. rewrite MP in FN.
  assert (FN' : k_fn k' = N.of_nat n) by (rewrite FN; unfold len; rewrite L1; reflexivity).
  assert (KO : ko = prev ks n).
  { rewrite <- KS. unfold keyState. rewrite <- MP. inversion TR; subst; auto. }
  assert (VP : validPre E (e_pre (m_evt m)) = true).
  { destruct (validPre E (e_pre (m_evt m))) eqn:VP; [reflexivity|]. exfalso.
    destruct (ref n) as [d x] eqn:RN. unfold processEvent in PE. cbv zeta in PE. rewrite VP in PE. cbn [negb] in PE. inv PE.
    pose proof (a_fels _ _ _ _ _ _ _ _ _ _ _ _ _ _ A) as AF. cbn [fst] in AF.
    pose proof (f_equal (fun f => f (e_pre (m_evt m))) AF) as Q. cbv beta in Q. rewrite fset_same in Q.
    apply (f_equal (@List.length N)) in Q. rewrite app_length in Q. cbn in Q. lia. }
  assert (PK : match ko with Some k => kfact (pred n) k /\ (0 < n)%nat | None => n = 0%nat end).
  { subst ko. destruct n as [|i]; cbn [prev]; [reflexivity|]. destruct (nth_error ks i) as [k|] eqn:Z.
    - split; [|lia]. apply KF. exact Z.
    - apply nth_error_None in Z. lia. }
  assert (AT : atr E (m_evt m) ko k' /\ kfact n k').
  { clear - TR MK A VA MI PK FN' MP MS CL.
    inversion TR as [k0 delpre fn dts G1 G2 G3 Q1 Q2|k wits cuts adds fn dts G1 G2 G3 G4 G5 G6 G7 G8 Q1 Q2|k fn dts G1 G2 G3 G4 G5 G6 G7 Q1 Q2]; subst ko k'.
    - (* inception *)
      assert (IC : e_ilk (m_evt m) = Icp).
      { cbn in MK. destruct MK as [Q|[Q|[Q|[]]]]; [auto| |]; rewrite <- Q in G2; discriminate. }
      assert (DN : delpre = None).
      { pose proof (a_delpre _ _ _ _ _ _ _ _ _ _ _ _ _ _ A eq_refl) as D. cbn in D. subst delpre.
        rewrite (v_delpre _ _ _ _ _ _ _ _ _ _ _ _ _ _ _ _ _ VA), IC. reflexivity. }
      subst delpre. split; [apply atr_icp; assumption|].
      apply incept_inv in G3. destruct G3 as (_ & _ & _ & _ & _ & K0).
      rewrite K0 in *. constructor; cbn in *; auto; try lia.
      + exists m. rewrite IC. auto 10.
      + intros w I. exists m. split; [exact MI|]. apply in_app_iff. auto.
    - destruct PK as [PK N0]. destruct PK.
      assert (RT : e_ilk (m_evt m) = Rot).
      { cbn in MK. destruct MK as [Q|[Q|[Q|[]]]]; [|auto|]; rewrite <- Q in G4; discriminate. }
      assert (NX : e_sn (m_evt m) = k_sn k + 1) by lia.
      split.
      + apply atr_rot; auto. rewrite <- G8. apply rotate_next. exact NX.
      + constructor; cbn; auto; try lia; try congruence.
        * exists m. rewrite RT. auto 10.
        * intros w I. destruct (in_wits_rot _ _ _ _ _ _ _ G8 _ I) as [J|J]; [auto|].
          exists m. split; [exact MI|]. apply in_app_iff. auto.
    - destruct PK as [PK N0]. destruct PK. split.
      + apply atr_ixn; auto.
      + constructor; cbn; auto; try lia; try congruence. }
  destruct AT as [AT KN].
  assert (PV : forall i, (i <= n)%nat -> prev (ks ++ [k']) i = prev ks i).
  { intros [|j] LE; cbn [prev]; [reflexivity|]. apply nth_error_app1. lia. }
  exists (ks ++ [k']). split; [rewrite app_length; cbn; lia|]. split.
  { intros i LI. destruct (Nat.lt_ge_cases n i) as [GT|LE].
    2:{ destruct (ALL i LE) as (Q1 & Q2 & Q3). rewrite PV by exact LE. auto. }
    assert (i = S n) by lia. subst i.
    split; [rewrite F, FL, (firstn_snoc _ _ _ _ X), saids_app; reflexivity|].
    split.
    { rewrite RS. cbn [fst]. rewrite (a_kels _ _ _ _ _ _ _ _ _ _ _ _ _ _ A), MP, fset_same, KE, MS, Nat2N.id.
      rewrite (firstn_snoc _ _ _ _ X), saids_app. unfold singles. rewrite map_app. cbn [map saids].
      replace n with (List.length (map (fun s => [s]) (saids (firstn n ms)))) at 2; [apply kadd_end|].
      unfold saids. rewrite !map_length, firstn_length. lia. }
    cbn [prev]. rewrite nth_error_app2 by lia. rewrite KL, Nat.sub_diag. cbn [nth_error].
    rewrite RS. unfold keyState, kget. cbn [fst]. rewrite KV. reflexivity. }
  intros i k Z.
  destruct (Nat.lt_ge_cases i n) as [LT|GE].
  - rewrite nth_error_app1 in Z by lia. rewrite PV by lia. apply KF. exact Z.
  - rewrite nth_error_app2 in Z by lia. rewrite KL in Z.
    assert (i = n). { assert (i - n < 1)%nat by (apply nth_error_len in Z; exact Z). lia. }
    subst i. rewrite Nat.sub_diag in Z. cbn in Z. inv Z. split; [exact KN|]. exists m. split; [exact X|].
    rewrite PV by lia. constructor; [exact VP|exact AT|].
    do 7 eexists. exact VA.
Qed.

Lemma ref_ks : exists ks, upto (List.length ms) ks.
Proof.
  assert (Q : forall n, (n <= List.length ms)%nat -> exists ks, upto n ks).
  { induction n as [|n IH]; intros L.
    - exists []. split; [reflexivity|]. split.
      + intros i LI. assert (i = 0%nat) by (clear - LI; lia). subst i. repeat split.
      + intros [|i] k Z; discriminate.
    - destruct (nth_error ms n) as [m|] eqn:X; [|apply nth_error_None in X; lia].
      apply (ref_step n m X). apply IH. lia. }
  apply (Q (List.length ms) (le_n _)).
Qed.
End Log.
