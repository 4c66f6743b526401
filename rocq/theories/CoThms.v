(** Properties of the completion of group and delegated events. *)
From Coq Require Import Lia.
From Verif Require Import Prelude CoModel CoSpec CoProofs CoProofs2 CoProofs3 CoProofs4 CoProofs5.
Ltac Zify.zify_post_hook ::= Z.div_mod_to_equations.
Open Scope N_scope.

Definition GR : bytes := s2b "EGroup".
Definition DL : bytes := s2b "EDelegator".
Definition ME : bytes := s2b "EMe".
Definition K0 : bytes := s2b "DKey0".
Definition K1 : bytes := s2b "DKey1".
Definition K2 : bytes := s2b "DKey2".
Definition W0 : bytes := s2b "BWitness0".
Definition W1 : bytes := s2b "BWitness1".
Definition D0 : bytes := s2b "EDigest0".
Definition D1 : bytes := s2b "EDigest1".
Definition kIcp : kst := mkK [K0; K1] [W0; W1] 0 (s2b "icp") D0 None.
Definition kRot : kst := mkK [K0; K1] [] 1 (s2b "rot") D1 None.
Definition kDip : kst := mkK [K0; K1] [W0] 0 (s2b "dip") D0 (Some DL).
Definition kDel : kst := mkK [K2] [] 0 (s2b "icp") D1 None.
(** deciding that nothing raises *)
Definition okb (r : res unit) : bool := match r with Ok _ => true | Err _ => false end.
Definition quietb (proxy : bool) (s : sys) (o : op) : bool :=
  match o with
  | Process => okb (snd (processEscrows (wo s) (db s, me s)))
  | SProcess => okb (snd (sProcessEscrows proxy (wo s) (db s, me s)))
  | Delegate pre sn => okb (snd (delegation (wo s) pre sn (db s, me s)))
  | Crash => false
  | _ => true
  end.
Fixpoint calmb (proxy : bool) (s : sys) (ops : list op) : bool :=
  match ops with [] => true | o :: ops => quietb proxy s o && calmb proxy (step proxy s o) ops end.
Lemma quietb_ok : forall proxy s o, quietb proxy s o = true -> quiet proxy s o.
Proof.
  assert (H : forall r, okb r = true -> r = Ok tt) by (intros [[]|]; [reflexivity|discriminate]).
  intros proxy s o. destruct o; cbn [quietb quiet]; auto. discriminate.
Qed.
Lemma calmb_ok : forall proxy ops, calmb proxy sys0 ops = true -> calm proxy ops.
Proof.
  intros proxy ops C a o b ->. unfold run. revert C. generalize sys0. induction a as [|x a IH]; intros s C; cbn [app calmb fold_left] in *.
  - apply andb_true_iff in C. apply quietb_ok, C.
  - apply andb_true_iff in C. apply IH, C.
Qed.
(** two members, two witnesses; the local member has the first key *)
Definition start0 : list op := [Own GR (mkH K0 true); Sig GR D0 0; Start GR 0 D0; Process; Sig GR D0 1; Accept GR kIcp].
Definition wigs0 : list op := [Wig GR D0 0; Wig GR D0 1].
Definition rest0 : list op := [Process; Serve; Process].
Ltac ins := cbn; repeat first [left; reflexivity|right].
Ltac outs I := cbn in I; repeat (destruct I as [I|I]; [try discriminate I|]); try contradiction.
Lemma alone0 : forall l, (forall o, In o l -> o = Process \/ exists d i, o = Wig GR d i) -> alone (start0 ++ l) GR 0 D0 K0 [K0; K1] [W0; W1].
Proof.
  intros l F.
  assert (A0 : forall k, In (Accept GR k) (start0 ++ l) -> k = kIcp).
  { intros k I. apply in_app_or in I. destruct I as [I|I]; [cbn in I; repeat (destruct I as [I|I]; [try discriminate I|]); [|contradiction]; congruence|]. destruct (F _ I) as [E|(d & i & E)]; discriminate E. }
  constructor.
  - constructor; [intros [E|[]]; discriminate E|]. constructor; [intros []|constructor].
  - intros k I. rewrite (A0 k I). split; [reflexivity|]. split; [reflexivity|left; reflexivity].
  - intros k I _. rewrite (A0 k I). reflexivity.
  - intros h I. apply in_app_or in I. destruct I as [I|I]; [cbn in I; repeat (destruct I as [I|I]; [try discriminate I|]); [|contradiction]; injection I as <-; reflexivity|]. destruct (F _ I) as [E|(d & i & E)]; discriminate E.
  - intros n d I. apply in_app_or in I. destruct I as [I|I]; [cbn in I; repeat (destruct I as [I|I]; [try discriminate I|]); [|contradiction]; injection I as <- <-; split; reflexivity|]. destruct (F _ I) as [E|(d' & i & E)]; discriminate E.
  - intros a b k E _. exists 0. split; [|reflexivity]. destruct a as [|x a]; [discriminate E|]. destruct a as [|y a]; [discriminate E|]. injection E as _ <- _. right. left. reflexivity.
Qed.

(** ** C108: a group event is called complete only when there was a reason *)

Lemma c108_complete_partial : forall proxy ops pre sn dig, complete (run proxy ops) pre sn (Some dig) = Ok true ->
  In (Start pre sn dig) ops /\ (exists said, accepted ops pre sn said) /\ exists a b, ops = a ++ Process :: b /\ finished a pre sn dig.
Proof. intros proxy ops pre sn dig C. apply completed_true in C. apply nget_In in C. apply (s_cgms _ _ (run_sound proxy ops)). exact C. Qed.
Example complete_ex : complete (run false (start0 ++ wigs0 ++ rest0)) GR 0 (Some D0) = Ok true /\ complete (run false (start0 ++ rest0)) GR 0 (Some D0) = Ok false /\
  finished (start0 ++ wigs0) GR 0 D0.
Proof.
  split; [vm_compute; reflexivity|]. split; [vm_compute; reflexivity|]. apply (fin_receipts _ _ _ _ kIcp).
  - exists [Own GR (mkH K0 true); Sig GR D0 0; Start GR 0 D0; Process; Sig GR D0 1], wigs0. split; [reflexivity|]. intros k I. cbn in I. destruct I as [I|[I|[]]]; discriminate I.
  - exists [0; 1]. split; [constructor; [intros [E|[]]; discriminate E|constructor; [intros []|constructor]]|]. split; [reflexivity|]. intros i. split.
    + intros [<-|[<-|[]]]; ins.
    + intros I. cbn in I. repeat (destruct I as [I|I]; [try discriminate I; try (injection I as <-; ins)|]). contradiction.
Qed.

Lemma c108_stays : forall proxy ops more pre sn dig, complete (run proxy ops) pre sn (Some dig) = Ok true -> complete (run proxy (ops ++ more)) pre sn (Some dig) = Ok true.
Proof.
  intros proxy ops more pre sn dig C. apply completed_true in C. rewrite run_app. unfold complete, completed. rewrite (kept_run pre sn proxy more (run proxy ops) dig C). rewrite beq_refl. reflexivity.
Qed.
Example stays_ex : complete (run false ((start0 ++ wigs0 ++ rest0) ++ [Accept GR kRot; Crash; Start GR 0 D1; Process; Process])) GR 0 (Some D0) = Ok true.
Proof. vm_compute. reflexivity. Qed.

Lemma c108_superseded_refuted : ~ (forall proxy ops pre sn dig, complete (run proxy ops) pre sn (Some dig) = Ok true -> accepted ops pre sn dig).
Proof.
  intros H. specialize (H false [Own GR (mkH K0 true); Start GR 1 D0; Sig GR D1 0; Accept GR kRot; Process] GR 1 D0 ltac:(vm_compute; reflexivity)).
  destruct H as (k & I & _ & E). cbn in I. repeat (destruct I as [I|I]; [try discriminate I|]); [|contradiction]. injection I as <-. discriminate E.
Qed.
Lemma c108_witnesses_refuted : ~ (forall proxy ops pre sn dig k, complete (run proxy ops) pre sn (Some dig) = Ok true -> In (Accept pre k) ops -> k_sn k = sn -> k_said k = dig -> k_wits k <> [] ->
  exists i, In (Wig pre dig i) ops).
Proof.
  intros H. specialize (H false [Own GR (mkH K0 true); Start GR 0 D0; Sig GR D0 0; Accept GR kIcp; Process; Accept GR kRot; Process] GR 0 D0 kIcp ltac:(vm_compute; reflexivity) ltac:(ins) eq_refl eq_refl ltac:(discriminate)).
  destruct H as (i & I). cbn in I. repeat (destruct I as [I|I]; [try discriminate I|]). contradiction.
Qed.

(** ** C109: a delegation is called complete only when the delegator has approved the event *)

Lemma c109_anchored : forall proxy ops pre sn said, sComplete (run proxy ops) pre sn (Some said) = Ok true ->
  accepted ops pre sn said /\
  (exists k del, In (Accept pre k) ops /\ k_del k = Some del /\ sealed ops del pre (sn, said)) /\
  exists a b k, ops = a ++ SProcess :: b /\ current a pre k /\ receipted a pre said k.
Proof.
  intros proxy ops pre sn said C. apply completed_true in C. apply nget_In in C. destruct (s_cdel _ _ (run_sound proxy ops) _ _ _ C) as (A & B & D). split; [exact A|]. split; [exact D|exact B].
Qed.
Definition deleg0 : list op := [Own ME (mkH K0 false); Accept DL kDel; Accept ME kDip; Delegate ME 0; SProcess; SServe; Wig ME D0 0; SProcess].
Example anchored_ex : sComplete (run true (deleg0 ++ [Seal DL ME (0, D0) (1, D1); SProcess; Published ME; SProcess])) ME 0 (Some D0) = Ok true /\
  sComplete (run true (deleg0 ++ [Seal DL ME (0, D1) (1, D1); SProcess; Published ME; SProcess])) ME 0 (Some D0) = Ok false.
Proof. split; vm_compute; reflexivity. Qed.

(** ** C110: what is started is completed *)

Lemma c110_group_partial : forall proxy ops pre sn dig key keys wits k n, alone ops pre sn dig key keys wits -> In (Start pre sn dig) ops -> accepted ops pre sn dig ->
  current ops pre k -> receipted ops pre dig k ->
  (List.length (msgs (me (run proxy (ops ++ [Process])))) <= n)%nat -> calm proxy (ops ++ Process :: repeat Serve n ++ [Process]) ->
  complete (run proxy (ops ++ Process :: repeat Serve n ++ [Process])) pre sn (Some dig) = Ok true.
Proof.
  intros. unfold complete, completed. erewrite progress by eassumption. rewrite beq_refl. reflexivity.
Qed.
Example group_ex : alone (start0 ++ wigs0) GR 0 D0 K0 [K0; K1] [W0; W1] /\ calm false ((start0 ++ wigs0) ++ Process :: repeat Serve 3 ++ [Process]) /\
  List.length (msgs (me (run false ((start0 ++ wigs0) ++ [Process])))) = 1%nat.
Proof.
  split; [apply alone0; intros o [<-|[<-|[]]]; right; eauto|]. split; [apply calmb_ok; vm_compute; reflexivity|vm_compute; reflexivity].
Qed.

Lemma c110_elected_partial : forall proxy pre sn dig keys wits (ms : list (N * bytes * list op)), ms <> [] ->
  (forall i key ops, In (i, key, ops) ms ->
     alone ops pre sn dig key keys wits /\ calm proxy (ops ++ [Process]) /\ (forall a b, ops = a ++ Process :: b -> ~ accepted a pre sn dig) /\
     In (Start pre sn dig) ops /\ accepted ops pre sn dig /\ nth_error keys (N.to_nat i) = Some key /\ In (Sig pre dig i) ops /\
     forall j, In (Sig pre dig j) ops -> exists key' ops', In (j, key', ops') ms) ->
  exists i key ops, In (i, key, ops) ms /\ In (pre, sn) (msgs (me (run proxy (ops ++ [Process])))).
Proof.
  intros proxy pre sn dig keys wits ms NE H.
  assert (X : exists i key ops, In (i, key, ops) ms /\ forall j key' ops', In (j, key', ops') ms -> i <= j).
  { clear H. induction ms as [|[[i key] ops] ms IH]; [congruence|]. destruct ms as [|x ms]; [exists i, key, ops; split; [left; reflexivity|intros j k' o' [[= <- _ _]|[]]; lia]|].
    destruct IH as (i2 & key2 & ops2 & I2 & M2); [discriminate|]. destruct (N.le_gt_cases i i2) as [LE|GT].
    - exists i, key, ops. split; [left; reflexivity|]. intros j k' o' [[= <- _ _]|I]; [lia|]. specialize (M2 _ _ _ I). lia.
    - exists i2, key2, ops2. split; [right; exact I2|]. intros j k' o' [[= <- _ _]|I]; [lia|]. exact (M2 _ _ _ I). }
  destruct X as (i & key & ops & I & M). exists i, key, ops. split; [exact I|]. destruct (H _ _ _ I) as (A1 & A2 & A3 & A4 & A5 & A6 & A7 & A8).
  apply (elected pre sn dig key keys wits proxy ops i); try assumption. intros j J. destruct (A8 j J) as (k' & o' & J'). exact (M _ _ _ J').
Qed.
Example elected_ex : let ops := start0 in
  alone ops GR 0 D0 K0 [K0; K1] [W0; W1] /\ calm false (ops ++ [Process]) /\ (forall a b, ops = a ++ Process :: b -> ~ accepted a GR 0 D0) /\
  msgs (me (run false (ops ++ [Process]))) = [(GR, 0)] /\
  msgs (me (run false ([Own GR (mkH K1 true); Sig GR D0 1; Start GR 0 D0; Sig GR D0 0; Accept GR kIcp; Process]))) = [].
Proof.
  split; [rewrite <- (app_nil_r start0); apply alone0; intros o []|]. split; [apply calmb_ok; vm_compute; reflexivity|]. split; [|split; vm_compute; reflexivity].
  intros a b E (k & I & _). unfold start0 in E. destruct a as [|? a]; [discriminate E|]. injection E as <- E. destruct a as [|? a]; [discriminate E|]. injection E as <- E. destruct a as [|? a]; [discriminate E|]. injection E as <- E.
  destruct a as [|? a]; [cbn in I; repeat (destruct I as [I|I]; [discriminate I|]); contradiction|]. injection E as <- E. destruct a as [|? a]; [discriminate E|]. injection E as <- E. destruct a as [|? a]; [discriminate E|]. injection E as <- E. destruct a; discriminate E.
Qed.
Lemma c110_twice_refuted : ~ (forall proxy pre sn dig k opsA opsB keyA keyB, keyA <> keyB -> ownKey opsA pre keyA -> ownKey opsB pre keyB ->
  current opsA pre k -> current opsB pre k -> In (Start pre sn dig) opsA -> In (Start pre sn dig) opsB -> calm proxy opsA -> calm proxy opsB ->
  In (pre, sn) (msgs (me (run proxy opsA))) -> In (pre, sn) (msgs (me (run proxy opsB))) -> False).
Proof.
  intros H. pose (h := fun key => [Own GR (mkH key true); Start GR 0 D0]). pose (e := [Accept GR (mkK [K0; K1; K2] [W0] 0 (s2b "icp") D0 None); Process]).
  apply (H false GR 0 D0 (mkK [K0; K1; K2] [W0] 0 (s2b "icp") D0 None) (h K0 ++ [Sig GR D0 0; Sig GR D0 2] ++ e) (h K1 ++ [Sig GR D0 1; Sig GR D0 2] ++ e) K0 K1).
  - discriminate.
  - exists [], ([Start GR 0 D0] ++ [Sig GR D0 0; Sig GR D0 2] ++ e), (mkH K0 true). split; [reflexivity|]. split; [reflexivity|]. intros h' I. cbn in I. repeat (destruct I as [I|I]; [discriminate I|]). contradiction.
  - exists [], ([Start GR 0 D0] ++ [Sig GR D0 1; Sig GR D0 2] ++ e), (mkH K1 true). split; [reflexivity|]. split; [reflexivity|]. intros h' I. cbn in I. repeat (destruct I as [I|I]; [discriminate I|]). contradiction.
  - exists (h K0 ++ [Sig GR D0 0; Sig GR D0 2]), [Process]. split; [reflexivity|]. intros k I. destruct I as [I|[]]. discriminate I.
  - exists (h K1 ++ [Sig GR D0 1; Sig GR D0 2]), [Process]. split; [reflexivity|]. intros k I. destruct I as [I|[]]. discriminate I.
  - ins.
  - ins.
  - apply calmb_ok. vm_compute. reflexivity.
  - apply calmb_ok. vm_compute. reflexivity.
  - vm_compute. left. reflexivity.
  - vm_compute. left. reflexivity.
Qed.

Lemma c110_second_refuted : exists ops pre sn dig, In (Start pre sn dig) ops /\ calm false ops /\
  forall proxy more, (forall g, ~ In (Start pre sn g) more) -> complete (run proxy (ops ++ more)) pre sn (Some dig) = Ok false.
Proof.
  exists [Own GR (mkH K0 true); Start GR 0 D0; Start GR 1 D1; Sig GR D0 0; Accept GR kIcp; Process], GR, 1, D1. split; [ins|]. split; [apply calmb_ok; vm_compute; reflexivity|].
  intros proxy more NS. rewrite run_app. unfold complete, completed.
  match goal with |- context[run proxy ?l] => assert (L : lost GR 1 (db (run proxy l))) end.
  { destruct proxy; (split; [intros g I; vm_compute in I; contradiction|split; [intros g I; vm_compute in I; contradiction|split; [|vm_compute; reflexivity]]]; intros g I; vm_compute in I; destruct I as [I|[]]; discriminate I). }
  pose proof (lost_run GR 1 proxy more _ NS L) as (_ & _ & _ & R). rewrite R. reflexivity.
Qed.
Lemma c110_delegator_refuted : exists ops pre sn dig, In (Start pre sn dig) ops /\ accepted ops pre sn dig /\
  forall proxy more, (forall g, ~ In (Start pre sn g) more) -> complete (run proxy (ops ++ more)) pre sn (Some dig) = Ok false.
Proof.
  exists [Own GR (mkH K0 true); Start GR 0 D0; Sig GR D0 0; Accept GR kDip; Process], GR, 0, D0. split; [ins|]. split; [exists kDip; split; [ins|split; reflexivity]|].
  intros proxy more NS. rewrite run_app. unfold complete, completed.
  match goal with |- context[run proxy ?l] => assert (L : lost GR 0 (db (run proxy l))) end.
  { destruct proxy; (split; [intros g I; vm_compute in I; contradiction|split; [intros g I; vm_compute in I; contradiction|split; [intros g I; vm_compute in I; contradiction|vm_compute; reflexivity]]]). }
  pose proof (lost_run GR 0 proxy more _ NS L) as (_ & _ & _ & R). rewrite R. reflexivity.
Qed.
Lemma c110_crash_refuted : exists ops pre sn dig key k, In (Start pre sn dig) ops /\ current ops pre k /\ receipted ops pre dig k /\ k_sn k = sn /\ k_said k = dig /\ ownKey ops pre key /\
  forall proxy more, (forall g, ~ In (Start pre sn g) more) -> (forall h, In (Own pre h) more -> h_key h = key) ->
    (forall k', In (Accept pre k') more -> k_wits k' <> [] /\ exists r, k_keys k' = key :: r) -> complete (run proxy (ops ++ more)) pre sn (Some dig) = Ok false.
Proof.
  exists (start0 ++ [Process; Crash] ++ wigs0), GR, 0, D0, K0, kIcp. split; [ins|].
  split; [exists [Own GR (mkH K0 true); Sig GR D0 0; Start GR 0 D0; Process; Sig GR D0 1], ([Process; Crash] ++ wigs0); split; [reflexivity|]; intros k' I; cbn in I; repeat (destruct I as [I|I]; [discriminate I|]); contradiction|].
  split.
  { exists [0; 1]. split; [constructor; [intros [E|[]]; discriminate E|constructor; [intros []|constructor]]|]. split; [reflexivity|]. intros i. split.
    - intros [<-|[<-|[]]]; ins.
    - intros I. cbn in I. repeat (destruct I as [I|I]; [try discriminate I; try (injection I as <-; ins)|]). contradiction. }
  split; [reflexivity|]. split; [reflexivity|].
  split; [exists [], [Sig GR D0 0; Start GR 0 D0; Process; Sig GR D0 1; Accept GR kIcp; Process; Crash; Wig GR D0 0; Wig GR D0 1], (mkH K0 true); split; [reflexivity|]; split; [reflexivity|]; intros h' I; cbn in I; repeat (destruct I as [I|I]; [discriminate I|]); contradiction|].
  intros proxy more NS NO NA. rewrite run_app. unfold complete, completed.
  rewrite (stuck_run GR 0 K0 proxy more); [reflexivity| | |].
  - apply Forall_forall. intros o I. destruct o as [p0 k0|p0 d0 i0|p0 d0 i0|de p0 v0 a0|p0 h0|p0 n0 g0|p0 n0| | | | |p0| ]; cbn [keeps]; try exact Logic.I.
    + intros ->. destruct (NA _ I). split; assumption.
    + intros ->. exact (NO _ I).
    + intros (-> & ->). exact (NS _ I).
  - destruct proxy; (split; [exists (mkH K0 true); split; vm_compute; reflexivity|exists kIcp, [K1]; split; [vm_compute; reflexivity|split; [reflexivity|discriminate]]]).
  - destruct proxy; (split; [intros g I; vm_compute in I; contradiction|]; split; [intros g I; vm_compute in I; contradiction|]; split; [vm_compute; reflexivity|]; split; intros I; vm_compute in I; contradiction).
Qed.
Lemma c110_proxy_refuted : exists ops, forall more, (forall k, In (Accept ME k) more -> k_wits k = []) -> (forall d i, ~ In (Wig ME d i) more) -> (forall h, In (Own ME h) more -> h_group h = false) ->
  forall pre sn, sComplete (run false (ops ++ more)) pre sn None = Ok false.
Proof.
  exists [Own ME (mkH K0 false); Accept DL kDel; Accept ME (mkK [K0] [] 0 (s2b "dip") D0 (Some DL)); Delegate ME 0].
  intros more NA NW NO pre sn. rewrite run_app. unfold sComplete, completed. rewrite (jam_run ME []); [reflexivity| | |].
  - apply Forall_forall. intros o I. destruct o as [p0 k0|p0 d0 i0|p0 d0 i0|de p0 v0 a0|p0 h0|p0 n0 g0|p0 n0| | | | |p0| ]; cbn [harmless]; try exact Logic.I.
    + intros ->. exact (NA _ I).
    + intros ->. exact (NW _ _ I).
    + intros ->. exact (NO _ I).
  - split; [intros k E; vm_compute in E; injection E as <-; reflexivity|]. split; [reflexivity|]. exists (mkH K0 false). split; vm_compute; reflexivity.
  - split; [vm_compute; reflexivity|]. exists (0, D0). vm_compute. left. reflexivity.
Qed.
