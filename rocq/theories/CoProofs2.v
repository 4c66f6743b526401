From Coq Require Import Lia.
From Verif Require Import Prelude CoModel CoSpec CoProofs.
Ltac Zify.zify_post_hook ::= Z.div_mod_to_equations.
Open Scope N_scope.

Definition accd (ops : list op) p sn := exists said, accepted ops p sn said.
Definition fin (ops : list op) p sn dg := exists a b, ops = a ++ Process :: b /\ finished a p sn dg.
Definition witd (ops : list op) p said := exists a b k, ops = a ++ SProcess :: b /\ current a p k /\ receipted a p said k.
Definition anch (ops : list op) p sn said := exists k del, In (Accept p k) ops /\ k_del k = Some del /\ sealed ops del p (sn, said).
Record sound (ops : list op) (d : dbs) : Prop := mkSound {
  s_gpse : forall p sn dg, In (p, (sn, dg)) (gpse d) -> In (Start p sn dg) ops;
  s_gdee : forall p sn dg, In (p, (sn, dg)) (gdee d) -> In (Start p sn dg) ops /\ accd ops p sn;
  s_gpwe : forall p sn dg, In (p, (sn, dg)) (gpwe d) -> In (Start p sn dg) ops /\ accd ops p sn;
  s_cgms : forall p sn dg, In (p, sn, dg) (cgms d) -> In (Start p sn dg) ops /\ accd ops p sn /\ fin ops p sn dg;
  s_dpwe : forall p sn dg, In (p, (sn, dg)) (dpwe d) -> accepted ops p sn dg;
  s_dune : forall p sn dg, In (p, (sn, dg)) (dune d) -> accepted ops p sn dg /\ witd ops p dg;
  s_dpub : forall p sn dg, In (p, (sn, dg)) (dpub d) -> accepted ops p sn dg /\ witd ops p dg /\ anch ops p sn dg;
  s_cdel : forall p sn dg, In (p, sn, dg) (cdel d) -> accepted ops p sn dg /\ witd ops p dg /\ anch ops p sn dg }.

Lemma accepted_mono a b p sn d : accepted a p sn d -> accepted (a ++ b) p sn d.
Proof. intros (k & I & R). exists k. split; [apply in_or_app; auto|exact R]. Qed.
Lemma accd_mono a b p sn : accd a p sn -> accd (a ++ b) p sn.
Proof. intros (d & I). exists d. apply accepted_mono. exact I. Qed.
Lemma fin_mono a b p sn d : fin a p sn d -> fin (a ++ b) p sn d.
Proof. intros (x & y & -> & F). exists x, (y ++ b). split; [rewrite <- app_assoc; reflexivity|exact F]. Qed.
Lemma witd_mono a b p d : witd a p d -> witd (a ++ b) p d.
Proof. intros (x & y & k & -> & F). exists x, (y ++ b), k. split; [rewrite <- app_assoc; reflexivity|exact F]. Qed.
Lemma anch_mono a b p sn d : anch a p sn d -> anch (a ++ b) p sn d.
Proof. intros (k & del & I & E & (x & J)). exists k, del. split; [apply in_or_app; auto|]. split; [exact E|]. exists x. apply in_or_app; auto. Qed.
Lemma sound_mono a b d : sound a d -> sound (a ++ b) d.
Proof.
  intros [A B C D E F G H]. constructor; intros p sn dg I.
  - apply in_or_app. left. eauto.
  - destruct (B _ _ _ I). split; [apply in_or_app; auto|apply accd_mono; auto].
  - destruct (C _ _ _ I). split; [apply in_or_app; auto|apply accd_mono; auto].
  - destruct (D _ _ _ I) as (I1 & I2 & I3). split; [apply in_or_app; auto|]. split; [apply accd_mono; auto|apply fin_mono; auto].
  - apply accepted_mono. eauto.
  - destruct (F _ _ _ I). split; [apply accepted_mono; auto|apply witd_mono; auto].
  - destruct (G _ _ _ I) as (I1 & I2 & I3). split; [apply accepted_mono; auto|]. split; [apply witd_mono; auto|apply anch_mono; auto].
  - destruct (H _ _ _ I) as (I1 & I2 & I3). split; [apply accepted_mono; auto|]. split; [apply witd_mono; auto|apply anch_mono; auto].
Qed.
Lemma current_In a p k : current a p k -> In (Accept p k) a.
Proof. intros (x & y & -> & _). apply in_elt. Qed.

(** changing one table *)
Section U.
Variables (ops : list op) (d : dbs).
Hypothesis S0 : sound ops d.
Lemma u_gpse l : (forall x, In x l -> In x (gpse d)) -> sound ops (d_gpse d l).
Proof. destruct S0. intros H. constructor; cbn; eauto. Qed.
Lemma u_gdee l : (forall p sn dg, In (p, (sn, dg)) l -> In (p, (sn, dg)) (gdee d) \/ (In (Start p sn dg) ops /\ accd ops p sn)) -> sound ops (d_gdee d l).
Proof. destruct S0. intros H. constructor; cbn; eauto. intros p sn dg I. destruct (H _ _ _ I); eauto. Qed.
Lemma u_gpwe l : (forall p sn dg, In (p, (sn, dg)) l -> In (p, (sn, dg)) (gpwe d) \/ (In (Start p sn dg) ops /\ accd ops p sn)) -> sound ops (d_gpwe d l).
Proof. destruct S0. intros H. constructor; cbn; eauto. intros p sn dg I. destruct (H _ _ _ I); eauto. Qed.
Lemma u_cgms l : (forall p sn dg, In (p, sn, dg) l -> In (p, sn, dg) (cgms d) \/ (In (Start p sn dg) ops /\ accd ops p sn /\ fin ops p sn dg)) -> sound ops (d_cgms d l).
Proof. destruct S0. intros H. constructor; cbn; eauto. intros p sn dg I. destruct (H _ _ _ I); eauto. Qed.
Lemma u_dpwe l : (forall p sn dg, In (p, (sn, dg)) l -> In (p, (sn, dg)) (dpwe d) \/ accepted ops p sn dg) -> sound ops (d_dpwe d l).
Proof. destruct S0. intros H. constructor; cbn; eauto. intros p sn dg I. destruct (H _ _ _ I); eauto. Qed.
Lemma u_dune l : (forall p sn dg, In (p, (sn, dg)) l -> In (p, (sn, dg)) (dune d) \/ (accepted ops p sn dg /\ witd ops p dg)) -> sound ops (d_dune d l).
Proof. destruct S0. intros H. constructor; cbn; eauto. intros p sn dg I. destruct (H _ _ _ I); eauto. Qed.
Lemma u_dpub l : (forall p sn dg, In (p, (sn, dg)) l -> In (p, (sn, dg)) (dpub d) \/ (accepted ops p sn dg /\ witd ops p dg /\ anch ops p sn dg)) -> sound ops (d_dpub d l).
Proof. destruct S0. intros H. constructor; cbn; eauto. intros p sn dg I. destruct (H _ _ _ I); eauto. Qed.
Lemma u_cdel l : (forall p sn dg, In (p, sn, dg) l -> In (p, sn, dg) (cdel d) \/ (accepted ops p sn dg /\ witd ops p dg /\ anch ops p sn dg)) -> sound ops (d_cdel d l).
Proof. destruct S0. intros H. constructor; cbn; eauto. intros p sn dg I. destruct (H _ _ _ I); eauto. Qed.
Lemma u_aess l : sound ops (d_aess d l).
Proof. destruct S0. constructor; cbn; eauto. Qed.
End U.

Section P.
Variables (a : list op) (o : op) (w : world).
Hypothesis W : wok a w.
Let ops := a ++ [o].
Let Snd (s : st) : Prop := sound ops (fst s).

Lemma delegation_sound pre sn s : Snd s -> Snd (fst (delegation w pre sn s)).
Proof.
  unfold Snd. destruct s as [d m]. cbn [fst]. intros S0. unfold delegation. destruct (dget (habs w) pre); [|exact S0]. destruct (kever w pre) as [k|]; [|exact S0]. destruct (k_del k) as [del|]; [|exact S0]. destruct (kever w del); [|exact S0]. destruct (lastAt w pre sn) as [said|] eqn:L; [|exact S0].
  cbn [good fst]. apply u_dpwe; [exact S0|]. intros p n g I. apply spin_In in I. destruct I as [I|[= -> -> ->]]; [auto|right]. apply accepted_mono. eapply lastAt_accepted; eassumption.
Qed.
Lemma partialSigned_sound x s : In (Start (fst x) (fst (snd x)) (snd (snd x))) ops -> Snd s -> Snd (fst (partialSigned w x s)).
Proof.
  unfold Snd. destruct x as [pre [sn dg]], s as [d m]. cbn [fst snd]. intros ST S0. unfold partialSigned. destruct (lastAt w pre sn) as [sdig|] eqn:L; [|exact S0].
  assert (AC : accd ops pre sn) by (exists sdig; apply accepted_mono; eapply lastAt_accepted; eassumption).
  assert (S1 : sound ops (d_gpse d (erem (gpse d) pre))) by (apply u_gpse; [exact S0|]; intros y I; apply erem_In in I; tauto).
  set (d1 := d_gpse d (erem (gpse d) pre)) in *. destruct (dget (habs w) pre) as [h|]; [|exact S1]. destruct (kever w pre) as [k|]; [|exact S1]. destruct (of2 (sigs w) pre sdig) as [|i is]; [exact S1|]. destruct (nth_error _ _) as [key|]; [|exact S1].
  destruct (_ && _).
  - apply (andThen_inv (fun s => sound ops (fst s))).
    + destruct (beq (h_key h) key); [apply delegation_sound; exact S1|exact S1].
    + intros [d2 m2] S2. cbn [fst snd good] in *. apply u_gdee; [exact S2|]. intros p n g I. apply eadd_In in I. destruct I as [I|[= -> -> ->]]; auto.
  - cbn [good fst]. apply u_gpwe; [exact S1|]. intros p n g I. apply eadd_In in I. destruct I as [I|[= -> -> ->]]; auto.
Qed.
Lemma delegateEsc_sound x s : o = Process -> In (Start (fst x) (fst (snd x)) (snd (snd x))) ops /\ accd ops (fst x) (fst (snd x)) -> Snd s /\ sound a (d_gpse (d_gdee (d_gpwe (d_cgms (d_dpwe (fst s) []) []) []) []) []) ->
  Snd (fst (delegateEsc w x s)) /\ sound a (d_gpse (d_gdee (d_gpwe (d_cgms (d_dpwe (fst (fst (delegateEsc w x s))) []) []) []) []) []).
Proof.
  unfold Snd. destruct x as [pre [sn dg]], s as [d m]. cbn [fst snd]. intros EO (ST & AC) S00. pose proof S00 as (S0 & SA). unfold delegateEsc. destruct (dget (habs w) pre) as [h|] eqn:H; [|exact S00]. destruct (kever w pre) as [k|] eqn:K; [|exact S00]. destruct (k_keys k) as [|key r] eqn:KK; [exact S00|].
  destruct (beq_spec (h_key h) key) as [E|_].
  - destruct (nget (cdel d) pre (k_sn k)) as [c|] eqn:N; [|exact S00]. cbn [good fst]. split; [|exact SA].
    assert (S1 : sound ops (d_gdee d (erem (gdee d) pre))) by (apply u_gdee; [exact S0|]; intros p n g I; apply erem_In in I; tauto).
    apply u_cgms; [exact S1|]. intros p n g I. apply nput_In in I. destruct I as [I|[= -> -> ->]]; [auto|right]. split; [exact ST|]. split; [exact AC|]. exists a, []. split; [unfold ops; rewrite EO; reflexivity|].
    apply nget_In in N. destruct (s_cdel _ _ SA _ _ _ N) as (C1 & _ & (k2 & del & _ & _ & C3)). eapply fin_delegated; [eapply kever_current; eassumption| |exact KK|exact C1|exact C3]. rewrite <- E. eapply habs_ownKey; eassumption.
  - destruct (match k_del k with Some del => sealing w del pre (sn, dg) | None => None end) as [e|]; [|exact S00]. cbn [good fst]. split; [|destruct SA; constructor; cbn; eauto].
    assert (S1 : sound ops (d_gdee (d_aess d ((pre, dg, e) :: aess d)) (erem (gdee d) pre))) by (apply u_gdee; [apply u_aess; exact S0|]; intros p n g I; apply erem_In in I; tauto).
    apply u_gpwe; [exact S1|]. intros p n g I. apply eadd_In in I. destruct I as [I|[= -> -> ->]]; auto.
Qed.
Lemma partialWitness_sound x s : o = Process -> In (Start (fst x) (fst (snd x)) (snd (snd x))) ops /\ accd ops (fst x) (fst (snd x)) -> Snd s -> Snd (fst (partialWitness w x s)).
Proof.
  unfold Snd. destruct x as [pre [sn dg]], s as [d m]. cbn [fst snd]. intros EO (ST & AC) S0. unfold partialWitness. destruct (dget (habs w) pre) as [h|] eqn:H; [|exact S0]. destruct (kever w pre) as [k|] eqn:K; [|exact S0]. destruct (k_keys k) as [|key r] eqn:KK; [exact S0|].
  destruct (len (of2 (wigs w) pre dg) =? len (k_wits k)) eqn:LN; [|exact S0]. destruct (_ && _ && _); [exact S0|]. cbn [good fst].
  assert (S1 : sound ops (d_gpwe d (erem (gpwe d) pre))) by (apply u_gpwe; [exact S0|]; intros p n g I; apply erem_In in I; tauto).
  apply u_cgms; [exact S1|]. intros p n g I. apply nput_In in I. destruct I as [I|[= -> -> ->]]; [auto|right]. split; [exact ST|]. split; [exact AC|]. exists a, []. split; [unfold ops; rewrite EO; reflexivity|].
  eapply fin_receipts; [eapply kever_current; eassumption|eapply receipted_of; eassumption].
Qed.
Lemma sPartialWitness_sound proxy x s : o = SProcess -> accepted ops (fst x) (fst (snd x)) (snd (snd x)) -> Snd s -> Snd (fst (sPartialWitness proxy w x s)).
Proof.
  unfold Snd. destruct x as [pre [sn dg]], s as [d m]. cbn [fst snd]. intros EO AC S0. unfold sPartialWitness. destruct (kever w pre) as [k|] eqn:K; [|exact S0].
  destruct (len (of2 (wigs w) pre dg) =? len (k_wits k)) eqn:LN; [|exact S0]. destruct (_ && _); [exact S0|]. destruct (dget (habs w) pre) as [h|]; [|exact S0]. destruct (match k_del k with Some del => kever w del | None => None end); [|exact S0]. destruct (_ || _); [|exact S0]. cbn [good fst].
  assert (S1 : sound ops (d_dpwe d (srem (dpwe d) pre dg))) by (apply u_dpwe; [exact S0|]; intros p n g I; apply srem_In in I; tauto).
  apply u_dune; [exact S1|]. intros p n g I. apply spin_In in I. destruct I as [I|[= -> -> ->]]; [auto|right]. split; [exact AC|]. exists a, [], k. split; [unfold ops; rewrite EO; reflexivity|].
  split; [eapply kever_current; eassumption|eapply receipted_of; eassumption].
Qed.
Lemma sUnanchored_sound x s : accepted ops (fst x) (fst (snd x)) (snd (snd x)) /\ witd ops (fst x) (snd (snd x)) -> Snd s -> Snd (fst (sUnanchored w x s)).
Proof.
  unfold Snd. destruct x as [pre [sn dg]], s as [d m]. cbn [fst snd]. intros (AC & WT) S0. unfold sUnanchored. destruct (kever w pre) as [k|] eqn:K; [|exact S0]. destruct (k_del k) as [del|] eqn:KD; [|exact S0]. destruct (kever w del); [|exact S0]. destruct (sealing w del pre (sn, dg)) as [e|] eqn:SE; [|exact S0]. cbn [good fst].
  assert (S1 : sound ops (d_dpub (d_aess d ((pre, k_said k, e) :: aess d)) (sput (dpub d) pre (sn, dg)))).
  { apply u_dpub; [apply u_aess; exact S0|]. intros p n g I. apply sput_In in I. destruct I as [I|[= -> -> ->]]; [auto|right]. split; [exact AC|]. split; [exact WT|]. apply anch_mono. exists k, del. split; [eapply current_In, kever_current; eassumption|]. split; [exact KD|eapply sealing_sealed; eassumption]. }
  apply u_dune; [exact S1|]. intros p n g I. apply srem_In in I. auto.
Qed.
Lemma sPublication_sound x s : accepted ops (fst x) (fst (snd x)) (snd (snd x)) /\ witd ops (fst x) (snd (snd x)) /\ anch ops (fst x) (fst (snd x)) (snd (snd x)) -> Snd s -> Snd (fst (sPublication x s)).
Proof.
  unfold Snd. destruct x as [pre [sn dg]], s as [d m]. cbn [fst snd]. intros AC S0. unfold sPublication. destruct (dget (pubs m) pre) as [[|]|]; [exact S0| |exact S0]. cbn [good fst].
  assert (S1 : sound ops (d_dpub d (srem (dpub d) pre dg))) by (apply u_dpub; [exact S0|]; intros p n g I; apply srem_In in I; tauto).
  apply u_cdel; [exact S1|]. intros p n g I. apply nput_In in I. destruct I as [I|[= -> -> ->]]; [auto|right; exact AC].
Qed.
End P.

Lemma forall_ents {A} (P : A -> Prop) l : (forall x, In x l -> P x) -> Forall P l.
Proof. apply Forall_forall. Qed.
Lemma partialSigned_cdel w x s : cdel (fst (fst (partialSigned w x s))) = cdel (fst s) /\ dune (fst (fst (partialSigned w x s))) = dune (fst s) /\ dpub (fst (fst (partialSigned w x s))) = dpub (fst s).
Proof.
  destruct x as [pre [sn dg]], s as [d m]. unfold partialSigned, delegation. cbn [fst].
  repeat match goal with |- context[match ?c with _ => _ end] => match c with context[match _ with _ => _ end] => fail 1 | _ => destruct c end end; cbn; auto.
Qed.
Lemma run_sound proxy ops : sound ops (db (run proxy ops)).
Proof.
  induction ops as [|o a IH] using rev_ind; [constructor; intros p sn dg []|]. rewrite run_snoc. pose proof (run_wok proxy a) as W. set (s := run proxy a) in *. clearbody s.
  pose proof (sound_mono _ [o] _ IH) as S0. destruct s as [w d m]. cbn [wo db me] in *.
  destruct o as [p0 k0|p0 d0 i0|p0 d0 i0|de p0 v0 a0|p0 h0|p0 sn dig|p0 sn| | | | |p0| ]; cbn [step wo db me]; try exact S0.
  - destruct (existsb _ _); exact S0.
  - destruct S0 as [S1 S2 S3 S4 S5 S6 S7 S8]. constructor; cbn; auto. intros p n g I. apply eadd_In in I. destruct I as [I|[= -> -> ->]]; [auto|]. apply in_snoc. auto.
  - rewrite after_db. apply (delegation_sound a _ w W p0 sn (d, m)). exact S0.
  - rewrite after_db. unfold processEscrows. cbn [fst].
    assert (Q1 : (fun s : st => sound (a ++ [Process]) (fst s) /\ (cdel (fst s) = cdel d /\ dune (fst s) = dune d /\ dpub (fst s) = dpub d)) (fst (each (partialSigned w) (gpse d) (d, m)))).
    { apply (each_inv _ (fun s : st => sound (a ++ [Process]) (fst s) /\ (cdel (fst s) = cdel d /\ dune (fst s) = dune d /\ dpub (fst s) = dpub d)) (fun x => In (Start (fst x) (fst (snd x)) (snd (snd x))) (a ++ [Process]))).
      - apply forall_ents. intros [p [n g]] I. apply (s_gpse _ _ S0). exact I.
      - intros x s G (H & E1 & E2 & E3). split; [apply (partialSigned_sound a); assumption|]. destruct (partialSigned_cdel w x s) as (F1 & F2 & F3). rewrite F1, F2, F3. auto.
      - auto. }
    destruct (each (partialSigned w) (gpse d) (d, m)) as [[d1 m1] [u|x]]; cbn [fst andThen] in *; [|apply Q1]. destruct Q1 as (S1 & E1 & E2 & E3).
    assert (SA : sound a (d_gpse (d_gdee (d_gpwe (d_cgms (d_dpwe d1 []) []) []) []) [])) by (destruct IH; constructor; cbn; rewrite ?E1, ?E2, ?E3; auto; intros p n g []).
    assert (Q2 : (fun s : st => sound (a ++ [Process]) (fst s) /\ sound a (d_gpse (d_gdee (d_gpwe (d_cgms (d_dpwe (fst s) []) []) []) []) [])) (fst (each (delegateEsc w) (gdee d1) (d1, m1)))).
    { apply (each_inv _ (fun s : st => sound (a ++ [Process]) (fst s) /\ sound a (d_gpse (d_gdee (d_gpwe (d_cgms (d_dpwe (fst s) []) []) []) []) [])) (fun x => In (Start (fst x) (fst (snd x)) (snd (snd x))) (a ++ [Process]) /\ accd (a ++ [Process]) (fst x) (fst (snd x)))).
      - apply forall_ents. intros [p [n g]] I. apply (s_gdee _ _ S1). exact I.
      - intros x s G H. apply (delegateEsc_sound a Process w W); [reflexivity|exact G|exact H].
      - auto. }
    destruct (each (delegateEsc w) (gdee d1) (d1, m1)) as [[d2 m2] [u2|x]]; cbn [fst andThen] in *; [|apply Q2]. destruct Q2 as (S2 & _).
    apply (each_inv _ (fun s : st => sound (a ++ [Process]) (fst s)) (fun x => In (Start (fst x) (fst (snd x)) (snd (snd x))) (a ++ [Process]) /\ accd (a ++ [Process]) (fst x) (fst (snd x)))).
    + apply forall_ents. intros [p [n g]] I. apply (s_gpwe _ _ S2). exact I.
    + intros x s G H. apply (partialWitness_sound a Process w W); [reflexivity|exact G|exact H].
    + exact S2.
  - rewrite after_db. unfold sProcessEscrows. cbn [fst].
    assert (Q1 : (fun s : st => sound (a ++ [SProcess]) (fst s)) (fst (each (sPartialWitness proxy w) (dpwe d) (d, m)))).
    { apply (each_inv _ (fun s : st => sound (a ++ [SProcess]) (fst s)) (fun x => accepted (a ++ [SProcess]) (fst x) (fst (snd x)) (snd (snd x)))).
      - apply forall_ents. intros [p [n g]] I. apply (s_dpwe _ _ S0). exact I.
      - intros x s G H. apply (sPartialWitness_sound a SProcess w W); [reflexivity|exact G|exact H].
      - exact S0. }
    destruct (each (sPartialWitness proxy w) (dpwe d) (d, m)) as [[d1 m1] [u|x]]; cbn [fst andThen] in *; [|exact Q1].
    assert (Q2 : (fun s : st => sound (a ++ [SProcess]) (fst s)) (fst (each (sUnanchored w) (dune d1) (d1, m1)))).
    { apply (each_inv _ (fun s : st => sound (a ++ [SProcess]) (fst s)) (fun x => accepted (a ++ [SProcess]) (fst x) (fst (snd x)) (snd (snd x)) /\ witd (a ++ [SProcess]) (fst x) (snd (snd x)))).
      - apply forall_ents. intros [p [n g]] I. apply (s_dune _ _ Q1). exact I.
      - intros x s G H. apply (sUnanchored_sound a SProcess w W); [exact G|exact H].
      - exact Q1. }
    destruct (each (sUnanchored w) (dune d1) (d1, m1)) as [[d2 m2] [u2|x]]; cbn [fst andThen] in *; [|exact Q2].
    apply (each_inv _ (fun s : st => sound (a ++ [SProcess]) (fst s)) (fun x => accepted (a ++ [SProcess]) (fst x) (fst (snd x)) (snd (snd x)) /\ witd (a ++ [SProcess]) (fst x) (snd (snd x)) /\ anch (a ++ [SProcess]) (fst x) (fst (snd x)) (snd (snd x)))).
    + apply forall_ents. intros [p [n g]] I. apply (s_dpub _ _ Q2). exact I.
    + intros x s G H. apply (sPublication_sound a SProcess); [exact G|exact H].
    + exact Q2.
  - destruct (msgs m); exact S0.
  - destruct (smsgs m); exact S0.
Qed.
