(** Program logic of the key manager and its invariants *)
From Coq Require Import Lia.
From Verif Require Import Prelude B64Model MatterModel SubsModel ThModel JsonModel KsModel KsSpec JsonProofs.
Open Scope N_scope.
Ltac Zify.zify_post_hook ::= Z.div_mod_to_equations.

Definition mem := (option bytes * option bytes * bytes)%type.
Definition memOf (m : mgr) : mem := (m_enc m, m_dec m, m_seed m).

(** [holds K J p Q]: from a manager whose memory satisfies [K] and database [J], every database
    on the way satisfies [J], memory and database still do at the end, and the result satisfies [Q] *)
Definition holds (K : mem -> Prop) (J : ksdb -> Prop) {A} (p : M A) (Q : A -> Prop) : Prop :=
  forall m t m' r, p m = (t, (m', r)) -> K (memOf m) -> J (ks m) ->
    Forall J t /\ K (memOf m') /\ J (ks m') /\ (forall a, r = Ok a -> Q a).

Section H.
Variable K : mem -> Prop.
Variable J : ksdb -> Prop.

Lemma holds_ret : forall A (a : A) (Q : A -> Prop), Q a -> holds K J (ret a) Q.
Proof. intros A a Q H m t m' r E k j. injection E; intros; subst. repeat split; auto. intros b Eb; injection Eb; intros; subst; auto. Qed.
Lemma holds_raise : forall A e (Q : A -> Prop), holds K J (@raise A e) Q.
Proof. intros A e Q m t m' r E k j. injection E; intros; subst. repeat split; auto; intros; discriminate. Qed.
Lemma holds_lift : forall A (x : res A) (Q : A -> Prop), (forall a, x = Ok a -> Q a) -> holds K J (lift x) Q.
Proof. intros A x Q H m t m' r E k j. injection E; intros; subst. repeat split; auto. Qed.
Lemma holds_reads : forall A (f : mgr -> A) (Q : A -> Prop), (forall m, K (memOf m) -> J (ks m) -> Q (f m)) -> holds K J (reads f) Q.
Proof. intros A f Q H m t m' r E k j. injection E; intros; subst. repeat split; auto. intros a Ea; injection Ea; intros; subst; auto. Qed.
Lemma holds_bind : forall A B (p : M A) (f : A -> M B) Q1 (Q2 : B -> Prop),
  holds K J p Q1 -> (forall a, Q1 a -> holds K J (f a) Q2) -> holds K J (bindM p f) Q2.
Proof.
  intros A B p f Q1 Q2 H1 H2 m t m' r E k j. unfold bindM in E.
  destruct (p m) as [t1 [m1 r1]] eqn:E1. destruct (H1 _ _ _ _ E1 k j) as (a1 & a2 & a3 & a4).
  destruct r1 as [a|e].
  - destruct (f a m1) as [t2 o] eqn:E2. destruct o as [m2 r2]. injection E; intros; subst.
    destruct (H2 a (a4 a eq_refl) _ _ _ _ E2 a2 a3) as (b1 & b2 & b3 & b4).
    repeat split; auto. apply Forall_app; auto.
  - injection E; intros; subst. repeat split; auto; intros; discriminate.
Qed.
Lemma holds_conseq : forall A (p : M A) (Q Q' : A -> Prop), holds K J p Q -> (forall a, Q a -> Q' a) -> holds K J p Q'.
Proof. intros A p Q Q' H HQ m t m' r E k j. destruct (H _ _ _ _ E k j) as (a1 & a2 & a3 & a4). repeat split; auto. Qed.
Lemma holds_write : forall f, (forall d, J d -> J (f d)) -> holds K J (write f) (fun _ => True).
Proof. intros f H m t m' r E k j. injection E; intros; subst. cbn. repeat split; auto. Qed.
Lemma holds_memory : forall f, (forall m, ks (f m) = ks m) -> (forall m, K (memOf m) -> K (memOf (f m))) -> holds K J (memory f) (fun _ => True).
Proof. intros f H1 H2 m t m' r E k j. injection E; intros; subst. rewrite H1. repeat split; auto. Qed.
Lemma holds_guard : forall b e, holds K J (guard b e) (fun _ => b = false).
Proof. intros [] e; [apply holds_raise|apply holds_ret; auto]. Qed.
Lemma holds_put : forall V (sel : ksdb -> list (bytes * V)) upd k v,
  (forall d, J d -> dget (sel d) k = None -> J (upd d (dset (sel d) k v))) ->
  holds K J (putM sel upd k v) (fun b => b = true -> exists d, J d /\ dget (sel d) k = None).
Proof.
  intros V sel upd k v H m t m' r E kk j. unfold putM, bindM, reads in E.
  destruct (dget (sel (ks m)) k) eqn:Eg; cbn in E; injection E; intros; subst.
  - repeat split; auto. intros a Ea; injection Ea; intros; subst; discriminate.
  - cbn. repeat split; auto. intros a Ea; injection Ea; intros; subst. exists (ks m); auto.
Qed.
Lemma holds_pin : forall V (sel : ksdb -> list (bytes * V)) upd k v,
  (forall d, J d -> J (upd d (dset (sel d) k v))) -> holds K J (pinM sel upd k v) (fun _ => True).
Proof. intros. apply holds_write; auto. Qed.
Lemma holds_rem : forall V (sel : ksdb -> list (bytes * V)) upd k,
  (forall d, J d -> J (upd d (krem (sel d) k))) -> holds K J (remM sel upd k) (fun _ => True).
Proof. intros. apply holds_write; auto. Qed.
Lemma holds_forM : forall A (l : list A) f, (forall x, In x l -> holds K J (f x) (fun _ => True)) -> holds K J (forM l f) (fun _ => True).
Proof.
  induction l as [|x l IH]; cbn; intros f H; [apply holds_ret; auto|].
  eapply holds_bind; [apply H; auto|]. intros; apply IH; auto.
Qed.
Lemma holds_mapM : forall A B (l : list A) (f : A -> M B) (Q : A -> B -> Prop),
  (forall x, In x l -> holds K J (f x) (Q x)) -> holds K J (mapM l f) (Forall2 Q l).
Proof.
  induction l as [|x l IH]; cbn; intros f Q H; [apply holds_ret; auto|].
  eapply holds_bind; [apply H; auto|]. intros y Hy. eapply holds_bind; [apply IH; auto|]. intros ys Hys. apply holds_ret; auto.
Qed.
Lemma holds_true : forall A (p : M A) Q, holds K J p Q -> holds K J p (fun _ => True).
Proof. intros; eapply holds_conseq; eauto. Qed.
Lemma holds_draw : (forall a b, K a -> a = b -> K b) -> holds K J draw (fun _ => True).
Proof.
  intros HK m t m' r E k j. unfold draw, bindM, reads, memory, ret in E. injection E; intros; subst. cbn.
  repeat split; auto.
Qed.
End H.

Lemma holds_draw' : forall K J, holds K J draw (fun _ => True).
Proof. intros; apply holds_draw; intros; subst; auto. Qed.

Ltac hret := first [apply holds_ret; solve [auto] | apply holds_raise].

(** ** The results of creation *)
Section Create.
Variable c : kcfg.
Definition signerOk (tr : bool) (sg : signer) : Prop :=
  memB (fst (fst sg)) SeedDex = true /\ snd sg = vk c (fst (fst sg)) (snd (fst sg)) tr.

Lemma mkSigner_ok : forall cd sd tr sg, mkSigner c cd sd tr = Ok sg -> signerOk tr sg /\ fst sg = (cd, sd).
Proof.
  intros cd sd tr sg. unfold mkSigner. destruct (memB cd SeedDex) eqn:E; [|discriminate].
  intros H; injection H; intros; subst. split; [split|]; auto.
Qed.

Lemma create_holds : forall K J cr codes pidx ridx kidx tr temp,
  holds K J (create c cr codes pidx ridx kidx tr temp) (fun sgs => Forall (signerOk tr) sgs /\ List.length sgs = List.length codes).
Proof.
  intros K J cr codes pidx ridx. induction codes as [|code rest IH]; cbn; intros kidx tr temp.
  - apply holds_ret; auto.
  - apply holds_bind with (Q1 := fun _ => True).
    { destruct cr; [eapply holds_bind; [apply holds_draw'|]|]; intros; apply holds_ret; auto. }
    intros seed _. eapply holds_bind; [apply holds_lift; intros a Ha; exact (mkSigner_ok _ _ _ _ Ha)|].
    intros sg [Hsg _]. eapply holds_bind; [apply IH|]. intros sgs [Hs Hl]. apply holds_ret; cbn; auto.
Qed.
Lemma mkCreator_holds : forall K J algo salt stem tier,
  holds K J (mkCreator c algo salt stem tier) (fun cr => algo = Some Salty -> exists s t, cr = CSalty s stem t).
Proof.
  intros. unfold mkCreator. destruct algo as [a|]; [|hret].
  destruct (beq a Randy) eqn:E1.
  - apply holds_ret. intros E; injection E; intros; subst. discriminate.
  - destruct (beq a Salty); [|hret]. apply holds_bind with (Q1 := fun _ => True).
    { destruct salt as [[]|]; try hret. eapply holds_bind; [apply holds_draw'|]; intros; apply holds_ret; auto. }
    intros s _. apply holds_ret. intros _; eauto.
Qed.
End Create.

(** ** Properties of databases kept by all the writes of the calls that only touch some prefixes *)
Section Stable.
Variable c : kcfg.
Variable K : mem -> Prop.
Variable J : ksdb -> Prop.
Variable touch : bytes -> Prop.
Definition saltOk (p : preprm) : Prop :=
  match p_salt p with None => True | Some s => exists e dc sd x, K (e, dc, sd) /\ s = encSalt e (Plain x) end.
Record stable : Prop := {
  st_pres : forall d k v, J d -> J (setPres d (dset (pres d) k v));
  st_prms : forall d k p, J d -> saltOk p \/ (exists d0 k0, J d0 /\ dget (prms d0) k0 = Some p) -> J (setPrms d (dset (prms d) k p));
  st_prmsrem : forall d k, touch k -> J d -> J (setPrms d (krem (prms d) k));
  st_pidx : forall d x, J d -> J (setPidx d x);
  st_sitsput : forall d k v, J d -> dget (sits d) k = None -> J (setSits d (dset (sits d) k v));
  st_sitspin : forall d k v, touch k -> J d -> J (setSits d (dset (sits d) k v));
  st_sitsrem : forall d k, touch k -> J d -> J (setSits d (krem (sits d) k));
  st_pris : forall d sg v tr e dc sd, J d -> K (e, dc, sd) -> signerOk c tr sg -> encSecret e (fst sg) = Ok v ->
      J (setPris d (dset (pris d) (snd sg) v));
  st_prisrem : forall d k, J d -> J (setPris d (krem (pris d) k));
  st_pubs : forall d k v, J d -> J (setPubs d (dset (pubs d) k v)) }.
Hypothesis S : stable.

Definition encK (e : option bytes) : Prop := exists dc sd, K (e, dc, sd).

Lemma putPri_st : forall e tr sg, encK e -> signerOk c tr sg -> holds K J (putPri e sg) (fun _ => True).
Proof.
  intros e tr sg (dc & sd & HK) Hs. unfold putPri.
  eapply holds_bind; [apply holds_lift; intros a Ha; exact Ha|]. intros v Hv. cbn in Hv.
  eapply holds_bind; [apply holds_put|intros; apply holds_ret; auto].
  intros d Hd _. eapply (st_pris S); eauto.
Qed.
Lemma putPris_st : forall e tr sgs, encK e -> Forall (signerOk c tr) sgs -> holds K J (forM sgs (putPri e)) (fun _ => True).
Proof. intros e tr sgs He Hf. apply holds_forM. intros x Hx. eapply putPri_st; eauto. eapply Forall_forall; eauto. Qed.
Lemma opened_lift : forall A (x : res A), holds K J (lift x) (fun a => x = Ok a).
Proof. intros; apply holds_lift; auto. Qed.
Lemma getSalt_st : holds K J (getSalt c) (fun _ => True).
Proof.
  unfold getSalt. eapply holds_bind; [apply holds_reads with (Q := fun _ => True); auto|]. intros m _.
  destruct (m_dec m); [|apply holds_ret; auto]. destruct (g_salt (ks m)); [|hret].
  eapply holds_bind; [apply opened_lift|]. intros; apply holds_ret; auto.
Qed.
Lemma getPri_st : forall pub, holds K J (getPri c pub) (fun o => exists d,
  J d /\ match o with None => dget (pris d) pub = None
             | Some sg => exists v, dget (pris d) pub = Some v /\ (v = Plain (fst sg) \/ (exists a, v = Sealed a (fst sg)))
                                    /\ snd sg = vk c (fst (fst sg)) (snd (fst sg)) (trans c pub) end).
Proof.
  intros pub. unfold getPri. eapply holds_bind; [apply holds_reads with (Q := fun m => J (ks m)); auto|]. intros m Jm.
  destruct (dget (pris (ks m)) pub) as [v|] eqn:Ev; [|apply holds_ret; exists (ks m); auto].
  eapply holds_bind; [apply holds_lift; intros a Ha; exact Ha|]. intros [cd sd] Hx. cbn in Hx.
  eapply holds_bind; [apply holds_lift; intros a Ha; exact (mkSigner_ok _ _ _ _ _ Ha)|]. intros sg [[_ H1] H2].
  apply holds_ret. exists (ks m). split; auto. exists v. split; auto. split; auto.
  destruct (m_dec m) as [s|]; destruct v; cbn in Hx; try discriminate.
  - destruct (seedOk c a s); [|discriminate]. injection Hx; intros; subst. right; exists a; rewrite H2; auto.
  - injection Hx; intros; subst. left; rewrite H2; auto.
Qed.
Lemma verfersOf_st : forall ps, holds K J (verfersOf c ps) (fun _ => True).
Proof.
  intros ps. unfold verfersOf. eapply holds_true. apply holds_mapM with (Q := fun _ _ => True). intros p _.
  eapply holds_bind; [apply holds_reads with (Q := fun _ => True); auto|]. intros m _.
  eapply holds_bind; [apply holds_guard|]. intros _ _.
  eapply holds_bind; [apply getPri_st|]. intros [sg|] _; [apply holds_ret; auto|hret].
Qed.

Lemma incept_st : forall a, holds K J (incept c a) (fun _ => True).
Proof.
  intros a. unfold incept.
  eapply holds_bind; [apply holds_reads with (Q := fun _ => True); auto|]. intros d _. cbv zeta.
  apply holds_bind with (Q1 := fun _ => True).
  { destruct (a_salt a); [apply holds_ret; auto|]. destruct (a_rooted a); [apply getSalt_st|apply holds_ret; auto]. }
  intros salt _. eapply holds_bind; [apply opened_lift|]. intros pidx _.
  eapply holds_bind; [apply mkCreator_holds|]. intros cr _.
  eapply holds_bind; [apply holds_guard|]. intros _ _.
  eapply holds_bind; [apply create_holds|]. intros isg [Hi _].
  eapply holds_bind; [apply create_holds|]. intros nsg [Hn _].
  eapply holds_bind; [apply holds_reads with (Q := encK)|].
  { intros m Hk _. exists (m_dec m), (m_seed m); exact Hk. }
  intros enc He.
  eapply holds_bind; [apply holds_put; intros; apply (st_pres S); auto|]. intros b _.
  eapply holds_bind; [apply holds_guard|]. intros _ _.
  eapply holds_bind; [apply holds_put|].
  { intros d0 Hd0 _. apply (st_prms S); auto. left. unfold saltOk; cbn. destruct (crSalt cr); auto.
    destruct He as (dc & sd & He). exists enc, dc, sd, b0; auto. }
  intros b1 _. eapply holds_bind; [apply holds_guard|]. intros _ _.
  eapply holds_bind; [apply holds_write; intros; apply (st_pidx S); auto|]. intros _ _.
  eapply holds_bind; [apply holds_put; intros; apply (st_sitsput S); auto|]. intros b2 _.
  eapply holds_bind; [apply holds_guard|]. intros _ _.
  eapply holds_bind; [eapply putPris_st; eauto|]. intros _ _.
  eapply holds_bind; [apply holds_put; intros; apply (st_pubs S); auto|]. intros b3 _.
  eapply holds_bind; [eapply putPris_st; eauto|]. intros _ _.
  eapply holds_bind; [apply holds_put; intros; apply (st_pubs S); auto|]. intros b4 _.
  apply holds_ret; auto.
Qed.

Lemma prisrem_st : forall l, holds K J (forM l (fun p => remM pris setPris p)) (fun _ => True).
Proof. intros l. apply holds_forM. intros x _. apply holds_rem. intros; apply (st_prisrem S); auto. Qed.

Lemma rotate_st : forall pre a, touch pre -> holds K J (rotate c pre a) (fun _ => True).
Proof.
  intros pre a Ht. unfold rotate.
  eapply holds_bind; [apply holds_reads with (Q := fun _ => True); auto|]. intros d _.
  eapply holds_bind; [apply opened_lift|]. intros pp _.
  eapply holds_bind; [apply opened_lift|]. intros ps _.
  eapply holds_bind; [apply holds_guard|]. intros _ _. cbv zeta.
  eapply holds_bind; [apply verfersOf_st|]. intros vs _.
  eapply holds_bind; [apply holds_reads with (Q := fun m => encK (m_enc m))|].
  { intros m Hk _. exists (m_dec m), (m_seed m); exact Hk. }
  intros m He. apply holds_bind with (Q1 := fun _ => True).
  { destruct (p_salt pp) as [s|]; [|apply holds_ret; auto]. destruct (negb (isEmpty (aeidOf d))).
    - destruct (m_dec m); [|hret]. eapply holds_bind; [apply opened_lift|]. intros; apply holds_ret; auto.
    - destruct s; hret. }
  intros salt _. eapply holds_bind; [apply mkCreator_holds|]. intros cr _.
  eapply holds_bind; [apply create_holds|]. intros sgs [Hs _].
  eapply holds_bind; [apply holds_pin; intros; apply (st_sitspin S); auto|]. intros _ _.
  eapply holds_bind; [eapply putPris_st; eauto|]. intros _ _.
  eapply holds_bind; [apply holds_put; intros; apply (st_pubs S); auto|]. intros b _.
  apply holds_bind with (Q1 := fun _ => True).
  { destruct (r_erase a); [apply prisrem_st|apply holds_ret; auto]. }
  intros; apply holds_ret; auto.
Qed.

Lemma replay_st : forall pre dc ad er, touch pre -> holds K J (replay c pre dc ad er) (fun _ => True).
Proof.
  intros pre dc ad er Ht. unfold replay.
  eapply holds_bind; [apply holds_reads with (Q := fun _ => True); auto|]. intros d _.
  eapply holds_bind; [apply opened_lift|]. intros pp _.
  eapply holds_bind; [apply opened_lift|]. intros ps _.
  apply holds_bind with (Q1 := fun _ => True).
  { destruct ad; [|apply holds_ret; auto]. cbv zeta. destruct (dget _ _); hret. }
  intros ps' _. eapply holds_bind; [apply verfersOf_st|]. intros vs _. cbv zeta.
  apply holds_bind with (Q1 := fun _ => True).
  { destruct ad; [|apply holds_ret; auto].
    eapply holds_bind; [apply holds_pin; intros; apply (st_sitspin S); auto|]. intros _ _.
    destruct er; [apply prisrem_st|apply holds_ret; auto]. }
  intros; apply holds_ret; auto.
Qed.

Lemma movePubs_st : forall fuel old new i, holds K J (movePubs fuel old new i) (fun _ => True).
Proof.
  induction fuel as [|f IH]; cbn; intros old new i; [apply holds_ret; auto|].
  eapply holds_bind; [apply holds_reads with (Q := fun _ => True); auto|]. intros d _.
  destruct (dget _ _); [|apply holds_ret; auto].
  eapply holds_bind; [apply holds_put; intros; apply (st_pubs S); auto|]. intros b _.
  eapply holds_bind; [apply holds_guard|]. intros _ _. apply IH.
Qed.
Lemma move_st : forall old new, touch old -> holds K J (move old new) (fun _ => True).
Proof.
  intros old new Ht. unfold move. destruct (beq old new); [apply holds_ret; auto|].
  eapply holds_bind; [apply holds_reads with (Q := J); auto|]. intros d Jd.
  eapply holds_bind; [apply holds_guard|]. intros _ _.
  eapply holds_bind; [apply holds_guard|]. intros _ _.
  eapply holds_bind; [apply holds_lift; intros a Ha; exact Ha|]. intros op Hop. cbn in Hop.
  eapply holds_bind; [apply holds_guard|]. intros _ _.
  eapply holds_bind; [apply opened_lift|]. intros os _.
  eapply holds_bind; [apply holds_guard|]. intros _ _.
  eapply holds_bind; [apply holds_put|].
  { intros d0 Hd0 _. apply (st_prms S); auto. right. exists d, old. split; auto.
    destruct (dget (prms d) old); [injection Hop; intros; subst; auto|discriminate]. }
  intros b _. eapply holds_bind; [apply holds_guard|]. intros _ _.
  eapply holds_bind; [apply holds_rem; intros; apply (st_prmsrem S); auto|]. intros _ _.
  eapply holds_bind; [apply holds_put; intros; apply (st_sitsput S); auto|]. intros b1 _.
  eapply holds_bind; [apply holds_guard|]. intros _ _.
  eapply holds_bind; [apply holds_rem; intros; apply (st_sitsrem S); auto|]. intros _ _.
  eapply holds_bind; [apply movePubs_st|]. intros _ _.
  eapply holds_bind; [apply holds_pin; intros; apply (st_pres S); auto|]. intros _ _.
  eapply holds_bind; [apply holds_put; intros; apply (st_pres S); auto|]. intros b2 _.
  eapply holds_true; apply holds_guard.
Qed.

Lemma habRotate_st : forall pre a valid, touch pre -> holds K J (habRotate c pre a valid) (fun _ => True).
Proof.
  intros pre a valid Ht. unfold habRotate.
  eapply holds_bind; [apply holds_reads with (Q := fun _ => True); auto|]. intros d _. cbv zeta.
  apply holds_bind with (Q1 := fun _ => True).
  { intros m t m' r E k j.
    destruct (replay c pre (r_dcode a) true false m) as [t1 [m1 r1]] eqn:E1.
    destruct (replay_st pre (r_dcode a) true false Ht _ _ _ _ E1 k j) as (a1 & a2 & a3 & _).
    assert (D : (t1, (m1, r1)) = (t, (m', r)) -> Forall J t /\ K (memOf m') /\ J (ks m') /\ (forall b, r = Ok b -> True)).
    { intros Q; injection Q; intros; subst; repeat split; auto. }
    destruct r1 as [x|e]; [apply D; exact E|]. destruct e; try (apply D; exact E).
    destruct (rotate _ _ _ _) as [t2 [m2 r2]] eqn:E2.
    destruct (rotate_st _ _ Ht _ _ _ _ E2 a2 a3) as (b1 & b2 & b3 & _).
    injection E; intros; subst. repeat split; auto. apply Forall_app; auto. }
  intros vd _. destruct (dget (sits d) pre) as [ps|]; [|hret].
  destruct (valid (fst vd) (snd vd)).
  - eapply holds_bind; [apply prisrem_st|]. intros; apply holds_ret; auto.
  - eapply holds_bind; [apply holds_pin; intros; apply (st_sitspin S); auto|]. intros _ _. hret.
Qed.

(** ingest stores its last keys without the encrypter *)
Hypothesis plainOk : forall d sg tr, J d -> signerOk c tr sg -> J (setPris d (dset (pris d) (snd sg) (Plain (fst sg)))).
Hypothesis fresh : forall k d, J d -> dget (prms d) k = None -> touch k.

Lemma ingestLoop_st : forall enc iridx tr pre ss ridx kidx, encK enc -> touch pre ->
  holds K J (ingestLoop c enc iridx tr pre ss ridx kidx) (fun _ => True).
Proof.
  intros enc iridx tr pre ss. induction ss as [|cs rest IH]; intros ridx kidx He Ht; [apply holds_ret; auto|].
  cbn [ingestLoop].
  eapply holds_bind; [apply holds_mapM with (Q := fun _ sg => signerOk c tr sg)|].
  { intros x _. apply holds_lift. intros sg E. exact (proj1 (mkSigner_ok _ _ _ _ _ E)). }
  intros sgs Hs. assert (Hs' : Forall (signerOk c tr) sgs).
  { clear - Hs. induction Hs; auto. }
  eapply holds_bind; [eapply putPris_st; eauto|]. intros _ _.
  cbv zeta. eapply holds_bind; [apply holds_put; intros; apply (st_pubs S); auto|]. intros b _.
  apply holds_bind with (Q1 := fun _ => True).
  { destruct (_ =? _); [|apply holds_ret; auto]. apply holds_pin; intros; apply (st_sitspin S); auto. }
  intros _ _. apply holds_bind with (Q1 := fun _ => True).
  { destruct (_ =? _); [|apply holds_ret; auto].
    eapply holds_bind; [apply holds_reads with (Q := fun _ => True); auto|]. intros d _.
    destruct (dget _ _); [|hret]. apply holds_pin; intros; apply (st_sitspin S); auto. }
  intros _ _. apply holds_bind with (Q1 := fun _ => True).
  { destruct (_ =? _); [|apply holds_ret; auto].
    eapply holds_bind; [apply holds_reads with (Q := fun _ => True); auto|]. intros d _.
    destruct (dget _ _); [|hret]. apply holds_pin; intros; apply (st_sitspin S); auto. }
  intros _ _. apply IH; auto.
Qed.

Lemma ingest_st : forall ss iridx nc stem tr temp, holds K J (ingest c ss iridx nc stem tr temp) (fun _ => True).
Proof.
  intros ss iridx nc stem tr temp. unfold ingest.
  eapply holds_bind; [apply holds_guard|]. intros _ _.
  eapply holds_bind; [apply holds_reads with (Q := fun _ => True); auto|]. intros d _.
  eapply holds_bind; [apply getSalt_st|]. intros salt _.
  eapply holds_bind; [apply opened_lift|]. intros pidx _.
  eapply holds_bind; [apply mkCreator_holds|]. intros cr _.
  eapply holds_bind; [apply holds_reads with (Q := encK)|].
  { intros m Hk _. exists (m_dec m), (m_seed m); exact Hk. }
  intros enc He. destruct ss as [|[|s0 s1] rest]; [hret|hret|].
  eapply holds_bind; [apply opened_lift|]. intros sg0 _.
  eapply holds_bind; [apply holds_mapM with (Q := fun _ _ => True); intros; eapply holds_true; apply opened_lift|]. intros _ _.
  eapply holds_bind; [apply holds_put; intros; apply (st_pres S); auto|]. intros b _.
  eapply holds_bind; [apply holds_guard|]. intros _ _.
  eapply holds_bind; [apply holds_put|].
  { intros d0 Hd0 _. apply (st_prms S); auto. left. unfold saltOk; cbn. destruct (crSalt cr); auto.
    destruct He as (dc & sd & He). exists enc, dc, sd, b0; auto. }
  intros b1 Hb1. eapply holds_bind; [apply holds_guard|]. intros u Hg.
  assert (Ht : touch (snd sg0)).
  { assert (Eb : b1 = true) by (destruct b1; [auto|discriminate]). destruct (Hb1 Eb) as (d0 & J0 & N0). eapply fresh; eauto. }
  eapply holds_bind; [apply holds_write; intros; apply (st_pidx S); auto|]. intros _ _.
  eapply holds_bind; [apply ingestLoop_st; auto|]. intros [ridx kidx] _.
  eapply holds_bind; [apply create_holds|]. intros nsg [Hn _].
  eapply holds_bind; [apply holds_forM|].
  { intros x Hx. unfold putPri. cbn [encSecret]. eapply holds_bind; [apply opened_lift|]. intros v Hv.
    eapply holds_bind; [apply holds_put|intros; apply holds_ret; auto].
    intros d0 Hd0 _. injection Hv; intros; subst. eapply plainOk; eauto. eapply Forall_forall; eauto. }
  intros _ _. eapply holds_bind; [apply holds_put; intros; apply (st_pubs S); auto|]. intros b3 _.
  apply holds_bind with (Q1 := fun _ => True).
  { destruct (_ =? _); [|apply holds_ret; auto].
    eapply holds_bind; [apply holds_reads with (Q := fun _ => True); auto|]. intros d0 _.
    destruct (dget _ _); [|hret]. apply holds_pin; intros; apply (st_sitspin S); auto. }
  intros; apply holds_ret; auto.
Qed.
End Stable.
