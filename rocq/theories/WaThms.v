(** Properties of adjudications of watchers' key states. *)
From Coq Require Import Lia.
From Verif Require Import Prelude SubsModel ThModel JsonModel JsonProofs RpModel RpSpec RpProofs RpThms WaModel WaSpec WaProofs WaProofs2 WaProofs3.
Ltac Zify.zify_post_hook ::= Z.div_mod_to_equations.
Open Scope N_scope.

(** A controller "c" with watchers "A" and "B" for identifier "X" (88); signatures are (key, message) pairs, no
    identifier here is transferable.  The own log of "X" has the events D0, D1, ... up to number n. *)
Definition wenv : renv := mkEnv (fun _ => false) (fun k s m => beq s (k ++ m)) (fun _ => true) (fun _ => true) (fun _ => []) false false [] [s2b "A"; s2b "B"].
Definition dig (n : N) : bytes := [68; 48 + n].
Definition wkv (n : N) : kview := mkKv (fun p i => if beq p (s2b "X") && (i <=? n) then Some (mkEst (dig i) [s2b "K"] (TNum 1)) else None)
  (fun p => if beq p (s2b "X") then Some n else None).
Definition st (i s z : N) (dg : bytes) : ksr := mkKsr [i] s dg (if z =? 0 then [] else [[z]]) (s :: i :: z :: dg).
Definition wdec (b : bytes) : ksr := match b with s :: i :: z :: dg => st i s z dg | _ => st 0 0 0 [] end.
Definition watch (a said : string) : reply := mkReply (s2b said) (s2b said) 10 (s2b "/watcher/" ++ s2b a ++ s2b "/add") [(s2b "cid", s2b "c"); (s2b "oid", s2b "X")] None.
Definition nota (src said : string) (k : ksr) : reply := mkReply (s2b said) (s2b said) 20 (s2b "/ksn/" ++ s2b src) [] (Some k).
Definition by_ (src : string) (kv : kview) (r : reply) : act := Msg kv r [mkCig (s2b src) (s2b src ++ q_raw r)] [].
Definition two : list act := [by_ "c" (wkv 2) (watch "B" "w2"); by_ "c" (wkv 2) (watch "A" "w1")].
Definition p0 : list dstate -> nat := fun _ => 0%nat.
Definition adj (n : N) (l : list act) (toad : option N) : res (option wcue) := adjudicate wdec p0 (wkv n) (runs wenv l) (s2b "c") (s2b "X") toad.
(** both watchers tell of D3, number 3 *)
Definition ahead3 : list act := [by_ "B" (wkv 2) (nota "B" "n2" (st 88 3 0 (dig 3))); by_ "A" (wkv 2) (nota "A" "n1" (st 88 3 0 (dig 3)))] ++ two.
(** "B" tells of another event at number 3 *)
Definition split3 : list act := [by_ "B" (wkv 2) (nota "B" "n2" (st 88 3 0 (s2b "F3"))); by_ "A" (wkv 2) (nota "A" "n1" (st 88 3 0 (dig 3)))] ++ two.

Ltac plainw := split; [vm_compute; intuition discriminate|]; intros kv r cs gs c a o v I S; cbn in I; repeat (destruct I as [I|I]); try (elim I); injection I as <- <- <- <-;
  inversion S as [| |on a' c' o' R1 R2 R3 R4 R5 E1 E2 E3]; subst; try discriminate.
Lemma watch_says : forall b said c a o v, says wenv (watch b said) c (key tagWat [c; a; o]) v -> ~ In 47 (s2b b) -> ~ In 46 (s2b b) ->
  ~ In 46 c /\ ~ In 46 a /\ ~ In 46 o /\ forall z, c = s2b "c" ++ z -> z = [].
Proof.
  intros b said c a o v S NB DB. inversion S as [| |on a' c' o' R1 R2 R3 R4 R5 E1 E2 E3]. vm_compute in R4, R5. injection R4 as <-. injection R5 as <-.
  cbn [q_route watch] in R1. apply app_inv_head in R1. assert (AB : a' = s2b b).
  { clear - R1 NB R2. revert R1 NB R2. generalize (s2b b). intros x. revert a'. induction x as [|q x IH]; intros [|w a'] R1 NB R2.
    - reflexivity.
    - cbn [app] in R1. change (s2b "/add") with (47 :: s2b "add") in R1. injection R1 as <- _. elim R2. left. reflexivity.
    - cbn [app] in R1. destruct on; [change (s2b "/add") with (47 :: s2b "add") in R1 at 2|change (s2b "/cut") with (47 :: s2b "cut") in R1]; injection R1 as -> _; elim NB; left; reflexivity.
    - cbn [app] in R1. injection R1 as -> R1. f_equal. apply IH; [exact R1|intros I; apply NB; right; exact I|intros I; apply R2; right; exact I]. }
  subst a'. cbn [app joinb] in E2.
  assert (E2' : 99 :: 46 :: s2b b ++ 46 :: [88] = 99 :: 46 :: a ++ 46 :: o) by exact E2. injection E2' as E4.
  assert (Z : a = s2b b /\ o = [88]).
  { clear - E4 DB. revert E4 DB. generalize (s2b b). intros x. revert a. induction x as [|q x IH]; intros [|w a] E4 DB; cbn [app] in E4.
    - injection E4 as <-. auto.
    - injection E4 as <- E4. destruct a as [|w a]; [discriminate E4|]. cbn [app] in E4. injection E4 as _ E4. destruct a; discriminate E4.
    - injection E4 as -> _. elim DB. left. reflexivity.
    - injection E4 as -> E4. destruct (IH a E4) as (-> & ->); [intros I; apply DB; right; exact I|]. auto. }
  destruct Z as (-> & ->). split; [vm_compute; intuition discriminate|]. split; [exact DB|]. split; [vm_compute; intuition discriminate|]. intros z Q. change (s2b "c") with [99] in Q. cbn [app] in Q. injection Q as <-. reflexivity.
Qed.
Lemma nota_says : forall src said k c a o v, ~ In 47 (s2b src) -> ~ says wenv (nota src said k) c (key tagWat [c; a; o]) v.
Proof. intros src said k c a o v _ S. inversion S as [| |on a' c' o' R1 R2 R3 R4 R5 E1 E2 E3]. discriminate R4. Qed.
Ltac plainh := split; [vm_compute; intuition discriminate|]; intros kv r cs gs c a o v I S; cbn [In app ahead3 split3 two] in I; repeat (destruct I as [I|I]); try (elim I);
  injection I as <- <- <- <-; first [apply (watch_says _ _ _ _ _ _ S); vm_compute; intuition discriminate|exfalso; revert S; apply nota_says; vm_compute; intuition discriminate].
Lemma plain3 : plain_watchers wenv ahead3 (s2b "c").
Proof. plainh. Qed.
Lemma sent_one : forall l a k, has_sent wenv l a (ks_i k) k -> exists kv r cs gs, In (Msg kv r cs gs) l /\ q_ksr r = Some k.
Proof. intros l a k (r & (kv & cs & gs & I) & _ & Q & _). exists kv, r, cs, gs. auto. Qed.
Ltac whats I Q := cbn [In app ahead3 split3 two] in I; repeat (destruct I as [I|I]); try (elim I); injection I as <- <- <- <-; cbn [q_ksr nota watch] in Q; try discriminate Q; injection Q as <-.
Lemma sound3 : sound_states wdec wenv ahead3.
Proof.
  intros a k H. apply sent_one in H. destruct H as (kv & r & cs & gs & I & Q). assert (K : k = st 88 3 0 (dig 3)) by (whats I Q; reflexivity). split; [rewrite K; reflexivity|].
  intros b k' H' _. apply sent_one in H'. destruct H' as (kv' & r' & cs' & gs' & I' & Q'). assert (K' : k' = st 88 3 0 (dig 3)) by (whats I' Q'; reflexivity). rewrite K, K'. auto.
Qed.
Lemma sound_split : sound_states wdec wenv split3.
Proof.
  assert (X : forall a k, has_sent wenv split3 a (ks_i k) k -> k = st 88 3 0 (dig 3) \/ k = st 88 3 0 (s2b "F3")).
  { intros a k H. apply sent_one in H. destruct H as (kv & r & cs & gs & I & Q). whats I Q; auto. }
  intros a k H. apply X in H. split; [destruct H as [-> | ->]; reflexivity|]. intros b k' H' _. apply X in H'. destruct H as [-> | ->], H' as [-> | ->]; split; reflexivity.
Qed.

(** ** C126: an adjudication reports what the recorded states say *)

Lemma c126_report : forall dec pick kv d cid oid toad o n dg, tidy d cid -> mystate kv oid = Some (n, dg) -> adjudicate dec pick kv d cid oid toad = Ok o ->
  ((exists w l, o = Some (Dup w l)) <->
     (exists a k, forks dec d cid oid n dg a k) \/ (exists a b k k', leads dec d cid oid n a k /\ leads dec d cid oid n b k' /\ ks_d k <> ks_d k')) /\
  ((exists w s l, o = Some (Update w s l)) <-> no_fork dec d cid oid n dg /\ (exists a k, leads dec d cid oid n a k) /\ agreed dec d cid oid n /\ enough dec d cid oid n toad) /\
  (o = None <-> no_fork dec d cid oid n dg /\ (exists a k, leads dec d cid oid n a k) /\ agreed dec d cid oid n /\ ~ enough dec d cid oid n toad) /\
  ((exists w l, o = Some (Lagging w l)) <-> no_fork dec d cid oid n dg /\ no_lead dec d cid oid n /\ exists a k, lags dec d cid oid n a k) /\
  ((exists w l, o = Some (Consistent w l)) <-> forall a k, voice dec d cid oid a k -> ks_s k = n /\ ks_d k = dg).
Proof.
  intros dec pick kv d cid oid toad o n dg T MY Q. destruct (adj_inv _ _ _ _ _ _ _ _ _ _ T MY Q) as (ws & _ & _ & _ & V). clear - V.
  assert (NN : forall a k, forks dec d cid oid n dg a k -> ~ no_fork dec d cid oid n dg) by (intros a k F X; exact (X a k F)).
  assert (LL : forall a k, leads dec d cid oid n a k -> ~ no_lead dec d cid oid n) by (intros a k F X; exact (X a k F)).
  assert (AA : forall a b k k', leads dec d cid oid n a k -> leads dec d cid oid n b k' -> ks_d k <> ks_d k' -> ~ agreed dec d cid oid n) by (intros a b k k' X Y Z G; apply Z; exact (G _ _ _ _ X Y)).
  assert (EE : (forall a k, voice dec d cid oid a k -> ks_s k = n /\ ks_d k = dg) -> no_fork dec d cid oid n dg /\ no_lead dec d cid oid n /\ forall a k, ~ lags dec d cid oid n a k).
  { intros G. split; [|split]; intros a k (X & Y); destruct (G _ _ X) as (G1 & G2); [tauto|lia|lia]. }
  assert (FV : forall a k, forks dec d cid oid n dg a k -> ~ (forall a k, voice dec d cid oid a k -> ks_s k = n /\ ks_d k = dg)) by (intros a k F G; destruct (EE G) as (X & _); exact (X _ _ F)).
  assert (LV : forall a k, leads dec d cid oid n a k -> ~ (forall a k, voice dec d cid oid a k -> ks_s k = n /\ ks_d k = dg)) by (intros a k F G; destruct (EE G) as (_ & X & _); exact (X _ _ F)).
  assert (BV : forall a k, lags dec d cid oid n a k -> ~ (forall a k, voice dec d cid oid a k -> ks_s k = n /\ ks_d k = dg)) by (intros a k F G; destruct (EE G) as (_ & _ & X); exact (X _ _ F)).
  destruct V as [l1 T1 (a0 & k0 & F0)|l1 NF T1 (a0 & b0 & k0 & k0' & L0 & L0' & D0)|l1 sn NF T1 (a0 & k0 & L0 & S0) AG EN|NF (a0 & k0 & L0) AG EN|l1 NF NL T1 (a0 & k0 & B0)|l1 EV T1].
  - split; [split; [intros _; left; eauto|intros _; eauto]|]. split; [split; [intros (w & s & l & X); discriminate X|intros (X & _); elim (NN _ _ F0 X)]|].
    split; [split; [intros X; discriminate X|intros (X & _); elim (NN _ _ F0 X)]|]. split; [split; [intros (w & l & X); discriminate X|intros (X & _); elim (NN _ _ F0 X)]|].
    split; [intros (w & l & X); discriminate X|intros X; elim (FV _ _ F0 X)].
  - split; [split; [intros _; right; eauto 8|intros _; eauto]|]. split; [split; [intros (w & s & l & X); discriminate X|intros (_ & _ & X & _); elim (AA _ _ _ _ L0 L0' D0 X)]|].
    split; [split; [intros X; discriminate X|intros (_ & _ & X & _); elim (AA _ _ _ _ L0 L0' D0 X)]|]. split; [split; [intros (w & l & X); discriminate X|intros (_ & X & _); elim (LL _ _ L0 X)]|].
    split; [intros (w & l & X); discriminate X|intros X; elim (LV _ _ L0 X)].
  - split; [split; [intros (w & l & X); discriminate X|intros [(a & k & X)|(a & b & k & k' & X & Y & Z)]; [elim (NN _ _ X NF)|elim (AA _ _ _ _ X Y Z AG)]]|]. split; [split; [intros _; eauto 8|intros _; eauto]|].
    split; [split; [intros X; discriminate X|intros (_ & _ & _ & X); elim (X EN)]|]. split; [split; [intros (w & l & X); discriminate X|intros (_ & X & _); elim (LL _ _ L0 X)]|].
    split; [intros (w & l & X); discriminate X|intros X; elim (LV _ _ L0 X)].
  - split; [split; [intros (w & l & X); discriminate X|intros [(a & k & X)|(a & b & k & k' & X & Y & Z)]; [elim (NN _ _ X NF)|elim (AA _ _ _ _ X Y Z AG)]]|]. split; [split; [intros (w & s & l & X); discriminate X|intros (_ & _ & _ & X); elim (EN X)]|].
    split; [split; [intros _; eauto 8|intros _; reflexivity]|]. split; [split; [intros (w & l & X); discriminate X|intros (_ & X & _); elim (LL _ _ L0 X)]|].
    split; [intros (w & l & X); discriminate X|intros X; elim (LV _ _ L0 X)].
  - split; [split; [intros (w & l & X); discriminate X|intros [(a & k & X)|(a & b & k & k' & X & Y & Z)]; [elim (NN _ _ X NF)|elim (LL _ _ X NL)]]|]. split; [split; [intros (w & s & l & X); discriminate X|intros (_ & (a & k & X) & _); elim (LL _ _ X NL)]|].
    split; [split; [intros X; discriminate X|intros (_ & (a & k & X) & _); elim (LL _ _ X NL)]|]. split; [split; [intros _; eauto 8|intros _; eauto]|].
    split; [intros (w & l & X); discriminate X|intros X; elim (BV _ _ B0 X)].
  - split; [split; [intros (w & l & X); discriminate X|intros [(a & k & X)|(a & b & k & k' & X & Y & Z)]; [elim (FV _ _ X EV)|elim (LV _ _ X EV)]]|]. split; [split; [intros (w & s & l & X); discriminate X|intros (_ & (a & k & X) & _); elim (LV _ _ X EV)]|].
    split; [split; [intros X; discriminate X|intros (_ & (a & k & X) & _); elim (LV _ _ X EV)]|]. split; [split; [intros (w & l & X); discriminate X|intros (_ & _ & (a & k & X)); elim (BV _ _ X EV)]|].
    split; [intros _; exact EV|intros _; eauto].
Qed.

Lemma c126_members : forall dec pick kv d cid oid toad c n dg, tidy d cid -> mystate kv oid = Some (n, dg) -> adjudicate dec pick kv d cid oid toad = Ok (Some c) ->
  NoDup (wids_of c) /\ (forall a, In a (wids_of c) <-> watches d cid a oid) /\
  match c with
  | Dup _ l => ((exists a k, forks dec d cid oid n dg a k) /\ tells dec d cid oid (forks dec d cid oid n dg) l) \/ (no_fork dec d cid oid n dg /\ tells dec d cid oid (leads dec d cid oid n) l)
  | Update _ s l => tells dec d cid oid (leads dec d cid oid n) l /\ exists a k, leads dec d cid oid n a k /\ s = ks_s k
  | Lagging _ l => tells dec d cid oid (lags dec d cid oid n) l
  | Consistent _ l => tells dec d cid oid (voice dec d cid oid) l
  end.
Proof.
  intros dec pick kv d cid oid toad c n dg T MY Q. destruct (adj_inv _ _ _ _ _ _ _ _ _ _ T MY Q) as (ws & ND & IW & _ & V). clear - V ND IW.
  inversion V; subst; (split; [exact ND|]); (split; [exact IW|]); auto.
Qed.

Lemma c126_returns_partial : forall dec pick e l d kv cid oid toad, hist e l d -> plain_watchers e l cid -> sound_states dec e l ->
  mystate kv oid <> None -> feasible d cid oid toad -> tidy d cid /\ exists o, adjudicate dec pick kv d cid oid toad = Ok o.
Proof. intros. split; [eapply tidy_hist; eassumption|]. eapply adj_hist; eassumption. Qed.



Lemma c126_heights_refuted : exists l, (forall kv r cs gs k, In (Msg kv r cs gs) l -> q_ksr r = Some k -> ks_d k = dig (ks_s k)) /\
  exists w s, adj 2 l None = Ok (Some (Dup w s)) /\ map ds_sn s = [3; 4].
Proof.
  exists ([by_ "B" (wkv 2) (nota "B" "n2" (st 88 4 0 (dig 4))); by_ "A" (wkv 2) (nota "A" "n1" (st 88 3 0 (dig 3)))] ++ two). split; [|eexists; eexists; split; vm_compute; reflexivity].
  intros kv r cs gs k I Q. whats I Q; reflexivity.
Qed.

Lemma c126_fork_behind_refuted : exists w s, adj 4 split3 None = Ok (Some (Lagging w s)) /\ map ds_dig s = [dig 3; s2b "F3"] /\ option_map e_said (at_sn (wkv 4) (s2b "X") 3) = Some (dig 3).
Proof. eexists. eexists. split; [vm_compute; reflexivity|]. split; vm_compute; reflexivity. Qed.

Lemma c126_silent_refuted : forall n, adj n two None = Ok (Some (Consistent [s2b "A"; s2b "B"] [])) /\ adj n [] None = Ok (Some (Consistent [] [])).
Proof.
  intros n. unfold adj, adjudicate. split.
  - assert (W : watchersIn (runs wenv two) (s2b "c") (s2b "X") (map fst (vals (runs wenv two))) = Ok [s2b "A"; s2b "B"]) by (vm_compute; reflexivity). rewrite W. cbn [bind].
    replace (len [s2b "A"; s2b "B"] <? threshold_of None (len [s2b "A"; s2b "B"])) with false by reflexivity.
    assert (MY : mystate (wkv n) (s2b "X") = Some (n, dig n)) by (unfold mystate; cbn [cur_sn wkv at_sn]; replace (beq (s2b "X") (s2b "X")) with true by reflexivity; cbn [andb]; rewrite N.leb_refl; reflexivity).
    rewrite MY. assert (SO : statesOf wdec (runs wenv two) (s2b "X") n (dig n) [s2b "A"; s2b "B"] = Ok []).
    { cbn [statesOf]. replace (dget (ans (runs wenv two)) (key tagKsn [s2b "X"; s2b "A"])) with (@None bytes) by (vm_compute; reflexivity).
      replace (dget (ans (runs wenv two)) (key tagKsn [s2b "X"; s2b "B"])) with (@None bytes) by (vm_compute; reflexivity). reflexivity. }
    rewrite SO. reflexivity.
  - cbn [runs fold_right rdb0 vals map watchersIn bind]. replace (len (@nil bytes) <? threshold_of None (len (@nil bytes))) with false by reflexivity.
    assert (MY : mystate (wkv n) (s2b "X") = Some (n, dig n)) by (unfold mystate; cbn [cur_sn wkv at_sn]; replace (beq (s2b "X") (s2b "X")) with true by reflexivity; cbn [andb]; rewrite N.leb_refl; reflexivity).
    rewrite MY. reflexivity.
Qed.

Lemma c126_few_refuted : exists l, adj 2 l None = Ok None /\ dget (ans (runs wenv l)) (key tagKsn [s2b "X"; s2b "A"]) = Some (dig 3).
Proof. exists ([by_ "A" (wkv 2) (nota "A" "n1" (st 88 3 0 (dig 3)))] ++ two). split; vm_compute; reflexivity. Qed.

(** ** C127: what is reported of a watcher is what it said *)

Lemma c127_said_partial : forall dec e l d cid oid a k, hist e l d -> plain_watchers e l cid -> sound_states dec e l -> voice dec d cid oid a k ->
  has_engaged e l cid a oid /\ ks_i k = oid /\ exists k', has_sent e l a oid k' /\ ks_s k' = ks_s k /\ ks_d k' = ks_d k.
Proof. exact voice_sent. Qed.

Lemma c127_update_partial : forall dec pick e l d kv cid oid toad n dg w s r, hist e l d -> plain_watchers e l cid -> sound_states dec e l ->
  mystate kv oid = Some (n, dg) -> adjudicate dec pick kv d cid oid toad = Ok (Some (Update w s r)) ->
  n < s /\ exists dx W, NoDup W /\ (forall a, In a W -> has_engaged e l cid a oid /\ exists k, has_sent e l a oid k /\ ks_s k = s /\ ks_d k = dx) /\
    match toad with Some (N.pos t) => N.pos t <= len W | _ => forall a, watches d cid a oid -> In a W end.
Proof.
  intros dec pick e l d kv cid oid toad n dg w s r H PW SS MY Q. pose proof (tidy_hist e l d H cid PW) as T. destruct (adj_inv _ _ _ _ _ _ _ _ _ _ T MY Q) as (ws & ND & IW & _ & V).
  inversion V as [| |l1 sn NF T1 (a0 & k0 & L0 & S0) AG EN| | |]; subst. split; [apply L0|]. exists (ks_d k0).
  assert (ALL : forall a, (exists k, leads dec d cid oid n a k) -> has_engaged e l cid a oid /\ exists k, has_sent e l a oid k /\ ks_s k = ks_s k0 /\ ks_d k = ks_d k0).
  { intros a (k & L1). destruct (voice_sent _ _ _ _ _ _ _ _ H PW SS (proj1 L1)) as (E1 & _ & k' & B1 & B2 & B3). destruct (voice_sent _ _ _ _ _ _ _ _ H PW SS (proj1 L0)) as (_ & _ & k0' & C1 & C2 & C3).
    split; [exact E1|]. exists k'. split; [exact B1|]. assert (D : ks_d k' = ks_d k0') by (rewrite B3, C3; exact (AG _ _ _ _ L1 L0)). assert (I1 : ks_i k' = oid) by (destruct B1 as (rr & _ & _ & _ & X & _); exact X).
    assert (I2 : ks_i k0' = oid) by (destruct C1 as (rr & _ & _ & _ & X & _); exact X). rewrite <- I1 in B1. rewrite <- I2 in C1. destruct (SS _ _ B1) as (_ & S1). destruct (S1 _ _ C1 D) as (_ & S2). split; congruence. }
  unfold enough in EN. assert (REST : (forall a, watches d cid a oid -> exists k, leads dec d cid oid n a k) -> exists W, NoDup W /\ (forall a, In a W -> has_engaged e l cid a oid /\ exists k, has_sent e l a oid k /\ ks_s k = ks_s k0 /\ ks_d k = ks_d k0) /\ forall a, watches d cid a oid -> In a W).
  { intros G. exists w. split; [exact ND|]. split; [intros a I; apply ALL, G, IW; exact I|intros a WA; apply IW; exact WA]. }
  destruct toad as [[|t]|]; [exact (REST EN)| |exact (REST EN)]. destruct EN as (W & NW & FW & LE). rewrite Forall_forall in FW. exists W. split; [exact NW|]. split; [intros a I; apply ALL, FW; exact I|exact LE].
Qed.

Lemma c127_duplicity_partial : forall dec pick e l d kv cid oid toad n dg w r, hist e l d -> plain_watchers e l cid -> sound_states dec e l ->
  mystate kv oid = Some (n, dg) -> adjudicate dec pick kv d cid oid toad = Ok (Some (Dup w r)) ->
  (exists a k, has_engaged e l cid a oid /\ has_sent e l a oid k /\ ks_s k = n /\ ks_d k <> dg) \/
  exists a b k k', has_engaged e l cid a oid /\ has_engaged e l cid b oid /\ has_sent e l a oid k /\ has_sent e l b oid k' /\ n < ks_s k /\ n < ks_s k' /\ ks_d k <> ks_d k'.
Proof.
  intros dec pick e l d kv cid oid toad n dg w r H PW SS MY Q. pose proof (tidy_hist e l d H cid PW) as T. destruct (adj_inv _ _ _ _ _ _ _ _ _ _ T MY Q) as (ws & _ & _ & _ & V). clear Q.
  inversion V as [l1 T1 (a0 & k0 & F0)|l1 NF T1 (a0 & b0 & k0 & k0' & L0 & L0' & D0)| | | |]; subst.
  - left. destruct F0 as (F0 & F1 & F2). destruct (voice_sent _ _ _ _ _ _ _ _ H PW SS F0) as (E1 & _ & k' & B1 & B2 & B3). exists a0, k'. split; [exact E1|]. split; [exact B1|]. split; congruence.
  - right. destruct L0 as (F0 & F1), L0' as (G0 & G1). destruct (voice_sent _ _ _ _ _ _ _ _ H PW SS F0) as (E1 & _ & k & B1 & B2 & B3). destruct (voice_sent _ _ _ _ _ _ _ _ H PW SS G0) as (E2 & _ & k' & C1 & C2 & C3).
    exists a0, b0, k, k'. do 4 (split; [assumption|]). split; [lia|]. split; [lia|congruence].
Qed.



Lemma c127_shared_refuted : exists k1 k2, ~ In (s2b "Z") (wats wenv) /\
  let l1 := by_ "Z" (wkv 3) (nota "Z" "z1" k1) :: ahead3 in let l2 := by_ "Z" (wkv 3) (nota "Z" "z2" k2) :: ahead3 in
  ~ watches (runs wenv l1) (s2b "c") (s2b "Z") (s2b "X") /\
  (exists w s, adj 3 ahead3 None = Ok (Some (Consistent w s))) /\
  (exists w r, adj 3 l1 None = Ok (Some (Update w 9 r)) /\ map ds_wit r = [s2b "A"; s2b "B"] /\
     forall k, ks_s k = 9 -> ~ has_sent wenv l1 (s2b "A") (s2b "X") k /\ ~ has_sent wenv l1 (s2b "B") (s2b "X") k) /\
  adj 3 l2 None = Err ValueError.
Proof.
  exists (st 88 9 90 (dig 3)), (st 90 0 90 (dig 3)). split; [vm_compute; intuition discriminate|]. cbv zeta.
  split; [vm_compute; discriminate|]. split; [eexists; eexists; vm_compute; reflexivity|]. split; [|vm_compute; reflexivity].
  eexists. eexists. split; [vm_compute; reflexivity|]. split; [vm_compute; reflexivity|].
  intros k K. split; intros (r & (kv & cs & gs & I) & _ & Q & _ & R & _); cbn [In app ahead3 two] in I; repeat (destruct I as [I|I]); try (elim I); injection I as <- <- <- <-; cbn [q_ksr nota watch] in Q; try discriminate Q; injection Q as <-;
    first [vm_compute in K; discriminate K|vm_compute in R; discriminate R].
Qed.

Lemma c127_late_fork_refuted : forall e kv r cs gs d d' x q ev dec pick cid toad oid kv',
  processReply e kv r cs gs d = (d', x) -> q_ksr r = Some q -> (exists a, findRoute (q_route r) = Some (HKsn a)) ->
  at_sn kv (ks_i q) (ks_s q) = Some ev -> ks_d q <> e_said ev ->
  x <> Ok tt /\ adjudicate dec pick kv' d' cid oid toad = adjudicate dec pick kv' d cid oid toad.
Proof.
  intros e kv r cs gs d d' x q ev dec pick cid toad oid kv' H Q (a & R) AT NE.
  assert (KEY : x <> Ok tt /\ ans d' = ans d /\ vals d' = vals d).
  { unfold processReply in H. destruct (saidOk e r); cbn [negb] in H; [|injection H as <- <-; split; [discriminate|auto]]. rewrite R in H. unfold handleKsn in H.
    destruct (startswith (s2b "/ksn") (q_route r)); cbn [negb] in H; [|injection H as <- <-; split; [discriminate|auto]]. rewrite Q in H.
    destruct (negb (lax e) && _ && _ && _); [injection H as <- <-; split; [discriminate|auto]|]. destruct (match cur_sn kv (ks_i q) with Some n => ks_s q <? n | None => false end); [injection H as <- <-; split; [discriminate|auto]|].
    unfold bindM, rd in H. cbv beta iota in H. destruct (acceptReply e kv r (q_route r) a (dget (ans d) (key tagKsn [ks_i q; a])) cs gs d) as [d1 [b|y]] eqn:AC; cbv beta iota in H.
    - destruct (accept_keeps _ _ _ _ _ _ _ _ _ _ _ AC) as (K1 & K2). destruct b; cbn [negb] in H; [|injection H as <- <-; split; [discriminate|auto]]. rewrite AT in H.
      replace (negb (beq (e_said ev) (ks_d q))) with true in H by (symmetry; apply negb_true_iff, beq_neq; congruence). injection H as <- <-. split; [discriminate|auto].
    - destruct (accept_keeps _ _ _ _ _ _ _ _ _ _ _ AC) as (K1 & K2). injection H as <- <-. split; [discriminate|auto]. }
  destruct KEY as (K0 & K1 & K2). split; [exact K0|].
  assert (WI : forall ks, watchersIn d' cid oid ks = watchersIn d cid oid ks).
  { induction ks as [|k0 ks IH]; cbn [watchersIn]; [reflexivity|]. rewrite IH, K2. reflexivity. }
  assert (SO : forall n dg ws, statesOf dec d' oid n dg ws = statesOf dec d oid n dg ws).
  { intros n dg ws. induction ws as [|w ws IH]; cbn [statesOf]; [reflexivity|]. rewrite IH, K1, K2. reflexivity. }
  unfold adjudicate. rewrite WI, K2. destruct (watchersIn d cid oid (map fst (vals d))) as [ws|y]; [|reflexivity]. cbn [bind]. destruct (len ws <? threshold_of toad (len ws)); [reflexivity|].
  destruct (mystate kv' oid) as [[n dg]|]; [|reflexivity]. rewrite SO. reflexivity.
Qed.


(** ** C128: every request gets its report *)

Lemma c128_all_partial : forall dec pick kv d cid reqs outs,
  Forall2 (fun rq o => adjudicate dec pick kv d cid (fst rq) (snd rq) = Ok o) reqs outs ->
  perform dec pick kv d cid reqs = (flat_map (fun o => match o with Some c => [c] | None => [] end) outs, None, []).
Proof.
  intros dec pick kv d cid reqs outs F. induction F as [|[w t] o reqs outs Q F IH]; cbn [perform flat_map]; [reflexivity|]. cbn [fst snd] in Q. rewrite Q, IH. destruct o; reflexivity.
Qed.

Lemma c128_drained_partial : forall dec pick e l d kv cid reqs, hist e l d -> plain_watchers e l cid -> sound_states dec e l ->
  Forall (fun rq => mystate kv (fst rq) <> None /\ feasible d cid (fst rq) (snd rq)) reqs ->
  exists outs, Forall2 (fun rq o => adjudicate dec pick kv d cid (fst rq) (snd rq) = Ok o) reqs outs /\
    perform dec pick kv d cid reqs = (flat_map (fun o => match o with Some c => [c] | None => [] end) outs, None, []).
Proof.
  intros dec pick e l d kv cid reqs H PW SS F. assert (X : exists outs, Forall2 (fun rq o => adjudicate dec pick kv d cid (fst rq) (snd rq) = Ok o) reqs outs).
  { induction F as [|rq reqs (F1 & F2) F IH]; [exists []; constructor|]. destruct IH as (outs & O1). destruct (adj_hist dec pick e l d kv cid (fst rq) (snd rq) H PW SS F1 F2) as (o & O2). exists (o :: outs). constructor; assumption. }
  destruct X as (outs & O1). exists outs. split; [exact O1|]. apply c128_all_partial. exact O1.
Qed.


Lemma c128_stop_refuted : exists c, adj 2 ahead3 None = Ok (Some c) /\
  perform wdec p0 (wkv 2) (runs wenv ahead3) (s2b "c") [(s2b "Y", None); (s2b "X", None)] = ([], Some KeyError, [(s2b "X", None)]) /\
  perform wdec p0 (wkv 2) (runs wenv ahead3) (s2b "c") [(s2b "X", Some 5); (s2b "X", None)] = ([], Some ValueError, [(s2b "X", None)]) /\
  forall dec pick kv d cid w t x reqs, adjudicate dec pick kv d cid w t = Err x -> perform dec pick kv d cid ((w, t) :: reqs) = ([], Some x, reqs).
Proof. eexists. split; [vm_compute; reflexivity|]. split; [vm_compute; reflexivity|]. split; [vm_compute; reflexivity|]. intros dec pick kv d cid w t x reqs Q. cbn [perform]. rewrite Q. reflexivity. Qed.
