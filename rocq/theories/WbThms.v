(** Properties of the browser back end of the database. *)
From Coq Require Import Lia.
From Verif Require Import Prelude Lex SubsModel SubsProofs DbModel DbSpec DbProofs DbRef DbOn DbOn2 DbThms WbModel WbSpec WbProofs WbProofs2 WbProofs3 WbProofs4.
Ltac Zify.zify_post_hook ::= Z.div_mod_to_equations.
Open Scope N_scope.

(** keys for the examples *)
Definition kAx : bytes := s2b "a".
Definition kBx : bytes := s2b "b".
Definition Kx (k : bytes) : Prop := k = kAx \/ k = kBx.
Lemma flatx : flat 46 Kx.
Proof.
  split; [intros [Z|Z]; discriminate|]. intros k k' t [-> | ->] [-> | ->] E; discriminate.
Qed.

Lemma c104_single : forall st k v top, stored st -> k <> [] ->
  agrees (wputVal k v st) (Ok (putVal k v st)) st /\ agrees (wsetVal k v st) (Ok (setVal k v st)) st /\
  agrees (wremVal k st) (Ok (remVal k st)) st /\ agrees (wremTop top st) (Ok (remTop top st)) st /\
  (exists o, wgetVal k st = Ok o /\ getVal k st = match o with Some x => AVal x | None => ANone end) /\
  wgetTop top st = getTop top st /\ wcntTop top st = cntTop top st /\ wcntAll st = len st.
Proof.
  intros st k v top H NE. apply stored_sorted in H. split; [|split; [|split; [|split; [|split; [|split; [|split]]]]]].
  - rewrite wput_eq by assumption. unfold putVal. rewrite (proj2 (isnil_false _ k) NE). destruct (put false k v st) as [s b] eqn:P.
    pose proof (put_false_same k v st) as PS. rewrite P in PS. cbn [fst snd] in *. cbn. auto.
  - rewrite wset_eq by assumption. destruct (setVal k v st). cbn. auto.
  - rewrite wrem_eq. destruct (remVal k st). cbn. auto.
  - apply remTop_agrees. exact H.
  - apply wget_eq. exact NE.
  - apply wtop_eq. exact H.
  - apply wcnt_eq. exact H.
  - reflexivity.
Qed.
Example single_ex : exists st st', stored st /\ wputVal kBx [7] st = (st', true, Ok true) /\ putVal kBx [7] st = (st', true) /\ len st' = 2 /\ wputVal kAx [7] st = (st, false, Ok false).
Proof.
  exists (fst (put false kAx [1] [])). eexists. split; [eapply stored_put; [constructor|apply surjective_pairing]|]. split; [vm_compute; reflexivity|]. split; [vm_compute; reflexivity|]. split; reflexivity.
Qed.

Lemma c104_sets_partial : forall sep K ops, goodsep sep -> flat sep K -> Forall (fun o => K (sop_key o)) ops -> total ops <= MaxON ->
  exists st bs, do_sops sep ops [] = Ok (st, bs) /\ whist (wdo_sop sep) [] ops st bs /\
    forall k ion top, wgetIoSet sep k ion st = getIoSet sep k ion st /\ wgetIoSetLast sep k st = getIoSetLast sep k st /\
      wcntIoSet sep k ion st = cntIoSet sep k ion st /\ wgetTopIoSet sep top st = getTopIoSet sep top st /\
      wgetIoSetLastAll sep k st = getIoSetLastAll sep k st.
Proof.
  intros sep K ops GS FL F SZ. destruct (sops_agree sep K GS FL ops [] sets0 0 (inv0 sep K) F SZ) as (st & bs & t & B & D & W & I). exists st, bs.
  split; [exact D|]. split; [exact W|]. intros k ion top. pose proof (proj1 I) as WF.
  destruct (sreads sep K st k ion WF) as (R1 & R2 & R3). destruct (wreadsDb sep st top (proj1 WF)) as (_ & _ & _ & R4 & _).
  split; [exact R1|]. split; [exact R2|]. split; [exact R3|]. split; [exact R4|]. apply wlastDb_eq. apply WF.
Qed.
Example sets_ex : let ops := [SPut kAx [[1]; [2]; [1]]; SAdd kBx [7]; SRemVal kAx [1]; SAdd kAx [1]; SPin kBx [[9]; [8]]] in
  Forall (fun o => Kx (sop_key o)) ops /\ total ops <= MaxON /\
  exists st, do_sops 46 ops [] = Ok (st, [true; true; true; true; true]) /\ wgetIoSet 46 kAx 0 st = Ok [[2]; [1]] /\ wgetIoSetLastAll 46 [] st = Ok [(kAx, [1]); (kBx, [8])].
Proof.
  cbv zeta. split; [unfold Kx; repeat (constructor; [cbn; auto|]); constructor|]. split; [vm_compute; discriminate|]. eexists. split; [vm_compute; reflexivity|]. split; vm_compute; reflexivity.
Qed.

Lemma c104_ordinals_partial : forall sep K ops, goodsep sep -> flat sep K -> Forall (fun o => K (oop_key o) /\ oop_on o <= MaxON) ops ->
  let st := fst (do_oops sep ops []) in
  whist (wdo_oop sep) [] ops st (snd (do_oops sep ops [])) /\
  (forall k n, k <> [] -> wgetOnVal sep k n st = Ok (getOnVal sep k n st) /\ wgetOnAll sep k n st = getOnAll sep k n st /\ wcntOnAll sep k n st = cntOnAll sep k n st) /\
  (forall top, wgetOnTop sep top st = getOnTop sep top st) /\ wgetOnDb sep st = getOnDb sep st /\ wcntOnAll sep [] 0 st = cntOnDb sep st.
Proof.
  intros sep K ops GS FL F st. destruct (oops_agree sep K GS FL ops [] tabs0 (oinv0 sep K) F) as [W (t & I)]. fold st in W, I. pose proof (proj1 (proj1 I)) as S.
  split; [exact W|]. split; [intros k n NE; apply wreads; assumption|]. destruct (wreadsDb sep st [] S) as (_ & R2 & R3 & _).
  split; [intros top; apply (wreadsDb sep st top S)|]. split; assumption.
Qed.
Example ordinals_ex : let ops := [OApp kAx [1]; OPut kAx 7 [2]; OApp kBx [5]; OApp kAx [3]; ORem kAx 7; OPin kAx 0 [4]] in
  Forall (fun o => Kx (oop_key o) /\ oop_on o <= MaxON) ops /\
  snd (do_oops 46 ops []) = [OutN 0; OutB true; OutN 0; OutN 8; OutB true; OutB true] /\ wgetOnAll 46 kAx 0 (fst (do_oops 46 ops [])) = Ok [(0, [4]); (8, [3])].
Proof.
  cbv zeta. split; [unfold Kx; repeat (constructor; [split; [cbn; auto|vm_compute; discriminate]|]); constructor|]. split; vm_compute; reflexivity.
Qed.

Lemma c104_nsets_partial : forall sep K L ops, goodsep sep -> flat sep K -> Forall (nop_ok K L) ops -> L + len ops <= MaxON -> ntotal ops <= MaxON ->
  exists st rs, lhist (do_nop sep) [] ops st rs /\ whist (wdo_nop sep) [] ops st rs /\
    (forall k on, k <> [] -> wcntOnAllIoSet sep k on st = cntOnAllIoSet sep k on st /\ wgetOnAllIoSet sep k on st = getOnAllIoSet sep k on st /\
       wgetOnAllIoSetLast sep k on st = getOnAllIoSetLast sep k on st) /\
    (forall k on, wgetOnIoSet sep k on st = getOnIoSet sep k on st /\ wgetOnIoSetLast sep k on st = getOnIoSetLast sep k on st /\ wcntOnIoSet sep k on st = cntOnIoSet sep k on st) /\
    (forall top, wgetOnTopIoSet sep top st = getOnTopIoSet sep top st) /\
    wgetOnDbIoSetLast sep st = getOnDbIoSetLast sep st /\ wgetOnDbIoSetBack sep st = getOnDbIoSetBack sep st /\ wgetOnDbIoSetLastBack sep st = getOnDbIoSetLastBack sep st /\
    (forall k on, K k -> on <= MaxON ->
       (exists r, wgetOnAllIoSetBack sep k on st = Ok r /\ (getOnAllIoSetBack sep k on st = Ok r \/ (getOnAllIoSetBack sep k on st = Err ValueError /\ r = []))) /\
       (exists r, wgetOnAllIoSetLastBack sep k on st = Ok r /\ (getOnAllIoSetLastBack sep k on st = Ok r \/ (getOnAllIoSetLastBack sep k on st = Err ValueError /\ r = [])))).
Proof.
  intros sep K L ops GS FL F LM SZ. assert (U : used sep [] L) by (intros k; constructor).
  destruct (nops_agree sep K GS FL ops [] sets0 0 L L (inv0 sep (K2 sep K)) U F (N.le_refl _) LM SZ) as (st & rs & t & B & LH & WH & I). exists st, rs.
  split; [exact LH|]. split; [exact WH|]. pose proof (proj1 I) as W. pose proof (proj1 W) as S.
  split; [intros k on NE; apply n_reads; assumption|]. split; [intros k on; apply (sreads sep (K2 sep K)); exact W|].
  split; [intros top; apply (wreadsDb sep st top S)|]. split; [|split; [apply wback_db|split; [apply wlastback_db|]]].
  - unfold wgetOnDbIoSetLast, getOnDbIoSetLast. rewrite wlastDb_eq by exact S. reflexivity.
  - intros k on KK LE. pose proof (small_le _ LE) as SM. split; [apply (back_agrees sep K GS FL); assumption|apply (lastback_agrees sep K GS FL); assumption].
Qed.
Example nsets_ex : let ops := [NSet kAx 0 (SAdd [] [1]); NApp kAx [[3]; [4]]; NSet kBx 2 (SPut [] [[5]; [6]]); NRemAll kBx 2] in
  Forall (nop_ok Kx 3) ops /\ 3 + len ops <= MaxON /\ ntotal ops <= MaxON /\
  exists st, lhist (do_nop 46) [] ops st [inl true; inr 1; inl true; inl true] /\ wgetOnAllIoSetBack 46 kAx MaxON st = Ok [(1, [4]); (1, [3]); (0, [1])].
Proof.
  cbv zeta. split.
  { unfold Kx. constructor; [split; [cbn; auto|reflexivity]|]. constructor; [split; [cbn; auto|split; [discriminate|]]|].
    - constructor; [intros [Z|[]]; discriminate Z|]. constructor; [intros []|constructor].
    - constructor; [split; [cbn; auto|reflexivity]|]. constructor; [split; [cbn; auto|vm_compute; discriminate]|constructor]. }
   split; [vm_compute; discriminate|]. split; [vm_compute; discriminate|].
  eexists. split; [repeat (econstructor; [vm_compute; reflexivity|]); constructor|vm_compute; reflexivity].
Qed.

Lemma c104_empty_key_refuted : exists v st st', putVal [] v st = (st, false) /\ wputVal [] v st = (st, false, Err KeyError) /\
  setVal [] v st = (st, false) /\ wsetVal [] v st = (st, false, Err KeyError) /\ getVal [] st = AFalse /\ wgetVal [] st = Err KeyError /\
  putOnVal 46 [] 0 v st = (st, false) /\ wputOnVal 46 [] 0 v st = (st', true, Ok true) /\ st' <> st.
Proof. exists [1], []. eexists. split; [reflexivity|]. split; [reflexivity|]. split; [reflexivity|]. split; [reflexivity|]. split; [reflexivity|]. split; [reflexivity|]. split; [reflexivity|]. split; [vm_compute; reflexivity|]. discriminate. Qed.

Lemma c104_empty_value_refuted : exists st, putOnVal 46 kAx 0 [] [] = (st, true) /\ wputOnVal 46 kAx 0 [] [] = (st, true, Ok true) /\
  getOnItem 46 kAx 0 st = None /\ wgetOnItem 46 kAx 0 st = Ok (Some (kAx, 0, [])).
Proof. eexists. split; [vm_compute; reflexivity|]. split; [vm_compute; reflexivity|]. split; vm_compute; reflexivity. Qed.

Lemma c104_backwards_refuted : exists st, addOnIoSetVal 46 kBx 0 [1] [] = Ok (st, true) /\ waddOnIoSetVal 46 kBx 0 [1] [] = (st, true, Ok true) /\
  getOnAllIoSetBack 46 kAx MaxON st = Err ValueError /\ wgetOnAllIoSetBack 46 kAx MaxON st = Ok [] /\
  getOnAllIoSetLastBack 46 kAx MaxON [] = Err ValueError /\ wgetOnAllIoSetLastBack 46 kAx MaxON [] = Ok [].
Proof. eexists. split; [vm_compute; reflexivity|]. split; [vm_compute; reflexivity|]. split; [vm_compute; reflexivity|]. split; [vm_compute; reflexivity|]. split; vm_compute; reflexivity. Qed.

Lemma c104_extended_key_refuted : exists k k' st st', do_sops 46 [SPut k [[1]; [2]]; SPut k' [[9]]; SPut k [[3]]] [] = Ok (st, [true; true; false]) /\
  whist (wdo_sop 46) [] [SPut k [[1]; [2]]; SPut k' [[9]]; SPut k [[3]]] st' [true; true; true] /\
  get (suffix 46 k 1) st = Some [2] /\ get (suffix 46 k 1) st' = Some [3] /\ ~ In [2] (map snd st').
Proof.
  exists kAx, (onKey 46 kAx 0). eexists. eexists. split; [vm_compute; reflexivity|]. split; [repeat (econstructor; [vm_compute; reflexivity|]); constructor|].
  split; [vm_compute; reflexivity|]. split; [vm_compute; reflexivity|]. cbn [map snd]. intros [Z|[Z|[Z|[]]]]; discriminate Z.
Qed.

Lemma c105_flush_partial : forall n es, Forall evOk es -> exists s s', wrun (repeat blank n) es = Ok s /\ wrun s [WFlush n; WRestart] = Ok s' /\
  map c_items s' = map c_items s /\ map c_dup s' = map c_dup s.
Proof.
  intros n es F. assert (F0 : Forall sane (repeat blank n)) by (apply Forall_forall; intros c IN; apply repeat_spec in IN; subst; exact sane_blank).
  destruct (run_sane es _ F F0) as (s & R & FS). exists s. pose proof (run_len _ _ _ R) as LN. rewrite repeat_length in LN.
  destruct (flush_reopen s FS) as (s' & R' & E1 & E2). rewrite LN in R'. exists s'. split; [exact R|]. split; [|auto].
  cbn [wrun wstep bind]. rewrite R'. reflexivity.
Qed.

(** two stores with some history: the second is never flushed, and the first is changed again after
    the flush *)
Definition esx : list wevent :=
  [WOpenDb 0 false; WOpenDb 1 true; WCall 0 (MS (SPut kAx [[1]; [200]])); WCall 1 (MO (OApp kBx [5])); WFlush 1; WCall 0 (MS (SRemVal kAx [1])); WRestart;
   WCall 0 (MS (SAdd kAx [3])); WOpenDb 1 true; WCall 1 (MPut kBx [255; 0])].
Example flush_ex : Forall evOk esx /\ exists s s', wrun (repeat blank 2) esx = Ok s /\ wrun s [WFlush 2; WRestart] = Ok s' /\
  map (fun c => map snd (c_items c)) s' = [[[1]; [200]; [3]]; [[255; 0]]] /\ map c_dup s' = [false; true].
Proof.
  split; [unfold esx, kAx, kBx; repeat constructor|]. eexists. eexists. split; [vm_compute; reflexivity|]. split; [vm_compute; reflexivity|]. split; vm_compute; reflexivity.
Qed.

Lemma c105_crash_partial : forall n es m es' s s1 s2, Forall evOk es -> wrun (repeat blank n) es = Ok s -> Forall noFlush es' ->
  wrun s (WFlush m :: es') = Ok s1 -> reopen false s1 = Ok s2 ->
  exists s0, reopen false s = Ok s0 /\
    forall i, nth_error (map c_items s2) i = if Nat.ltb i m then nth_error (map c_items s) i else nth_error (map c_items s0) i.
Proof.
  intros n es m es' s s1 s2 F R N R1 R2. assert (F0 : Forall sane (repeat blank n)) by (apply Forall_forall; intros c IN; apply repeat_spec in IN; subst; exact sane_blank).
  destruct (run_sane es _ F F0) as (s3 & R3 & FS). rewrite R in R3. apply ok_inj in R3. subst s3.
  cbn [wrun wstep bind] in R1. pose proof (run_disk _ _ _ N R1) as D. rewrite (reopen_same _ _ D) in R2.
  destruct (flush_part m s FS) as (s0 & s4 & Q0 & Q1 & E). exists s0. split; [exact Q0|]. rewrite Q1 in R2. apply ok_inj in R2. subst s4. exact E.
Qed.
Example crash_ex : exists s s1 s2, wrun (repeat blank 2) esx = Ok s /\ wrun s [WFlush 1; WCall 0 (MRem kAx); WCall 1 (MPut kAx [1])] = Ok s1 /\ reopen false s1 = Ok s2 /\
  map (fun c => map snd (c_items c)) s2 = [[[1]; [200]; [3]]; []].
Proof. eexists. eexists. eexists. split; [vm_compute; reflexivity|]. split; [vm_compute; reflexivity|]. split; vm_compute; reflexivity. Qed.

Lemma c105_append_refuted : exists s s1 s2, wrun [blank] [WOpenDb 0 false; WFlush 1; WCall 0 (MN (NApp kAx [[1]; [2]]))] = Ok s /\
  map (fun c => map snd (c_items c)) s = [[[1]; [2]]] /\ wrun s [WFlush 1] = Ok s1 /\ wrun s1 [WRestart] = Ok s2 /\ map c_items s2 = [[]].
Proof. eexists. eexists. eexists. split; [vm_compute; reflexivity|]. split; [vm_compute; reflexivity|]. split; [vm_compute; reflexivity|]. split; vm_compute; reflexivity. Qed.

Lemma c105_removal_refuted : exists s s1 s2, wrun [blank] [WOpenDb 0 false; WCall 0 (MN (NSet kAx 0 (SAdd [] [1]))); WFlush 1; WCall 0 (MN (NRemAll kAx 0))] = Ok s /\
  map c_items s = [[]] /\ wrun s [WFlush 1] = Ok s1 /\ wrun s1 [WRestart] = Ok s2 /\ map (fun c => map snd (c_items c)) s2 = [[[1]]].
Proof. eexists. eexists. eexists. split; [vm_compute; reflexivity|]. split; [vm_compute; reflexivity|]. split; [vm_compute; reflexivity|]. split; vm_compute; reflexivity. Qed.

Lemma c105_clear_refuted : exists s s2, wrun [blank] [WOpenDb 0 false; WCall 0 (MPut kAx [1]); WFlush 1] = Ok s /\
  map c_items (close true s) = [[]] /\ reopen false (close true s) = Ok s2 /\ map c_items s2 = [[(kAx, [1])]].
Proof. eexists. eexists. split; [vm_compute; reflexivity|]. split; [vm_compute; reflexivity|]. split; vm_compute; reflexivity. Qed.

Lemma c105_atomic_refuted : exists s s1 s2, wrun (repeat blank 2) [WOpenDb 0 false; WOpenDb 1 false; WFlush 2; WCall 1 (MPut kAx [1]); WCall 0 (MPut kAx [1])] = Ok s /\
  wrun s [WFlush 1] = Ok s1 /\ reopen false s1 = Ok s2 /\ map c_items s2 = [[(kAx, [1])]; []].
Proof. eexists. eexists. eexists. split; [vm_compute; reflexivity|]. split; [vm_compute; reflexivity|]. split; vm_compute; reflexivity. Qed.
