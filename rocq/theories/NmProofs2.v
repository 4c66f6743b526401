(** Reading a serialized field map gives it back. *)
From Verif Require Import Prelude B64Model B64Proofs MatterModel MatterProofs MatterInv MatterSpec MatterThms SubsModel SubsProofs SubsThms CtrModel CtrProofs CtrThms ThModel ThProofs JsonModel JsonProofs SerProofs NmModel NmSpec NmProofs.
Open Scope N_scope.
Notation val := JsonModel.val.
Ltac Zify.zify_post_hook ::= Z.div_mod_to_equations.

Lemma plainTextB_ok : forall s, plainTextB s = true -> plainText s.
Proof.
  intros s H. unfold plainTextB in H. apply andb_true_iff in H. destruct H as [U H]. split; [exact U|]. intros (p & q & X & I & L).
  rewrite X, I in H. rewrite L, N.eqb_refl in H. exact H.
Qed.
Lemma nodupL_ok : forall l, nodupL l = true -> NoDup l.
Proof.
  induction l as [|x l IH]; intros H; [constructor|]. cbn in H. apply andb_true_iff in H. destruct H as [A B]. constructor; [|exact (IH B)].
  intros I. apply negb_true_iff in A. assert (E : existsb (beq x) l = true) by (apply existsb_exists; exists x; split; [exact I|apply beq_refl]). congruence.
Qed.
Lemma plainB_ok : forall v, plainB v = true -> plain v.
Proof.
  induction v as [| | z | s | l IH | m IH] using val_ind'; cbn [plainB plain]; intros H; auto.
  - exact (plainTextB_ok _ H).
  - induction IH as [|x l Hx F IHl]; cbn [fold_right forallb] in *; [exact Logic.I|]. apply andb_true_iff in H. destruct H as [A B]. split; [exact (Hx A)|exact (IHl B)].
  - apply andb_true_iff in H. destruct H as [A B]. split; [exact (nodupL_ok _ A)|]. clear A. induction IH as [|x m Hx F IHm]; cbn [fold_right forallb] in *; [exact Logic.I|].
    apply andb_true_iff in B. destruct B as [A B]. apply andb_true_iff in A. destruct A as [U A]. auto.
Qed.

(** ** Groups *)
Lemma memB_true : forall x l, In x l -> memB x l = true.
Proof. intros x l H. apply memB_In. exact H. Qed.
Lemma enclose_head : forall (name bdy q : bytes), name = s2b "GenericListGroup" \/ name = s2b "GenericMapGroup" -> enclose V20 name bdy = Ok q ->
  len bdy mod 4 = 0 /\ exists (h : bytes) (c : counter) (r : bytes), q = h ++ bdy /\ b64text h /\ len h mod 4 = 0 /\ h = 45 :: r /\ byteCount_txt c = len bdy /\
  (forall t, cexfil V20 (q ++ t) = Ok c) /\ (exists sz, CtrModel.csize c = Ok sz /\ cfs sz = len h) /\
  (forall t, counter_strip V20 (q ++ t) = Ok (c, bdy ++ t)) /\
  (if beq name (s2b "GenericListGroup") then isList (c_name c) else isMapName (c_name c)) = true /\ (isList (c_name c) = true -> isMapName (c_name c) = false) /\ (isMapName (c_name c) = true -> isList (c_name c) = false)
  /\ counter_of V20 name (len bdy / 4) = Ok c /\ cinfil c = Ok h.
Proof.
  intros name bdy q Hn H. unfold enclose in H. apply raise_if_ok in H. destruct H as [H4 H]. apply bind_ok in H. destruct H as (c & Hc & H).
  apply raise_if_ok in H. destruct H as [_ H]. apply bind_ok in H. destruct H as (h & Hh & H). apply ok_inj in H. subst q. split; [lia|].
  destruct (counter_of_ok _ _ _ _ Hc) as (Hv & Hk & codes & sizes & sz & K & hard & hsz & L1 & L2 & L3).
  pose proof (cinfil_ok _ _ _ _ K) as Ci. rewrite Hh in Ci. apply ok_inj in Ci.
  destruct (c39_text_round_trip _ _ _ _ Hc) as (_ & _ & q' & Q1 & Q2 & Q3 & Q4). rewrite Hh in Q1. apply ok_inj in Q1. subst q'.
  assert (NM : exists b : bool, (c_code c = [45; if b then 74 else 73] \/ c_code c = [45; 45; if b then 74 else 73]) /\ beq name (s2b "GenericListGroup") = b).
  { pose proof (co_tab _ _ _ _ K) as T. rewrite Hv in T. apply ok_inj in T. injection T as <- <-.
    destruct Hn as [-> | ->]; [exists true|exists false]; (split; [|reflexivity]).
    all: vm_compute in L1; apply ok_inj in L1; injection L1 as <- _; destruct L3 as [L3|(_ & _ & L3 & _)]; rewrite L3; [left|right]; reflexivity. }
  destruct NM as (b & NM & EB).
  assert (NN : c_name c = if b then (if len (c_code c) =? 2 then s2b "GenericListGroup" else s2b "BigGenericListGroup") else (if len (c_code c) =? 2 then s2b "GenericMapGroup" else s2b "BigGenericMapGroup")).
  { pose proof (co_tab _ _ _ _ K) as T. rewrite Hv in T. apply ok_inj in T. injection T as <- <-. pose proof (co_name _ _ _ _ K) as Nm.
    destruct b, NM as [NM|NM]; rewrite NM in Nm |- *; apply ok_inj; rewrite <- Nm; vm_compute; reflexivity. }
  assert (FS : exists r, h = 45 :: r) by (rewrite Ci; unfold cboth; destruct NM as [-> | ->]; eexists; reflexivity).
  destruct FS as (r & FS). exists h, c, r.
  split; [reflexivity|]. split; [exact Q2|]. split; [exact Q3|]. split; [exact FS|].
  split; [unfold byteCount_txt; rewrite Hk; lia|].
  split; [intros t; rewrite <- app_assoc; rewrite Ci, <- Hv; exact (cexfil_ok _ _ _ _ _ K)|].
  split; [exists sz; split; [exact (csize_ok _ _ _ _ K)|rewrite Ci; symmetry; exact (cboth_len _ _ _ _ K)]|].
  split; [intros t; rewrite <- app_assoc; apply Q4|].
  split; [|split; [|split; [|split; [exact Hc|exact Hh]]]]; rewrite ?EB, NN; destruct b; destruct (len (c_code c) =? 2); vm_compute; try reflexivity; discriminate.
Qed.

(** ** Values *)
Section Strict.
Variable strict : bool.
(** the bytes are read as the value, in front of anything *)
Record framed (q : bytes) (v : val) : Prop := {
  fr_text : b64text q; fr_four : len q mod 4 = 0; fr_ne : (1 <= List.length q)%nat;
  fr_read : forall n t, (2 * List.length q <= n)%nat -> deserialize n strict (q ++ t) = Ok (v, t) }.
Lemma des_prim : forall n x s, x <> 45 -> deserialize (S n) strict (x :: s) =
  ('(m, r) <- matter_strip (x :: s) ;;
   if beq (m_code m) Escape then '(p, r') <- matter_strip r ;; q <- infil p ;; Ok (VStr q, r')
   else v <- primValue m ;; Ok (v, r)).
Proof. intros n x s H. cbn [deserialize]. destruct (N.eqb_spec x 45); [congruence|]. reflexivity. Qed.
Lemma framed_prim : forall m q v, prim m q -> beq (m_code m) Escape = false -> primValue m = Ok v -> framed q v.
Proof.
  intros m q v P E V. destruct (pr_first _ _ P) as (x & r & Q & X). constructor.
  - exact (pr_text _ _ P).
  - exact (pr_four _ _ P).
  - rewrite Q. cbn. lia.
  - intros n t L. pose proof (pr_strip _ _ P t) as S1. rewrite Q in L, S1 |- *. cbn [app List.length] in *. destruct n as [|n]; [lia|].
    rewrite des_prim by exact X. rewrite S1. cbn [bind]. rewrite E, V. reflexivity.
Qed.
Lemma escape_prim : exists e q, prim e q /\ m_code e = Escape /\ bare Escape = Ok q.
Proof.
  exists (mkMatter Escape [] []), Escape. split; [|split; [reflexivity|vm_compute; reflexivity]].
  apply prim_of; [|vm_compute; reflexivity]. apply built_raw with (raw := []) (code := Escape) (soft := []) (rize := None); [constructor|vm_compute; reflexivity].
Qed.
Lemma framed_escaped : forall p q x, prim p q -> bare Escape = Ok x -> framed (x ++ q) (VStr q).
Proof.
  intros p q x P B. destruct escape_prim as (e & x' & E1 & E2 & E3). rewrite B in E3. apply ok_inj in E3. subst x'.
  destruct (pr_first _ _ E1) as (a & r & Q & X). constructor.
  - apply b64text_app. split; [exact (pr_text _ _ E1)|exact (pr_text _ _ P)].
  - rewrite len_app. pose proof (pr_four _ _ E1). pose proof (pr_four _ _ P). lia.
  - rewrite Q. cbn. lia.
  - intros n t L. pose proof (pr_strip _ _ E1 (q ++ t)) as S1. rewrite Q in L, S1. cbn [app List.length] in L. destruct n as [|n]; [lia|].
    rewrite Q, <- app_assoc. cbn [app] in *. rewrite des_prim by exact X. rewrite S1. cbn [bind]. rewrite E2, beq_refl. rewrite (pr_strip _ _ P t). cbn [bind]. rewrite (pr_infil _ _ P). reflexivity.
Qed.
Lemma bare_framed : forall code v q m, matter_of_raw [] code [] None = Ok m -> beq (m_code m) Escape = false -> primValue m = Ok v -> bare code = Ok q -> framed q v.
Proof.
  intros code v q m M E V B. unfold bare in B. rewrite M in B. cbn [bind] in B. apply framed_prim with m; [|exact E|exact V].
  apply prim_of; [|exact B]. apply built_raw with (raw := []) (code := code) (soft := []) (rize := None); [constructor|exact M].
Qed.
Lemma code_cases : forall c, (memB c DecDex = true -> beq c Escape = false /\ beq c Null = false /\ beq c Yes = false /\ beq c No = false) /\
  (memB c LabelDex = true -> beq c Escape = false /\ beq c Null = false /\ beq c Yes = false /\ beq c No = false /\ memB c DecDex = false) /\
  (memB c EscapeDex = false -> beq c Escape = false /\ beq c Null = false /\ beq c Yes = false /\ beq c No = false /\ memB c DecDex = false /\ memB c LabelDex = false).
Proof.
  intros c. split; [|split].
  - intros H. apply memB_In in H. cbn [In DecDex] in H. repeat (destruct H as [<-|H]; [vm_compute; auto|]). contradiction.
  - intros H. apply memB_In in H. unfold LabelDex in H.
    assert (A : forallb (fun c => negb (beq c Escape) && negb (beq c Null) && negb (beq c Yes) && negb (beq c No) && negb (memB c DecDex)) (Empty :: TagDex ++ BexDex ++ [s2b "V"; s2b "W"] ++ TexDex) = true) by (vm_compute; reflexivity).
    rewrite forallb_forall in A. specialize (A _ H). rewrite !andb_true_iff, !negb_true_iff in A. tauto.
  - intros H. assert (A : forall x, In x EscapeDex -> beq c x = false).
    { intros x I. destruct (beq_spec c x) as [-> |]; [|reflexivity]. apply memB_true in I. congruence. }
    assert (D : forall l, (forall x, In x l -> In x EscapeDex) -> memB c l = false).
    { intros l I. destruct (memB c l) eqn:E; [|reflexivity]. apply memB_In in E. apply I, memB_true in E. congruence. }
    unfold EscapeDex in *. repeat split; try (apply A; cbn; tauto); apply D; intros x I; apply in_or_app; right; apply in_or_app; [left|right]; exact I.
Qed.
Lemma txt_framed : forall s q, utf8 s = true -> txt s = Ok q -> framed q (VStr s).
Proof.
  intros s q U H. unfold txt in H. apply bind_ok in H. destruct H as (m & M & I). destruct (labeler_text_ok s m U M) as (B & T & L).
  pose proof (prim_of _ _ B I) as P. destruct (code_cases (m_code m)) as (_ & C & _). destruct (C L) as (C1 & C2 & C3 & C4 & C5).
  apply framed_prim with m; [exact P|exact C1|]. unfold primValue. rewrite C2, C3, C4, I. cbn [bind]. rewrite C5, L, (pr_exfil _ _ P). cbn [bind]. rewrite T. reflexivity.
Qed.
Lemma exfil_full : forall q m sz, exfil_facts q m sz -> exists f, fullSize m = Ok f.
Proof.
  intros q m sz F. unfold fullSize. rewrite (xf_sz _ _ _ F). destruct (fs sz) as [f|] eqn:E; [eauto|]. pose proof (xf_var _ _ _ F E) as V. pose proof (xf_soft _ _ _ F) as S1.
  assert (Z : xs sz < ss sz).
  { pose proof (dget_In _ _ _ _ (xf_sz _ _ _ F)) as I. assert (A : forallb (fun p => match fs (snd p) with None => xs (snd p) <? ss (snd p) | Some _ => true end) Sizes = true) by (vm_compute; reflexivity).
    rewrite forallb_forall in A. specialize (A _ I). cbn [snd] in A. rewrite E in A. lia. }
  destruct (m_soft m) as [|x r] eqn:ES; [unfold len in S1; cbn in S1; lia|]. rewrite b64ToInt_val by (assumption || discriminate). cbn [bind]. eauto.
Qed.
Lemma serText_framed : forall s q, plainText s -> serText s = Ok q -> framed q (VStr s).
Proof.
  intros s q [U R] H. unfold serText in H. destruct (exfil s) as [p|ex] eqn:X; [|exact (txt_framed _ _ U H)].
  apply bind_ok in H. destruct H as (t & I & H). destruct (N.eqb_spec (len t) (len s)) as [L|L]; cbn [negb] in H; [|exact (txt_framed _ _ U H)].
  assert (B : Reb64 s = true) by (apply R; exists p, t; auto).
  assert (E : t = s /\ built p).
  { assert (F : exists f, fullSize p = Ok f).
    { destruct (exfil_inv s p X) as (sz & FF). exact (exfil_full s p sz FF). }
    destruct F as (f & F). assert (BT : b64text s) by (apply Reb64_b64text; exact B).
    destruct (c03_text_canonical_partial s p f X F (b64text_ntake _ _ BT)) as [Lf C]. rewrite I in C. apply ok_inj in C.
    assert (f = len s) by (rewrite C, len_ntake in L; lia). subst f. rewrite ntake_all in C by reflexivity. split; [exact C|].
    apply built_qb64 with (q := s) (f := len s); [exact X|exact F|]. rewrite ntake_all by reflexivity. exact B. }
  destruct E as [-> E]. pose proof (prim_of _ _ E I) as P.
  destruct (memB (m_code p) EscapeDex) eqn:ED.
  - apply bind_ok in H. destruct H as (e & H1 & H2). apply ok_inj in H2. subst q. exact (framed_escaped p s e P H1).
  - cbn [bind app] in H. apply ok_inj in H. subst q. destruct (code_cases (m_code p)) as (_ & _ & C). destruct (C ED) as (C1 & C2 & C3 & C4 & C5 & C6).
    apply framed_prim with p; [exact P|exact C1|]. unfold primValue. rewrite C2, C3, C4, I. cbn [bind]. rewrite C5, C6. reflexivity.
Qed.

(** labels *)
Lemma serLabel_read : forall l k, utf8 l = true -> serLabel strict l = Ok k ->
  b64text k /\ len k mod 4 = 0 /\ (1 <= List.length k)%nat /\ forall t, readLabel strict (k ++ t) = Ok (l, t).
Proof.
  intros l k U H. unfold serLabel in H. apply bind_ok in H. destruct H as (m & M & I).
  assert (A : built m /\ (if strict then labelOf m else textOf m) = Ok l /\ memB (m_code m) LabelDex = true).
  { destruct strict; [exact (labeler_label_ok _ _ M)|exact (labeler_text_ok _ _ U M)]. }
  destruct A as (B & T & L). pose proof (prim_of _ _ B I) as P. destruct (pr_first _ _ P) as (x & r & Q & _).
  split; [exact (pr_text _ _ P)|]. split; [exact (pr_four _ _ P)|]. split; [rewrite Q; cbn; lia|].
  intros t. unfold readLabel. rewrite (pr_strip _ _ P t). cbn [bind]. unfold inLabelDex. rewrite L. cbn [negb bind]. rewrite T. reflexivity.
Qed.
(** the bodies of lists and maps *)
Fixpoint serElems (l : list val) : res bytes :=
  match l with [] => Ok [] | v :: r => a <- serialize strict v ;; b <- serElems r ;; Ok (a ++ b) end.
Fixpoint serFields (m : sad) : res bytes :=
  match m with [] => Ok [] | (l, v) :: r => k <- serLabel strict l ;; a <- serialize strict v ;; b <- serFields r ;; Ok (k ++ a ++ b) end.
Lemma ser_list : forall l, serialize strict (VList l) = (bdy <- serElems l ;; enclose V20 (s2b "GenericListGroup") bdy).
Proof. reflexivity. Qed.
Lemma ser_map : forall m, serialize strict (VMap m) = (bdy <- serFields m ;; enclose V20 (s2b "GenericMapGroup") bdy).
Proof. reflexivity. Qed.
Lemma des_elems_eq : forall n s, s <> [] -> desElems (S n) strict s = ('(v, r) <- deserialize n strict s ;; l <- desElems n strict r ;; Ok (v :: l)).
Proof. intros n [|x s] H; [congruence|reflexivity]. Qed.
Lemma des_fields_eq : forall n s d, s <> [] -> desFields (S n) strict s d = ('(l, r) <- readLabel strict s ;; '(v, r') <- deserialize n strict r ;; desFields n strict r' (dset d l v)).
Proof. intros n [|x s] d H; [congruence|reflexivity]. Qed.
Lemma ne_app : forall (a b : bytes), (1 <= List.length a)%nat -> a ++ b <> [].
Proof. intros [|x a] b H; [cbn in H; lia|discriminate]. Qed.
Lemma elems_read : forall l, Forall (fun v => plain v -> forall q, serialize strict v = Ok q -> framed q v) l ->
  fold_right (fun x P => plain x /\ P) True l -> forall bdy, serElems l = Ok bdy ->
  b64text bdy /\ len bdy mod 4 = 0 /\ forall n, (2 * List.length bdy + 1 <= n)%nat -> desElems n strict bdy = Ok l.
Proof.
  intros l F. induction F as [|v l Hv F IH]; intros P bdy H.
  - cbn in H. apply ok_inj in H. subst bdy. split; [constructor|]. split; [reflexivity|]. intros n L. destruct n; [cbn in L; lia|reflexivity].
  - cbn [serElems] in H. cbn [fold_right] in P. destruct P as [Pv P]. apply bind_ok in H. destruct H as (a & A & H). apply bind_ok in H. destruct H as (b & B & H). apply ok_inj in H. subst bdy.
    specialize (Hv Pv a A). destruct (IH P b B) as (I1 & I2 & I3). destruct Hv as [F1 F2 F3 F4].
    split; [apply b64text_app; auto|]. split; [rewrite len_app; lia|]. intros n L. rewrite app_length in L. destruct n as [|n]; [lia|].
    rewrite des_elems_eq by (apply ne_app; exact F3). rewrite F4 by lia. cbn [bind]. rewrite I3 by lia. reflexivity.
Qed.
Lemma dset_new : forall (d : sad) l v, ~ In l (map fst d) -> dset d l v = d ++ [(l, v)].
Proof.
  induction d as [|[k x] d IH]; intros l v H; [reflexivity|]. cbn [dset]. destruct (beq_spec l k) as [-> |N]; [exfalso; apply H; left; reflexivity|].
  cbn. f_equal. apply IH. intros I. apply H. right. exact I.
Qed.
Lemma fields_read : forall m, Forall (fun kv => plain (snd kv) -> forall q, serialize strict (snd kv) = Ok q -> framed q (snd kv)) m ->
  fold_right (fun kv P => utf8 (fst kv) = true /\ plain (snd kv) /\ P) True m -> forall bdy, serFields m = Ok bdy ->
  b64text bdy /\ len bdy mod 4 = 0 /\ forall n d, NoDup (map fst (d ++ m)) -> (2 * List.length bdy + 1 <= n)%nat -> desFields n strict bdy d = Ok (d ++ m).
Proof.
  intros m F. induction F as [|[l v] m Hv F IH]; intros P bdy H.
  - cbn in H. apply ok_inj in H. subst bdy. split; [constructor|]. split; [reflexivity|]. intros n d _ L. rewrite app_nil_r. destruct n; [cbn in L; lia|reflexivity].
  - cbn [serFields] in H. cbn [fold_right fst snd] in P, Hv. destruct P as (U & Pv & P). apply bind_ok in H. destruct H as (k & K & H). apply bind_ok in H. destruct H as (a & A & H). apply bind_ok in H. destruct H as (b & B & H). apply ok_inj in H. subst bdy.
    specialize (Hv Pv a A). destruct (IH P b B) as (I1 & I2 & I3). destruct Hv as [F1 F2 F3 F4]. destruct (serLabel_read l k U K) as (K1 & K2 & K3 & K4).
    split; [apply b64text_app; split; [exact K1|apply b64text_app; auto]|]. split; [rewrite !len_app; lia|]. intros n d ND L. rewrite !app_length in L. destruct n as [|n]; [lia|].
    rewrite des_fields_eq by (apply ne_app; exact K3). rewrite K4. cbn [bind]. rewrite F4 by lia. cbn [bind].
    assert (Ni : ~ In l (map fst d)).
    { rewrite map_app in ND. cbn [map fst] in ND. apply NoDup_remove_2 in ND. intros I. apply ND. apply in_or_app. left. exact I. }
    rewrite dset_new by exact Ni. rewrite I3; [rewrite <- app_assoc; reflexivity| |lia]. rewrite <- app_assoc. exact ND.
Qed.
Lemma serialize_framed : forall v, plain v -> forall q, serialize strict v = Ok q -> framed q v.
Proof.
  induction v as [| b | z | s | l IH | m IH] using val_ind'; intros P q H.
  - apply bare_framed with Null (mkMatter Null [] []); [vm_compute; reflexivity|vm_compute; reflexivity|vm_compute; reflexivity|exact H].
  - destruct b; [apply bare_framed with Yes (mkMatter Yes [] [])|apply bare_framed with No (mkMatter No [] [])]; try exact H; vm_compute; reflexivity.
  - cbn [serialize] in H. apply bind_ok in H. destruct H as (m & M & I). destruct (decimer_int_ok _ _ _ M) as (B & _ & D & C). pose proof (prim_of _ _ B I) as Pm.
    destruct (code_cases (m_code m)) as (K & _). destruct (K C) as (C1 & C2 & C3 & C4). apply framed_prim with m; [exact Pm|exact C1|]. unfold primValue. rewrite C2, C3, C4, I. cbn [bind]. rewrite C, (pr_exfil _ _ Pm). cbn [bind]. rewrite D. reflexivity.
  - exact (serText_framed s q P H).
  - rewrite ser_list in H. apply bind_ok in H. destruct H as (bdy & B & H). destruct (elems_read l IH P bdy B) as (E1 & E2 & E3).
    destruct (enclose_head _ _ _ (or_introl eq_refl) H) as (_ & h & c & r & -> & H1 & H2 & H3 & H4 & _ & _ & H5 & H6 & _). rewrite beq_refl in H6.
    constructor; [apply b64text_app; auto|rewrite len_app; lia|rewrite H3; cbn; lia|].
    intros n t L. specialize (H5 t). rewrite app_length in L. assert (LH : (1 <= List.length h)%nat) by (rewrite H3; cbn; lia). destruct n as [|n]; [lia|].
    rewrite H3 in H5 |- *. cbn [app] in H5 |- *. cbn [deserialize]. change (45 =? 45) with true. cbn iota. rewrite H5. cbn [bind]. rewrite H6, H4, ntake_len_app, ndrop_len_app. rewrite E3 by lia. reflexivity.
  - rewrite ser_map in H. apply bind_ok in H. destruct H as (bdy & B & H). destruct P as [ND P]. destruct (fields_read m IH P bdy B) as (E1 & E2 & E3).
    destruct (enclose_head _ _ _ (or_intror eq_refl) H) as (_ & h & c & r & -> & H1 & H2 & H3 & H4 & _ & _ & H5 & H6 & _ & H7 & _). assert (H6' : isMapName (c_name c) = true) by exact H6. specialize (H7 H6').
    constructor; [apply b64text_app; auto|rewrite len_app; lia|rewrite H3; cbn; lia|].
    intros n t L. specialize (H5 t). rewrite app_length in L. assert (LH : (1 <= List.length h)%nat) by (rewrite H3; cbn; lia). destruct n as [|n]; [lia|].
    rewrite H3 in H5 |- *. cbn [app] in H5 |- *. cbn [deserialize]. change (45 =? 45) with true. cbn iota. rewrite H5. cbn [bind]. rewrite H7, H6', H4, ntake_len_app, ndrop_len_app. rewrite E3; [reflexivity|exact ND|lia].
Qed.

(** ** Whole maps *)
Lemma catchIV_ok : forall {A} e (r : res A) a, catchIV e r = Ok a -> r = Ok a.
Proof. intros A e [x|ex] a H; [exact H|]. destruct ex; discriminate. Qed.
Lemma exhale_fields : forall m bdy, exhaleFields strict [] m = Ok bdy -> serFields m = Ok bdy.
Proof.
  induction m as [|[l v] m IH]; intros bdy H; [exact H|]. cbn [exhaleFields serFields] in *. apply bind_ok in H. destruct H as (a & A & H). apply catchIV_ok in A. cbn [memB existsb] in A.
  apply bind_ok in A. destruct A as (k & K & A). apply bind_ok in A. destruct A as (x & X & A). apply ok_inj in A. subst a. apply bind_ok in H. destruct H as (b & B & H). apply ok_inj in H. subst bdy.
  rewrite K. cbn [bind]. rewrite X. cbn [bind]. rewrite (IH b B). cbn [bind]. rewrite app_assoc. reflexivity.
Qed.
Lemma exhale_serialize : forall m q, exhale strict [] m = Ok q -> serialize strict (VMap m) = Ok q.
Proof.
  intros m q H. unfold exhale in H. apply bind_ok in H. destruct H as (bdy & B & H). rewrite ser_map, (exhale_fields _ _ B). exact H.
Qed.
Theorem map_round_trip : forall m q t, plainMap m -> exhale strict [] m = Ok q -> b64text q /\ len q mod 4 = 0 /\ mapperRead strict (q ++ t) = Ok m.
Proof.
  intros m q t P H. pose proof (serialize_framed _ P _ (exhale_serialize _ _ H)) as [F1 F2 _ _]. split; [exact F1|]. split; [exact F2|].
  unfold exhale in H. apply bind_ok in H. destruct H as (bdy & B & H). apply exhale_fields in B. destruct P as [ND P].
  destruct (fields_read m) with (bdy := bdy) as (E1 & E2 & E3); [apply Forall_forall; intros kv _; apply serialize_framed|exact P|exact B|].
  destruct (enclose_head _ _ _ (or_intror eq_refl) H) as (_ & h & c & r & Eq & H1 & H2 & H3 & H4 & HC & (sz & HS1 & HS2) & H5 & H6 & _).
  unfold mapperRead. rewrite HC. cbn [bind]. rewrite HS1. cbn [bind]. rewrite H4, HS2.
  assert (LQ : len bdy + len h = len q) by (rewrite Eq, len_app; lia). rewrite LQ, ntake_len_app. unfold inhale. specialize (H5 []). rewrite !app_nil_r in H5. rewrite H5. cbn [bind].
  assert (H6' : isMapName (c_name c) = true) by exact H6. rewrite H6', H4, N.eqb_refl. cbn [negb]. rewrite (E3 _ []) by (exact ND || lia). reflexivity.
Qed.
End Strict.
