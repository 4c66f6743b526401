(** Native messages: what is written is read back, and what is accepted commits to its own content. *)
From Verif Require Import Prelude B64Model B64Proofs MatterModel MatterProofs MatterInv MatterSpec MatterThms SubsModel SubsProofs SubsThms CtrModel CtrProofs CtrThms ThModel VerModel VerThms JsonModel JsonProofs SerModel SerSpec SerProofs PsProofs NmModel NmSpec NmProofs NmProofs2 NkModel NkSpec NkProofs NkProofs2.
Open Scope N_scope.
Ltac Zify.zify_post_hook ::= Z.div_mod_to_equations.
Notation val := JsonModel.val.
Notation versionage := VerModel.versionage.

Lemma some_inj : forall {A} (a b : A), Some a = Some b -> a = b.
Proof. intros A a b H. injection H. auto. Qed.
(** ** The counter of a message *)
Lemma fix_head2 : forall (bdy q : bytes), enclose V20 (s2b "FixBodyGroup") bdy = Ok q ->
  len bdy mod 4 = 0 /\ exists (h : bytes) (c : counter), q = h ++ bdy /\ b64text h /\ len h mod 4 = 0 /\ (exists r, h = 45 :: r) /\ byteCount_txt c = len bdy /\
  (forall t, cexfil V20 (q ++ t) = Ok c) /\ (exists sz, CtrModel.csize c = Ok sz /\ cfs sz = len h) /\
  (forall t, counter_strip V20 (q ++ t) = Ok (c, bdy ++ t)) /\ memB (c_code c) [s2b "-F"; s2b "--F"] = true /\
  counter_of V20 (s2b "FixBodyGroup") (len bdy / 4) = Ok c /\ cinfil c = Ok h.
Proof.
  intros bdy q H. unfold enclose in H. apply raise_if_ok in H. destruct H as [H4 H]. apply bind_ok in H. destruct H as (c & Hc & H).
  apply raise_if_ok in H. destruct H as [_ H]. apply bind_ok in H. destruct H as (h & Hh & H). apply ok_inj in H. subst q. split; [lia|].
  destruct (counter_of_ok _ _ _ _ Hc) as (Hv & Hk & codes & sizes & sz & K & hard & hsz & L1 & L2 & L3).
  pose proof (cinfil_ok _ _ _ _ K) as Ci. rewrite Hh in Ci. apply ok_inj in Ci.
  destruct (c39_text_round_trip _ _ _ _ Hc) as (_ & _ & q' & Q1 & Q2 & Q3 & Q4). rewrite Hh in Q1. apply ok_inj in Q1. subst q'.
  assert (NM : c_code c = s2b "-F" \/ c_code c = s2b "--F").
  { pose proof (co_tab _ _ _ _ K) as T. rewrite Hv in T. apply ok_inj in T. injection T as <- <-.
    vm_compute in L1; apply ok_inj in L1; injection L1 as <- _; destruct L3 as [L3|(_ & _ & L3 & _)]; rewrite L3; [left|right]; reflexivity. }
  assert (FS : exists r, h = 45 :: r) by (rewrite Ci; unfold cboth; destruct NM as [-> | ->]; eexists; reflexivity).
  exists h, c.
  split; [reflexivity|]. split; [exact Q2|]. split; [exact Q3|]. split; [exact FS|].
  split; [unfold byteCount_txt; rewrite Hk; lia|].
  split; [intros t; rewrite <- app_assoc; rewrite Ci, <- Hv; exact (cexfil_ok _ _ _ _ _ K)|].
  split; [exists sz; split; [exact (csize_ok _ _ _ _ K)|rewrite Ci; symmetry; exact (cboth_len _ _ _ _ K)]|].
  split; [intros t; rewrite <- app_assoc; apply Q4|].
  split; [destruct NM as [-> | ->]; reflexivity|]. split; [exact Hc|exact Hh].
Qed.

Lemma fix_head : forall (bdy q : bytes), enclose V20 (s2b "FixBodyGroup") bdy = Ok q ->
  len bdy mod 4 = 0 /\ exists (h : bytes) (c : counter), q = h ++ bdy /\ b64text h /\ len h mod 4 = 0 /\ (exists r, h = 45 :: r) /\ byteCount_txt c = len bdy /\
  (forall t, cexfil V20 (q ++ t) = Ok c) /\ (exists sz, CtrModel.csize c = Ok sz /\ cfs sz = len h) /\
  (forall t, counter_strip V20 (q ++ t) = Ok (c, bdy ++ t)) /\ memB (c_code c) [s2b "-F"; s2b "--F"] = true.
Proof.
  intros bdy q H. destruct (fix_head2 _ _ H) as (A & h & c & B1 & B2 & B3 & B4 & B5 & B6 & B7 & B8 & B9 & _). split; [exact A|]. exists h, c. do 8 (split; [assumption|]). exact B9.
Qed.

(** ** The parts of a message *)
Definition fields (ilk : bytes) (fs : sad) : res bytes := concatr (fun kv => dumpField (2, 0) G2 ilk (fst kv) (snd kv)) fs.
Record parts (raw ilk : bytes) (fs : sad) (vt it b : bytes) : Prop := {
  pa_ilk : memB ilk keriIlks = true;
  pa_vt : verserText (s2b "KERI") (2, 0) G2 = Ok vt;
  pa_it : ilkerText ilk = Ok it;
  pa_b : fields ilk fs = Ok b;
  pa_raw : enclose V20 (s2b "FixBodyGroup") (vt ++ it ++ b) = Ok raw }.
Lemma dumps_parts : forall x y fs raw, nativeDumps (2, 0) G2 ((s2b "v", x) :: (s2b "t", y) :: fs) = Ok raw ->
  exists ilk vt it b, y = VStr ilk /\ (exists fd, fixedFields (2, 0) ilk = Ok fd) /\ parts raw ilk fs vt it b.
Proof.
  intros x y fs raw H. unfold nativeDumps in H. apply bind_ok in H. destruct H as (ilk & I & H). unfold dumpsIlk in I.
  change (dget ((s2b "v", x) :: (s2b "t", y) :: fs) (s2b "t")) with (Some y) in I. destruct y as [ | | |s| | ]; try discriminate. rename s into ilk'.
  apply raise_if_ok in I. destruct I as [K I]. apply negb_false_iff in K. apply bind_ok in I. destruct I as (fd & F & I). apply ok_inj in I. subst ilk'.
  apply bind_ok in H. destruct H as (bdy & B & H). cbn [concatr fst snd] in B. apply bind_ok in B. destruct B as (vt & VT & B). apply bind_ok in B. destruct B as (b1 & B1 & B). apply ok_inj in B. subst bdy.
  apply bind_ok in B1. destruct B1 as (it & IT & B1). apply bind_ok in B1. destruct B1 as (b & Bb & B1). apply ok_inj in B1. subst b1.
  exists ilk, vt, it, b. split; [reflexivity|]. split; [eauto|]. constructor; auto.
Qed.
Lemma parts_dumps : forall x ilk fs raw vt it b fd, parts raw ilk fs vt it b -> fixedFields (2, 0) ilk = Ok fd ->
  nativeDumps (2, 0) G2 ((s2b "v", x) :: (s2b "t", VStr ilk) :: fs) = Ok raw.
Proof.
  intros x ilk fs raw vt it b fd [P1 P2 P3 P4 P5] F. unfold nativeDumps, dumpsIlk. change (dget ((s2b "v", x) :: (s2b "t", VStr ilk) :: fs) (s2b "t")) with (Some (VStr ilk)). cbv iota. rewrite P1. cbn [negb]. cbv iota.
  rewrite F. cbn [bind]. cbn [concatr fst snd]. unfold fields in P4. rewrite P4. change (dumpField (2, 0) G2 ilk (s2b "v") x) with (verserText (s2b "KERI") (2, 0) G2). rewrite P2. cbn [bind].
  change (dumpField (2, 0) G2 ilk (s2b "t") (VStr ilk)) with (ilkerText ilk). rewrite P3. cbn [bind]. exact P5.
Qed.
Lemma loads_parts : forall raw ilk fs vt it b, parts raw ilk fs vt it b ->
  nativeLoads (2, 0) G2 raw = (fd <- fixedFields (2, 0) ilk ;; loadFields (2, 0) G2 (len raw) ilk (keysOf (f_alls fd)) b).
Proof.
  intros raw ilk fs vt it b [P1 P2 P3 P4 P5]. destruct (fix_head _ _ P5) as (_ & h & c & _ & _ & _ & _ & _ & _ & _ & ST & CO).
  unfold nativeLoads. change (ctrV G2) with V20. specialize (ST []). rewrite !app_nil_r in ST. rewrite ST. cbn [bind]. unfold G2 at 1. cbv iota. rewrite CO. cbn [negb]. cbv iota.
  destruct (verser_reads (s2b "KERI") (2, 0) G2 vt eq_refl P2) as (vm & _ & R & V & _). rewrite (rd_read _ _ _ R). cbn [bind]. rewrite V. cbn [bind].
  rewrite (rd_read _ _ _ (ilker_reads _ _ P3)). cbn [bind]. rewrite P1. reflexivity.
Qed.

(** ** The fields of the message types *)
Definition fieldsB (kf : option bytes * fielddom) : bool :=
  match fst kf, keysOf (f_alls (snd kf)) with
  | Some ilk, v :: t :: d :: r =>
      beq v (s2b "v") && beq t (s2b "t") && beq d (s2b "d") && negb (memB (s2b "v") (d :: r)) && negb (memB (s2b "t") (d :: r)) &&
      (len (f_opts (snd kf)) =? 0) && f_strict (snd kf) &&
      (if memB (s2b "i") (saidFields (Some ilk)) then match r with i :: s :: r' => beq i (s2b "i") && beq s (s2b "s") && negb (memB (s2b "d") r) && negb (memB (s2b "i") (s :: r')) | _ => false end else negb (memB (s2b "d") r))
  | _, _ => false
  end.
Lemma fieldsB_ok : forallb fieldsB Fields_KERI_2 = true.
Proof. vm_compute. reflexivity. Qed.
Lemma ilkget_In2 : forall tbl ilk fd, ilkget tbl ilk = Some fd -> In (ilk, fd) tbl.
Proof.
  induction tbl as [|[k f] tbl IH]; intros ilk fd H; [discriminate|]. cbn [ilkget] in H. destruct k as [a|], ilk as [b|]; try (right; apply IH; exact H).
  - destruct (beq_spec a b) as [->|N]; [apply some_inj in H; subst f; left; reflexivity|right; apply IH; exact H].
  - apply some_inj in H; subst f; left; reflexivity.
Qed.
Record layout (ilk : bytes) (fd : fielddom) (ls : list bytes) : Prop := {
  la_in : In (Some ilk, fd) Fields_KERI_2;
  la_keys : keysOf (f_alls fd) = s2b "v" :: s2b "t" :: s2b "d" :: ls;
  la_v : ~ In (s2b "v") (s2b "d" :: ls);
  la_t : ~ In (s2b "t") (s2b "d" :: ls);
  la_d : ~ In (s2b "d") ls;
  la_i : In (s2b "i") (saidFields (Some ilk)) -> exists r, ls = s2b "i" :: s2b "s" :: r /\ ~ In (s2b "i") (s2b "s" :: r) }.
Lemma layout_of : forall ilk fd, In (Some ilk, fd) Fields_KERI_2 -> exists ls, layout ilk fd ls /\ len (f_opts fd) = 0 /\ f_strict fd = true.
Proof.
  intros ilk fd H. pose proof fieldsB_ok as B. rewrite forallb_forall in B. specialize (B _ H). unfold fieldsB in B. cbn [fst snd] in B.
  destruct (keysOf (f_alls fd)) as [|v [|t [|d r]]] eqn:K; try discriminate. apply andb_true_iff in B. destruct B as [B BI]. repeat match type of B with _ && _ = true => apply andb_true_iff in B; let X := fresh "X" in destruct B as [B X] end.
  apply beq_eq in B. subst v. apply beq_eq in X4, X3. subst t d. exists r. split; [|split; [apply N.eqb_eq; exact X0|exact X]].
  apply negb_true_iff in X1, X2. apply memB_nIn in X1, X2. constructor; auto.
  - destruct (memB (s2b "i") (saidFields (Some ilk))).
    + destruct r as [|i [|s r']]; try discriminate. repeat match type of BI with _ && _ = true => apply andb_true_iff in BI; let X := fresh "Y" in destruct BI as [BI X] end. apply negb_true_iff in Y0. apply memB_nIn in Y0. exact Y0.
    + apply negb_true_iff in BI. apply memB_nIn in BI. exact BI.
  - intros I. apply memB_true in I. rewrite I in BI. destruct r as [|i [|s r']]; try discriminate. repeat match type of BI with _ && _ = true => apply andb_true_iff in BI; let X := fresh "Y" in destruct BI as [BI X] end.
    apply beq_eq in BI, Y1. subst i s. exists r'. split; [reflexivity|]. apply negb_true_iff in Y. apply memB_nIn in Y. exact Y.
Qed.
Lemma fixed_layout : forall ilk fd, fixedFields (2, 0) ilk = Ok fd -> exists ls, layout ilk fd ls.
Proof.
  intros ilk fd H. unfold fixedFields in H. change (Fields (s2b "KERI") (2, 0)) with (Some Fields_KERI_2) in H. cbv iota in H. destruct (ilkget Fields_KERI_2 (Some ilk)) as [f|] eqn:E; [|discriminate].
  apply raise_if_ok in H. destruct H as [_ H]. apply ok_inj in H. subst f. apply ilkget_In2 in E. destruct (layout_of _ _ E) as (ls & L & _). eauto.
Qed.
Lemma ilks_once : forall ilk fd, In (Some ilk, fd) Fields_KERI_2 -> ilkget Fields_KERI_2 (Some ilk) = Some fd.
Proof. intros ilk fd H. unfold Fields_KERI_2, In in H. repeat (destruct H as [E|H]; [apply pair_equal_spec in E; destruct E as [E1 <-]; apply some_inj in E1; subst ilk; vm_compute; reflexivity|]). contradiction. Qed.
Lemma layout_fixed : forall ilk fd ls, layout ilk fd ls -> fixedFields (2, 0) ilk = Ok fd.
Proof.
  intros ilk fd ls L. destruct (layout_of _ _ (la_in _ _ _ L)) as (_ & _ & OP & ST). unfold fixedFields. change (Fields (s2b "KERI") (2, 0)) with (Some Fields_KERI_2). cbv iota.
  rewrite (ilks_once _ _ (la_in _ _ _ L)), OP, ST. reflexivity.
Qed.

(** ** What is written is read back *)
Lemma fields_read : forall size ilk fs b, Forall (fun kv => fieldOk (fst kv) (snd kv)) fs -> (forall l, In l (keysOf fs) -> ~ reserved l) -> fields ilk fs = Ok b ->
  b64text b /\ len b mod 4 = 0 /\ loadFields (2, 0) G2 size ilk (keysOf fs) b = Ok fs.
Proof.
  intros size ilk fs. induction fs as [|[l v] fs IH]; intros b F R H.
  - apply ok_inj in H. subst b. split; [constructor|]. split; reflexivity.
  - unfold fields in H. cbn [concatr fst snd] in H. apply bind_ok in H. destruct H as (q & Q & H). apply bind_ok in H. destruct H as (b' & B & H). apply ok_inj in H. subst b.
    inversion F as [|? ? F1 F2]; subst. cbn [fst snd] in F1. destruct (field_reads (2, 0) size ilk l v q F1 (R l (or_introl eq_refl)) Q) as (T1 & T2 & T3).
    destruct (IH b' F2 (fun l' I => R l' (or_intror I)) B) as (I1 & I2 & I3). split; [apply b64text_app; auto|]. split; [rewrite len_app; lia|].
    cbn [keysOf map fst loadFields]. rewrite T3. cbn [bind]. change (map fst fs) with (keysOf fs). rewrite I3. reflexivity.
Qed.
Lemma wellFormed_shape : forall sd, wellFormed sd -> exists x ilk fs fd ls, sd = (s2b "v", x) :: (s2b "t", VStr ilk) :: fs /\ layout ilk fd ls /\ keysOf fs = s2b "d" :: ls /\ Forall (fun kv => fieldOk (fst kv) (snd kv)) fs.
Proof.
  intros sd (ilk & fd & T & I & K & F). destruct (layout_of _ _ I) as (ls & L & _). rewrite (la_keys _ _ _ L) in K.
  destruct sd as [|[a x] [|[a' y] fs]]; try discriminate. cbn [keysOf map fst] in K. injection K as -> -> K. change (dget ((s2b "v", x) :: (s2b "t", y) :: fs) (s2b "t")) with (Some y) in T. apply some_inj in T. subst y.
  exists x, ilk, fs, fd, ls. split; [reflexivity|]. split; [exact L|]. split; [exact K|]. inversion F as [|? ? _ F1]; subst. inversion F1; subst. assumption.
Qed.
Lemma layout_reserved : forall ilk fd ls l, layout ilk fd ls -> In l (s2b "d" :: ls) -> ~ reserved l.
Proof. intros ilk fd ls l L I [-> | ->]; [exact (la_v _ _ _ L I)|exact (la_t _ _ _ L I)]. Qed.
Lemma native_read : forall sd raw vs, wellFormed sd -> nativeDumps (2, 0) G2 sd = Ok raw -> versify (s2b "KERI") (2, 0) KindCesr (len raw) G2 = Ok vs ->
  nativeLoads (2, 0) G2 raw = Ok (dset sd (s2b "v") (VStr vs)) /\ b64text raw /\ len raw mod 4 = 0.
Proof.
  intros sd raw vs W H V. destruct (wellFormed_shape _ W) as (x & ilk & fs & fd & ls & -> & L & K & F).
  destruct (dumps_parts _ _ _ _ H) as (ilk' & vt & it & b & E & _ & P). injection E as <-.
  destruct (fields_read (len raw) ilk fs b F) as (T1 & T2 & T3); [intros l I; rewrite K in I; eapply layout_reserved; [exact L|exact I]|exact (pa_b _ _ _ _ _ _ P)|].
  split.
  - rewrite (loads_parts _ _ _ _ _ _ P), (layout_fixed _ _ _ L). cbn [bind]. rewrite (la_keys _ _ _ L), <- K. cbn [loadFields].
    change (loadField (2, 0) G2 (len raw) ilk (s2b "v") b) with (vs <- versify (s2b "KERI") (2, 0) KindCesr (len raw) G2 ;; Ok (VStr vs, b)). rewrite V. cbn [bind].
    change (loadField (2, 0) G2 (len raw) ilk (s2b "t") b) with (Ok (VStr ilk, b)). cbn [bind]. rewrite T3. reflexivity.
  - destruct P as [_ P2 P3 _ P5]. destruct (fix_head _ _ P5) as (A & h & c & -> & H1 & H2 & _). destruct (verser_reads (s2b "KERI") (2, 0) G2 vt eq_refl P2) as (vm & _ & [R1 R2 _ _] & _). destruct (ilker_reads _ _ P3) as [R3 R4 _ _].
    clear - H1 H2 R1 R2 R3 R4 T1 T2. split; [apply b64text_app; split; [exact H1|apply b64text_app; split; [exact R1|apply b64text_app; split; [exact R3|exact T1]]]|].
    rewrite !len_app. lia.
Qed.
