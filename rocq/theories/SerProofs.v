(** Lemmas about messages. *)
From Verif Require Import Prelude B64Model B64Proofs MatterModel MatterProofs MatterInv MatterSpec MatterThms SubsModel SubsProofs ThModel VerModel VerThms JsonModel JsonProofs SerModel SerSpec.
Open Scope N_scope.
Ltac Zify.zify_post_hook ::= Z.div_mod_to_equations.

Lemma memB_In : forall x l, memB x l = true <-> In x l.
Proof.
  intros x l. unfold memB. rewrite existsb_exists. split.
  - intros (y & I & E). apply beq_eq in E. subst. exact I.
  - intros I. exists x. split; [exact I|apply beq_refl].
Qed.
Lemma memB_nIn : forall x l, memB x l = false <-> ~ In x l.
Proof. intros x l. rewrite <- memB_In. destruct (memB x l); split; congruence. Qed.

(** ** digests as primitives *)
Lemma dig_sizes : forall code, In code DigDex -> exists sz, dget Sizes code = Some sz /\ ss sz = 0 /\
  fs sz = Some (if len code =? 1 then 44 else 88) /\ (rawSize sz = Ok (digestSize code)) /\ code <> [].
Proof.
  intros code I. cbn in I.
  repeat (destruct I as [<-|I]; [eexists; split; [vm_compute; reflexivity|]; split; [reflexivity|]; split; [reflexivity|]; split; [vm_compute; reflexivity|discriminate]|]). contradiction.
Qed.
Lemma ntake_all : forall A (l : list A) n, len l = n -> ntake n l = l.
Proof. intros A l n <-. unfold ntake, len. rewrite Nnat.Nat2N.id. apply firstn_all. Qed.
Lemma dig_matter : forall code raw, In code DigDex -> len raw = digestSize code -> matter_of_raw raw code [] None = Ok (mkMatter code [] raw).
Proof.
  intros code raw I L. destruct (dig_sizes code I) as (sz & S & Z & F & R & N). unfold matter_of_raw. rewrite S, F, R, Z. destruct code as [|x code]; [congruence|].
  cbn [bind]. change (0 <? 0) with false. cbn [bind]. rewrite (ntake_all _ raw _ L). rewrite L, N.eqb_refl. reflexivity.
Qed.
Lemma b64_plain : forall x, B64IdxByChr x <> None -> 32 <= x /\ x <> 34 /\ x <> 92 /\ x < 128.
Proof.
  intros x H. unfold B64IdxByChr in H. repeat match type of H with (if ?b then _ else _) <> None => destruct b eqn:? end; try congruence; lia.
Qed.
Lemma dig_text : forall digest code ser, digest_ok digest -> In code DigDex -> exists t, isDigestOf digest code ser t /\
  len t = (if len code =? 1 then 44 else 88) /\ plain t.
Proof.
  intros digest code ser OK I. destruct (OK code ser I) as [O L]. pose proof (dig_matter code _ I L) as M.
  pose proof (built_raw _ _ _ _ _ O M) as B. destruct (c01_text_round_trip _ [] B) as (q & Q & FS & E & _). rewrite app_nil_r in E.
  exists q. split; [split; [exact I|split; assumption]|]. destruct (dig_sizes code I) as (sz & S & Z & F & R & N). unfold fullSize in FS. cbn [m_code] in FS. rewrite S, F in FS. injection FS as FS. split; [auto|].
  destruct (c01_text_layout _ B) as (sz' & q' & _ & Q' & (_ & T & _)). rewrite Q in Q'. injection Q' as <-. eapply Forall_impl; [|exact T]. intros x Hx. apply b64_plain. exact Hx.
Qed.
Lemma digerOf_ok : forall digest code ser, digest_ok digest -> In code DigDex -> ser <> [] -> exists t, digerOf digest code ser = Ok t /\ isDigestOf digest code ser t /\
  len t = (if len code =? 1 then 44 else 88) /\ plain t.
Proof.
  intros digest code ser OK I NE. destruct (dig_text digest code ser OK I) as (t & (I' & E & F) & L & P). exists t. split; [|split; [split; [exact I'|split; assumption]|split; assumption]].
  unfold digerOf. destruct (N.eqb_spec (len ser) 0); [destruct ser; [congruence|unfold len in *; cbn in *; lia]|]. apply memB_In in I. rewrite I. cbn [negb]. apply memB_In in I.
  rewrite (dig_matter code _ I) by (apply OK; exact I). cbn [bind]. exact F.
Qed.
Lemma digerOf_inv : forall digest code ser t, digest_ok digest -> digerOf digest code ser = Ok t -> isDigestOf digest code ser t /\
  len t = (if len code =? 1 then 44 else 88) /\ plain t.
Proof.
  intros digest code ser t OK H. unfold digerOf in H. apply raise_if_ok in H. destruct H as [N H]. apply raise_if_ok in H. destruct H as [I H]. apply negb_false_iff, memB_In in I.
  destruct (dig_text digest code ser OK I) as (t' & (I' & E & F) & L & P). rewrite (dig_matter code _ I) in H by (apply OK; exact I). cbn [bind] in H. rewrite F in H. injection H as ->.
  split; [split; [exact I|split; assumption]|split; assumption].
Qed.
Lemma isDigestOf_fun : forall digest code ser t t', isDigestOf digest code ser t -> isDigestOf digest code ser t' -> t = t'.
Proof. intros digest code ser t t' (_ & _ & A) (_ & _ & B). congruence. Qed.
Lemma dummy_no_code : forall n, codeOf (Some (VStr (repeat 35 n))) = Err ShortageError \/ exists e, codeOf (Some (VStr (repeat 35 n))) = Err e.
Proof. intros [|n]; right; cbn [codeOf repeat]; unfold exfil; cbn; eexists; reflexivity. Qed.

Lemma digestCode_some : forall v cd, digestCode v = Some cd <-> codeOf (Some v) = Ok cd /\ In cd DigDex.
Proof.
  intros v cd. unfold digestCode, codeOf. destruct v; try (split; [discriminate|intros [? ?]; discriminate]).
  destruct (exfil s) as [m|e]; cbn [bind]; [|split; [discriminate|intros [? ?]; discriminate]].
  destruct (memB (m_code m) DigDex) eqn:M.
  - apply memB_In in M. split; [intros E; injection E as <-; auto|intros [E I]; injection E as <-; reflexivity].
  - apply memB_nIn in M. split; [discriminate|intros [E I]; injection E as <-; contradiction].
Qed.
Lemma digestCode_none : forall v cd, codeOf (Some v) = Ok cd -> ~ In cd DigDex -> digestCode v = None.
Proof. intros v cd E N. destruct (digestCode v) as [c'|] eqn:D; [|reflexivity]. apply digestCode_some in D. destruct D as [D I]. rewrite E in D. injection D as <-. contradiction. Qed.

(** one field of a blanked map *)
Definition blankv (labels : list bytes) (k : bytes) (v : val) : val :=
  if memB k labels then match digestCode v, v with Some _, VStr t => VStr (repeat 35 (List.length t)) | _, _ => v end else v.
Lemma blank_keys : forall L sd, keysOf (blank L sd) = keysOf sd.
Proof.
  intros L sd. unfold keysOf, blank. rewrite map_map. apply map_ext. intros [k v]. cbn [fst snd]. destruct (memB k L); [|reflexivity].
  destruct (digestCode v); [|reflexivity]. destruct v; reflexivity.
Qed.
Lemma blank_get : forall L sd k, dget (blank L sd) k = option_map (blankv L k) (dget sd k).
Proof.
  intros L sd k. induction sd as [|[a v] sd IH]; [reflexivity|]. cbn [blank map dget]. fold (blank L sd).
  assert (E : (if memB (fst (a, v)) L then match digestCode (snd (a, v)), snd (a, v) with Some _, VStr t => (fst (a, v), VStr (repeat 35 (List.length t))) | _, _ => (a, v) end else (a, v)) = (a, blankv L a v)).
  { cbn [fst snd]. unfold blankv. destruct (memB a L); [|reflexivity]. destruct (digestCode v); [|reflexivity]. destruct v; reflexivity. }
  rewrite E. destruct (beq_spec k a) as [->|]; [reflexivity|exact IH].
Qed.
Lemma blankv_none : forall L k v, ~ In k L -> blankv L k v = v.
Proof. intros L k v N. unfold blankv. apply memB_nIn in N. rewrite N. reflexivity. Qed.
Lemma blankv_nodig : forall L k v, digestCode v = None -> blankv L k v = v.
Proof. intros L k v N. unfold blankv. rewrite N. destruct (memB k L); destruct v; reflexivity. Qed.
Lemma dummy_len : forall t, dummy (textLen (Some (VStr t))) = VStr (repeat 35 (List.length t)).
Proof. intros t. unfold dummy, textLen, len. rewrite Nnat.Nat2N.id. reflexivity. Qed.

Lemma dummySaids_inv : forall saids sd sd' cds, dummySaids saids sd = Ok (sd', cds) -> NoDup (keysOf saids) ->
  (forall l d, In (l, d) saids -> In d DigDex) ->
  keysOf cds = keysOf saids /\ keysOf sd' = keysOf sd /\ (forall l cd, In (l, cd) cds -> codeOf (dget sd l) = Ok cd) /\
  (forall k, dget sd' k = option_map (blankv (keysOf saids) k) (dget sd k)).
Proof.
  induction saids as [|[l d] saids IH]; intros sd sd' cds H N D.
  - cbn [dummySaids] in H. injection H as <- <-. repeat split; try reflexivity; [intros ? ? []|]. intros k. destruct (dget sd k); reflexivity.
  - cbn [dummySaids] in H. inversion N as [|? ? Nl N']; subst. assert (Id : memB d DigDex = true) by (apply memB_In; apply (D l d); left; reflexivity). rewrite Id in H.
    destruct (codeOf (dget sd l)) as [cd|e] eqn:C; cbn [bind] in H; [|discriminate].
    set (sd1 := if memB cd DigDex then dset sd l (dummy (textLen (dget sd l))) else sd) in H.
    destruct (dummySaids saids sd1) as [[sd2 cds']|e] eqn:R; cbn [bind] in H; [|discriminate]. injection H as -> <-.
    destruct (IH _ _ _ R N' (fun l0 d0 I => D l0 d0 (or_intror I))) as (K1 & K2 & K3 & K4).
    destruct (dget sd l) as [v|] eqn:G; [|discriminate]. assert (Il : In l (keysOf sd)) by (apply dget_keys; eauto).
    assert (KS : keysOf sd1 = keysOf sd) by (unfold sd1; destruct (memB cd DigDex); [apply keys_dset; exact Il|reflexivity]).
    assert (G1 : forall k, k <> l -> dget sd1 k = dget sd k).
    { intros k Nk. unfold sd1. destruct (memB cd DigDex); [|reflexivity]. rewrite dget_dset. apply beq_neq in Nk. rewrite Nk. reflexivity. }
    assert (G2 : dget sd1 l = Some (blankv [l] l v)).
    { unfold sd1. unfold blankv. cbn [memB existsb]. rewrite beq_refl. cbn [orb]. destruct (memB cd DigDex) eqn:M.
      - apply memB_In in M. rewrite dget_dset, beq_refl. assert (DC : digestCode v = Some cd) by (apply digestCode_some; auto). rewrite DC. destruct v; try discriminate. rewrite dummy_len. reflexivity.
      - apply memB_nIn in M. rewrite (digestCode_none _ _ C M). rewrite G. destruct v; reflexivity. }
    split; [cbn [keysOf map fst]; f_equal; exact K1|]. split; [congruence|]. split.
    + intros l' cd' [E|I]; [injection E as <- <-; rewrite G; exact C|]. rewrite <- (K3 _ _ I). f_equal. symmetry. apply G1. intros ->. apply Nl. change (In l (keysOf saids)). rewrite <- K1. exact (in_map fst _ _ I).
    + intros k. rewrite K4. destruct (beq_spec k l) as [->|Nk].
      * rewrite G2, G. cbn [option_map]. rewrite blankv_none by exact Nl. f_equal. unfold blankv. cbn [keysOf map fst memB existsb]. rewrite beq_refl. reflexivity.
      * rewrite (G1 _ Nk). destruct (dget sd k) as [w|]; [|reflexivity]. cbn [option_map]. f_equal. unfold blankv. cbn [keysOf map fst memB existsb]. apply beq_neq in Nk. rewrite Nk. reflexivity.
Qed.

Section Fill.
Variable digest : bytes -> bytes -> bytes.
Lemma fillSaids_inv : forall cds raw sd sd', fillSaids digest cds raw sd = Ok sd' -> NoDup (keysOf cds) -> (forall l, In l (keysOf cds) -> In l (keysOf sd)) ->
  keysOf sd' = keysOf sd /\ (forall l cd, In (l, cd) cds -> In cd DigDex -> exists q, digerOf digest cd raw = Ok q /\ dget sd' l = Some (VStr q)) /\
  (forall k, (forall cd, In (k, cd) cds -> ~ In cd DigDex) -> dget sd' k = dget sd k).
Proof.
  induction cds as [|[l c0] cds IH]; intros raw sd sd' H N S.
  - cbn [fillSaids] in H. injection H as <-. split; [reflexivity|]. split; [intros ? ? []|reflexivity].
  - cbn [fillSaids] in H. inversion N as [|? ? Nl N']; subst. assert (Il : In l (keysOf sd)) by (apply S; left; reflexivity). destruct (memB c0 DigDex) eqn:M.
    + destruct (digerOf digest c0 raw) as [q|] eqn:Q; cbn [bind] in H; [|discriminate].
      assert (KS : keysOf (dset sd l (VStr q)) = keysOf sd) by (apply keys_dset; exact Il).
      destruct (IH _ _ _ H N') as (K1 & K2 & K3). { intros k I. rewrite KS. apply S. right. exact I. }
      split; [congruence|]. split.
      * intros l' cd [E|I] D; [injection E as <- <-|exact (K2 _ _ I D)]. exists q. split; [exact Q|]. rewrite K3; [rewrite dget_dset, beq_refl; reflexivity|].
        intros cd I. exfalso. apply Nl. apply (in_map fst) in I. exact I.
      * intros k F. rewrite K3 by (intros cd I; apply F; right; exact I). rewrite dget_dset. destruct (beq_spec k l) as [->|]; [|reflexivity]. exfalso. apply (F c0); [left; reflexivity|apply memB_In; exact M].
    + cbn [bind] in H. destruct (IH _ _ _ H N') as (K1 & K2 & K3). { intros k I. apply S. right. exact I. }
      split; [exact K1|]. split.
      * intros l' cd [E|I] D; [injection E as <- <-; apply memB_nIn in M; contradiction|exact (K2 _ _ I D)].
      * intros k F. apply K3. intros cd I. apply F. right. exact I.
Qed.
Lemma fillSaids_wf : forall cds raw sd sd', fillSaids digest cds raw sd = Ok sd' -> (forall l, In l (keysOf cds) -> In l (keysOf sd)) -> wfv (VMap sd) -> wfv (VMap sd').
Proof.
  induction cds as [|[l c0] cds IH]; intros raw sd sd' H S W.
  - cbn [fillSaids] in H. injection H as <-. exact W.
  - cbn [fillSaids] in H. assert (Il : In l (keysOf sd)) by (apply S; left; reflexivity). destruct (memB c0 DigDex).
    + destruct (digerOf digest c0 raw) as [q|]; cbn [bind] in H; [|discriminate]. eapply IH; [exact H| |apply wfv_dset; [exact W|exact I|exact Il]].
      intros k I. rewrite keys_dset by exact Il. apply S. right. exact I.
    + cbn [bind] in H. eapply IH; [exact H| |exact W]. intros k I. apply S. right. exact I.
Qed.
End Fill.
Lemma dummySaids_wf : forall saids sd sd' cds, dummySaids saids sd = Ok (sd', cds) -> wfv (VMap sd) -> wfv (VMap sd').
Proof.
  induction saids as [|[l d] saids IH]; intros sd sd' cds H W; cbn [dummySaids] in H.
  - injection H as <- _. exact W.
  - destruct (codeOf (dget sd l)) as [cd|e] eqn:C.
    + cbn [bind] in H. destruct (dget sd l) as [v|] eqn:G; [|discriminate].
      destruct (dummySaids saids _) as [[sd2 cds']|] eqn:R in H; cbn [bind] in H; [|discriminate]. injection H as -> _. apply (IH _ _ _ R).
      destruct (memB cd DigDex); [|exact W]. apply wfv_dset; [exact W|exact I|]. apply dget_keys. eauto.
    + destruct (memB d DigDex) eqn:M; cbn [bind] in H; [discriminate|]. rewrite M in H. destruct (dummySaids saids sd) as [[sd2 cds']|] eqn:R; cbn [bind] in H; [|discriminate]. injection H as -> _. exact (IH _ _ _ R W).
Qed.

(** ** the table of fields *)
Definition tblOk (tbl : list (option bytes * fielddom)) : bool :=
  forallb (fun p => let '(ilk, fd) := p in
    (if list_eq_dec list_N_dec (keysOf (f_saids fd)) (saidFields ilk) then true else false) &&
    forallb (fun kv => memB (snd kv) DigDex) (f_saids fd) && nodupB (keysOf (f_alls fd)) &&
    match keysOf (f_alls fd) with x :: _ => beq x (s2b "v") | [] => false end && negb (memB (s2b "v") (f_opts fd)) &&
    match ilk with Some _ => true | None => negb (memB (s2b "t") (keysOf (f_alls fd))) end) tbl.
Lemma fields_ok : forall proto vrsn tbl, Fields proto vrsn = Some tbl -> tblOk tbl = true.
Proof.
  intros proto vrsn tbl H. unfold Fields in H. destruct (beq proto (s2b "KERI")).
  - destruct (_ && _) in H; [injection H as <-; vm_compute; reflexivity|]. destruct (_ && _) in H; [injection H as <-; vm_compute; reflexivity|discriminate].
  - destruct (beq proto (s2b "ACDC")); [|discriminate]. destruct (_ && _) in H; [injection H as <-; vm_compute; reflexivity|]. destruct (_ && _) in H; [injection H as <-; vm_compute; reflexivity|discriminate].
Qed.
Lemma ilkget_In : forall tbl ilk fd, ilkget tbl ilk = Some fd -> In (ilk, fd) tbl.
Proof.
  induction tbl as [|[k f] tbl IH]; intros ilk fd H; cbn [ilkget] in H; [discriminate|]. destruct k as [a|], ilk as [b|]; try (right; apply IH; exact H).
  - destruct (beq_spec a b) as [->|]; [left; congruence|right; apply IH; exact H].
  - left. congruence.
Qed.
Record fdOk (ilk : option bytes) (fd : fielddom) : Prop := {
  fo_saids : keysOf (f_saids fd) = saidFields ilk;
  fo_dig : forall l d, In (l, d) (f_saids fd) -> In d DigDex;
  fo_nodup : NoDup (keysOf (f_alls fd));
  fo_v : exists r, keysOf (f_alls fd) = s2b "v" :: r;
  fo_vopt : ~ In (s2b "v") (f_opts fd) }.
Lemma fd_ok : forall proto vrsn tbl ilk fd, Fields proto vrsn = Some tbl -> ilkget tbl ilk = Some fd -> fdOk ilk fd.
Proof.
  intros proto vrsn tbl ilk fd F G. apply fields_ok in F. apply ilkget_In in G. unfold tblOk in F. rewrite forallb_forall in F. specialize (F _ G). cbn beta iota in F.
  repeat match type of F with _ && _ = true => let H := fresh in apply andb_true_iff in F; destruct F as [F H] end.
  constructor.
  - destruct (list_eq_dec list_N_dec (keysOf (f_saids fd)) (saidFields ilk)); [assumption|discriminate].
  - intros l d I. rewrite forallb_forall in H3. specialize (H3 _ I). apply memB_In. exact H3.
  - apply nodupB_ok. assumption.
  - destruct (keysOf (f_alls fd)) as [|x r]; [discriminate|]. apply beq_eq in H1. subst. eauto.
  - apply memB_nIn. apply negb_true_iff. assumption.
Qed.
Lemma saidFields_nodup : forall ilk, NoDup (saidFields ilk) /\ ~ In (s2b "v") (saidFields ilk) /\ ~ In (s2b "t") (saidFields ilk).
Proof.
  intros ilk. assert (A : saidFields ilk = [] \/ saidFields ilk = [s2b "d"; s2b "i"] \/ saidFields ilk = [s2b "d"]).
  { unfold saidFields. destruct ilk as [t|]; [|auto]. destruct (beq t _); [auto|]. destruct (memB t _); auto. }
  destruct A as [->|[->| ->]]; (split; [apply nodupB_ok; reflexivity|]); split; cbn; intuition discriminate.
Qed.
Lemma checkFields_v : forall ilk fd keys, fdOk ilk fd -> checkFields fd keys = Ok tt -> exists r, keys = s2b "v" :: r.
Proof.
  intros ilk fd keys [_ _ _ [r E] NO] H. unfold checkFields in H. apply raise_if_ok in H. destruct H as [_ H]. apply raise_if_ok in H. destruct H as [_ H]. apply raise_if_ok in H. destruct H as [P _].
  apply negb_false_iff in P. rewrite E in P. unfold osub at 1 in P. cbn [filter] in P.
  assert (M : memB (s2b "v") (osub (f_opts fd) (osub (osub keys (osub (s2b "v" :: r) (f_opts fd))) (osub keys (s2b "v" :: r)))) = false).
  { apply memB_nIn. intros I. apply NO. unfold osub at 1 in I. apply filter_In in I. tauto. }
  rewrite M in P. cbn [negb] in P. destruct keys as [|k keys]; [discriminate|]. cbn [prefixB] in P. apply andb_true_iff in P. destruct P as [P _]. apply beq_eq in P. subst. eauto.
Qed.

Section Lib.
Variable digest : bytes -> bytes -> bytes.
Variable odumps : bytes -> sad -> res bytes.
Variable cdumps : bytes -> versionage -> option versionage -> sad -> res bytes.
Variable loads : bytes -> bytes -> res sad.
Notation dumps := (dumps odumps cdumps).
Notation compute := (compute digest odumps cdumps).
Notation verifyBase := (verifyBase digest odumps cdumps).

Record shape (req : option bytes) (s : serder) (ilk : option bytes) (cds : list (bytes * bytes)) (sd0 : sad) (raw0 vs : bytes) (sd1 : sad) (D : bytes) (sd2 : sad) (sm : smellage) : Prop := {
  sh_req : match req with Some p => d_proto s = p | None => True end;
  sh_ilk : ilkOf (d_sad s) = Ok ilk;
  sh_tbl : exists tbl fd, Fields (d_proto s) (d_pvrsn s) = Some tbl /\ ilkget tbl ilk = Some fd /\ checkFields fd (keysOf (d_sad s)) = Ok tt /\ fdOk ilk fd;
  sh_cds : keysOf cds = saidFields ilk;
  sh_code : forall l cd, In (l, cd) cds -> codeOf (dget (d_sad s) l) = Ok cd;
  sh_k0 : keysOf sd0 = keysOf (d_sad s);
  sh_g0 : forall k, dget sd0 k = option_map (blankv (saidFields ilk) k) (dget (d_sad s) k);
  sh_raw0 : dumps s sd0 = Ok raw0;
  sh_vs : versify (d_proto s) (d_pvrsn s) (d_kind s) (len raw0) (d_gvrsn s) = Ok vs;
  sh_sd1 : sd1 = dset sd0 (s2b "v") (VStr vs);
  sh_D : dumps s sd1 = Ok D;
  sh_fill : fillSaids digest cds D sd1 = Ok sd2;
  sh_raw : dumps s sd2 = Ok (d_raw s);
  sh_sm : deversify vs = Ok sm;
  sh_eq : d_proto s = s_proto sm /\ d_pvrsn s = s_pvrsn sm /\ d_kind s = s_kind sm /\ d_gvrsn s = s_gvrsn sm;
  sh_size : s_size sm = d_size s \/ d_size s = len (d_raw s) }.

Lemma veq_eq : forall a b, veq a b = true -> a = b.
Proof. intros [a b] [x y] H. unfold veq in H. cbn [fst snd] in H. apply andb_true_iff in H. destruct H as [A B]. apply N.eqb_eq in A, B. congruence. Qed.
Lemma oveq_eq : forall a b, oveq a b = true -> a = b.
Proof. intros [a|] [b|] H; cbn [oveq] in H; try discriminate; [|reflexivity]. f_equal. apply veq_eq. exact H. Qed.
Lemma kindB : forall k, beq k KindCesr = false <-> k <> KindCesr. Proof. intros. apply beq_neq. Qed.

Lemma verify_shape : forall req s, verifyBase req s = Ok tt -> d_kind s <> KindCesr ->
  exists ilk cds sd0 raw0 vs sd1 D sd2 sm, shape req s ilk cds sd0 raw0 vs sd1 D sd2 sm.
Proof.
  intros req s H K. apply kindB in K. unfold SerModel.verifyBase in H. apply bind_ok in H. destruct H as ([sd0 cds] & V & H). unfold validate in V.
  apply raise_if_ok in V. destruct V as [R V]. apply raise_if_ok in V. destruct V as [_ V]. apply raise_if_ok in V. destruct V as [_ V]. apply raise_if_ok in V. destruct V as [_ V].
  destruct (Fields (d_proto s) (d_pvrsn s)) as [tbl|] eqn:FT; [|discriminate]. apply bind_ok in V. destruct V as (ilk & IL & V). destruct (ilkget tbl ilk) as [fd|] eqn:IG; [|discriminate].
  apply bind_ok in V. destruct V as ([] & CF & V). pose proof (fd_ok _ _ _ _ _ FT IG) as FO.
  destruct (saidFields_nodup ilk) as (SN & SV & _).
  destruct (dummySaids_inv _ _ _ _ V) as (K1 & K2 & K3 & K4). { rewrite (fo_saids _ _ FO). exact SN. } { apply (fo_dig _ _ FO). }
  apply bind_ok in H. destruct H as ([[sd2 raw] size] & C & H). unfold SerModel.compute in C. rewrite K in C. cbn [negb] in C.
  apply bind_ok in C. destruct C as (raw0 & R0 & C). apply bind_ok in C. destruct C as (vs & VS & C). apply bind_ok in C. destruct C as (D & RD & C). apply bind_ok in C. destruct C as (sd2' & FI & C).
  apply bind_ok in C. destruct C as (raw' & RR & C). apply ok_inj in C. injection C as <- <- <-.
  apply raise_if_ok in H. destruct H as [EQ H]. apply negb_false_iff, beq_eq in EQ. subst raw'.
  assert (G2 : dget sd2' (s2b "v") = Some (VStr vs)).
  { destruct (fillSaids_inv digest _ _ _ _ FI) as (_ & _ & G).
    - rewrite K1, (fo_saids _ _ FO). exact SN.
    - intros l I. destruct (checkFields_v _ _ _ FO CF) as (r & KV). rewrite keys_dset by (rewrite K2, KV; left; reflexivity). rewrite K2. apply dget_keys.
      apply in_map_iff in I. destruct I as ([l' cd] & <- & I). specialize (K3 _ _ I). cbn [fst]. destruct (dget (d_sad s) l'); [eauto|discriminate].
    - rewrite G; [rewrite dget_dset, beq_refl; reflexivity|]. intros cd I. exfalso. apply SV. rewrite <- (fo_saids _ _ FO), <- K1. exact (in_map fst _ _ I). }
  rewrite G2 in H. apply bind_ok in H. destruct H as (sm & DV & H).
  apply raise_if_ok in H. destruct H as [E1 H]. apply raise_if_ok in H. destruct H as [E2 H]. apply raise_if_ok in H. destruct H as [E3 H]. rewrite K in H. cbn [negb] in H. apply raise_if_ok in H. destruct H as [E4 H].
  apply raise_if_ok in H. destruct H as [E5 _]. apply negb_false_iff in E1, E2, E3, E5. apply beq_eq in E1, E3. apply veq_eq in E2. apply oveq_eq in E5.
  exists ilk, cds, sd0, raw0, vs, (dset sd0 (s2b "v") (VStr vs)), D, sd2', sm. constructor; auto.
  - destruct req as [p|]; [|exact I]. apply negb_false_iff, beq_eq in R. exact R.
  - exists tbl, fd. auto.
  - rewrite K1. apply (fo_saids _ _ FO).
  - intros k. rewrite <- (fo_saids _ _ FO). apply K4.
  - apply andb_false_iff in E4. destruct E4 as [E4|E4]; apply negb_false_iff, N.eqb_eq in E4; auto.
Qed.
End Lib.
