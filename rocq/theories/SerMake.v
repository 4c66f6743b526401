(** Messages made by the constructor verify, and read back. *)
From Verif Require Import Prelude B64Model B64Proofs MatterModel MatterProofs MatterInv MatterSpec MatterThms SubsModel SubsProofs ThModel VerModel VerThms JsonModel JsonProofs SerModel SerSpec SerProofs SerInv.
Open Scope N_scope.
Ltac Zify.zify_post_hook ::= Z.div_mod_to_equations.

(** ** the tables of KERI messages *)
Definition tblOk2 (tbl : list (option bytes * fielddom)) : bool :=
  forallb (fun p => let '(ilk, fd) := p in
    forallb (fun kv => memB (fst kv) (osub (keysOf (f_alls fd)) (f_opts fd))) (f_saids fd) &&
    match ilk with Some _ => memB (s2b "t") (osub (keysOf (f_alls fd)) (f_opts fd)) | None => true end && forallb (fun kv => wfvB (snd kv)) (f_alls fd)) tbl.
Lemma keri_tbl : forall vrsn tbl, Fields (s2b "KERI") vrsn = Some tbl -> tblOk2 tbl = true /\ (fst vrsn = 1 \/ fst vrsn = 2).
Proof.
  intros vrsn tbl H. unfold Fields in H. change (beq (s2b "KERI") (s2b "KERI")) with true in H. cbv iota in H.
  destruct ((fst vrsn =? 1) && (snd vrsn =? 0)) eqn:E in H; [injection H as <-; split; [vm_compute; reflexivity|apply andb_true_iff in E; left; apply N.eqb_eq; tauto]|].
  destruct ((fst vrsn =? 2) && (snd vrsn =? 0)) eqn:E2 in H; [injection H as <-; split; [vm_compute; reflexivity|apply andb_true_iff in E2; right; apply N.eqb_eq; tauto]|discriminate].
Qed.
Record fdOk2 (ilk : option bytes) (fd : fielddom) : Prop := {
  fo2_saids : forall l, In l (keysOf (f_saids fd)) -> In l (keysOf (f_alls fd)) /\ ~ In l (f_opts fd);
  fo2_t : forall x, ilk = Some x -> In (s2b "t") (keysOf (f_alls fd)) /\ ~ In (s2b "t") (f_opts fd);
  fo2_wf : forall k v, In (k, v) (f_alls fd) -> wfv v }.
Lemma fd_ok2 : forall vrsn tbl ilk fd, Fields (s2b "KERI") vrsn = Some tbl -> ilkget tbl ilk = Some fd -> fdOk2 ilk fd.
Proof.
  intros vrsn tbl ilk fd F G. destruct (keri_tbl _ _ F) as [K _]. apply ilkget_In in G. unfold tblOk2 in K. rewrite forallb_forall in K. specialize (K _ G). cbn beta iota in K.
  apply andb_true_iff in K. destruct K as [K W]. apply andb_true_iff in K. destruct K as [A T].
  assert (X : forall l, memB l (osub (keysOf (f_alls fd)) (f_opts fd)) = true -> In l (keysOf (f_alls fd)) /\ ~ In l (f_opts fd)).
  { intros l M. apply memB_In in M. unfold osub in M. apply filter_In in M. destruct M as [I M]. apply negb_true_iff, memB_nIn in M. auto. }
  constructor.
  - intros l I. apply in_map_iff in I. destruct I as ([l' d] & <- & I). rewrite forallb_forall in A. apply X. exact (A _ I).
  - intros x ->. apply X. exact T.
  - intros k v I. rewrite forallb_forall in W. apply wfvB_ok. exact (W _ I).
Qed.
Lemma prefixB_In : forall a b x, prefixB a b = true -> In x a -> In x b.
Proof.
  induction a as [|y a IH]; intros [|z b] x P I; try contradiction; try discriminate. cbn [prefixB] in P. apply andb_true_iff in P. destruct P as [E P]. apply beq_eq in E. subst z.
  destruct I as [<-|I]; [left; reflexivity|right; eauto].
Qed.
Lemma checkFields_req : forall fd keys l, checkFields fd keys = Ok tt -> In l (keysOf (f_alls fd)) -> ~ In l (f_opts fd) -> In l keys.
Proof.
  intros fd keys l H I N. unfold checkFields in H. apply raise_if_ok in H. destruct H as [_ H]. apply raise_if_ok in H. destruct H as [_ H]. apply raise_if_ok in H. destruct H as [P _].
  apply negb_false_iff in P. eapply prefixB_In; [exact P|]. unfold osub at 1. apply filter_In. split; [exact I|]. apply negb_true_iff, memB_nIn. intros J. unfold osub at 1 in J. apply filter_In in J. tauto.
Qed.

(** ** arranging the fields *)
Lemma wfv_dset' : forall m k v, wfv (VMap m) -> wfv v -> wfv (VMap (dset m k v)).
Proof.
  intros m k v W V. destruct (in_dec list_N_dec k (keysOf m)) as [I|N]; [apply wfv_dset; assumption|].
  assert (E : dset m k v = m ++ [(k, v)]). { clear W. induction m as [|[a x] m IH]; [reflexivity|]. cbn [dset]. cbn [keysOf map fst In] in N. destruct (beq_spec k a) as [Q|Q]; [exfalso; apply N; left; auto|]. cbn [app]. f_equal. apply IH. intros I. apply N. right. exact I. }
  rewrite E. apply wfv_values in W. destruct W as [ND W]. apply wfv_values. split.
  - unfold keysOf. rewrite map_app. cbn [map fst]. apply NoDup_Add with (a := k) (l := map fst m); [|split; assumption].
    rewrite <- (app_nil_r (map fst m)) at 1. apply Add_app.
  - intros k' v' I. apply in_app_or in I. destruct I as [I|[I|[]]]; [eapply W; exact I|congruence].
Qed.
Lemma NoDup_keys_app : forall (a b : sad), NoDup (keysOf a) -> NoDup (keysOf b) -> (forall k, In k (keysOf a) -> ~ In k (keysOf b)) -> NoDup (keysOf (a ++ b)).
Proof.
  intros a b Na Nb D. unfold keysOf in *. rewrite map_app. induction a as [|[k v] a IH]; [exact Nb|]. cbn [map fst app] in *. inversion Na as [|? ? X Y]; subst. constructor.
  - rewrite in_app_iff. intros [I|I]; [contradiction|]. apply (D k); [left; reflexivity|exact I].
  - apply IH; [exact Y|]. intros k' I. apply D. right. exact I.
Qed.
Lemma filter_keys_nodup : forall (f : bytes * val -> bool) (d : sad), NoDup (keysOf d) -> NoDup (keysOf (filter f d)).
Proof.
  intros f d. induction d as [|[k v] d IH]; intros N; [constructor|]. cbn [filter]. inversion N as [|? ? X Y]; subst. destruct (f (k, v)); [|auto]. cbn [keysOf map fst]. constructor; [|auto].
  intros I. apply X. apply in_map_iff in I. destruct I as (p & E & I). apply filter_In in I. apply in_map_iff. exists p. tauto.
Qed.
Lemma arrange_wf : forall fd sd, (forall k v, In (k, v) (f_alls fd) -> wfv v) -> NoDup (keysOf (f_alls fd)) -> wfv (VMap sd) -> wfv (VMap (arrange fd sd)).
Proof.
  intros fd sd WD ND W. unfold arrange.
  set (full := fold_left _ _ _). assert (WF : wfv (VMap full)).
  { unfold full. clear full. generalize (osub (keysOf (f_alls fd)) (f_opts fd)). intros L. clear ND. revert sd W. induction (f_alls fd) as [|[k v] al IH]; intros sd W; [exact W|].
    cbn [fold_left fst snd]. apply IH; [intros k' v' I; apply (WD k' v'); right; exact I|]. destruct (_ && _); [|exact W]. apply wfv_dset'; [exact W|]. apply (WD k v). left. reflexivity. }
  clearbody full. set (front := flat_map _ _). apply wfv_values in WF. destruct WF as [NF WF].
  assert (FK : forall k, In k (keysOf front) -> In k (keysOf (f_alls fd))).
  { intros k I. apply in_map_iff in I. destruct I as ([k' v] & <- & I). unfold front in I. apply in_flat_map in I. destruct I as ([k2 v2] & I & J). cbn [fst] in J. destruct (dget full k2); [|contradiction]. destruct J as [J|[]]. injection J as <- <-. exact (in_map fst _ _ I). }
  assert (FN : NoDup (keysOf front)).
  { unfold front. clear FK front WD. revert ND. induction (f_alls fd) as [|[k v] al IH]; intros N; [constructor|]. inversion N as [|? ? X Y]; subst. cbn [flat_map fst]. destruct (dget full k) as [w|]; [|apply IH; exact Y].
    cbn [app keysOf map fst]. constructor; [|apply IH; exact Y]. intros I. apply X. apply in_map_iff in I. destruct I as ([k' u] & <- & I). apply in_flat_map in I. destruct I as ([k2 v2] & I & J). cbn [fst] in J. destruct (dget full k2); [|contradiction]. destruct J as [J|[]]. injection J as <- <-. exact (in_map fst _ _ I). }
  apply wfv_values. split.
  - apply NoDup_keys_app; [exact FN|apply filter_keys_nodup; exact NF|]. intros k I J. apply in_map_iff in J. destruct J as ([k' v] & <- & J). apply filter_In in J. destruct J as [_ J]. cbn [fst] in J. apply negb_true_iff, memB_nIn in J. contradiction.
  - intros k v I. apply in_app_or in I. destruct I as [I|I].
    + unfold front in I. apply in_flat_map in I. destruct I as ([k2 v2] & I & J). cbn [fst] in J. destruct (dget full k2) eqn:G; [|contradiction]. destruct J as [J|[]]. injection J as <- <-. eapply WF. apply dget_In'. exact G.
    + apply filter_In in I. eapply WF. exact (proj1 I).
Qed.

(** ** said fields *)
Lemma overSaids_inv : forall over saids sd sd' cds, overSaids over saids sd = Ok (sd', cds) -> NoDup (keysOf saids) -> (forall l, In l (keysOf saids) -> In l (keysOf sd)) ->
  (forall l d, In (l, d) saids -> In d DigDex) -> (forall l d, In (l, d) over -> In d DigDex) -> wfv (VMap sd) ->
  keysOf cds = keysOf saids /\ keysOf sd' = keysOf sd /\ wfv (VMap sd') /\
  (forall l cd, In (l, cd) cds -> In cd DigDex -> exists n, dget sd' l = Some (VStr (repeat 35 n)) /\ N.of_nat n = (if len cd =? 1 then 44 else 88)) /\
  (forall l cd, In (l, cd) cds -> ~ In cd DigDex -> codeOf (dget sd' l) = Ok cd) /\
  (forall k, ~ In k (keysOf saids) -> dget sd' k = dget sd k).
Proof.
  intros over saids. induction saids as [|[l d] saids IH]; intros sd sd' cds H N KS D O W; cbn [overSaids] in H.
  - injection H as <- <-. split; [reflexivity|]. split; [reflexivity|]. split; [exact W|]. split; [intros ? ? []|]. split; [intros ? ? []|]. reflexivity.
  - inversion N as [|? ? Nl N']; subst.
    set (cd0 := match dget over l with Some cd => cd | None => match codeOf (dget sd l) with Ok cd => cd | Err _ => d end end) in H.
    assert (CN : ~ In cd0 DigDex -> codeOf (dget sd l) = Ok cd0).
    { intros X. unfold cd0 in *. destruct (dget over l) eqn:G; [exfalso; apply X; eapply O; apply dget_In'; exact G|]. destruct (codeOf (dget sd l)); [reflexivity|]. exfalso. apply X. eapply D. left. reflexivity. }
    clearbody cd0. assert (Il : In l (keysOf sd)) by (apply KS; left; reflexivity).
    destruct (memB cd0 DigDex) eqn:M.
    + apply memB_In in M. destruct (dig_sizes cd0 M) as (sz & S & _ & F & _). rewrite S, F in H. cbn [bind] in H.
      destruct (overSaids over saids _) as [[sd2 cds']|] eqn:R in H; cbn [bind] in H; [|discriminate]. injection H as -> <-.
      set (f := if len cd0 =? 1 then 44 else 88) in *.
      destruct (IH _ _ _ R N') as (K1 & K2 & K3 & K4 & K5 & K6); [intros l' I; rewrite keys_dset by exact Il; apply KS; right; exact I|intros l' d' I; apply (D l' d'); right; exact I|exact O|apply wfv_dset; [exact W|exact I|exact Il]|].
      rewrite keys_dset in K2 by exact Il. split; [cbn [keysOf map fst]; f_equal; exact K1|]. split; [exact K2|]. split; [exact K3|]. split.
      { intros l' cd [E|I] DD; [|apply (K4 _ _ I DD)]. injection E as <- <-. rewrite (K6 l Nl), dget_dset, beq_refl. exists (N.to_nat f). split; [reflexivity|]. apply Nnat.N2Nat.id. }
      split. { intros l' cd [E|I] DD; [injection E as <- <-; contradiction|apply (K5 _ _ I DD)]. }
      intros k X. rewrite K6 by (intros I; apply X; right; exact I). rewrite dget_dset. destruct (beq_spec k l) as [Q|]; [|reflexivity]. exfalso. apply X. left. auto.
    + apply memB_nIn in M. cbn [bind] in H. destruct (overSaids over saids sd) as [[sd2 cds']|] eqn:R; cbn [bind] in H; [|discriminate]. injection H as -> <-.
      destruct (IH _ _ _ R N') as (K1 & K2 & K3 & K4 & K5 & K6); [intros l' I; apply KS; right; exact I|intros l' d' I; apply (D l' d'); right; exact I|exact O|exact W|].
      split; [cbn [keysOf map fst]; f_equal; exact K1|]. split; [exact K2|]. split; [exact K3|]. split.
      { intros l' cd [E|I] DD; [injection E as <- <-; contradiction|apply (K4 _ _ I DD)]. }
      split. { intros l' cd [E|I] DD; [|apply (K5 _ _ I DD)]. injection E as <- <-. rewrite (K6 l Nl). apply CN. exact M. }
      intros k X. apply K6. intros I. apply X. right. exact I.
Qed.
Lemma dummySaids_ok : forall saids sd, NoDup (keysOf saids) -> (forall l, In l (keysOf saids) -> exists cd, codeOf (dget sd l) = Ok cd) -> exists sd' cds, dummySaids saids sd = Ok (sd', cds).
Proof.
  induction saids as [|[l d] saids IH]; intros sd N C; cbn [dummySaids]; [eauto|]. inversion N as [|? ? Nl N']; subst.
  destruct (C l (or_introl eq_refl)) as (cd & E). rewrite E. cbn [bind].
  destruct (IH (if memB cd DigDex then dset sd l (dummy (textLen (dget sd l))) else sd) N') as (sd' & cds & R); [|rewrite R; cbn [bind]; eauto].
  intros l' I. destruct (memB cd DigDex); [|apply C; right; exact I]. rewrite dget_dset. destruct (beq_spec l' l) as [Q|]; [subst; contradiction|]. apply C. right. exact I.
Qed.

Section Lib.
Variable digest : bytes -> bytes -> bytes.
Variable odumps : bytes -> sad -> res bytes.
Variable cdumps : bytes -> versionage -> option versionage -> sad -> res bytes.
Variable loads : bytes -> bytes -> res sad.
Hypothesis DOK : digest_ok digest.
Hypothesis LIB : library odumps loads.
Notation dumps := (dumps odumps cdumps).
Notation compute := (compute digest odumps cdumps).
Notation verifyBase := (verifyBase digest odumps cdumps).
Notation makify := (makify digest odumps cdumps).

Record made (s : serder) (ilk : option bytes) (tbl : list (option bytes * fielddom)) (fd : fielddom) (sd4 : sad) (cds : list (bytes * bytes)) (raw0 vs : bytes) (sd1 : sad) (D : bytes) : Prop := {
  md_tbl : Fields (d_proto s) (d_pvrsn s) = Some tbl;
  md_fd : ilkget tbl ilk = Some fd;
  md_gv : match d_gvrsn s with Some g => fst g <? 2 | None => false end = false;
  md_chk : checkFields fd (keysOf sd4) = Ok tt;
  md_wf : wfv (VMap sd4);
  md_v : dget sd4 (s2b "v") = Some (dummy (Spans (d_pvrsn s)));
  md_ilk : ilkOf sd4 = Ok ilk;
  md_cds : keysOf cds = keysOf (f_saids fd);
  md_dig : forall l cd, In (l, cd) cds -> In cd DigDex -> exists n, dget sd4 l = Some (VStr (repeat 35 n)) /\ N.of_nat n = (if len cd =? 1 then 44 else 88);
  md_code : forall l cd, In (l, cd) cds -> ~ In cd DigDex -> codeOf (dget sd4 l) = Ok cd;
  md_raw0 : dumps s sd4 = Ok raw0;
  md_vs : versify (d_proto s) (d_pvrsn s) (d_kind s) (len raw0) (d_gvrsn s) = Ok vs;
  md_sd1 : sd1 = dset sd4 (s2b "v") (VStr vs);
  md_D : dumps s sd1 = Ok D;
  md_fill : fillSaids digest cds D sd1 = Ok (d_sad s);
  md_raw : dumps s (d_sad s) = Ok (d_raw s);
  md_size : d_size s = len raw0 }.

Lemma makify_made : forall req args sd s, makify req args sd = Ok s -> wfv (VMap sd) -> d_kind s <> KindCesr -> d_proto s = s2b "KERI" ->
  (forall l d, In (l, d) (a_saids args) -> In d DigDex) ->
  exists ilk tbl fd sd4 cds raw0 vs sd1 D, made s ilk tbl fd sd4 cds raw0 vs sd1 D.
Proof.
  intros req args sd s H W NK PK O. unfold SerModel.makify in H. apply bind_ok in H. destruct H as ([s0 cds] & P & H). apply bind_ok in H. destruct H as ([[sdF rawF] szF] & C & H). apply ok_inj in H. subst s. cbn [d_kind d_proto] in NK, PK.
  unfold makifyPre in P. apply bind_ok in P. destruct P as ([[[[sproto spvrsn] skind] sgvrsn] silk] & _ & P).
  set (proto := match orElse (a_proto args) sproto with Some p => p | None => s2b "KERI" end) in P.
  apply raise_if_ok in P. destruct P as [_ P]. apply raise_if_ok in P. destruct P as [_ P].
  set (pvrsn := match orElse (a_pvrsn args) spvrsn with Some p => p | None => (2, 0) end) in P.
  destruct (Fields proto pvrsn) as [tbl|] eqn:FT; [|discriminate].
  set (gvrsn := match orElse (a_gvrsn args) sgvrsn with Some g => Some g | None => if 2 <=? fst pvrsn then Some (2, 0) else None end) in P.
  apply raise_if_ok in P. destruct P as [GV P].
  set (kind := match orElse (a_kind args) skind with Some p => p | None => KindCesr end) in P.
  set (ilk := match orElse (a_ilk args) silk with Some i => Some i | None => match tbl with (k, _) :: _ => k | [] => None end end) in P.
  apply raise_if_ok in P. destruct P as [_ P]. destruct (ilkget tbl ilk) as [fd|] eqn:FD; [|discriminate].
  set (sdA := arrange fd sd) in P. set (sdB := if memB (s2b "t") (keysOf sdA) then _ else _) in P.
  destruct (checkFields fd (keysOf sdB)) as [[]|] eqn:CF; cbn [bind] in P; [|discriminate].
  apply bind_ok in P. destruct P as ([sdC cds'] & OS & P). apply ok_inj in P. injection P as <- ->. cbn [d_sad d_proto d_pvrsn d_gvrsn d_kind] in *.
  clearbody proto pvrsn gvrsn kind ilk. subst proto. apply beq_neq in NK. rewrite NK in C. cbn [negb] in C.
  pose proof (fd_ok _ _ _ _ _ FT FD) as FO. pose proof (fd_ok2 _ _ _ _ FT FD) as FO2. destruct (saidFields_nodup ilk) as (SN & SV & ST).
  assert (WA : wfv (VMap sdA)) by (apply arrange_wf; [exact (fo2_wf _ _ FO2)|exact (fo_nodup _ _ FO)|exact W]).
  assert (KB : keysOf sdB = keysOf sdA). { unfold sdB. destruct (memB (s2b "t") (keysOf sdA)) eqn:M; [|reflexivity]. apply memB_In in M. apply keys_dset. exact M. }
  assert (WB : wfv (VMap sdB)). { unfold sdB. destruct (memB (s2b "t") (keysOf sdA)) eqn:M; [|exact WA]. apply wfv_dset'; [exact WA|]. destruct ilk; exact Logic.I. }
  assert (IB : ilkOf sdB = Ok ilk).
  { unfold sdB, ilkOf. destruct (memB (s2b "t") (keysOf sdA)) eqn:M.
    - rewrite dget_dset, beq_refl. destruct ilk; reflexivity.
    - apply memB_nIn in M. destruct (dget sdA (s2b "t")) eqn:G; [exfalso; apply M; apply dget_keys; eauto|]. destruct ilk as [x|]; [|reflexivity]. exfalso. apply M. rewrite <- KB.
      destruct (fo2_t _ _ FO2 x eq_refl) as [A B]. eapply checkFields_req; eassumption. }
  destruct (overSaids_inv _ _ _ _ _ OS) as (K1 & K2 & K3 & K4 & K5 & K6); [rewrite (fo_saids _ _ FO); exact SN|intros l I; destruct (fo2_saids _ _ FO2 l I) as [A B]; eapply checkFields_req; eassumption|exact (fo_dig _ _ FO)|exact O|exact WB|].
  assert (KV : In (s2b "v") (keysOf sdC)). { rewrite K2. destruct (checkFields_v _ _ _ FO CF) as (r & ->). left. reflexivity. }
  unfold SerModel.compute in C. cbn [d_kind d_proto d_pvrsn d_gvrsn] in C. rewrite NK in C. cbn [negb] in C.
  apply bind_ok in C. destruct C as (raw0 & R0 & C). cbv zeta in C. apply bind_ok in C. destruct C as (vs & VS & C). apply bind_ok in C. destruct C as (D & RD & C). apply bind_ok in C. destruct C as (sd2 & FI & C). apply bind_ok in C. destruct C as (raw & RR & C). apply ok_inj in C. injection C as <- <- <-.
  rewrite <- (fo_saids _ _ FO) in SV, ST. clear SN.
  assert (DN : forall l cd, In (l, cd) cds -> l <> s2b "v"). { intros l cd I ->. apply SV. rewrite <- K1. exact (in_map fst _ _ I). }
  exists ilk, tbl, fd, (dset sdC (s2b "v") (dummy (Spans pvrsn))), cds, raw0, vs, (dset (dset sdC (s2b "v") (dummy (Spans pvrsn))) (s2b "v") (VStr vs)), D.
  constructor; cbn [d_proto d_pvrsn d_gvrsn d_kind d_sad d_raw d_size]; auto.
  - rewrite keys_dset by exact KV. rewrite K2. exact CF.
  - apply wfv_dset; [exact K3|exact Logic.I|exact KV].
  - rewrite dget_dset, beq_refl. reflexivity.
  - unfold ilkOf in *. rewrite dget_dset. change (beq (s2b "t") (s2b "v")) with false. cbv iota. rewrite (K6 _ ST). exact IB.
  - intros l cd I DD. rewrite dget_dset. pose proof (DN _ _ I) as X. apply beq_neq in X. rewrite X. apply (K4 _ _ I DD).
  - intros l cd I DD. rewrite dget_dset. pose proof (DN _ _ I) as X. apply beq_neq in X. rewrite X. apply (K5 _ _ I DD).
Qed.
Lemma vs_span : forall sm vs, fits sm -> vs_of sm = Ok vs -> fst (s_pvrsn sm) = 1 \/ fst (s_pvrsn sm) = 2 -> len vs = Spans (s_pvrsn sm).
Proof.
  intros [proto [major minor] kind size gv] vs (P & H) V M. unfold vs_of in V. cbn [s_proto s_pvrsn s_kind s_size s_gvrsn fst] in *. unfold Spans. cbn [fst].
  assert (MP : memB proto Protocols = true) by (apply memB_In; exact P). unfold versify in V. rewrite MP in V. cbn [negb] in V. destruct H as [(A & B & S & K & ->)|(-> & B & S & K & g & G & ->)].
  - assert (MK : memB kind Kinds = true). { apply memB_In. unfold Kinds. cbn [In] in K |- *. tauto. }
    rewrite MK in V. cbn [negb] in V. destruct (N.ltb_spec major 2) as [L|L]; [|lia].
    assert (NC : beq kind KindCesr = false). { apply beq_neq. intros ->. cbn in K. intuition discriminate. } rewrite NC in V. apply ok_inj in V. subst vs.
    destruct (deversify_app1 proto kind major minor size [] P K A B S) as (LL & _). destruct (N.eqb_spec major 1); [|lia]. unfold len. cbv zeta in LL. rewrite LL. reflexivity.
  - assert (MK : memB kind Kinds = true). { apply memB_In. exact K. }
    rewrite MK in V. cbn [negb] in V. change (2 <? 2) with false in V. change (2 =? 2) with true in V. cbn [negb] in V. apply ok_inj in V. subst vs.
    destruct (deversify_app2 proto kind minor g size [] P K B G S) as (LL & _). change (2 =? 1) with false. unfold len. cbv zeta in LL. rewrite LL. reflexivity.
Qed.
Lemma cds_fun : forall (f : bytes -> res bytes) (a b : list (bytes * bytes)), keysOf a = keysOf b -> (forall l cd, In (l, cd) a -> f l = Ok cd) -> (forall l cd, In (l, cd) b -> f l = Ok cd) -> a = b.
Proof.
  intros f a. induction a as [|[l c0] a IH]; intros [|[l' c1] b] E A B; try discriminate; [reflexivity|]. cbn [keysOf map fst] in E. injection E as <- E.
  pose proof (A l c0 (or_introl eq_refl)) as X. pose proof (B l c1 (or_introl eq_refl)) as Y. rewrite X in Y. injection Y as <-. f_equal. apply IH; [exact E| |]; intros; [apply A|apply B]; right; assumption.
Qed.

Lemma made_facts : forall s ilk tbl fd sd4 cds raw0 vs sd1 D, made s ilk tbl fd sd4 cds raw0 vs sd1 D -> d_kind s <> KindCesr -> d_proto s = s2b "KERI" ->
  wfv (VMap sd1) /\ wfv (VMap (d_sad s)) /\ keysOf (d_sad s) = keysOf sd4 /\ keysOf sd1 = keysOf sd4 /\ NoDup (keysOf cds) /\ ~ In (s2b "v") (keysOf cds) /\
  (forall l cd, In (l, cd) cds -> In cd DigDex -> exists q, digerOf digest cd D = Ok q /\ dget (d_sad s) l = Some (VStr q)) /\
  (forall k, (forall cd, In (k, cd) cds -> ~ In cd DigDex) -> dget (d_sad s) k = dget sd1 k) /\
  (forall k, k <> s2b "v" -> dget sd1 k = dget sd4 k) /\ keysOf cds = saidFields ilk /\ fdOk ilk fd.
Proof.
  intros s ilk tbl fd sd4 cds raw0 vs sd1 D M NK PK. destruct M as [TB FD GV CF W4 GV4 IL CD DG CO R0 VS S1 RD FI RR SZ]. pose proof TB as TB'. rewrite PK in TB'.
  pose proof (fd_ok _ _ _ _ _ TB FD) as FO. pose proof (fd_ok2 _ _ _ _ TB' FD) as FO2. destruct (saidFields_nodup ilk) as (SN & SV & ST).
  assert (KV : In (s2b "v") (keysOf sd4)). { destruct (checkFields_v _ _ _ FO CF) as (r & ->). left. reflexivity. }
  assert (K1 : keysOf sd1 = keysOf sd4) by (subst sd1; apply keys_dset; exact KV).
  assert (IC : forall l, In l (keysOf cds) -> In l (keysOf sd4)). { intros l I. rewrite CD in I. destruct (fo2_saids _ _ FO2 l I) as [A B]. eapply checkFields_req; eassumption. }
  assert (W1 : wfv (VMap sd1)) by (subst sd1; apply wfv_dset; [exact W4|exact Logic.I|exact KV]).
  assert (NC : NoDup (keysOf cds)) by (rewrite CD, (fo_saids _ _ FO); exact SN).
  destruct (fillSaids_inv digest _ _ _ _ FI NC) as (K2 & F1 & F2); [intros l I; rewrite K1; apply IC; exact I|].
  split; [exact W1|]. split; [eapply fillSaids_wf; [exact FI| |exact W1]; intros l I; rewrite K1; apply IC; exact I|]. split; [congruence|]. split; [exact K1|]. split; [exact NC|].
  split; [rewrite CD, (fo_saids _ _ FO); exact SV|]. split; [exact F1|]. split; [exact F2|]. split; [|split; [rewrite CD; exact (fo_saids _ _ FO)|exact FO]].
  intros k N. subst sd1. rewrite dget_dset. apply beq_neq in N. rewrite N. reflexivity.
Qed.

Lemma made_verifies : forall req s ilk tbl fd sd4 cds raw0 vs sd1 D, made s ilk tbl fd sd4 cds raw0 vs sd1 D -> d_kind s <> KindCesr -> d_proto s = s2b "KERI" -> fits (smellOf s) ->
  match req with Some p => p = s2b "KERI" | None => True end -> verifyBase req s = Ok tt.
Proof.
  intros req s ilk tbl fd sd4 cds raw0 vs sd1 D M NK PK FT RQ. pose proof (made_facts _ _ _ _ _ _ _ _ _ _ M NK PK) as (W1 & WS & KS & K1 & NC & NV & F1 & F2 & G1 & CS & FO).
  destruct M as [TB FD GV CF W4 GV4 IL CD DG CO R0 VS S1 RD FI RR SZ]. pose proof TB as TB'. rewrite PK in TB'. destruct (keri_tbl _ _ TB') as [_ MJ]. destruct (saidFields_nodup ilk) as (SN & SV & ST).
  assert (KO : kindOk (d_kind s)) by (apply (fits_kind (smellOf s)); [exact FT|exact NK]).
  assert (VO : vs_of (smellOf s) = Ok vs) by (unfold vs_of, smellOf; cbn; rewrite SZ; exact VS).
  destruct (vs_plain _ _ FT VO) as [PV _]. pose proof (vs_span _ _ FT VO MJ) as LV. cbn [smellOf s_pvrsn] in LV.
  assert (DV : deversify vs = Ok (smellOf s)). { destruct (c09_round_trip _ FT) as (vs' & A & _ & B). rewrite VO in A. apply ok_inj in A. subst vs'. specialize (B []). rewrite app_nil_r in B. exact B. }
  (* codes read back *)
  assert (CB : forall l cd, In (l, cd) cds -> codeOf (dget (d_sad s) l) = Ok cd).
  { intros l cd I. destruct (memB cd DigDex) eqn:Md; [apply memB_In in Md|apply memB_nIn in Md].
    - destruct (F1 _ _ I Md) as (q & Q & G). rewrite G. cbn [codeOf]. destruct (digerOf_inv _ _ _ _ DOK Q) as ((_ & E & _) & _). rewrite E. reflexivity.
    - rewrite F2; [rewrite G1; [apply (CO _ _ I Md)|intros ->; apply NV; exact (in_map fst _ _ I)]|]. intros cd' I'.
      assert (cd' = cd); [|subst; exact Md]. pose proof (In_dget cds l cd NC I) as A. pose proof (In_dget cds l cd' NC I') as B. congruence. }
  assert (ILs : ilkOf (d_sad s) = Ok ilk).
  { unfold ilkOf in *. rewrite F2; [rewrite G1 by discriminate; exact IL|]. intros cd I. exfalso. apply ST. rewrite <- CS. exact (in_map fst _ _ I). }
  assert (NSd : NoDup (keysOf (f_saids fd))) by (rewrite (fo_saids _ _ FO); exact SN).
  destruct (dummySaids_ok (f_saids fd) (d_sad s) NSd) as (sdB & cdsB & DS).
  { intros l I. rewrite <- CD in I. apply in_map_iff in I. destruct I as ([l' cd] & <- & I). exists cd. apply CB. exact I. }
  destruct (dummySaids_inv _ _ _ _ DS NSd (fo_dig _ _ FO)) as (B1 & B2 & B3 & B4).
  assert (cdsB = cds) by (eapply (cds_fun (fun l => codeOf (dget (d_sad s) l))); [congruence|exact B3|exact CB]). subst cdsB.
  assert (ES : sdB = sd1).
  { apply alist_ext; [rewrite B2; apply wfv_values in WS; tauto|congruence|]. intros k. rewrite B4. rewrite (fo_saids _ _ FO). destruct (memB k (saidFields ilk)) eqn:Mk; [apply memB_In in Mk|apply memB_nIn in Mk].
    - rewrite <- CS in Mk. apply in_map_iff in Mk. destruct Mk as ([l cd] & E & I). cbn [fst] in E. subst l. assert (Nv : k <> s2b "v") by (intros ->; apply NV; exact (in_map fst _ _ I)).
      destruct (memB cd DigDex) eqn:Md; [apply memB_In in Md|apply memB_nIn in Md].
      + destruct (F1 _ _ I Md) as (q & Q & G). destruct (DG _ _ I Md) as (n & G4 & Ln). rewrite (G1 _ Nv), G4, G. cbn [option_map]. f_equal. destruct (digerOf_inv _ _ _ _ DOK Q) as ((_ & E & _) & L & _).
        unfold blankv. assert (Mk : memB k (saidFields ilk) = true) by (apply memB_In; rewrite <- CS; exact (in_map fst _ _ I)). rewrite Mk.
        assert (DC : digestCode (VStr q) = Some cd) by (apply digestCode_some; split; [cbn [codeOf]; rewrite E; reflexivity|exact Md]). rewrite DC. f_equal. f_equal. rewrite <- Ln in L. unfold len in L. clear -L. lia.
      + assert (G : dget (d_sad s) k = dget sd1 k). { apply F2. intros cd' I'. assert (cd' = cd); [|subst; exact Md]. pose proof (In_dget cds k cd NC I) as A. pose proof (In_dget cds k cd' NC I') as B. congruence. }
        pose proof (CB _ _ I) as C. rewrite <- G. destruct (dget (d_sad s) k) as [v|]; [|reflexivity]. cbn [option_map]. f_equal. apply blankv_nodig. eapply digestCode_none; eassumption.
    - assert (G : dget (d_sad s) k = dget sd1 k). { apply F2. intros cd I. exfalso. apply Mk. rewrite <- CS. exact (in_map fst _ _ I). }
      rewrite G. destruct (dget sd1 k); [|reflexivity]. cbn [option_map]. rewrite blankv_none by exact Mk. reflexivity. }
  subst sdB. apply beq_neq in NK.
  assert (LD : len D = len raw0).
  { destruct (dumps_len odumps cdumps loads LIB s sd4 (s2b "v") (repeat 35 (N.to_nat (Spans (d_pvrsn s)))) vs raw0 KO GV4 (plain_rep _) PV) as (rb & RB & LB); [unfold len at 1; rewrite repeat_length; lia|exact R0|].
    rewrite <- S1, RD in RB. injection RB as <-. exact LB. }
  unfold SerModel.verifyBase, validate. assert (RB : (match req with Some p => negb (beq (d_proto s) p) | None => false end) = false). { destruct req; [|reflexivity]. subst. rewrite PK. reflexivity. } rewrite RB.
  rewrite PK at 1. change (negb (memB (s2b "KERI") Protocols)) with false. cbv iota. rewrite GV, NK. cbn [andb]. rewrite TB, ILs. cbn [bind]. rewrite FD, KS, CF. cbn [bind]. rewrite DS. cbn [bind].
  unfold SerModel.compute. rewrite NK. cbn [negb]. rewrite RD. cbn [bind]. cbv zeta. rewrite LD, VS. cbn [bind].
  assert (DD : dset sd1 (s2b "v") (VStr vs) = sd1) by (apply dset_same; subst sd1; rewrite dget_dset, beq_refl; reflexivity). rewrite DD, RD. cbn [bind]. rewrite FI. cbn [bind]. rewrite RR. cbn [bind]. rewrite beq_refl. cbn [negb].
  assert (GVs : dget (d_sad s) (s2b "v") = Some (VStr vs)). { rewrite F2; [subst sd1; rewrite dget_dset, beq_refl; reflexivity|]. intros cd I. exfalso. apply NV. exact (in_map fst _ _ I). }
  rewrite GVs, DV. cbn [bind smellOf s_proto s_pvrsn s_kind s_size s_gvrsn]. rewrite !beq_refl. cbn [negb]. unfold veq. rewrite !N.eqb_refl. cbn [andb negb].
  unfold oveq. destruct (d_gvrsn s) as [g|]; [unfold veq; rewrite !N.eqb_refl|]; reflexivity.
Qed.

(** a verified JSON message reads back *)
Lemma read_back : forall k s ilk D vs rest, verified digest odumps cdumps (match k with Base => None | KERI => Some (s2b "KERI") end) s ilk D vs -> wfv (VMap (d_sad s)) -> d_kind s = s2b "JSON" ->
  verify digest odumps cdumps k s = Ok tt -> serderOfRaw digest odumps cdumps loads k (d_raw s ++ rest) = Ok s.
Proof.
  intros k s ilk D vs rest V W K VK. destruct V as [RQ IL (tbl & fd & TB & FD & CF & FO) RR RD GV (SM & VO) SZ SA].
  destruct (checkFields_v _ _ _ FO CF) as (r & KE). destruct (d_sad s) as [|[k0 v0] m] eqn:ES; [discriminate|]. cbn [keysOf map fst] in KE. injection KE as -> _. cbn [dget] in GV. rewrite beq_refl in GV. injection GV as ->.
  assert (KO : kindOk (d_kind s)) by (left; auto). pose proof (loads_dumps odumps cdumps loads LIB s _ _ KO W RR) as LO.
  unfold SerModel.dumps in RR. rewrite K in RR. change (beq (s2b "JSON") (s2b "JSON")) with true in RR. cbv iota in RR. apply ok_inj in RR.
  destruct (c09_canonical _ _ SM) as [FT _]. destruct (vs_plain _ _ FT VO) as [PV LV]. destruct (json_head vs m PV) as (post & JH & LP). rewrite RR in JH.
  unfold serderOfRaw, inhale. rewrite JH at 1. change (sniff ((s2b "{""v"":""" ++ vs ++ post) ++ rest)) with (Ok Cmsg). cbn [bind].
  assert (S : smell (d_raw s ++ rest) = Ok (smellOf s)).
  { rewrite JH. rewrite <- !app_assoc. apply c09_smell; [exact FT|exact VO| |vm_compute; discriminate|].
    - repeat constructor.
    - assert (M : m <> []).
      { intros ->. destruct (in_dec list_N_dec (s2b "d") (saidFields ilk)) as [I|N].
        - destruct (SA _ I) as (t & cd & G & _). cbn in G. discriminate.
        - unfold ilkOf in IL. change (dget [(s2b "v", VStr vs)] (s2b "t")) with (@None val) in IL. injection IL as <-. apply N. left. reflexivity. }
      specialize (LP M). unfold len in *. rewrite !app_length. change (List.length (s2b "{""v"":""")) with 6%nat. lia. }
  rewrite S. cbn [bind smellOf s_size s_kind]. rewrite SZ. assert (L : (len (d_raw s ++ rest) <? len (d_raw s)) = false) by (apply N.ltb_ge; unfold len; rewrite app_length; lia). rewrite L.
  assert (TK : ntake (len (d_raw s)) (d_raw s ++ rest) = d_raw s) by (unfold ntake, len; rewrite Nnat.Nat2N.id, firstn_app, Nat.sub_diag, firstn_all; cbn [firstn]; apply app_nil_r).
  rewrite TK, LO. cbn [bind keysOf map fst]. change (memB (s2b "v") (s2b "v" :: map fst m)) with true. cbn [negb bind].
  assert (EQ : mkSerder (d_raw s) ((s2b "v", VStr vs) :: m) (d_proto s) (d_pvrsn s) (d_gvrsn s) (d_kind s) (len (d_raw s)) = s) by (rewrite <- SZ, <- ES; destruct s; reflexivity).
  unfold smellOf. cbn [s_proto s_pvrsn s_gvrsn s_kind s_size]. rewrite ?SZ, EQ, VK. reflexivity.
Qed.
End Lib.
