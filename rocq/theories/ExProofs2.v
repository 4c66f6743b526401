From Verif Require Import Prelude B64Model SubsModel ThModel ThSpec ThThms JsonModel JsonProofs Lex SerProofs RpModel RpProofs ExModel ExSpec ExProofs.
Open Scope N_scope.
Ltac Zify.zify_post_hook ::= Z.div_mod_to_equations.

(** ** IPEX *)
Section I.
Variable e : xenv.
Variable routes : bytes -> option behavior.
Hypothesis RD : ipexReady routes.
Hypothesis PO : pathsOk e.

Definition isIpex (x : xmsg) : bool := memB (x_route x) (map ipexRoute ipexVerbs).
Lemma isIpex_verb x : isIpex x = true -> exists v, In v ipexVerbs /\ x_route x = ipexRoute v.
Proof. intros H. apply memB_In in H. apply in_map_iff in H. destruct H as (v & <- & I). eauto. Qed.
Lemma verb_isIpex x v : In v ipexVerbs -> x_route x = ipexRoute v -> isIpex x = true.
Proof. intros I E. apply memB_In. rewrite E. apply in_map. exact I. Qed.
Definition inv5 (d : xdb) : Prop :=
  (forall s x, dget (exns d) s = Some x -> routes (x_route x) <> None -> exists kw, In (x, kw) (calls d)) /\
  (forall p, p <> [] -> replies p d <= 1 /\ (dget (erpy d) p = None -> replies p d = 0))%nat /\
  (forall x kw v, In (x, kw) (calls d) -> In v ipexVerbs -> x_route x = ipexRoute v ->
     match x_prior x with
     | [] => In v ["apply"; "offer"; "grant"]%string
     | _ => In v ["offer"; "agree"; "grant"; "admit"; "spurn"]%string /\ exists p, dget (exns d) (x_prior x) = Some p /\ memB (baseVerb (x_route p)) (PreviousRoutes (s2b v)) = true
     end).
Lemma inv5_process kv now x gs cs ptds es nests d : logsOk kv -> ecigs d = [] -> full d -> backed d -> (forall s y, dget (exns d) s = Some y -> x_said y = s) ->
  inv5 d -> inv5 (fst (processEvent e routes kv now x gs cs ptds es nests d)).
Proof.
  intros LO EC F B K I5. pose proof I5 as (A & R & C). destruct (process_outcome e routes kv now x gs cs ptds es nests d) as [r|q gs' Q GG|kw P KW NE0]; [exact I5|exact I5|]. cbn [fst]. cbv zeta.
  destruct P as (_ & _ & _ & PI). destruct (log_epse x ptds gs cs es nests d) as (L1 & L2 & L3 & L4).
  assert (CC : forall v, In v ipexVerbs -> x_route x = ipexRoute v ->
     match x_prior x with
     | [] => In v ["apply"; "offer"; "grant"]%string
     | _ => In v ["offer"; "agree"; "grant"; "admit"; "spurn"]%string /\ chained e kv (s2b v) x d = Ok true
     end).
  { intros v IV ER. eapply ipex_passed; eauto. apply PI. rewrite ER. apply RD. exact IV. }
  assert (EX : forall s y, dget (exns d) s = Some y -> dget (dput (exns d) (x_said x) x) s = Some y) by (intros s y G; rewrite dget_dput, G; reflexivity).
  destruct (routes (x_route x)) as [b|] eqn:RT.
  - split; [|split]; cbn [exns erpy calls setCalls setScues].
    + intros s y. rewrite log_exns, dget_dput, L3. destruct (dget (exns d) s) as [u|] eqn:G; [intros E0; injection E0 as <-; intros NR; destruct (A _ _ G NR) as (kw' & Ik); exists kw'; right; exact Ik|].
      destruct (beq s (x_said x)); [|discriminate]. intros E0 _. injection E0 as <-. exists kw. left. reflexivity.
    + intros p NP. specialize (R p NP). unfold replies. cbn [calls setCalls]. rewrite L3. cbn [setScues calls filter fst]. fold (isIpex x). rewrite log_erpy.
      destruct (beq_spec (x_prior x) p) as [EP|NE]; cbn [andb].
      * destruct (x_prior x) as [|a p'] eqn:XP; [congruence|]. rewrite dget_dset. rewrite <- EP, beq_refl.
        destruct (isIpex x) eqn:II; cbn [List.length].
        -- apply isIpex_verb in II. destruct II as (v & IV & ER). specialize (CC v IV ER). destruct CC as (_ & CH). apply (chained_fresh _ _ _ _ _ B K) in CH. rewrite XP in CH. destruct CH as (CH & _).
           fold (replies (a :: p') d). rewrite EP in *. destruct R as (R1 & R2). rewrite (R2 CH). split; [lia|discriminate].
        -- fold (replies (a :: p') d). rewrite EP. split; [tauto|discriminate].
      * fold (replies p d). destruct (x_prior x) as [|a p'] eqn:XP; [exact R|]. rewrite dget_dset. destruct (beq_spec p (a :: p')) as [E0|]; [congruence|]. exact R.
    + intros y kw' v. rewrite L3, log_exns. intros [E0|Iy] IV ER.
      * injection E0 as <- <-. specialize (CC v IV ER). destruct (x_prior x) as [|a p'] eqn:XP; [exact CC|]. destruct CC as (V & CH). split; [exact V|]. apply (chained_fresh _ _ _ _ _ B K) in CH. rewrite XP in CH. destruct CH as (_ & p & G & MB). exists p. split; [apply EX; exact G|exact MB].
      * specialize (C y kw' v Iy IV ER). destruct (x_prior y); [exact C|]. destruct C as (V & p & G & MB). split; [exact V|]. exists p. split; [apply EX; exact G|exact MB].
  - split; [|split]; cbn [exns erpy calls setScues].
    + intros s y. rewrite log_exns, dget_dput, L3. destruct (dget (exns d) s) as [u|] eqn:G; [intros E0; injection E0 as <-; intros NR; exact (A _ _ G NR)|].
      destruct (beq s (x_said x)); [|discriminate]. intros E0 NR. injection E0 as <-. congruence.
    + intros p NP. specialize (R p NP). unfold replies. cbn [calls setScues]. rewrite L3. fold (replies p d). rewrite log_erpy.
      destruct (x_prior x) as [|a p'] eqn:XP; [exact R|]. rewrite dget_dset. destruct (beq p (a :: p')); [split; [tauto|discriminate]|exact R].
    + intros y kw' v. rewrite L3, log_exns. intros Iy IV ER. specialize (C y kw' v Iy IV ER). destruct (x_prior y); [exact C|]. destruct C as (V & p & G & MB). split; [exact V|]. exists p. split; [apply EX; exact G|exact MB].
Qed.
Lemma inv5_unescrow s d : inv5 d -> inv5 (unescrow s d).
Proof.
  intros (A & R & C). destruct (unescrow_exns s d) as (E1 & E2 & E3 & _). unfold inv5, replies. rewrite E1, E2, E3. auto.
Qed.
Lemma ecigs_process kv now x gs ptds es nests d : ecigs d = [] -> ecigs (fst (processEvent e routes kv now x gs [] ptds es nests d)) = [].
Proof.
  intros EC. destruct (process_outcome e routes kv now x gs [] ptds es nests d) as [r|q gs' Q GG|kw P KW NE0]; [exact EC|exact EC|]. cbn [fst]. cbv zeta.
  assert (L2 : ecigs (logEvent x ptds gs [] es nests d) = []) by (unfold logEvent; destruct (x_prior x); exact EC). destruct (routes (x_route x)); exact L2.
Qed.
Lemma ecigs_hist l d : xhist e routes l d -> (forall a, In a l -> coupleless a) -> ecigs d = [].
Proof.
  induction 1 as [|l d a H IH]; intros NC; [reflexivity|]. assert (NA := NC a (or_introl eq_refl)). specialize (IH (fun b I => NC b (or_intror I))).
  assert (U : forall s d, ecigs d = [] -> ecigs (unescrow s d) = []) by (intros s0 d0 E0; destruct (unescrow_exns s0 d0) as (_ & _ & _ & _ & E5); rewrite E5; exact E0).
  destruct a as [kv now x gs cs ptds es nests|kv now s]; cbn [xrun coupleless] in *; [subst cs; apply ecigs_process; exact IH|].
  destruct (visit_cases e routes kv now s d _ eq_refl) as [-> |[-> |(x & G & [(_ & ->)|(_ & ->)])]]; [exact IH|apply U; exact IH|apply ecigs_process; exact IH|apply U, ecigs_process; exact IH].
Qed.
Lemma inv5_hist l d : xhist e routes l d -> (forall a, In a l -> coupleless a) -> (forall a, In a l -> logsOk (xviewOf a)) -> inv5 d.
Proof.
  induction 1 as [|l d a H IH]; intros NC LO.
  - split; [|split]; cbn; [discriminate|unfold replies; cbn; auto|intros x kw v []].
  - assert (LA := LO a (or_introl eq_refl)). specialize (IH (fun b I => NC b (or_intror I)) (fun b I => LO b (or_intror I))). pose proof (ecigs_hist _ _ H (fun b I => NC b (or_intror I))) as EC. pose proof (full_hist _ _ _ _ H) as F. pose proof (backed_hist _ _ _ _ H) as B. pose proof (inv1_hist _ _ _ _ H) as (_ & KX & _).
    assert (K : forall s y, dget (exns d) s = Some y -> x_said y = s) by (intros s y G; apply (KX s y G)).
    destruct a as [kv now x gs cs ptds es nests|kv now s]; cbn [xrun xviewOf] in *; [apply inv5_process; auto|].
    destruct (visit_cases e routes kv now s d _ eq_refl) as [-> |[-> |(x & G & [(_ & ->)|(_ & ->)])]]; [exact IH|apply inv5_unescrow; exact IH|apply inv5_process; auto|apply inv5_unescrow, inv5_process; auto].
Qed.
(** the verb of an IPEX route *)
Lemma ipex_base v : In v ipexVerbs -> baseVerb (ipexRoute v) = s2b v.
Proof. intros [<-|[<-|[<-|[<-|[<-|[<-|[]]]]]]]; reflexivity. Qed.
Lemma previous_answers v w : In v ipexVerbs -> In w ipexVerbs -> memB (s2b w) (PreviousRoutes (s2b v)) = true -> In (v, w) answers.
Proof. intros [<-|[<-|[<-|[<-|[<-|[<-|[]]]]]]] [<-|[<-|[<-|[<-|[<-|[<-|[]]]]]]]; cbn; intros H; try discriminate; tauto. Qed.
End I.
(** ** Groups of signatures *)
Lemma satisfy_more th ks vs1 vs2 : fits th ks -> incl vs1 vs2 -> NoDup (map sg_qb64 vs1) -> (forall s, In s vs2 -> (N.to_nat (sg_index s) < List.length ks)%nat) ->
  satisfy th (map sg_index vs1) = true -> satisfy th (map sg_index vs2) = true.
Proof.
  intros FT IN ND BD H. destruct th as [n|w].
  - rewrite c11_numeric in *. assert (L : (List.length vs1 <= List.length vs2)%nat).
    { rewrite <- (map_length sg_qb64 vs1), <- (map_length sg_qb64 vs2). apply NoDup_incl_length; [exact ND|]. intros q Iq. apply in_map_iff in Iq. destruct Iq as (s & <- & Is). apply in_map, IN, Is. }
    unfold len in *. rewrite !map_length in *. lia.
  - destruct FT as (T & SZ). rewrite (c11_set_only w (map sg_index vs1) (nodup N.eq_dec (map sg_index vs1)) T) in H by (intros i; symmetry; apply nodup_In).
    eapply c11_monotone; [exact T|apply NoDup_nodup| | |exact H].
    + intros i Ii. apply nodup_In in Ii. apply in_map_iff in Ii. destruct Ii as (s & <- & Is). apply in_map, IN, Is.
    + rewrite Forall_forall. intros i Ii. apply in_map_iff in Ii. destruct Ii as (s & <- & Is). specialize (BD s Is). rewrite SZ. unfold len. lia.
Qed.
Lemma dedupB_has rd l seen s : asText rd l -> In s l -> ~ In (sg_qb64 s) seen -> In s (dedupB seen l).
Proof.
  revert seen. induction l as [|a l IH]; intros seen T I N; [destruct I|]. cbn [dedupB]. destruct (memB (sg_qb64 a) seen) eqn:M.
  - destruct I as [->|I]; [apply memB_In in M; congruence|]. apply IH; auto. intros b Ib. apply T. right. exact Ib.
  - destruct I as [->|I]; [left; reflexivity|]. destruct (beq_spec (sg_qb64 s) (sg_qb64 a)) as [E0|NE]; [left; rewrite <- (T a), <- (T s), E0; auto using in_eq; right; exact I|].
    right. apply IH; [intros b Ib; apply T; right; exact Ib|exact I|]. intros [E0|J]; [congruence|auto].
Qed.
Lemma enough_satisfied e rd kv x g : asText rd (g_sigs g) -> enough e kv x g -> ahead kv g = false /\ satisfied e kv (x_raw x) g = Ok true.
Proof.
  intros T (EP & (n & CU & LE) & ks & th & vs & KA & FT & IN & ND & VV & SA). split; [unfold ahead; rewrite CU; apply N.ltb_ge; exact LE|].
  assert (RS : resolve e kv g = Ok (Some ks, Some th)).
  { unfold resolve, keysAt in *. destruct (xtrans e (g_pre g)); [destruct KA as (ev & -> & <- & -> & ->); rewrite beq_refl; reflexivity|]. destruct KA as (-> & ->). reflexivity. }
  unfold satisfied. rewrite RS. cbn [bind]. f_equal. cbn [verifySigs snd]. eapply satisfy_more; [exact FT| |exact ND| |exact SA].
  - intros s Is. apply filter_In. split; [apply (dedupB_has rd); auto|]. destruct (VV s Is) as (k & -> & V). exact V.
  - intros s Is. apply filter_In in Is. destruct Is as (_ & Is). apply nth_error_Some. destruct (nth_error ks (N.to_nat (sg_index s))); [discriminate|discriminate Is].
Qed.
Lemma enough_more e kv x g g' : enough e kv x g -> g_pre g' = g_pre g -> g_sn g' = g_sn g -> g_dig g' = g_dig g -> incl (g_sigs g) (g_sigs g') -> enough e kv x g'.
Proof.
  intros (EP & CU & ks & th & vs & KA & FT & IN & R) E1 E2 E3 IC. unfold enough. rewrite E1, E2, E3. split; [exact EP|]. split; [exact CU|]. exists ks, th, vs. split; [exact KA|]. split; [exact FT|]. split; [intros s Is; apply IC, IN, Is|exact R].
Qed.
Lemma enough_sigs e kv x g : enough e kv x g -> g_sigs g <> [].
Proof.
  intros (_ & _ & ks & th & vs & _ & _ & IN & _ & _ & SA) E0. rewrite E0 in IN. destruct vs as [|s vs]; [|destruct (IN s (or_introl eq_refl))]. rewrite c11_empty in SA. discriminate.
Qed.
Lemma addSigs_has rd new old s : asText rd (old ++ new) -> In s (old ++ new) -> In s (addSigs old new).
Proof.
  intros T I. apply in_app_or in I. destruct I as [I|I]; [apply addSigs_old; exact I|]. pose proof (addSigs_text new old s I) as X. apply in_map_iff in X. destruct X as (z & Z1 & Z2).
  rewrite <- (T s) by (apply in_or_app; auto). rewrite <- Z1. rewrite T; [exact Z2|]. apply addSigs_In in Z2. apply in_or_app. exact Z2.
Qed.

(** ** cloning *)
Section C.
Variable e : xenv.
Variable routes : bytes -> option behavior.
Variable rd : bytes -> siger.
Variable kv : xview.
Variable x : xmsg.
Definition goodG (g : group) : Prop := asText rd (g_sigs g) /\ enough e kv x g.
Definition inv6 (d : xdb) : Prop :=
  (forall t, In t (esigs d) -> t_said t = x_said x -> goodG (mkG (t_pre t) (t_sn t) (t_dig t) (t_sigs t))) /\
  (forall c, In c (vget (ecigs d) (x_said x)) -> False) /\
  (dget (exns d) (x_said x) <> None -> (exists t, In t (esigs d) /\ t_said t = x_said x) \/ vget (ecigs d) (x_said x) <> []) /\
  (forall s y, dget (epse d) s = Some y -> x_said y = s /\ (s = x_said x -> y = x)).
Lemma tput_good l s pre sn dig sigs : (s = x_said x -> goodG (mkG pre sn dig sigs)) ->
  (forall t, In t l -> t_said t = x_said x -> goodG (mkG (t_pre t) (t_sn t) (t_dig t) (t_sigs t))) ->
  forall t, In t (tput l (mkT s pre sn dig sigs)) -> t_said t = x_said x -> goodG (mkG (t_pre t) (t_sn t) (t_dig t) (t_sigs t)).
Proof.
  intros G L t I ET. apply tput_In in I. destruct I as [I|(_ & SD & SP & SN & DG & R)]; [apply L; auto|]. cbn [t_said t_pre t_sn t_dig t_sigs] in *.
  assert (ES : s = x_said x) by congruence. specialize (G ES). destruct G as (T & EN). rewrite SP, SN, DG. destruct R as [->|(z & Iz & SZ & ->)].
  - split; [intros a Ia; cbn in Ia; apply addSigs_In in Ia; destruct Ia as [[]|Ia]; apply T; exact Ia|]. eapply enough_more; [exact EN|reflexivity|reflexivity|reflexivity|]. intros a Ia. cbn. apply (addSigs_has rd); [exact T|exact Ia].
  - unfold sameT in SZ. rewrite !andb_true_iff, !beq_eq, N.eqb_eq in SZ. cbn in SZ. destruct SZ as (((Z1 & Z2) & Z3) & Z4). specialize (L z Iz ltac:(congruence)). rewrite Z2, Z3, Z4 in L. destruct L as (TL & EL).
    split; [intros a Ia; cbn in Ia; apply addSigs_In in Ia; destruct Ia as [Ia|Ia]; [apply TL; exact Ia|apply T; exact Ia]|]. eapply enough_more; [exact EL|reflexivity|reflexivity|reflexivity|]. intros a Ia. cbn. apply addSigs_old. exact Ia.
Qed.
Lemma addGroups_good s gs l : (s = x_said x -> forall g, In g gs -> goodG g) ->
  (forall t, In t l -> t_said t = x_said x -> goodG (mkG (t_pre t) (t_sn t) (t_dig t) (t_sigs t))) ->
  forall t, In t (addGroups s gs l) -> t_said t = x_said x -> goodG (mkG (t_pre t) (t_sn t) (t_dig t) (t_sigs t)).
Proof.
  unfold addGroups. revert l. induction gs as [|g gs IH]; intros l G L; [exact L|]. cbn [fold_left]. apply IH; [intros ES g' I; apply G; auto; right; exact I|]. apply tput_good; [|exact L]. intros ES. specialize (G ES g (or_introl eq_refl)). destruct g. exact G.
Qed.
Lemma addGroups_keeps s gs l t : In t l -> exists t', In t' (addGroups s gs l) /\ t_said t' = t_said t.
Proof.
  unfold addGroups. revert l t. induction gs as [|g gs IH]; intros l t I; [eauto|]. cbn [fold_left]. destruct (tput_keeps l (mkT s (g_pre g) (g_sn g) (g_dig g) (g_sigs g)) t I) as (y & Iy & E1 & _). destruct (IH _ _ Iy) as (t' & It & E2). exists t'. split; [exact It|congruence].
Qed.
Lemma addGroups_new s gs l : gs <> [] -> (forall g, In g gs -> g_sigs g <> []) -> exists t, In t (addGroups s gs l) /\ t_said t = s.
Proof.
  destruct gs as [|g gs]; [congruence|]. intros _ F. unfold addGroups. cbn [fold_left]. destruct (tput_new l (mkT s (g_pre g) (g_sn g) (g_dig g) (g_sigs g)) (F g (or_introl eq_refl))) as (y & Iy & SY).
  assert (ES : t_said y = s) by (unfold sameT in SY; rewrite !andb_true_iff, !beq_eq in SY; tauto). destruct (addGroups_keeps s gs _ _ Iy) as (t & It & E2). exists t. unfold addGroups in It. split; [exact It|congruence].
Qed.
Lemma cadd_In (s : bytes) cs : forall l c, In c (vget (fold_left (fun l c => cadd l s c) cs l) (x_said x)) -> In c (vget l (x_said x)) \/ (s = x_said x /\ In c cs).
Proof.
  induction cs as [|a cs IH]; intros l c I; [auto|]. cbn [fold_left] in I. apply IH in I. destruct I as [I|(E & I)]; [|right; split; [exact E|right; exact I]].
  unfold cadd in I. destruct (existsb (sameC a) (vget l s)); [auto|]. unfold vget at 1 in I. rewrite dget_dset in I. destruct (beq_spec (x_said x) s) as [E|]; [|auto]. apply in_app_or in I. rewrite <- E in I. destruct I as [I|[<-|[]]]; [auto|]. right. split; [congruence|left; reflexivity].
Qed.
Lemma cadd_keeps (s s' : bytes) cs : forall l, (vget l s' <> [] -> vget (fold_left (fun l c => cadd l s c) cs l) s' <> []).
Proof.
  induction cs as [|a cs IH]; intros l; [auto|]. cbn [fold_left]. intros N. apply IH. unfold cadd. destruct (existsb (sameC a) (vget l s)); [exact N|]. unfold vget at 1. rewrite dget_dset. destruct (beq_spec s' s) as [->|]; [|exact N]. destruct (vget l s); discriminate.
Qed.
Lemma cadd_new (s : bytes) cs l : cs <> [] -> vget (fold_left (fun l c => cadd l s c) cs l) s <> [].
Proof.
  destruct cs as [|a cs]; [congruence|]. intros _. cbn [fold_left]. apply cadd_keeps. unfold cadd. destruct (existsb (sameC a) (vget l s)) eqn:X; [destruct (vget l s); [discriminate|discriminate]|]. unfold vget at 1. rewrite dget_dset, beq_refl. destruct (vget l s); discriminate.
Qed.
Lemma inv6_process kv' now y gs cs ptds es nests d : (x_said y = x_said x -> y = x /\ (forall g, In g gs -> goodG g) /\ (forall c, In c cs -> False)) ->
  inv6 d -> inv6 (fst (processEvent e routes kv' now y gs cs ptds es nests d)).
Proof.
  intros HN I6. pose proof I6 as (A & B & C & D). destruct (process_outcome e routes kv' now y gs cs ptds es nests d) as [r|q gs' Q GG|kw P KW NE0]; [exact I6| |].
  - cbn [fst]. unfold inv6. cbn [esigs ecigs exns epse setQcues escrowPS fst setEpse setEnst setEpath setEpsd setEsigs].
    assert (GN : x_said y = x_said x -> forall g, In g gs' -> goodG g) by (intros E0 g Ig; destruct GG as [->| ->]; [apply HN; auto|destruct Ig]).
    split; [apply addGroups_good; auto|]. split; [exact B|]. split.
    + intros NX. destruct (C NX) as [(t & It & ET)|V]; [|auto]. left. destruct (addGroups_keeps (x_said y) gs' _ _ It) as (t' & It' & E2). exists t'. split; [exact It'|congruence].
    + intros s z G. rewrite dget_dput in G. destruct (dget (epse d) s) as [u|] eqn:Gd; [injection G as <-; apply D; exact Gd|]. destruct (beq_spec s (x_said y)) as [->|]; [|discriminate]. injection G as <-. split; [reflexivity|]. intros E0. apply HN. exact E0.
  - cbn [fst]. cbv zeta.
    assert (W : inv6 (logEvent y ptds gs cs es nests d)).
    { assert (L1 : esigs (logEvent y ptds gs cs es nests d) = addGroups (x_said y) gs (esigs d)) by (unfold logEvent; destruct (x_prior y); reflexivity).
      assert (L2 : ecigs (logEvent y ptds gs cs es nests d) = fold_left (fun l c => cadd l (x_said y) c) cs (ecigs d)) by (unfold logEvent; destruct (x_prior y); reflexivity).
      destruct (log_epse y ptds gs cs es nests d) as (L3 & _). unfold inv6. rewrite L1, L2, L3, log_exns. split; [apply addGroups_good; [|exact A]; intros E0 g Ig; apply HN; auto|]. split; [|split; [|exact D]].
      - intros c Ic. apply cadd_In in Ic. destruct Ic as [Ic|(E0 & Ic)]; [exact (B c Ic)|]. destruct (HN E0) as (_ & _ & X). exact (X c Ic).
      - rewrite dget_dput. intros NX. destruct (dget (exns d) (x_said x)) eqn:GX.
        + destruct (C ltac:(congruence)) as [(t & It & ET)|V].
          * left. destruct (addGroups_keeps (x_said y) gs _ _ It) as (t' & It' & E2). exists t'. split; [exact It'|congruence].
          * right. apply cadd_keeps. exact V.
        + destruct (beq_spec (x_said x) (x_said y)) as [E0|]; [|congruence]. rewrite E0. destruct (HN (eq_sym E0)) as (_ & HG & _). destruct NE0 as [NG|NC].
          * left. apply addGroups_new; [exact NG|]. intros g Ig. destruct (HG g Ig) as (_ & EN). eapply enough_sigs; exact EN.
          * right. apply cadd_new. exact NC. }
    destruct (routes (x_route y)); exact W.
Qed.
Lemma inv6_unescrow s d : inv6 d -> inv6 (unescrow s d).
Proof.
  intros (A & B & C & D). destruct (unescrow_exns s d) as (E1 & _ & _ & E4 & E5). unfold inv6. rewrite E1, E4, E5. split; [exact A|]. split; [exact B|]. split; [exact C|].
  intros s' z G. apply D. unfold unescrow in G. destruct (dget (exns d) s); cbn in G; apply dget_drem in G; tauto.
Qed.
Lemma inv6_hist l d : xhist e routes l d -> (forall a, In a l -> honest e rd kv x a) -> inv6 d.
Proof.
  induction 1 as [|l d a H IH]; intros HO.
  - split; [intros t []|]. split; [intros c []|]. split; [cbn; congruence|]. cbn. discriminate.
  - assert (HA := HO a (or_introl eq_refl)). specialize (IH (fun b I => HO b (or_intror I))). destruct a as [kv' now y gs cs ptds es nests|kv' now s]; cbn [xrun honest] in *; [apply inv6_process; [intros E0; destruct (HA E0) as (H1 & H2 & ->); split; [exact H1|split; [exact H2|intros c []]]|auto]|].
    assert (SG : forall y, dget (epse d) s = Some y -> x_said y = x_said x -> y = x /\ (forall g, In g (storedGroups s d) -> goodG g) /\ (forall c : cigar, In c [] -> False)).
    { intros y G EY. destruct IH as (A & _ & _ & D). destruct (D s y G) as (E1 & E2). split; [apply E2; congruence|]. split; [|intros c []]. intros g Ig. unfold storedGroups in Ig. apply in_map_iff in Ig. destruct Ig as (t & <- & It). apply fetch_In in It. destruct It as (It & ET). apply A; [exact It|congruence]. }
    destruct (visit_cases e routes kv' now s d _ eq_refl) as [-> |[-> |(y & G & [(_ & ->)|(_ & ->)])]]; [exact IH|apply inv6_unescrow; exact IH|apply inv6_process; auto|apply inv6_unescrow, inv6_process; auto].
Qed.
Lemma verifyGroups_good gs : (forall g, In g gs -> goodG g) -> verifyGroups e kv (x_raw x) gs = Ok tt.
Proof.
  induction gs as [|g gs IH]; intros F; [reflexivity|]. cbn [verifyGroups]. destruct (F g (or_introl eq_refl)) as (T & EN). destruct (enough_satisfied e rd kv x g T EN) as (-> & ->). cbn [bind negb]. apply IH. intros g' I. apply F. right. exact I.
Qed.
Lemma clone_good d : inv6 d -> savedMsg d x -> (forall p, exists o, xpath e p = Ok o) -> exists ps, clone e kv (x_said x) d = Ok (Some (x, ps)).
Proof.
  intros (A & B & C & D) SV PX. unfold clone. unfold savedMsg in SV. rewrite SV. unfold verifyStored. rewrite verifyGroups_good.
  2:{ intros g Ig. unfold storedGroups in Ig. apply in_map_iff in Ig. destruct Ig as (t & <- & It). apply fetch_In in It. destruct It as (It & ET). apply A; [exact It|exact ET]. }
  cbn [bind]. assert (NE : match vget (ecigs d) (x_said x), storedGroups (x_said x) d with _ :: _, _ => Err AttributeError | [], [] => Err MissingSignatureError | [], _ :: _ => Ok tt end = Ok tt).
  { destruct (vget (ecigs d) (x_said x)) as [|c0 cr] eqn:EC; [|destruct (B c0 (or_introl eq_refl))]. destruct (C ltac:(congruence)) as [(t & It & ET)|V]; [|congruence].
    assert (It' : In t (fetchTsgs (esigs d) (x_said x) None)) by (apply fetch_In; auto). unfold storedGroups. destruct (fetchTsgs (esigs d) (x_said x) None); [destruct It'|reflexivity]. }
  rewrite NE. cbn [bind]. assert (PP : forall l, exists ps, paths e l = Ok ps).
  { induction l as [|p l (ps & IH)]; [eexists; reflexivity|]. cbn [paths]. destruct (PX p) as (o & ->). rewrite IH. cbn [bind]. eexists. reflexivity. }
  destruct (PP (vget (epath d) (x_said x))) as (ps & ->). cbn [bind]. eauto.
Qed.
End C.
