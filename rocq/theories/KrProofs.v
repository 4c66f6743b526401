(** Proofs about request authentication. *)
From Verif Require Import Prelude B64Model SubsModel ThModel ThProofs JsonModel JsonProofs Lex SerProofs RpModel RpProofs RpLive KrModel KrSpec.
Open Scope N_scope.
Ltac Zify.zify_post_hook ::= Z.div_mod_to_equations.

Ltac ideq := repeat match goal with H : (_, _) = (_, _) |- _ => injection H as; subst end.

(** ** Keys *)
Lemma nosep_notin : forall sep s, ~ In sep s -> nosep sep s.
Proof. intros sep s H. unfold nosep. apply Forall_forall. intros x I ->. exact (H I). Qed.

Lemma joinb_cons2 : forall sep a b l, joinb sep (a :: b :: l) = a ++ sep :: joinb sep (b :: l).
Proof. reflexivity. Qed.

Lemma pkey_split : forall m, ~ In 46 (m_pre m) -> ~ In 46 (m_said m) -> splitb dot (pkey m) = [m_pre m; m_said m].
Proof.
  intros m H1 H2. unfold pkey. apply split_join; [discriminate|]. constructor; [apply nosep_notin; exact H1|].
  constructor; [apply nosep_notin; exact H2|constructor].
Qed.
Lemma pkey_inj : forall m m', ~ In 46 (m_pre m) -> ~ In 46 (m_said m) -> ~ In 46 (m_pre m') -> ~ In 46 (m_said m') ->
  pkey m = pkey m' -> m_pre m = m_pre m' /\ m_said m = m_said m'.
Proof.
  intros m m' A B C D E. apply (f_equal (splitb dot)) in E. rewrite !pkey_split in E by assumption. injection E as -> ->. split; reflexivity.
Qed.

Lemma splitb_app_last : forall sep x y, nosep sep y -> splitb sep (x ++ sep :: y) = splitb sep x ++ [y].
Proof.
  intros sep x y H. induction x as [|ch x IH]; cbn [app splitb].
  - rewrite N.eqb_refl. rewrite splitb_nosep by exact H. reflexivity.
  - destruct (ch =? sep) eqn:E; [rewrite IH; reflexivity|]. rewrite IH.
    destruct (splitb sep x) as [|p q] eqn:Es; [|reflexivity].
    exfalso. destruct x as [|c0 x]; cbn [splitb] in Es; [discriminate|]. destruct (c0 =? sep); [discriminate|].
    destruct (splitb sep x); discriminate.
Qed.
Lemma tkey_split : forall m x, ~ In 46 (m_pre m) -> ~ In 46 (m_said m) ->
  splitb dot (tkey m x) = m_pre m :: splitb dot x ++ [m_said m].
Proof.
  intros m x H1 H2. unfold tkey. rewrite joinb_cons2, splitb_app by (apply nosep_notin; exact H1). f_equal.
  rewrite joinb_cons2. apply splitb_app_last. apply nosep_notin. exact H2.
Qed.
Lemma tkey_inj : forall m x m' x', ~ In 46 (m_pre m) -> ~ In 46 (m_said m) -> ~ In 46 (m_pre m') -> ~ In 46 (m_said m') ->
  tkey m x = tkey m' x' -> m_pre m = m_pre m' /\ m_said m = m_said m'.
Proof.
  intros m x m' x' A B C D E. apply (f_equal (splitb dot)) in E. rewrite !tkey_split in E by assumption.
  injection E as E1 E2. split; [exact E1|]. apply app_inj_tail in E2. apply E2.
Qed.
Lemma tkey_three : forall m x aid y mid, ~ In 46 (m_pre m) -> ~ In 46 (m_said m) ->
  splitb dot (tkey m x) = [aid; y; mid] -> joinb dot [aid; mid] = pkey m.
Proof.
  intros m x aid y mid A B E. rewrite tkey_split in E by assumption. injection E as E1 E2. subst aid.
  change [y; mid] with ([y] ++ [mid]) in E2. apply app_inj_tail in E2. destruct E2 as [_ E2]. subst mid. reflexivity.
Qed.

(** ** Attachments *)
Lemma hasSeals_in : forall m a sn dig r, rev (senderSeals (m_pre m) a) = (sn, dig) :: r ->
  In (sn, dig) (a_sscs a) \/ In (m_pre m, (sn, dig)) (a_ssts a).
Proof.
  intros m a sn dig r E. assert (J : In (sn, dig) (senderSeals (m_pre m) a)) by (apply in_rev; rewrite E; left; reflexivity).
  unfold senderSeals in J. apply in_app_or in J. destruct J as [J|J]; [left; exact J|right].
  apply in_map_iff in J. destruct J as ((p & q) & E1 & J). cbn [snd] in E1. subst q. apply filter_In in J. destruct J as [J K].
  cbn [fst] in K. apply beq_eq in K. subst p. exact J.
Qed.

Lemma seal_spec : forall v m a, validateSenderSeal v m a = Some true -> sealedBy v m a.
Proof.
  intros v m a H. unfold validateSenderSeal in H. destruct (rev (senderSeals (m_pre m) a)) as [|(sn, dig) r] eqn:E; [discriminate|].
  destruct (evt v (m_pre m) sn) as [(sdig, ev)|] eqn:Ev; [|discriminate]. destruct (beq sdig dig) eqn:B; cbn [negb] in H; [|discriminate].
  apply beq_eq in B. subst sdig. destruct ev as [seals|]; [|discriminate]. injection H as H. apply SerProofs.memB_In in H.
  exists sn, dig, seals. split; [exact (hasSeals_in _ _ _ _ _ E)|]. split; assumption.
Qed.

Lemma senderSigers_in : forall m k a s, In s (senderSigers (m_pre m) a) -> attachedSig m k a s.
Proof.
  intros m k a s H. unfold senderSigers in H. apply in_app_or in H. destruct H as [H|H]; [left; exact H|].
  apply in_concat in H. destruct H as (l & I1 & I2). apply in_map_iff in I1. destruct I1 as ((p & q) & E & I1). cbn [snd] in E. subst q.
  apply filter_In in I1. destruct I1 as [I1 K]. cbn [fst] in K. apply beq_eq in K. subst p.
  right. left. exists l. split; assumption.
Qed.

Lemma dedupB_in : forall l seen s, In s (dedupB seen l) -> In s l /\ memB (sg_qb64 s) seen = false.
Proof.
  induction l as [|x l IH]; intros seen s H; cbn [dedupB] in H; [destruct H|].
  destruct (memB (sg_qb64 x) seen) eqn:M.
  - apply IH in H. destruct H. split; [right; assumption|assumption].
  - destruct H as [->|H]; [split; [left; reflexivity|exact M]|]. apply IH in H. destruct H as [H1 H2]. split; [right; exact H1|].
    unfold memB in *. cbn [existsb] in H2. apply orb_false_iff in H2. apply H2.
Qed.
Lemma dedupB_nodup : forall l seen, NoDup (dedupB seen l).
Proof.
  induction l as [|x l IH]; intros seen; cbn [dedupB]; [constructor|]. destruct (memB (sg_qb64 x) seen); [apply IH|].
  constructor; [|apply IH]. intros J. apply dedupB_in in J. destruct J as [_ J]. unfold memB in J. cbn [existsb] in J.
  rewrite beq_refl in J. discriminate.
Qed.

Section P.
Variable env : kenv.

Lemma verify_spec : forall k m a vs, verifyAttached env k m a = (true, vs) ->
  (vs = [] /\ signedAsSelf env m a) \/ (vs <> [] /\ NoDup vs /\ forall s, In s vs -> goodSig env k m s /\ attachedSig m k a s).
Proof.
  intros k m a vs H. unfold verifyAttached in H.
  destruct (existsb _ (a_cigars a)) eqn:E.
  - injection H as <-. left. split; [reflexivity|]. apply existsb_exists in E. destruct E as (cg & I1 & E).
    apply andb_prop in E. destruct E as [E E3]. apply andb_prop in E. destruct E as [E1 E2]. apply beq_eq in E2. apply negb_true_iff in E1.
    exists cg. repeat (split; [auto|]). exact E3.
  - right. cbv zeta in H. unfold verifySigs in H. cbn [fst] in H. injection H as H1 H2. rewrite H2 in H1. split; [intros ->; discriminate|].
    subst vs. split; [apply NoDup_filter, dedupB_nodup|]. intros s J. apply filter_In in J. destruct J as [J1 J2]. split.
    + unfold goodSig. destruct (nth_error (kv_keys k) (N.to_nat (sg_index s))) as [key|]; [|discriminate]. exists key. split; [reflexivity|exact J2].
    + apply dedupB_in in J1. destruct J1 as [J1 _]. apply in_app_or in J1. destruct J1 as [J1|J1]; [apply senderSigers_in; exact J1|].
      apply in_concat in J1. destruct J1 as (l & L1 & L2). apply in_map_iff in L1. destruct L1 as (g & <- & G). apply filter_In in G. destruct G as [G1 G2].
      apply andb_prop in G2. destruct G2 as [G2 G4]. apply andb_prop in G2. destruct G2 as [G2 G3].
      apply beq_eq in G2. apply N.eqb_eq in G3. apply beq_eq in G4. right. right. exists g. repeat (split; [assumption|]). exact L2.
Qed.

(** ** The two branches *)
Definition addPartial (m : kmsg) (k : kst) (new : list siger) (d : kdb) : kdb :=
  match new with
  | [] => d
  | _ => mkKdb (kctyp d) (msgc d) (tmsc d) (dput (pmkm d) (pkey m) m)
           (dset (pmks d) (pkey m) (addSigs (sigsAt d (pkey m)) new))
           (dput (pmsk d) (pkey m) (kv_sn k, kv_said k))
  end.
Definition newSigs (m : kmsg) (vs : list siger) (d : kdb) : list siger :=
  filter (fun s => negb (existsb (N.eqb (sg_index s)) (map sg_index (sigsAt d (pkey m))))) vs.

Lemma cached_spec : forall v mdt m a h d d' o, onCached env v mdt m a h d = (d', o) ->
  (d' = d /\ o <> Admit) \/
  (exists k vs, kev v (m_pre m) = Some k /\ (len (kv_keys k) =? 1) = false
     /\ hasSigs (m_pre m) a = true
     /\ (dget (pmkm d) (pkey m) <> None \/ h_mdt h < mdt)
     /\ verifyAttached env k m a = (true, vs)
     /\ (forall q, dget (pmsk d) (pkey m) = Some q -> q = (kv_sn k, kv_said k))
     /\ d' = addPartial m k (newSigs m vs d) d
     /\ (o = Admit -> sigsAt d (pkey m) ++ newSigs m vs d <> [] /\
           satisfy (kv_th k) (map sg_index (sigsAt d (pkey m) ++ newSigs m vs d)) = true)
     /\ (o = Admit \/ o = Drop)).
Proof.
  intros v mdt m a h d d' o H. unfold onCached in H. cbv zeta in H.
  destruct (negb (h_mdt h <? mdt) && negb match dget (pmkm d) (pkey m) with Some _ => true | None => false end) eqn:E1.
  { injection H as <- <-. left. split; [reflexivity|discriminate]. }
  destruct (hasSeals (m_pre m) a && negb (hasSigs (m_pre m) a)) eqn:E2.
  { injection H as <- <-. left. split; [reflexivity|discriminate]. }
  destruct (kev v (m_pre m)) as [k|] eqn:K.
  2:{ injection H as <- <-. left. split; [reflexivity|discriminate]. }
  destruct (if hasSeals (m_pre m) a && hasSigs (m_pre m) a then validateSenderSeal v m a else Some false) as [b|] eqn:E3.
  2:{ injection H as <- <-. left. split; [reflexivity|discriminate]. }
  destruct b.
  { injection H as <- <-. left. split; [reflexivity|discriminate]. }
  destruct (len (kv_keys k) =? 1) eqn:E4.
  { injection H as <- <-. left. split; [reflexivity|discriminate]. }
  destruct (verifyAttached env k m a) as [ok vs] eqn:E5. destruct ok; cbn [negb] in H.
  2:{ injection H as <- <-. left. split; [reflexivity|discriminate]. }
  destruct (match dget (pmsk d) (pkey m) with Some (sn, said) => (sn =? kv_sn k) && beq said (kv_said k) | None => true end) eqn:E6; cbn [negb] in H.
  2:{ injection H as <- <-. left. split; [reflexivity|discriminate]. }
  destruct (hasSigs (m_pre m) a) eqn:HS.
  2:{ exfalso. rewrite andb_true_r in E2. assert (hasSeals (m_pre m) a = false) by (destruct (hasSeals (m_pre m) a); [discriminate|reflexivity]).
      clear H. apply verify_spec in E5. unfold hasSigs in HS. destruct (senderSigers (m_pre m) a) eqn:SS; [|discriminate].
      apply orb_false_iff in HS. destruct HS as [C1 C2]. destruct E5 as [[_ (cg & I1 & I2 & _)]|(Hne & _ & Hin)].
      - rewrite <- Bool.not_true_iff_false in C1. apply C1. apply existsb_exists. exists cg. split; [exact I1|apply beq_eq; exact I2].
      - destruct vs as [|s vs]; [congruence|]. destruct (Hin s (or_introl eq_refl)) as [_ At].
        assert (HQ : senderSigers (m_pre m) a <> [] \/ exists g, In g (a_tsgs a) /\ g_pre g = m_pre m).
        { destruct At as [At|[(l & L1 & L2)|(g & G1 & G2 & _)]].
          - left. unfold senderSigers. destruct (a_sigers a); [destruct At|discriminate].
          - left. intros Z. assert (J : In s (senderSigers (m_pre m) a)).
            { unfold senderSigers. apply in_or_app. right. apply in_concat. exists l. split; [|exact L2].
              apply in_map_iff. exists (m_pre m, l). split; [reflexivity|]. apply filter_In. split; [exact L1|apply beq_refl]. }
            rewrite Z in J. destruct J.
          - right. exists g. split; assumption. }
        destruct HQ as [HQ|(g & G1 & G2)]; [congruence|]. rewrite <- Bool.not_true_iff_false in C2. apply C2. apply existsb_exists.
        exists g. split; [exact G1|apply beq_eq; exact G2]. }
  right. exists k, vs. split; [reflexivity|]. split; [exact E4|]. split; [reflexivity|].
  split. { destruct (dget (pmkm d) (pkey m)); [left; discriminate|]. rewrite andb_true_r in E1. apply negb_false_iff in E1. right. apply N.ltb_lt. exact E1. }
  split; [exact E5|].
  split. { intros (sn, said) Q. rewrite Q in E6. apply andb_prop in E6. destruct E6 as [Q1 Q2]. apply N.eqb_eq in Q1. apply beq_eq in Q2. congruence. }
  fold (newSigs m vs d) in H.
  assert (D : (match newSigs m vs d with [] => d | _ => setPmsk (setPmkm (setPmks d (dset (pmks d) (pkey m) (addSigs (sigsAt d (pkey m)) (newSigs m vs d))))
       (dput (pmkm (setPmks d (dset (pmks d) (pkey m) (addSigs (sigsAt d (pkey m)) (newSigs m vs d))))) (pkey m) m))
       (dput (pmsk (setPmkm (setPmks d (dset (pmks d) (pkey m) (addSigs (sigsAt d (pkey m)) (newSigs m vs d))))
       (dput (pmkm (setPmks d (dset (pmks d) (pkey m) (addSigs (sigsAt d (pkey m)) (newSigs m vs d))))) (pkey m) m))) (pkey m) (kv_sn k, kv_said k)) end)
       = addPartial m k (newSigs m vs d) d).
  { unfold addPartial. destruct (newSigs m vs d); reflexivity. }
  rewrite D in H. clear D. destruct (sigsAt d (pkey m) ++ newSigs m vs d) as [|s0 ss0] eqn:EA.
  - injection H as <- <-. split; [reflexivity|]. split; [discriminate|right; reflexivity].
  - injection H as <- <-. split; [reflexivity|]. split.
    + intros Q. split; [discriminate|]. change (sg_index s0 :: map sg_index ss0) with (map sg_index (s0 :: ss0)) in Q.
      destruct (satisfy (kv_th k) (map sg_index (s0 :: ss0))); [reflexivity|discriminate Q].
    + match goal with |- context [if ?b then Admit else Drop] => destruct b end; auto.
Qed.

Definition setPending (m : kmsg) (k : kst) (vs : list siger) (d : kdb) : kdb :=
  mkKdb (kctyp d) (msgc d) (tmsc d) (dput (pmkm d) (pkey m) m)
    (dset (pmks d) (pkey m) (addSigs (sigsAt d (pkey m)) vs)) (dset (pmsk d) (pkey m) (kv_sn k, kv_said k)).

Definition lagOf (ty : auth) (c : ctyp) : N := match ty with MultiKey => c_ll c | _ => c_sl c end.
Definition plagOf (ty : auth) (c : ctyp) : N := match ty with MultiKey => c_pll c | _ => c_psl c end.

Lemma fresh_spec : forall v now mdt m a xw pin xdt d d' o, onFresh env v now mdt m a xw pin xdt d = (d', o) ->
  (d' = d /\ o <> Admit) \/
  (exists c k ty, fetchCacheType d (m_ilk m) (m_route m) = Some c /\ kev v (m_pre m) = Some k
     /\ ty = fst (resolveAuthType v k m a)
     /\ inWindow (c_d c) (lagOf ty c) mdt now /\ xw c = true
     /\ let h := mkH mdt xdt (c_d c) (lagOf ty c) (plagOf ty c) (c_xl c) (c_pxl c) in
        (d' = pin h d /\ o = Admit /\
           (sealedBy v m a \/
            (ty <> SealRef /\ exists vs, verifyAttached env k m a = (true, vs)
               /\ (if len (kv_keys k) =? 1 then True else satisfy (kv_th k) (map sg_index vs) = true))))
        \/ (o = Drop /\ (len (kv_keys k) =? 1) = false /\ exists vs, verifyAttached env k m a = (true, vs)
               /\ d' = setPending m k vs (pin h d))).
Proof.
  intros v now mdt m a xw pin xdt d d' o H. unfold onFresh in H. cbv zeta in H.
  destruct (fetchCacheType d (m_ilk m) (m_route m)) as [c|] eqn:C.
  2:{ injection H as <- <-. left. split; [reflexivity|discriminate]. }
  destruct (kev v (m_pre m)) as [k|] eqn:K.
  2:{ injection H as <- <-. left. split; [reflexivity|discriminate]. }
  destruct (resolveAuthType v k m a) as [ty sealOk] eqn:R.
  fold (lagOf ty c) (plagOf ty c) in H.
  destruct ((now <=? mdt + (c_d c + lagOf ty c) * 1000) && (mdt <=? now + c_d c * 1000)) eqn:W; cbn [negb] in H.
  2:{ injection H as <- <-. left. split; [reflexivity|discriminate]. }
  destruct (xw c) eqn:X; cbn [negb] in H.
  2:{ injection H as <- <-. left. split; [reflexivity|discriminate]. }
  assert (TY : match ty with SealRef => True | SingleKey => (len (kv_keys k) =? 1) = true | MultiKey => (len (kv_keys k) =? 1) = false end
               /\ (sealOk = true -> validateSenderSeal v m a = Some true)).
  { unfold resolveAuthType, bySigs in R. clear - R. destruct (len (kv_keys k) =? 1) eqn:L;
      destruct (hasSeals (m_pre m) a); destruct (hasSigs (m_pre m) a); try destruct (validateSenderSeal v m a) as [[|]|] eqn:V;
      injection R as <- <-; split; auto; discriminate. }
  destruct TY as [TY SO].
  apply andb_prop in W. destruct W as [W1 W2]. apply N.leb_le in W1. apply N.leb_le in W2.
  destruct ty.
  - destruct (sealOk || match validateSenderSeal v m a with Some true => true | _ => false end) eqn:SV.
    2:{ injection H as <- <-. left. split; [reflexivity|discriminate]. }
    right. exists c, k, SealRef. rewrite R. repeat (split; [first [reflexivity|split; assumption|exact X]|]). cbv zeta.
    injection H as <- <-. left. split; [reflexivity|]. split; [reflexivity|]. left. apply seal_spec. destruct sealOk; [apply SO; reflexivity|].
    cbn [orb] in SV. destruct (validateSenderSeal v m a) as [[|]|]; congruence.
  - destruct (verifyAttached env k m a) as [ok vs] eqn:V. cbn [fst] in H. destruct ok.
    2:{ injection H as <- <-. left. split; [reflexivity|discriminate]. }
    right. exists c, k, SingleKey. rewrite R. repeat (split; [first [reflexivity|split; assumption|exact X]|]). cbv zeta.
    injection H as <- <-. left. split; [reflexivity|]. split; [reflexivity|]. right. split; [discriminate|]. exists vs. split; [exact V|]. rewrite TY. exact Logic.I.
  - destruct (verifyAttached env k m a) as [ok vs] eqn:V. destruct ok; cbn [negb] in H.
    2:{ injection H as <- <-. left. split; [reflexivity|discriminate]. }
    right. exists c, k, MultiKey. rewrite R. repeat (split; [first [reflexivity|split; assumption|exact X]|]). cbv zeta.
    rewrite TY. destruct (satisfy (kv_th k) (map sg_index vs)) eqn:S1; injection H as <- <-.
    + left. split; [reflexivity|]. split; [reflexivity|]. right. split; [discriminate|]. exists vs. split; [exact V|]. exact S1.
    + right. split; [reflexivity|]. split; [reflexivity|]. exists vs. split; [exact V|]. reflexivity.
Qed.

Definition cacheOf (m : kmsg) (d : kdb) : option hcache :=
  match exchangeId m with None => dget (msgc d) (pkey m) | Some x => dget (tmsc d) (tkey m x) end.
Definition pinOf (m : kmsg) (h : hcache) (d : kdb) : kdb :=
  match exchangeId m with
  | None => setMsgc d (dset (msgc d) (pkey m) h)
  | Some x => setTmsc d (dset (tmsc d) (tkey m x) h)
  end.
(** the start of the exchange of a message, as recorded *)
Definition startOf (m : kmsg) (mdt : N) (d : kdb) : option N :=
  match exchangeId m with
  | None => Some 0
  | Some x => if beq (m_ilk m) ilkXip then Some mdt
              else match topFirst (joinb dot [m_pre m; x]) (tmsc d) with Some (_, h) => Some (h_xdt h) | None => None end
  end.

(** a step of kramit, all cases *)
Lemma kramit_spec : forall v now m a d d' o, kramit env v now m a d = (d', o) ->
  (d' = d /\ o <> Admit) \/
  (exists mdt, m_dt m = Some mdt /\
    ((exists h k vs, cacheOf m d = Some h /\ kev v (m_pre m) = Some k /\ (len (kv_keys k) =? 1) = false
        /\ hasSigs (m_pre m) a = true
        /\ (dget (pmkm d) (pkey m) <> None \/ h_mdt h < mdt)
        /\ verifyAttached env k m a = (true, vs)
        /\ (forall q, dget (pmsk d) (pkey m) = Some q -> q = (kv_sn k, kv_said k))
        /\ d' = addPartial m k (newSigs m vs d) d
        /\ (o = Admit -> sigsAt d (pkey m) ++ newSigs m vs d <> [] /\
              satisfy (kv_th k) (map sg_index (sigsAt d (pkey m) ++ newSigs m vs d)) = true)
        /\ (o = Admit \/ o = Drop))
     \/
     (exists c k ty xdt, cacheOf m d = None /\ fetchCacheType d (m_ilk m) (m_route m) = Some c /\ kev v (m_pre m) = Some k
        /\ ty = fst (resolveAuthType v k m a)
        /\ inWindow (c_d c) (lagOf ty c) mdt now
        /\ startOf m mdt d = Some xdt
        /\ (exchangeId m <> None -> xdt <= mdt /\ mdt <= xdt + c_xl c * 1000)
        /\ let h := mkH mdt xdt (c_d c) (lagOf ty c) (plagOf ty c) (c_xl c) (c_pxl c) in
           (d' = pinOf m h d /\ o = Admit /\
              (sealedBy v m a \/
               (ty <> SealRef /\ exists vs, verifyAttached env k m a = (true, vs)
                  /\ (if len (kv_keys k) =? 1 then True else satisfy (kv_th k) (map sg_index vs) = true))))
           \/ (o = Drop /\ (len (kv_keys k) =? 1) = false /\ exists vs, verifyAttached env k m a = (true, vs)
                  /\ d' = setPending m k vs (pinOf m h d))))).
Proof.
  intros v now m a d d' o H. unfold kramit in H.
  destruct (m_dt m) as [mdt|]; [|injection H as <- <-; left; split; [reflexivity|discriminate]].
  destruct (negb (hasSeals (m_pre m) a) && negb (hasSigs (m_pre m) a)); [injection H as <- <-; left; split; [reflexivity|discriminate]|].
  unfold cacheOf, pinOf, startOf. destruct (exchangeId m) as [x|] eqn:X.
  - destruct (dget (tmsc d) (tkey m x)) as [h|] eqn:C.
    + apply cached_spec in H. destruct H as [H|(k & vs & H)]; [left; exact H|right]. exists mdt. split; [reflexivity|]. left.
      exists h, k, vs. split; [reflexivity|]. exact H.
    + apply fresh_spec in H. destruct H as [H|(c & k & ty & H1 & H2 & H3 & H4 & H5 & H6)]; [left; exact H|right]. exists mdt. split; [reflexivity|]. right.
      destruct (if beq (m_ilk m) ilkXip then Some mdt else match topFirst (joinb dot [m_pre m; x]) (tmsc d) with Some (_, h) => Some (h_xdt h) | None => None end) as [xd|] eqn:XD; [|discriminate].
      exists c, k, ty, xd. split; [reflexivity|]. split; [exact H1|]. split; [exact H2|]. split; [exact H3|]. split; [exact H4|]. split; [reflexivity|]. split.
      * intros _. apply andb_prop in H5. destruct H5 as [P Q]. apply N.leb_le in P. apply N.leb_le in Q. split; assumption.
      * exact H6.
  - destruct (dget (msgc d) (pkey m)) as [h|] eqn:C.
    + apply cached_spec in H. destruct H as [H|(k & vs & H)]; [left; exact H|right]. exists mdt. split; [reflexivity|]. left.
      exists h, k, vs. split; [reflexivity|]. exact H.
    + apply fresh_spec in H. destruct H as [H|(c & k & ty & H1 & H2 & H3 & H4 & H5 & H6)]; [left; exact H|right]. exists mdt. split; [reflexivity|]. right.
      exists c, k, ty, 0. split; [reflexivity|]. split; [exact H1|]. split; [exact H2|]. split; [exact H3|]. split; [exact H4|]. split; [reflexivity|]. split.
      * intros J. exfalso. apply J. reflexivity.
      * exact H6.
Qed.
End P.
