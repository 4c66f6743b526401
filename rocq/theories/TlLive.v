(** Well formed registry and credential events are accepted. *)
From Verif Require Import Prelude B64Model MatterModel SubsModel ThModel ThProofs SerProofs KelModel KelProofs RpLive TlModel TlSpec TlProofs TlInv.
Open Scope N_scope.
Ltac Zify.zify_post_hook ::= Z.div_mod_to_equations.

Section L.
  Context (E : tenv) (cf : tconf).

  Lemma allowed_pass : forall k, allowed cf k -> negb (c_lax cf) && (if c_tlocal cf then negb (memN k (c_regs cf)) else memN k (c_regs cf)) = false.
  Proof. intros k [-> | ->]; [reflexivity|]. destruct (c_lax cf), (c_tlocal cf); reflexivity. Qed.
  Lemma sealed_ok : forall v ii a e, sealedAt v ii a e -> verifyAnchor v ii (Some a) e = Ok true.
  Proof. intros v ii (k, sd) e H. apply verifyAnchor_yes. exact H. Qed.
  Lemma signed_all : forall e bs bk, signedBy E e bs bk -> verifySigs N (tvrfy E) (t_raw e) bs bk = (bs, map sg_index bs).
  Proof.
    intros e bs bk [N1 A]. unfold verifySigs. rewrite dedupB_id by (auto; intros ? ? []). rewrite filter_id; [reflexivity|].
    intros s J. destruct (A s J) as (b & -> & V). exact V.
  Qed.
  Lemma vab_ok : forall v tv e a bs toad bk d, (forall b, In b bk -> goodBak E b = true) -> sealedAt v (v_ii tv) a e -> signedBy E e bs bk -> fits toad bk -> toad <= len bs ->
    valAnchorBigs E v tv e (Some a) bs toad bk d = (d, Ok bs).
  Proof.
    intros v tv e a bs toad bk d G S1 S2 F L. unfold valAnchorBigs. replace (forallb (goodBak E) bk) with true by (symmetry; apply forallb_forall; exact G).
    cbn [negb]. rewrite (signed_all e bs bk S2), (sealed_ok v _ a e S1). destruct (negb (isnil bk) && negb (v_local tv) && negb (memN (v_regk tv) bk)); [|reflexivity].
    assert (X : toad <= len bk) by (destruct bk; cbn [fits] in F; [rewrite F; unfold len; cbn; lia|apply F]).
    rewrite (proj2 (N.ltb_ge _ _) X). replace (len (map sg_index bs)) with (len bs) by (unfold len; rewrite map_length; reflexivity). rewrite (proj2 (N.ltb_ge _ _) L). reflexivity.
  Qed.

  Lemma opens : forall v e a bs d, goodPre E (t_pre e) = true -> t_ilk e = Vcp -> t_sn e = 0 -> allowed cf (t_pre e) -> tget d (t_pre e) = None ->
    NoDup (t_baks e) -> (forall b, In b (t_baks e) -> goodBak E b = true) -> fits (t_toad e) (t_baks e) ->
    sealedAt v (t_ii e) a e -> signedBy E e bs (t_baks e) -> t_toad e <= len bs ->
    exists d', tprocess E cf v e (Some a) bs d = (d', Ok tt)
      /\ tget d' (t_pre e) = Some (mkTever (t_ii e) (t_pre e) 0 (t_said e) (t_toad e) (t_baks e) (t_nob e) (c_tlocal cf))
      /\ telAt d' (t_pre e) 0 <> None.
  Proof.
    intros v e a bs d G K S0 Al T Nd Gb F S1 S2 L. unfold tprocess. rewrite G. cbn [negb]. unfold registryKey, snOk. rewrite K, S0.
    change (0 <=? MaxON) with true. change (0 =? 0) with true. cbn [andb negb]. rewrite (allowed_pass _ Al), T. unfold tincept. rewrite S0. change (negb (0 =? 0)) with false. cbv iota.
    rewrite (oset_id _ Nd), N.eqb_refl. cbn [negb].
    replace (if isnil (t_baks e) then negb (t_toad e =? 0) else (t_toad e <? 1) || (len (t_baks e) <? t_toad e)) with false.
    2:{ destruct (t_baks e) as [|b l]; cbn [fits isnil] in *; [rewrite F; reflexivity|]. destruct F as [F1 F2]. symmetry. apply orb_false_iff. split; apply N.ltb_ge; assumption. }
    cbn [v_toad v_baks]. rewrite vab_ok; try assumption. eexists. split; [reflexivity|]. split.
    - unfold tget, tset. cbn [tevers set_tevers set_tstates]. unfold fset. rewrite N.eqb_refl. reflexivity.
    - destruct (tlog_fr (t_pre e) 0 e a bs (t_baks e) d) as (_ & _ & _ & _ & B & _). unfold telAt at 1. unfold tset. cbn [tels set_tstates set_tevers]. rewrite B. rewrite telPut_get, N.eqb_refl. destruct (telAt d (t_pre e) 0) as [g|] eqn:Q.
      + unfold telAt in Q. destruct (find _ (tels d (t_pre e))); discriminate.
      + unfold telAt in Q. destruct (find _ (tels d (t_pre e))) eqn:Fd; [discriminate|]. rewrite (find_app_none _ _ _ Fd). cbn. discriminate.
  Qed.

  Lemma simple_step : forall v e a bs d tv, goodPre E (t_pre e) = true -> allowed cf (t_ri e) -> tget d (t_ri e) = Some tv -> v_nob tv = true -> v_regk tv = t_ri e ->
    t_sn e <= MaxON -> t_sn e = len (tels d (t_pre e)) ->
    (t_ilk e = Iss /\ t_sn e = 0 \/ t_ilk e = Rev /\ 1 <= t_sn e /\ exists g ie, telAt d (t_pre e) (t_sn e - 1) = Some g /\ tvts d (t_pre e) g = Some ie /\ t_said ie = t_prior e) ->
    tprocess E cf v e a bs d = simple v tv e a d.
  Proof.
    intros v e a bs d tv G Al T Nb Rk Mx L K. unfold tprocess. rewrite G. cbn [negb]. unfold registryKey, snOk. rewrite (proj2 (N.leb_le _ _) Mx). cbn [andb].
    destruct K as [[K S0]|(K & S1 & g & ie & T1 & T2 & T3)]; rewrite K.
    - rewrite (proj2 (N.eqb_eq _ _) S0). cbn [negb]. rewrite (allowed_pass _ Al), T. unfold nextSn. rewrite K, <- L, N.ltb_irrefl, N.eqb_refl. unfold tupdate, tissue. rewrite K, Nb. cbn [negb]. rewrite Rk, N.eqb_refl. reflexivity.
    - rewrite (proj2 (N.leb_le _ _) S1). cbn [negb]. rewrite (allowed_pass _ Al), T. unfold nextSn. rewrite K, <- L, N.ltb_irrefl, N.eqb_refl. unfold tupdate, trevoke. rewrite K, T1, T2, T3, N.eqb_refl. cbn [negb]. rewrite Nb. reflexivity.
  Qed.
  Lemma simple_logs : forall v tv e a d, sealedAt v (v_ii tv) a e -> t_sn e = len (tels d (t_pre e)) -> telAt d (t_pre e) (t_sn e) = None ->
    exists d', simple v tv e (Some a) d = (d', Ok tt) /\ tels d' (t_pre e) = tels d (t_pre e) ++ [(t_sn e, t_said e)].
  Proof.
    intros v tv e a d S L T. unfold simple. rewrite (sealed_ok _ _ _ _ S). eexists. split; [reflexivity|].
    destruct (tlog_fr (t_pre e) (t_sn e) e a [] [] d) as (_ & _ & _ & _ & B & _). rewrite B, telPut_get, N.eqb_refl, T. reflexivity.
  Qed.

  (** an event whose anchor is not known yet waits and is accepted by the next sweep *)
  Lemma waits : forall v0 v e a bs d tv, goodPre E (t_pre e) = true -> t_ilk e = Iss -> t_sn e = 0 -> allowed cf (t_ri e) -> tget d (t_ri e) = Some tv -> v_nob tv = true -> v_regk tv = t_ri e ->
    tels d (t_pre e) = [] -> v0 (v_ii tv) (fst a) = None -> sealedAt v (v_ii tv) a e -> tvts d (t_pre e) (t_said e) = None -> ancs d (t_pre e) (t_said e) = None -> taes d = [] -> 
    exists d1, tprocess E cf v0 e (Some a) bs d = (d1, Err MissingAnchorError) /\ vcState d1 (t_pre e) = NeverIssued
      /\ telAt (tsweep E cf v d1) (t_pre e) 0 = Some (t_said e).
  Proof.
    intros v0 v e a bs d tv G K S0 Al T Nb Rk Le V0 Sv Tv An Ta. rewrite (simple_step v0 e (Some a) bs d tv G Al T Nb Rk); [|rewrite S0; apply N.leb_le; reflexivity|rewrite Le, S0; reflexivity|left; split; assumption].
    unfold simple, verifyAnchor at 1. destruct a as (k, sd). cbn [fst] in V0. rewrite V0. set (d1 := escrowAL e (Some (k, sd)) [] [] d). exists d1. split; [reflexivity|].
    destruct (escrowAL_fr e (Some (k, sd)) [] [] d) as (A1 & A2 & A3 & A4 & A5 & _). fold d1 in A1, A2, A3, A4, A5.
    split; [unfold vcState; rewrite A1, Le; reflexivity|].
    assert (X1 : tvts d1 (t_pre e) (t_said e) = Some e) by (rewrite A4; unfold putTvt; cbn [tvts set_tvts]; unfold aput; rewrite Tv; unfold aset; rewrite !N.eqb_refl; reflexivity).
    assert (X2 : ancs d1 (t_pre e) (t_said e) = Some (k, sd)) by (unfold d1, escrowAL; cbn; unfold aput; rewrite An; unfold aset; rewrite !N.eqb_refl; reflexivity).
    assert (X3 : taes d1 = [(t_pre e, 0, t_said e)]) by (unfold d1, escrowAL; cbn; rewrite Ta, S0; reflexivity).
    assert (X4 : tget d1 (t_ri e) = Some tv).
    { unfold tget in *. rewrite A2, A3. destruct (tevers d (t_ri e)); [exact T|]. destruct (tstates d (t_ri e)) as [s|]; [|exact T]. destruct (tvts d (r_i s) (r_d s)) as [r|] eqn:R; [|discriminate].
      assert (Y : tvts d1 (r_i s) (r_d s) = Some r). { rewrite A4. destruct (putTvt_get e d (r_i s) (r_d s)) as [Q|(Q & _)]; [rewrite Q; exact R|congruence]. } rewrite Y. exact T. }
    assert (X5 : tels d1 (t_pre e) = []) by (rewrite A1; exact Le).
    unfold tsweep, sweepAL. rewrite X3. cbn [fold_left]. unfold sweepAL1. rewrite X1, X2.
    rewrite (simple_step v e (Some (k, sd)) _ d1 tv G Al X4 Nb Rk); [|rewrite S0; apply N.leb_le; reflexivity|rewrite X5, S0; reflexivity|left; split; assumption].
    destruct (simple_logs v tv e (k, sd) d1 Sv) as (d2 & -> & L2); [rewrite X5, S0; reflexivity|unfold telAt; rewrite X5; reflexivity|].
    set (d3 := set_taes _ d2). assert (Y : telAt d3 (t_pre e) 0 = Some (t_said e)) by (unfold telAt, d3; cbn [tels set_taes]; rewrite L2, X5, S0; reflexivity).
    apply (ext_at d3); [|exact Y]. unfold sweepOO. generalize (oots d3). clear. intros l. generalize d3. clear. intros d. 
    assert (F : forall l d0, ext d d0 -> ext d (fold_left (fun d r => sweepOO1 E cf v r d) l d0)).
    { induction l0 as [|r l0 IH]; intros d0 X; [exact X|]. cbn [fold_left]. apply IH. apply (sweepOO1_P E cf (ext d) v).
      - intros d1 p g e a bs d' rr X1 _ T. eapply ext_trans; [exact X1|]. eapply process_ext. exact T.
      - intros d1 t X1. exact X1.
      - exact X. }
    apply F. apply ext_refl.
  Qed.
End L.

(** ** An out of order event doubles at every sweep *)
Section D.
  Context (E : tenv) (cf : tconf) (v : kelview) (e : tev) (a : N * N).
  Hypothesis G : goodPre E (t_pre e) = true.
  Hypothesis Al : allowed cf (registryOf e).
  Hypothesis Kd : t_ilk e = Rev.
  Hypothesis Sn : 1 <= t_sn e /\ t_sn e <= MaxON.
  Definition dinv (d : tdb) : Prop :=
    tget d (registryOf e) = None /\ tvts d (t_pre e) (t_said e) = Some e /\ ancs d (t_pre e) (t_said e) = Some a /\ taes d = []
    /\ (forall r, In r (oots d) -> r = (t_pre e, t_sn e, t_said e)).
  Lemma ins_len : forall r t, len (etab_ins r t) = len t + 1.
  Proof. intros r t. unfold len. induction t as [|q t IH]; [reflexivity|]. cbn [etab_ins]. destruct (key_ltb r q); cbn [List.length] in *; lia. Qed.
  Lemma ins_in : forall r t q, In q (etab_ins r t) -> q = r \/ In q t.
  Proof.
    intros r t q. induction t as [|x t IH]; cbn [etab_ins].
    - intros [-> |[]]. left. reflexivity.
    - destruct (key_ltb r x); intros [J|J]; [left; auto|right; exact J|right; left; exact J|destruct (IH J); [left; assumption|right; right; assumption]].
  Qed.
  Lemma aput_same : forall A (m : amap A) p g x, m p g = Some x -> forall y, aput m p g y = m.
  Proof. intros A m p g x H y. unfold aput. rewrite H. reflexivity. Qed.
  Lemma oo_deliver : forall d bs, tget d (registryOf e) = None ->
    tprocess E cf v e (Some a) bs d = (fst (escrowOO e (Some a) d), Err OutOfOrderError).
  Proof.
    intros d bs T. unfold tprocess. rewrite G. cbn [negb]. unfold registryOf in *. unfold registryKey, snOk. rewrite Kd in *. rewrite (proj2 (N.leb_le _ _) (proj1 Sn)), (proj2 (N.leb_le _ _) (proj2 Sn)).
    cbn [andb negb]. rewrite (allowed_pass cf _ Al), T. reflexivity.
  Qed.
  Lemma one_more : forall d, dinv d -> dinv (sweepOO1 E cf v (t_pre e, t_sn e, t_said e) d) /\ len (oots (sweepOO1 E cf v (t_pre e, t_sn e, t_said e) d)) = len (oots d) + 1.
  Proof.
    intros d (A & B & C & D & F). unfold sweepOO1. rewrite B, C, oo_deliver by exact A. unfold escrowOO. cbn [fst].
    assert (M : etab_mem (t_pre e, 0, t_said e) (oots d) = false).
    { unfold etab_mem. destruct (existsb _ _) eqn:X; [|reflexivity]. apply existsb_exists in X. destruct X as (r & J & Q). rewrite (F r J) in Q. unfold row_eqb in Q. apply andb_prop in Q. destruct Q as [Q _]. apply andb_prop in Q. destruct Q as [_ Q]. apply N.eqb_eq in Q. lia. }
    assert (P : tvts (putTvt e d) = tvts d) by (unfold putTvt; cbn; apply (aput_same _ _ _ _ _ B)).
    assert (P2 : ancs (putAnc e a (putTvt e d)) = ancs d) by (unfold putAnc, putTvt; cbn; apply (aput_same _ _ _ _ _ C)).
    split.
    - split; [|split; [|split; [|split]]].
      + unfold tget in *. cbn [tevers set_oots putAnc set_ancs putTvt set_tvts tstates tvts]. rewrite (aput_same _ _ _ _ _ B). exact A.
      + cbn [tvts set_oots putAnc set_ancs putTvt set_tvts]. rewrite (aput_same _ _ _ _ _ B). exact B.
      + cbn [ancs set_oots]. rewrite P2. exact C.
      + exact D.
      + intros r J. cbn [oots set_oots putAnc set_ancs putTvt set_tvts] in J. unfold escPut in J. rewrite M in J. apply ins_in in J. destruct J as [J|J]; [exact J|apply F; exact J].
    - cbn [oots set_oots putAnc set_ancs putTvt set_tvts]. unfold escPut. rewrite M. apply ins_len.
  Qed.
  Lemma sweep_doubles : forall d, dinv d -> dinv (tsweep E cf v d) /\ len (oots (tsweep E cf v d)) = 2 * len (oots d).
  Proof.
    intros d I. unfold tsweep, sweepAL. assert (Ta : taes d = []) by apply I. rewrite Ta. cbn [fold_left]. unfold sweepOO.
    assert (F : forall l d0, (forall r, In r l -> r = (t_pre e, t_sn e, t_said e)) -> dinv d0 ->
              dinv (fold_left (fun d r => sweepOO1 E cf v r d) l d0) /\ len (oots (fold_left (fun d r => sweepOO1 E cf v r d) l d0)) = len (oots d0) + len l).
    { induction l as [|r l IH]; intros d0 Al0 I0; cbn [fold_left].
      - split; [exact I0|]. unfold len. cbn [List.length]. lia.
      - rewrite (Al0 r) by (left; reflexivity). destruct (one_more d0 I0) as [I1 L1]. destruct (IH _ (fun q J => Al0 q (or_intror J)) I1) as [I2 L2].
        split; [exact I2|]. rewrite L2, L1, len_cons. lia. }
    destruct (F (oots d) d) as [A B]; [apply I|exact I|]. split; [exact A|]. rewrite B. lia.
  Qed.
  Lemma doubles : forall bs n, len (oots (truns E cf (TDeliver v e (Some a) bs :: repeat (TSweep v) n) tdb0)) = 2 ^ N.of_nat n.
  Proof.
    intros bs n. unfold truns. cbn [fold_left tdo]. rewrite oo_deliver by reflexivity. cbn [fst]. set (d1 := fst (escrowOO e (Some a) tdb0)).
    assert (I : dinv d1).
    { unfold d1, escrowOO. cbn [fst]. split; [reflexivity|]. split; [|split; [|split; [reflexivity|]]].
      - cbn. unfold aset. rewrite !N.eqb_refl. reflexivity.
      - cbn. unfold aset. rewrite !N.eqb_refl. reflexivity.
      - intros r [<- |[]]. reflexivity. }
    assert (L : len (oots d1) = 2 ^ 0) by reflexivity.
    assert (F : forall n d k, dinv d -> len (oots d) = 2 ^ k -> len (oots (fold_left (tdo E cf) (repeat (TSweep v) n) d)) = 2 ^ (k + N.of_nat n)).
    { clear - G Al Kd Sn. induction n as [|n IH]; intros d k I L; cbn [repeat fold_left tdo]; [rewrite L; f_equal; lia|]. destruct (sweep_doubles d I) as [I2 L2].
      rewrite (IH _ (k + 1)); [f_equal; lia|exact I2|]. rewrite L2, L, N.add_1_r, N.pow_succ_r'. reflexivity. }
    rewrite (F n d1 0 I L). f_equal.
  Qed.
End D.
