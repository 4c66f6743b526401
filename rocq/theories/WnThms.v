(** Properties of the receipts a witness signs and hands out. *)
From Coq Require Import Lia.
From Verif Require Import Prelude B64Model MatterModel SubsModel ThModel ThSpec KelModel KelSpec KelProofs KelInv KelLaw KelThms WnModel WnSpec WnProofs.
Ltac Zify.zify_post_hook ::= Z.div_mod_to_equations.
Open Scope N_scope.

(** Witness 9 of identifier 7: inception, two different interactions at number 1, a rotation at number 1, an
    interaction at number 3 whose prior is missing. *)
Definition cfW : conf := mkConf [9] [] (fun _ => None).
Definition I0 := icpT 20 7 1 [1] 1 [102] 1 [9].
Definition X1 := ixn1 21 7 1 20 [].
Definition Y1 := ixn1 22 7 1 20 [].
Definition Z3 := ixn1 23 7 3 22 [].
Definition R1 := rotT Rot 24 7 1 20 1 [2] 1 [103] 1 [] [].
Definition evsW := [I0; X1; Y1; Z3; R1].
Definition mI := msgT I0 [sign I0 1 0 None] [] None.
Definition mX := msgT X1 [sign X1 1 0 None] [] None.
(** the second interaction, without any signature *)
Definition mY := msgT Y1 [] [] None.
(** with a witness signature made by a stranger *)
Definition mZ := msgT Z3 [sign Z3 1 0 None] [sign Z3 66 0 None] None.
Definition mR := msgT R1 [sign R1 2 0 (Some 0)] [] None.
Definition opsC : list wop := [WDeliver mX; WDeliver mI; WEscrows 1; WCue; WCue; WDeliver mR; WCue; WRestart; WDeliver mZ].
Definition opsP : list wop := [WDeliver mI; WCue; WPost mX; WPost mY].
Definition sC : wst := wrun E1 cfW 9 None opsC.
Definition sP : wst := wrun E1 cfW 9 None opsP.
Lemma realC : world (Hof evsW) /\ sane (Hof evsW) /\ Forall (real_wop (Hof evsW)) opsC /\ Forall (real_wop (Hof evsW)) opsP.
Proof.
  split; [apply world_of; reflexivity|]. split; [apply sane_of; reflexivity|].
  split; unfold opsC, opsP; repeat (apply Forall_cons; [first [reflexivity|exact Logic.I]|]); apply Forall_nil.
Qed.
Lemma noPostC : noPost opsC.
Proof. intros m X. unfold opsC in X. cbn [In] in X. repeat (destruct X as [X|X]; [discriminate X|]). exact X. Qed.

Lemma c132_origin_partial : forall E H cf me aids ops p n d, world H -> Forall (real_wop H) ops ->
  In (p, n, d) (signed (wrun E cf me aids ops)) ->
  acceptedAt H (wdb (wrun E cf me aids ops)) p n d \/ posted ops p n d.
Proof. intros E H cf me aids ops p n d W R. apply (v_sig _ _ _ _ _ (winv_run E H cf me aids ops W R)). Qed.

Lemma c132_cues_partial : forall E H cf me aids ops p n d, world H -> Forall (real_wop H) ops -> noPost ops ->
  In (p, n, d) (signed (wrun E cf me aids ops)) -> acceptedAt H (wdb (wrun E cf me aids ops)) p n d.
Proof.
  intros E H cf me aids ops p n d W R NP X. destruct (c132_origin_partial _ _ _ _ _ _ _ _ _ W R X) as [Y|(m & Y & _)]; [exact Y|].
  destruct (NP _ Y).
Qed.


Lemma c132_answer : forall E cf me aids m s s' a, onPost E cf me aids m s = (s', a) ->
  let p := e_pre (m_evt m) in
  wcues s' = wcues s /\
  (allowed aids p -> wdb s' = match m_sigers m with [] => wdb s | _ => fst (processEvent E cf (asLocal m) (wdb s)) end) /\
  match a with
  | Receipted r => allowed aids p /\ r = (p, e_sn (m_evt m), e_said (m_evt m)) /\ signed s' = signed s ++ [r] /\
                   exists k, keyState (wdb s') p = Some k /\ In me (k_wits k)
  | Accepted202 => allowed aids p /\ signed s' = signed s /\ keyState (wdb s') p = None
  | BadRequest => signed s' = signed s /\
                  ((~ allowed aids p /\ s' = s) \/ (allowed aids p /\ exists k, keyState (wdb s') p = Some k /\ ~ In me (k_wits k)))
  end.
Proof.
  intros E cf me aids m s s' a X p.
  assert (PO : parseOne E cf m (wdb s) = match m_sigers m with [] => wdb s | _ => fst (processEvent E cf (asLocal m) (wdb s)) end).
  { unfold parseOne. cbn [m_sigers]. rewrite <- asLocal_eq. destruct (m_sigers m); reflexivity. }
  destruct (onPost_shape E cf me aids m s) as [(S & NA)|(AL & S)].
  - rewrite S in X. inversion X; subst. split; [reflexivity|]. split; [intros Z; destruct (NA Z)|]. auto.
  - fold p in AL, S. destruct (keyState (parseOne E cf m (wdb s)) p) as [k|] eqn:KS.
    + destruct S as [(IN & S)|(NI & S)]; rewrite S in X; inversion X; subst; cbn [wdb wcues signed].
      * split; [reflexivity|]. split; [intros _; exact PO|]. split; [exact AL|]. split; [reflexivity|]. split; [reflexivity|]. eauto.
      * split; [reflexivity|]. split; [intros _; exact PO|]. split; [reflexivity|]. right. eauto.
    + rewrite S in X. inversion X; subst; cbn [wdb wcues signed]. split; [reflexivity|]. split; [intros _; exact PO|]. auto.
Qed.


Lemma c132_accepted_partial : forall E H cf me aids ops m s' a dx', world H -> Forall (real_wop H) ops -> real H (m_evt m) ->
  allowed aids (e_pre (m_evt m)) -> m_sigers m <> [] ->
  processEvent E cf (asLocal m) (wdb (wrun E cf me aids ops)) = (dx', Ok tt) ->
  onPost E cf me aids m (wrun E cf me aids ops) = (s', a) ->
  acceptedAt H (wdb s') (e_pre (m_evt m)) (e_sn (m_evt m)) (e_said (m_evt m)).
Proof.
  intros E H cf me aids ops m s' a dx' W R RM AL SG P X. apply c132_answer in X. destruct X as (_ & X & _). rewrite (X AL).
  destruct (m_sigers m) as [|g l]; [congruence|]. rewrite P. cbn [fst]. split; [|exists (m_evt m); auto].
  pose proof (winv_inv _ _ _ _ _ W (winv_run E H cf me aids ops W R)) as I. destruct (wdb (wrun E cf me aids ops)) as [d x], dx' as [d' x'].
  exact (process_ok_in E H cf (asLocal m) d x d' x' tt W I RM P).
Qed.


Lemma c132_unknown : forall E H cf me aids ops m s', world H -> sane H -> Forall (real_wop H) ops -> real H (m_evt m) ->
  onPost E cf me aids m (wrun E cf me aids ops) = (s', Accepted202) -> fels (fst (wdb s')) (e_pre (m_evt m)) = [].
Proof.
  intros E H cf me aids ops m s' W SN R RM X.
  assert (V : winv E H cf (ops ++ [WPost m]) s').
  { pose proof (winv_run E H cf me aids (ops ++ [WPost m]) W) as Z. unfold wrun in Z. rewrite fold_left_app in Z. cbn [fold_left wstep] in Z.
    fold (wrun E cf me aids ops) in Z. rewrite X in Z. apply Z. apply Forall_app. split; [exact R|]. constructor; [exact RM|constructor]. }
  pose proof (sinv_micros E H cf db0 (wdb s') W SN (sinv0 E H) (v_db _ _ _ _ _ V)) as S'.
  apply c132_answer in X. destruct X as (_ & _ & _ & _ & K). unfold keyState in K.
  destruct (sinv_kget _ _ _ _ (e_pre (m_evt m)) W S') as [(_ & F & _)|(k & KG & _)]; [exact F|congruence].
Qed.


Lemma c132_post_refuted : (forall E cf me aids s m k, allowed aids (e_pre (m_evt m)) -> m_sigers m = [] ->
    keyState (wdb s) (e_pre (m_evt m)) = Some k -> In me (k_wits k) ->
    exists s', onPost E cf me aids m s = (s', Receipted (e_pre (m_evt m), e_sn (m_evt m), e_said (m_evt m))) /\
      wdb s' = wdb s /\ signed s' = signed s ++ [(e_pre (m_evt m), e_sn (m_evt m), e_said (m_evt m))]) /\
  world (Hof evsW) /\ Forall (real_wop (Hof evsW)) opsP /\ In (7, 1, 22) (signed sP) /\ ~ acceptedAt (Hof evsW) (wdb sP) 7 1 22.
Proof.
  split; [|split; [apply realC|split; [apply realC|split]]].
  - intros E cf me aids s m k AL SG KS IN. destruct (onPost E cf me aids m s) as [s' a] eqn:X. pose proof X as X0.
    apply c132_answer in X. destruct X as (_ & D & X). specialize (D AL). rewrite SG in D. exists s'. rewrite D in X.
    destruct a as [r| |].
    + destruct X as (_ & -> & SI & _). auto.
    + destruct X as (_ & _ & X). congruence.
    + destruct X as (_ & [(X & _)|(_ & k' & X & Y)]); [destruct (X AL)|]. rewrite KS in X. inversion X; subst. destruct (Y IN).
  - vm_compute. auto.
  - intros (X & _). assert (F : fels (fst (wdb sP)) 7 = [20; 21]) by (vm_compute; reflexivity). rewrite F in X.
    destruct X as [X|[X|[]]]; discriminate X.
Qed.

Lemma c133_rotation_partial : forall E H cf me aids ops p n d1 d2, world H -> sane H -> Forall (real_wop H) ops -> noPost ops ->
  In (p, n, d1) (signed (wrun E cf me aids ops)) -> In (p, n, d2) (signed (wrun E cf me aids ops)) -> d1 <> d2 ->
  exists i j k a b r, let l := seen (wdb (wrun E cf me aids ops)) p in
    (i < k <= j)%nat /\ nth_error l i = Some (Some a) /\ nth_error l j = Some (Some b) /\ nth_error l k = Some (Some r) /\
    ((e_said a = d1 /\ e_said b = d2) \/ (e_said a = d2 /\ e_said b = d1)) /\ e_sn a = n /\ e_sn b = n /\
    isRot (e_ilk r) = true /\ e_sn r <= n /\ (isEst (e_ilk a) = true -> e_ilk b = Drt).
Proof.
  intros E H cf me aids ops p n d1 d2 W SN R NP S1 S2 NE.
  pose proof (winv_run E H cf me aids ops W R) as V. pose proof (winv_inv _ _ _ _ _ W V) as I.
  pose proof (climbs_from0 E H cf _ W SN (v_db _ _ _ _ _ V)) as C.
  assert (O : ordered (wdb (wrun E cf me aids ops))).
  { apply (ordered_micros E H cf db0); auto using sinv0; [|apply (v_db _ _ _ _ _ V)]. intros q i j ei ej _ A. unfold seen in A. cbn in A. destruct i; discriminate. }
  assert (POS : forall d, In (p, n, d) (signed (wrun E cf me aids ops)) -> exists i e, nth_error (seen (wdb (wrun E cf me aids ops)) p) i = Some (Some e) /\ e_said e = d /\ e_sn e = n).
  { intros d X. destruct (c132_cues_partial _ _ _ _ _ _ _ _ _ W R NP X) as (Y & e & Y1 & Y2 & Y3).
    destruct (i_fe _ _ _ _ I _ _ Y) as (e0 & c0 & e1 & Z1 & Z2 & _). apply chain_hd in Z2. destruct Z2 as (_ & _ & Z2 & _). rewrite Z1 in Z2.
    assert (e0 = e) by (apply (i_ev _ _ _ _ I) in Z2; destruct Z2 as [Z2 _]; congruence). subst e0.
    apply In_nth_error in Y. destruct Y as (i & Y). exists i, e. split; [|auto]. unfold seen. rewrite (map_nth_error _ _ _ Y), Z2. reflexivity. }
  set (l := seen (wdb (wrun E cf me aids ops)) p) in *.
  assert (G : forall d d' i j a b, (i < j)%nat -> nth_error l i = Some (Some a) -> nth_error l j = Some (Some b) -> e_said a = d -> e_said b = d' -> e_sn a = n -> e_sn b = n ->
     exists k r, (i < k <= j)%nat /\ nth_error l k = Some (Some r) /\ isRot (e_ilk r) = true /\ e_sn r <= n /\ (isEst (e_ilk a) = true -> e_ilk b = Drt)).
  { intros d d' i j a b L A B _ _ NA NB. destruct (C p i j a b L A B) as [(k & r & K1 & K2 & K3 & K4)|K]; [|lia].
    exists k, r. split; [exact K1|]. split; [exact K2|]. split; [exact K3|]. split; [lia|]. intros ES.
    destruct (O p i j a b L A B ES) as [Q|(Q & _)]; [lia|exact Q]. }
  destruct (POS _ S1) as (i & a & A1 & A2 & A3). destruct (POS _ S2) as (j & b & B1 & B2 & B3).
  destruct (Nat.lt_trichotomy i j) as [L|[L|L]].
  - destruct (G d1 d2 i j a b L A1 B1 A2 B2 A3 B3) as (k & r & K1 & K2 & K3 & K4 & K5). exists i, j, k, a, b, r. auto 12.
  - subst j. rewrite A1 in B1. inversion B1; subst. destruct (NE eq_refl).
  - destruct (G d2 d1 j i b a L B1 A1 B2 A2 B3 A3) as (k & r & K1 & K2 & K3 & K4 & K5). exists j, i, k, b, a, r. auto 12.
Qed.


Lemma c133_post_refuted : (forall E cf me aids s m1 m2 k, e_pre (m_evt m1) = e_pre (m_evt m2) -> allowed aids (e_pre (m_evt m1)) ->
    m_sigers m1 = [] -> m_sigers m2 = [] -> keyState (wdb s) (e_pre (m_evt m1)) = Some k -> In me (k_wits k) ->
    let s' := wstep E cf me aids (wstep E cf me aids s (WPost m1)) (WPost m2) in
    In (rctOf (m_evt m1)) (signed s') /\ In (rctOf (m_evt m2)) (signed s')) /\
  world (Hof evsW) /\ sane (Hof evsW) /\ Forall (real_wop (Hof evsW)) opsP /\ In (7, 1, 21) (signed sP) /\ In (7, 1, 22) (signed sP) /\
  seen (wdb sP) 7 = [Some I0; Some X1].
Proof.
  split.
  - intros E cf me aids s m1 m2 k EP AL S1 S2 KS IN s'. unfold s'. cbn [wstep].
    destruct (proj1 c132_post_refuted E cf me aids s m1 k AL S1 KS IN) as (t & T1 & T2 & T3). rewrite T1. cbn [fst].
    rewrite EP in AL, KS. rewrite <- T2 in KS. destruct (proj1 c132_post_refuted E cf me aids t m2 k AL S2 KS IN) as (u & U1 & U2 & U3). rewrite U1. cbn [fst].
    rewrite U3, T3. unfold rctOf. split; apply in_or_app; [left; apply in_or_app|]; right; left; reflexivity.
  - destruct realC as (A & B & _ & D). split; [exact A|]. split; [exact B|]. split; [exact D|].
    split; [vm_compute; auto|]. split; [vm_compute; auto|]. vm_compute. reflexivity.
Qed.

Lemma c134_number_partial : forall E H cf me aids ops p n said r ws, world H -> Forall (real_wop H) ops ->
  let dx := wdb (wrun E cf me aids ops) in onGet me p (Some n) said dx = GotReceipts r ws ->
  exists d, r = (p, n, d) /\ acceptedAt H dx p n d /\ klast (kels (fst dx) p) n = Some d /\ ws = getWigs (snd dx) p d.
Proof.
  intros E H cf me aids ops p n said r ws W R dx X.
  pose proof (winv_inv _ _ _ _ _ W (winv_run E H cf me aids ops W R)) as I. fold dx in I. destruct dx as [d x]. cbn [fst snd] in *.
  unfold onGet in X. destruct (klast (kels d p) n) as [s|] eqn:KL; [|discriminate X].
  destruct (evts x p s) as [e|] eqn:EV; [|discriminate X].
  destruct (if 0 <? e_sn e then _ else _) as [wits|]; [|discriminate X]. destruct (memN me wits); [|discriminate X].
  inversion X; subst. exists s. split; [reflexivity|]. split; [|auto]. pose proof (klast_In _ _ _ KL) as IN.
  destruct (i_kf _ _ _ _ I _ _ _ IN) as (A & e' & B & C). split; [exact A|]. exists e. rewrite EV in B. inversion B; subst.
  apply (i_ev _ _ _ _ I) in EV. destruct EV. auto.
Qed.

Lemma c134_found : forall E H cf me aids ops p n d said, world H -> Forall (real_wop H) ops ->
  let dx := wdb (wrun E cf me aids ops) in acceptedAt H dx p n d -> onGet me p (Some n) said dx <> GetNotFound.
Proof.
  intros E H cf me aids ops p n d0 said W R dx (A & e & A1 & A2 & A3) X.
  pose proof (winv_inv _ _ _ _ _ W (winv_run E H cf me aids ops W R)) as I. fold dx in I. destruct dx as [d x]. cbn [fst snd] in *.
  destruct (i_fe _ _ _ _ I _ _ A) as (e0 & c0 & e1 & Z1 & Z2 & _). apply chain_hd in Z2. destruct Z2 as (_ & _ & Z2 & _). rewrite Z1 in Z2.
  assert (e0 = e) by (apply (i_ev _ _ _ _ I) in Z2; destruct Z2 as [Z2 _]; congruence). subst e0.
  pose proof (i_fk _ _ _ _ I _ _ _ A Z2) as K. rewrite A3 in K.
  unfold onGet in X. destruct (klast (kels d p) n) as [s|] eqn:KL.
  - pose proof (klast_In _ _ _ KL) as IN. destruct (i_kf _ _ _ _ I _ _ _ IN) as (_ & e' & B & _). rewrite B in X.
    destruct (if 0 <? e_sn e' then _ else _) as [wits|]; [|discriminate X]. destruct (memN me wits); discriminate X.
  - rewrite klast_row in KL. destruct (rev (krow (kels d p) n)) as [|q t] eqn:RV; [|discriminate KL].
    apply in_rev in K. rewrite RV in K. destruct K.
Qed.


Lemma c134_said_refuted : (forall me p said dx r ws, onGet me p None said dx = GotReceipts r ws -> snd (fst r) = 0) /\
  onGet 9 7 None (Some 21) (wdb sP) = GotReceipts (7, 0, 21) [] /\ acceptedAt (Hof evsW) (wdb sP) 7 1 21.
Proof.
  split; [|split].
  - intros me p said [d x] r ws X. unfold onGet in X. destruct said as [s|]; [|discriminate X]. destruct (evts x p s) as [e|]; [|discriminate X].
    destruct (if 0 <? e_sn e then _ else _) as [wits|]; [|discriminate X]. destruct (memN me wits); [|discriminate X]. inversion X. reflexivity.
  - vm_compute. reflexivity.
  - split; [vm_compute; auto|]. exists X1. repeat split.
Qed.

Lemma c134_escrow_refuted : world (Hof evsW) /\ Forall (real_wop (Hof evsW)) opsC /\ noPost opsC /\
  onGet 9 7 None (Some 23) (wdb sC) = GotReceipts (7, 0, 23) [sign Z3 66 0 None] /\
  ~ acceptedAt (Hof evsW) (wdb sC) 7 3 23 /\ e_said Z3 = 23 /\ e_sn Z3 = 3 /\
  vrfy E1 9 (sg_raw (sign Z3 66 0 None)) (e_raw Z3) = false.
Proof.
  destruct realC as (A & _ & B & _). split; [exact A|]. split; [exact B|]. split; [apply noPostC|]. split; [vm_compute; reflexivity|].
  split; [|split; [reflexivity|split; [reflexivity|vm_compute; reflexivity]]].
  intros (X & _). assert (F : fels (fst (wdb sC)) 7 = [20; 21; 24]) by (vm_compute; reflexivity). rewrite F in X.
  destruct X as [X|[X|[X|[]]]]; discriminate X.
Qed.

Lemma c134_witness : forall E H cf me aids ops p n said r ws, world H -> Forall (real_wop H) ops ->
  let dx := wdb (wrun E cf me aids ops) in onGet me p (Some n) said dx = GotReceipts r ws ->
  exists s e, In s (fels (fst dx) p) /\ H s = Some e /\ isEst (e_ilk e) = true /\ e_sn e <= n /\
    (In me (olist (kwits (fst dx) p s)) \/ (n = 0 /\ In me (e_wits e))).
Proof.
  intros E H cf me aids ops p n said r ws W R dx X.
  pose proof (winv_inv _ _ _ _ _ W (winv_run E H cf me aids ops W R)) as I. fold dx in I. destruct dx as [d x]. cbn [fst snd] in *.
  unfold onGet in X. destruct (klast (kels d p) n) as [s|] eqn:KL; [|discriminate X].
  destruct (evts x p s) as [e|] eqn:EV; [|discriminate X]. pose proof (klast_In _ _ _ KL) as IN.
  destruct (i_kf _ _ _ _ I _ _ _ IN) as (A & e' & B & C). rewrite EV in B. inversion B; subst e'.
  destruct (0 <? e_sn e) eqn:Z.
  - destruct (fetchWits d x p (kback (kels d p) (e_sn e))) as [wits|] eqn:FW; [|discriminate X].
    destruct (memN me wits) eqn:MM; [|discriminate X]. apply memN_In in MM. rewrite C in FW.
    assert (ALL : forall q, In q (kback (kels d p) n) -> exists k, k <= n /\ In q (krow (kels d p) k)).
    { intros q Q. unfold kback in Q. apply in_rev in Q. apply in_concat in Q. destruct Q as (row & Q1 & Q2).
      apply In_nth_error in Q1. destruct Q1 as (i & Q1). exists (N.of_nat i).
      assert (L : (i < S (N.to_nat n))%nat).
      { assert (i < List.length (firstn (S (N.to_nat n)) (kels d p)))%nat by (apply nth_error_Some; congruence). rewrite firstn_length in H0. lia. }
      split; [lia|]. assert (Q3 : nth_error (kels d p) i = Some row).
      { rewrite <- (firstn_skipn (S (N.to_nat n)) (kels d p)), nth_error_app1 by (apply nth_error_Some; congruence). exact Q1. }
      unfold krow. rewrite Nat2N.id. rewrite (nth_error_nth _ _ _ Q3). exact Q2. }
    revert FW ALL. generalize (kback (kels d p) n). intros l. induction l as [|q l IH]; cbn [fetchWits]; intros FW ALL.
    + inversion FW; subst. destruct MM.
    + destruct (ALL q (or_introl eq_refl)) as (k & K1 & K2). destruct (i_kf _ _ _ _ I _ _ _ K2) as (F & eq & Q1 & Q2). rewrite Q1 in FW.
      destruct (isEst (e_ilk eq)) eqn:ES.
      * inversion FW; subst. exists q, eq. pose proof (i_ev _ _ _ _ I _ _ _ Q1) as [Q3 _].
        split; [exact F|]. split; [exact Q3|]. split; [exact ES|]. split; [lia|]. left. exact MM.
      * apply IH; [exact FW|]. intros t T. apply ALL. right. exact T.
  - destruct (memN me (e_wits e)) eqn:MM; [|discriminate X]. apply memN_In in MM. apply N.ltb_ge in Z.
    pose proof (i_ev _ _ _ _ I _ _ _ EV) as [Q3 _]. exists s, e. split; [exact A|]. split; [exact Q3|].
    split; [|split; [lia|right; split; [lia|exact MM]]].
    destruct (i_fe _ _ _ _ I _ _ A) as (e0 & c0 & e1 & Z1 & Z2 & _). pose proof Z2 as Z4. apply chain_hd in Z2. destruct Z2 as (_ & _ & Z2 & _). rewrite Z1 in Z2.
    assert (e0 = e) by congruence. subst e0. destruct Z4 as [LG _]. inversion LG; subst.
    + apply isIncept_facts. assumption.
    + lia.
Qed.


Lemma c135_cued_partial : forall E H cf me aids ops o p d, world H -> sane H -> Forall (real_wop H) (ops ++ [o]) ->
  (forall m, o <> WPost m) -> newly (wdb (wrun E cf me aids ops)) (wdb (wrun E cf me aids (ops ++ [o]))) p d ->
  waiting (wrun E cf me aids (ops ++ [o])) p d.
Proof.
  intros E H cf me aids ops o p d W SN R NP. apply Forall_app in R. destruct R as [R1 R2]. inversion R2; subst. clear H3 R2.
  pose proof (winv_run E H cf me aids ops W R1) as V. pose proof (winv_sinv _ _ _ _ _ W SN V) as S0.
  unfold wrun. rewrite fold_left_app. cbn [fold_left]. fold (wrun E cf me aids ops). set (s := wrun E cf me aids ops) in *.
  assert (CC : forall b, cued (wdb s, wcues s) b -> newly (wdb s) (fst b) p d -> waiting (mkW (fst b) (snd b) (signed s)) p d).
  { intros b (_ & C) X. exact (C p d X). }
  destruct o as [m|m|now| |]; cbn [wstep real_wop] in *.
  - pose proof (processCue_cued E H cf m (wdb s, wcues s) W SN S0 H2) as C. specialize (CC _ C).
    destruct (processCue E cf m (wdb s, wcues s)) as [dx cs]. exact CC.
  - destruct (NP m eq_refl).
  - pose proof (escrowCues_cued E H cf now (wdb s, wcues s) W SN S0) as C. specialize (CC _ C).
    destruct (escrowCues E cf now (wdb s, wcues s)) as [dx cs]. exact CC.
  - intros (X & Y). destruct (wcues s) as [|e cs]; cbn in X; destruct (Y X).
  - intros (X & Y). destruct (wdb s) as [dd x]. cbn in X. destruct (Y X).
Qed.

Lemma c135_receipted_partial : forall E H cf me aids ops p d, world H -> sane H -> Forall (real_wop H) ops -> noPost ops -> noRestart ops ->
  In d (fels (fst (wdb (wrun E cf me aids ops))) p) ->
  receipted (wrun E cf me aids ops) p d \/ waiting (wrun E cf me aids ops) p d.
Proof.
  intros E H cf me aids ops. induction ops as [|o ops IH] using rev_ind; intros p d W SN R NP NR X; [destruct X|].
  assert (NP' : noPost ops) by (intros m Y; apply (NP m); apply in_or_app; auto).
  assert (NR' : noRestart ops) by (intros Y; apply NR; apply in_or_app; auto).
  pose proof R as R0. apply Forall_app in R0. destruct R0 as [R1 R2]. inversion R2; subst. clear H3 R2.
  destruct (in_dec N.eq_dec d (fels (fst (wdb (wrun E cf me aids ops))) p)) as [Y|Y].
  2:{ right. apply (c135_cued_partial E H cf me aids ops o p d W SN R); [|split; assumption].
      intros m ->. apply (NP m). apply in_or_app. right. left. reflexivity. }
  specialize (IH p d W SN R1 NP' NR' Y). pose proof (winv_run E H cf me aids ops W R1) as V. pose proof (winv_sinv _ _ _ _ _ W SN V) as S0.
  unfold wrun in *. rewrite fold_left_app in *. cbn [fold_left] in *. fold (wrun E cf me aids ops) in *. set (s := wrun E cf me aids ops) in *.
  assert (CC : forall b, cued (wdb s, wcues s) b -> receipted (mkW (fst b) (snd b) (signed s)) p d \/ waiting (mkW (fst b) (snd b) (signed s)) p d).
  { intros b (C & _). destruct IH as [Z|(e & Z1 & Z2)]; [left; exact Z|right]. exists e. split; [apply C; exact Z1|exact Z2]. }
  destruct o as [m|m|now| |]; cbn [wstep real_wop] in *.
  - pose proof (processCue_cued E H cf m (wdb s, wcues s) W SN S0 H2) as C. apply CC in C.
    destruct (processCue E cf m (wdb s, wcues s)) as [dx cs]. exact C.
  - destruct (NP m). apply in_or_app. right. left. reflexivity.
  - pose proof (escrowCues_cued E H cf now (wdb s, wcues s) W SN S0) as C. apply CC in C.
    destruct (escrowCues E cf now (wdb s, wcues s)) as [dx cs]. exact C.
  - destruct IH as [(n & Z)|(e & Z1 & Z2 & Z3)].
    + left. exists n. destruct (wcues s) as [|e cs]; [exact Z|]. cbn [receipt signed]. apply in_or_app. auto.
    + destruct (wcues s) as [|e0 cs] eqn:CU; [destruct Z1|]. destruct Z1 as [->|Z1].
      * left. exists (e_sn e). cbn [receipt signed]. apply in_or_app. right. left. unfold rctOf. rewrite Z2, Z3. reflexivity.
      * right. exists e. auto.
  - destruct NR. apply in_or_app. right. left. reflexivity.
Qed.

Lemma c135_handled : forall E cf me aids s p d, waiting s p d ->
  let s' := fold_left (wstep E cf me aids) (repeat WCue (List.length (wcues s))) s in
  receipted s' p d /\ wcues s' = [] /\ wdb s' = wdb s.
Proof.
  intros E cf me aids s p d X s'. unfold s'. clear s'.
  assert (G : forall cs dx sg, let t := fold_left (wstep E cf me aids) (repeat WCue (List.length cs)) (mkW dx cs sg) in
            signed t = sg ++ map rctOf cs /\ wcues t = [] /\ wdb t = dx).
  { induction cs as [|e cs IH]; intros dx sg; cbn [List.length repeat fold_left map].
    - rewrite app_nil_r. auto.
    - specialize (IH dx (sg ++ [rctOf e])). destruct IH as (A & B & C). rewrite <- app_assoc in A. split; [exact A|]. split; [exact B|exact C]. }
  destruct s as [dx cs sg]. destruct X as (e & X1 & X2 & X3). cbn [wcues] in *. destruct (G cs dx sg) as (A & B & C).
  split; [|auto]. exists (e_sn e). rewrite A. apply in_or_app. right. replace (p, e_sn e, d) with (rctOf e) by (unfold rctOf; congruence). apply in_map. exact X1.
Qed.


Lemma c135_restart_refuted : let ops := [WDeliver mI; WRestart; WDeliver mI; WEscrows 1] in
  world (Hof evsW) /\ sane (Hof evsW) /\ Forall (real_wop (Hof evsW)) ops /\ In 20 (fels (fst (wdb (wrun E1 cfW 9 None ops))) 7) /\
  forall n, signed (fold_left (wstep E1 cfW 9 None) (repeat WCue n) (wrun E1 cfW 9 None ops)) = [].
Proof.
  cbv zeta. destruct realC as (A & B & _). split; [exact A|]. split; [exact B|]. split; [|split].
  - repeat (apply Forall_cons; [first [reflexivity|exact Logic.I]|]); apply Forall_nil.
  - vm_compute. auto.
  - assert (C : wcues (wrun E1 cfW 9 None [WDeliver mI; WRestart; WDeliver mI; WEscrows 1]) = []) by (vm_compute; reflexivity).
    assert (D : signed (wrun E1 cfW 9 None [WDeliver mI; WRestart; WDeliver mI; WEscrows 1]) = []) by (vm_compute; reflexivity).
    generalize dependent (wrun E1 cfW 9 None [WDeliver mI; WRestart; WDeliver mI; WEscrows 1]). intros s C D n.
    induction n as [|n IH]; [exact D|]. cbn [repeat fold_left]. replace (wstep E1 cfW 9 None s WCue) with s; [exact IH|]. cbn [wstep]. rewrite C. reflexivity.
Qed.
