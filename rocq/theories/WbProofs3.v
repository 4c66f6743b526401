(** Ordered sets by ordinal, and the histories of operations. *)
From Coq Require Import Lia ZifyClasses ZifyInst ZifyN Zify.
From Verif Require Import Prelude Lex SubsModel SubsProofs DbModel DbSpec DbProofs DbRef DbOn DbOn2 WbModel WbSpec WbProofs WbProofs2.
Ltac Zify.zify_post_hook ::= Z.div_mod_to_equations.
Open Scope N_scope.

Lemma agrees_map : forall A B (f : A -> B) w l st, agrees w l st -> agrees (wmap f w) ('(s, a) <- l ;; Ok (s, f a)) st.
Proof. intros A B f [[s d] x] [[s2 a]|e] st H; cbn in *; destruct H as [H1 H2]; subst; cbn; auto. Qed.
Lemma match_rev : forall A (l : list (bytes * bytes)) (a : A) (f : bytes -> A),
  match rev l with [] => a | (ck, _) :: _ => f ck end = match olast l with None => a | Some (ck, _) => f ck end.
Proof. intros A l a f. unfold olast. destruct (rev l) as [|[ck v] r]; reflexivity. Qed.
Lemma splitAll_ok : forall sep K l, goodsep sep -> Forall (fun e : bytes * bytes => exists k a i, fst e = key2 sep k a i /\ K k) l ->
  exists r, splitAll (split2 sep) l = Ok r /\ forall k, map (fun '(_, a, i, v) => (a, i, v)) (filter (fun '(k', _, _, _) => beq k' k) r) = view2 sep k l.
Proof.
  intros sep K l GS F. induction F as [|[ck v] l (k & a & i & E & KK) F IH]; [exists []; split; reflexivity|]. destruct IH as (r & IH & V). cbn [fst] in E. subst ck. cbn [splitAll]. rewrite split2_key2 by exact GS. cbn [bind]. rewrite IH. cbn [bind].
  eexists. split; [reflexivity|]. intros k'. rewrite view2_cons by exact GS. cbn [filter]. destruct (beq k k'); cbn [map]; rewrite <- V; reflexivity.
Qed.

Section Flat2.
Variable sep : N.
Variable K : bytes -> Prop.
Hypothesis GS : goodsep sep.
Hypothesis FL : flat sep K.
Notation K2 := (K2 sep K).
Notation W2 := (wf sep K2).
Notation view2 := (view2 sep).
Notation key2 := (key2 sep).
Notation I2 := (Inv sep K2).
Notation used := (used sep).

Lemma app2_agrees : forall k vals st t B L, I2 st t B -> K k -> vals <> [] -> used st L -> L <= MaxON ->
  agrees (wappendOnIoSetVals sep k vals st) (appendOnIoSetVals sep k vals st) st.
Proof.
  intros k vals st t B L I KK NV U LM. pose proof I as (W & V & T & N0).
  assert (KN := K_ne sep K FL _ KK). unfold appendOnIoSetVals, wappendOnIoSetVals. rewrite KN. apply isnil_false in NV. rewrite NV. cbn [orb]. cbn iota.
  unfold suffix at 1 2 3. change (onKey sep (onKey sep k MaxON) MaxON) with (key2 k MaxON MaxON). set (mx := key2 k MaxON MaxON).
  pose proof (before_setRange mx st) as BS. pose proof (setRange_wf sep K2 mx st W) as WR.
  assert (WB : W2 (before mx st)). { destruct W as [W1 W3]. rewrite <- BS in W1, W3. apply sorted_app in W1. apply Forall_app in W3. split; tauto. }
  assert (VR : view2 k (setRange mx st) = []).
  { destruct (view2 k (setRange mx st)) as [|[[m j] w] l] eqn:E; [reflexivity|]. exfalso.
    pose proof (setRange_le2 sep K GS k MaxON st W KK small_max) as SL. fold mx in SL. rewrite E in SL. inversion SL; subst. cbn [fst snd] in H1.
    assert (IN : In (m, j, w) (view2 k st)). { rewrite <- BS, (view2_app sep), E. apply in_or_app. right. left. reflexivity. }
    specialize (U k). rewrite Forall_forall in U. specialize (U _ IN). cbn [fst] in U. destruct H1 as [H1|H1]; [|inversion H1; subst; clear - U LM; revert U LM; generalize MaxON; intros; lia]. clear - H1 U LM. revert H1 LM. generalize MaxON. intros; lia. }
  assert (VB : view2 k (before mx st) = view2 k st). { rewrite <- BS at 2. rewrite (view2_app sep), VR, app_nil_r. reflexivity. }
  assert (LB := last2 sep K GS FL k mx (before mx st) WB KK (ex_intro _ MaxON (ex_intro _ MaxON eq_refl)) (takewhile_all _ _ _)).
  assert (CORE : exists n, (match olast (before mx st) with None => Ok 0 | Some (ck, _) => '(k0, con, _) <- split2 sep ck ;; Ok (if beq k0 k then con + 1 else 0) end) = Ok n /\
     (match olast (before mx st) with None => Ok 0 | Some (ck, _) => '(k0, (con, _)) <- wsplit2 sep ck ;; if beq k0 k then raise_if (con =? MaxON) ValueError (Ok (con + 1)) else Ok 0 end) = Ok n /\ next_of (tbl sep t) k n).
  { destruct (olast (before mx st)) as [[ck v]|].
    - destruct LB as (k' & n & i & -> & LB). rewrite wsplit2_eq. assert (SW : wsplit2 sep (key2 k' n i) = Ok (k', (n, i))).
      { unfold wsplit2, unsuffix, DbOn.key2. rewrite split_onKey by exact GS. cbn [bind]. rewrite split_onKey by exact GS. reflexivity. }
      rewrite SW. cbn [bind]. rewrite VB in LB. destruct (beq k' k).
      + destruct LB as (r & LB). exists (n + 1). split; [reflexivity|]. split; [|eapply next_of_last; eauto].
        assert (NL : n < L). { specialize (U k). rewrite LB in U. apply Forall_app in U. destruct U as [_ U]. inversion U; subst. exact H1. }
        destruct (N.eqb_spec n MaxON) as [E|_]; [|reflexivity]. exfalso. clear - NL E LM. revert E LM. generalize MaxON. intros; lia.
      + exists 0. split; [reflexivity|]. split; [reflexivity|]. eapply next_of_none; eauto.
    - rewrite VB in LB. exists 0. split; [reflexivity|]. split; [reflexivity|]. eapply next_of_none; eauto. }
  destruct CORE as (n & C1 & C2 & C3).
  assert (VN : view sep (onKey sep k n) st = []).
  { specialize (V (onKey sep k n)). destruct (view sep (onKey sep k n) st) as [|[x y] l]; [reflexivity|]. exfalso. destruct C3 as [C3 _]. specialize (C3 n). unfold DbOn.tbl in C3. rewrite <- V in C3. cbn in C3. specialize (C3 ltac:(discriminate)). lia. }
  assert (FR : forall j, 0 <= j -> get (suffix sep (onKey sep k n) j) st = None).
  { intros j _. apply (free_above sep K2 GS (onKey sep k n) st 0 W); [rewrite VN; cbn; lia|lia]. }
  assert (RES : (match setRange mx st with
         | [] => match olast st with None => Ok 0 | Some (ck, _) => '(k0, con, _) <- split2 sep ck ;; Ok (if beq k0 k then con + 1 else 0) end
         | (ck, _) :: _ => '(k0, _, _) <- split2 sep ck ;; raise_if (beq k0 k) ValueError (match olast (before mx st) with None => Ok 0 | Some (ck, _) => '(k0, con, _) <- split2 sep ck ;; Ok (if beq k0 k then con + 1 else 0) end)
         end) = Ok n).
  { destruct (setRange mx st) as [|[ck v] rest] eqn:SR; [rewrite app_nil_r in BS; rewrite BS in C1; exact C1|].
    apply (W2_cons sep K) in WR. destruct WR as (k0 & n0 & i0 & v0 & E & _). inversion E; subst ck v0. rewrite (split2_key2 sep GS). cbn [bind]. rewrite (view2_cons sep GS) in VR. destruct (beq k0 k); [discriminate|]. exact C1. }
  rewrite RES. cbn [bind]. unfold irangeMaxRev. rewrite match_rev, le_part by apply W.
  assert (LE : before mx st ++ (match setRange mx st with (ck, v) :: _ => if beq ck mx then [(ck, v)] else [] | [] => [] end) = before mx st).
  { destruct (setRange mx st) as [|[ck v] rest] eqn:SR; [apply app_nil_r|].
    apply (W2_cons sep K) in WR. destruct WR as (k0 & n0 & i0 & v0 & E & _). inversion E; subst ck v0. rewrite (view2_cons sep GS) in VR. destruct (beq_spec (key2 k0 n0 i0) mx) as [E2|NE]; [|apply app_nil_r].
    unfold mx in E2. apply key2_inj in E2; [|exact GS]. destruct E2 as (-> & _ & _). rewrite beq_refl in VR. discriminate. }
  rewrite LE, C2. cbv zeta. cbn iota. destruct (append_free sep (onKey sep k n) vals 0 st GS FR) as [A1 A2]. rewrite A1, A2. cbn. auto.
Qed.

Lemma nop_agrees : forall o st t B L, I2 st t B -> used st L -> nop_ok K L o -> L <= MaxON -> agrees (wdo_nop sep o st) (do_nop sep o st) st.
Proof.
  intros o st t B L I U OK LM. pose proof I as (W & _). assert (MX : MaxON + 1 = 16 ^ 32) by (vm_compute; reflexivity). destruct o as [k on o|k vals|k on]; destruct OK as [KK O].
  - cbn [nop_key] in KK. assert (SO : small on). { unfold small. clear - O LM MX. lia. } assert (KK2 : K2 (onKey sep k on)) by (exists k, on; auto).
    pose proof (K_ne sep K FL _ KK) as KN. pose proof (fun s => sop_agrees sep K2 GS (FL2 sep K GS FL) s st W) as SA.
    destruct o as [k' vals|k' vals|k' v|k'|k' v]; cbn [wdo_nop do_nop]; apply agrees_map; unfold wputOnIoSetVals, putOnIoSetVals, wpinOnIoSetVals, pinOnIoSetVals; rewrite ?KN.
    + exact (SA (SPut (onKey sep k on) vals) KK2).
    + exact (SA (SPin (onKey sep k on) vals) KK2).
    + exact (SA (SAdd (onKey sep k on) v) KK2).
    + exact (SA (SRem (onKey sep k on)) KK2).
    + exact (SA (SRemVal (onKey sep k on) v) KK2).
  - cbn [wdo_nop do_nop]. apply agrees_map. eapply app2_agrees; eauto. apply O.
  - cbn [wdo_nop do_nop nop_key] in *. apply agrees_map. unfold wremOnAllIoSet, remOnAllIoSet. rewrite (K_ne sep K FL _ KK). apply del_agrees2. apply W.
Qed.

(** ** Reads *)
Lemma n_reads : forall st k on, sorted st -> k <> [] ->
  wcntOnAllIoSet sep k on st = cntOnAllIoSet sep k on st /\ wgetOnAllIoSet sep k on st = getOnAllIoSet sep k on st /\ wgetOnAllIoSetLast sep k on st = getOnAllIoSetLast sep k on st.
Proof.
  intros st k on S NE. apply isnil_false in NE. unfold wcntOnAllIoSet, cntOnAllIoSet, wgetOnAllIoSet, getOnAllIoSet, wgetOnAllIoSetLast, getOnAllIoSetLast. rewrite NE, !irangeMin_eq by exact S.
  rewrite <- !walk_scan2. split; [|split].
  - destruct (walk (wsplit2 sep) k (setRange (onKey sep k on) st)); cbn [bind]; [|reflexivity]. unfold len. rewrite map_length. reflexivity.
  - destruct (walk (wsplit2 sep) k (setRange (suffix sep (onKey sep k on) 0) st)); cbn [bind]; [|reflexivity]. rewrite map_map. reflexivity.
  - destruct (walk (wsplit2 sep) k (setRange (suffix sep (onKey sep k on) 0) st)); cbn [bind]; [|reflexivity]. f_equal. apply lastPer_none.
Qed.
Lemma filter_rev : forall A (f : A -> bool) l, filter f (rev l) = rev (filter f l).
Proof. intros A f l. induction l as [|x l IH]; [reflexivity|]. cbn [rev filter]. rewrite filter_app, IH. cbn [filter]. destruct (f x); [reflexivity|]. rewrite app_nil_r. reflexivity. Qed.
Lemma wback_view : forall st k on, W2 st -> K k -> small on ->
  exists r, splitAll (split2 sep) (irangeMaxRev (suffix sep (onKey sep k on) MaxON) st) = Ok r /\ matching k on r = map pr (back on (view2 k st)).
Proof.
  intros st k on W KK S. unfold suffix. change (onKey sep (onKey sep k on) MaxON) with (key2 k on MaxON). unfold irangeMaxRev. set (le := filter _ st).
  assert (WE : Forall (fun e : bytes * bytes => exists k a i, fst e = key2 k a i /\ K k) (rev le)).
  { apply Forall_rev. unfold le. apply Forall_forall. intros e IN. apply filter_In in IN. destruct IN as [IN _]. destruct W as [_ WE]. rewrite Forall_forall in WE. destruct (WE _ IN) as (k2 & i & E & (k' & a & -> & A & B) & C). exists k', a, i. auto. }
  destruct (splitAll_ok sep K (rev le) GS WE) as (r & R & V). exists r. split; [exact R|]. unfold matching.
  assert (V1 : view2 k (rev le) = rev (view2 k le)).
  { clear. induction le as [|[ck v] l IH]; [reflexivity|]. cbn [rev]. rewrite view2_app, IH. cbn [DbOn.view2]. destruct (split2 sep ck) as [[[k' a] i]|]; [|apply app_nil_r]. destruct (beq k' k); [reflexivity|apply app_nil_r]. }
  assert (V2 : filter (fun e => fst (fst e) <=? on) (view2 k le) = filter (fun e => fst (fst e) <=? on) (view2 k st)).
  { unfold le. assert (WS : Forall (entry sep K2) st) by apply W. clear - GS S WS. pose proof small_max as SM. pose proof max_small as MX. induction WS as [|[ck v] st (k2 & i & E & (k' & a & -> & A & B) & C) WS IH]; [reflexivity|]. cbn [fst] in E. subst ck. change (onKey sep (onKey sep k' a) i) with (key2 k' a i).
    cbn [filter fst]. rewrite (view2_cons sep GS). destruct (bltb (key2 k on MaxON) (key2 k' a i)) eqn:LT; cbn [negb].
    - rewrite IH. destruct (beq_spec k' k) as [->|NE]; [|reflexivity]. cbn [filter fst]. rewrite (key2_lt sep) in LT by assumption. destruct (N.leb_spec a on) as [Q|Q]; [|reflexivity]. exfalso. specialize (MX _ C).
      apply orb_true_iff in LT. destruct LT as [LT|LT]; [apply N.ltb_lt in LT; lia|]. apply andb_true_iff in LT. destruct LT as [_ LT]. apply N.ltb_lt in LT. revert LT MX. clear. generalize MaxON. intros; lia.
    - rewrite (view2_cons sep GS). destruct (beq k' k); [|exact IH]. cbn [filter fst]. rewrite IH. reflexivity. }
  unfold back. rewrite <- V2, <- filter_rev, <- V1, <- V. clear. induction r as [|[[[k' a] i] v] r IH]; [reflexivity|]. cbn [filter]. destruct (beq k' k); cbn [andb].
  - cbn [map filter fst]. replace (negb (on <? a)) with (a <=? on) by (destruct (N.leb_spec a on), (N.ltb_spec on a); try reflexivity; lia). destruct (a <=? on); cbn [map pr]; rewrite IH; reflexivity.
  - exact IH.
Qed.
Lemma back_agrees : forall st k on, W2 st -> K k -> small on ->
  exists r, wgetOnAllIoSetBack sep k on st = Ok r /\ (getOnAllIoSetBack sep k on st = Ok r \/ (getOnAllIoSetBack sep k on st = Err ValueError /\ r = [])).
Proof.
  intros st k on W KK S. destruct (wback_view st k on W KK S) as (r & R & M). exists (map pr (back on (view2 k st))). split.
  - unfold wgetOnAllIoSetBack. destruct st as [|e st]; [reflexivity|]. cbn [isnil]. rewrite R. cbn [bind]. rewrite M. reflexivity.
  - unfold getOnAllIoSetBack. destruct (back_spec sep K GS FL k on st W KK S) as (l & [[B1 B2]|[B1 B2]]); rewrite B1; cbn [bind].
    + left. rewrite B2. reflexivity.
    + right. rewrite B2. auto.
Qed.
Lemma lastback_agrees : forall st k on, W2 st -> K k -> small on ->
  exists r, wgetOnAllIoSetLastBack sep k on st = Ok r /\ (getOnAllIoSetLastBack sep k on st = Ok r \/ (getOnAllIoSetLastBack sep k on st = Err ValueError /\ r = [])).
Proof.
  intros st k on W KK S. destruct (wback_view st k on W KK S) as (r & R & M). exists (firstPer None (back on (view2 k st))). split.
  - unfold wgetOnAllIoSetLastBack. destruct st as [|e st]; [reflexivity|]. cbn [isnil]. rewrite R. cbn [bind]. rewrite M, firstPer_none. reflexivity.
  - unfold getOnAllIoSetLastBack. destruct st as [|e st]; [right; split; reflexivity|]. cbn [isnil]. cbn iota. destruct (back_spec sep K GS FL k on (e :: st) W KK S) as (l & [[B1 B2]|[B1 B2]]); rewrite B1; cbn [bind].
    + left. rewrite B2. reflexivity.
    + right. rewrite B2. auto.
Qed.

(** ** Histories *)
Lemma sops_agree : forall ops st t B, Inv sep K st t B -> Forall (fun o => K (sop_key o)) ops -> B + total ops <= MaxON ->
  exists st' bs t' B', do_sops sep ops st = Ok (st', bs) /\ whist (wdo_sop sep) st ops st' bs /\ Inv sep K st' t' B'.
Proof.
  induction ops as [|o ops IH]; intros st t B I F SZ; [exists st, [], t, B; split; [reflexivity|]; split; [constructor|exact I]|].
  inversion F; subst. assert (T : total (o :: ops) = sop_size o + total ops). { unfold total at 1. cbn [fold_left]. rewrite total_from. lia. }
  rewrite T in SZ. destruct (do_sop_ok sep K GS FL o st t B I H1 ltac:(lia)) as (st1 & D1 & I1). pose proof (sop_agrees sep K GS FL o st (proj1 I) H1) as A. rewrite D1 in A. cbn [agrees] in A. destruct A as [A1 A2].
  destruct (IH st1 _ _ I1 H2 ltac:(lia)) as (st2 & bs & t2 & B2 & D2 & WH & I2'). exists st2. eexists. exists t2, B2. split; [cbn [do_sops]; rewrite D1; cbn [bind]; rewrite D2; reflexivity|]. split; [|exact I2'].
  destruct (wdo_sop sep o st) as [[s d] x] eqn:WD. cbn in A1, A2. subst. econstructor; [exact WD|exact WH].
Qed.
Lemma oops_agree : forall ops st t, OInv sep K st t -> Forall (fun o => K (oop_key o) /\ oop_on o <= MaxON) ops ->
  whist (wdo_oop sep) st ops (fst (do_oops sep ops st)) (snd (do_oops sep ops st)) /\ exists t', OInv sep K (fst (do_oops sep ops st)) t'.
Proof.
  induction ops as [|o ops IH]; intros st t I F; [split; [constructor|exists t; exact I]|]. inversion F; subst. destruct H1 as [KK ON].
  destruct (do_oop_ok sep K GS FL o st t I KK ON) as [_ I1]. pose proof (oop_agrees sep K GS FL o st (proj1 I) KK) as [A1 A2]. cbn [do_oops]. destruct (do_oop sep o st) as [st1 b]. cbn [fst snd] in *.
  destruct (IH st1 _ I1 H2) as [WH EX]. destruct (do_oops sep ops st1) as [st2 l]. cbn [fst snd] in *. split; [|exact EX].
  destruct (wdo_oop sep o st) as [[s d] x] eqn:WD. cbn in A1, A2. subst. econstructor; [exact WD|exact WH].
Qed.
Lemma nops_agree : forall ops st t B L0 L, I2 st t B -> used st L -> Forall (nop_ok K L0) ops -> L0 <= L -> L + len ops <= MaxON -> B + ntotal ops <= MaxON ->
  exists st' rs t' B', lhist (do_nop sep) st ops st' rs /\ whist (wdo_nop sep) st ops st' rs /\ I2 st' t' B'.
Proof.
  induction ops as [|o ops IH]; intros st t B L0 L I U F LL LM SZ; [exists st, [], t, B; split; [constructor|]; split; [constructor|exact I]|].
  inversion F; subst. assert (LC : len (o :: ops) = len ops + 1) by (unfold len; cbn [List.length]; lia). rewrite LC in LM. cbn [ntotal fold_right] in SZ. fold (ntotal ops) in SZ.
  assert (OK : nop_ok K L o). { destruct o as [k on o|k vals|k on]; destruct H1 as [A X]; split; auto. lia. }
  assert (LMX : L <= MaxON) by (clear - LM; lia). assert (SZ1 : B + nop_size o <= MaxON) by (clear - SZ; lia).
  destruct (do_nop_ok sep K GS FL o st t B L I U OK LMX SZ1) as (st1 & t1 & r & D & _ & _ & I1 & U1). pose proof (nop_agrees o st t B L I U OK LMX) as A. rewrite D in A. cbn [agrees] in A. destruct A as [A1 A2].
  destruct (IH st1 t1 _ L0 (L + 1) I1 U1 H2) as (st2 & rs & t2 & B2 & LH & WH & I2'); [clear - LL; lia|clear - LM; lia|clear - SZ; lia|]. exists st2, (r :: rs), t2, B2.
  split; [econstructor; [exact D|exact LH]|]. split; [|exact I2']. destruct (wdo_nop sep o st) as [[s d] x] eqn:WD. cbn in A1, A2. subst. econstructor; [exact WD|exact WH].
Qed.
End Flat2.
