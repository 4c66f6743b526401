(** Properties of the completion of registry and credential events. *)
From Coq Require Import Lia.
From Verif Require Import Prelude RgModel RgSpec RgProofs.
Ltac Zify.zify_post_hook ::= Z.div_mod_to_equations.
Open Scope N_scope.

(** Identifier 1 with witness 9, newest event number 4 (digest 40); group identifier 2 whose event number 6 is
    60.  All transaction events are in their logs, all credentials saved. *)
Definition w1 : world := mkWorld (fun _ => true) (fun p => p =? 2) (fun _ => (4, 40)) (fun _ => [9]) (fun _ _ => [9]) (fun _ _ => Some 60) (fun _ _ => Some 5) (fun _ => true).
(** the same before witness 9 has receipted *)
Definition w0 : world := mkWorld (fun _ => true) (fun p => p =? 2) (fun _ => (4, 40)) (fun _ => [9]) (fun _ _ => []) (fun _ _ => None) (fun _ _ => None) (fun _ => false).
(** runs, newest step first *)
Fixpoint runl (s : rg) (l : list step) : rg := match l with [] => s | (w, o, c) :: l => run w o c (runl s l) end.
Lemma runl_hist : forall l, hist l (runl rg0 l).
Proof. induction l as [|[[w o] c] l IH]; constructor. exact IH. Qed.
Lemma runl_later : forall s l, later s l (runl s l).
Proof. intros s l. induction l as [|[[w o] c] l IH]; constructor. exact IH. Qed.
Definition issued : list step := [(w1, Publish, None); (w1, Pass, None); (w0, Receipted, None); (w0, Cred (7, 0), None); (w0, Start (7, 0) 70 1 4 40, None)].
Definition group_issued : list step := [(w1, Publish, None); (w1, Pass, None); (w0, Pass, None); (w0, Start (8, 0) 80 2 6 60, None)].

Lemma c129_complete_partial : forall l s k, hist l s -> complete s k = true ->
  exists pre n d, get (ctel s) k = Some d /\ backed l k pre n d /\ in_world l (fun w => w_tel w (fst k) (snd k) <> None) /\
  exists p sn n' d', In (p, fst k, sn) (pcues s) /\ backed l (fst k, sn) p n' d'.
Proof.
  intros l s k H C. pose proof (good_hist l s H) as G. unfold complete in C. destruct (get (ctel s) k) as [d|] eqn:Q; [|discriminate C]. destruct (g4 _ _ G _ _ Q) as (pre & n & D1 & D2). exists pre, n, d.
  do 3 (split; [auto|]). apply existsb_exists in C. destruct C as ([[p v] sn] & I & E). cbn [fst snd] in E. apply N.eqb_eq in E. subst v. destruct (g8 _ _ G _ _ _ I) as (n' & d' & B & _). exists p, sn, n', d'. auto.
Qed.

Lemma c129_own_partial : forall l s v sn, hist l s -> complete s (v, sn) = true ->
  (forall w c sn' regd pre n d, In (w, Start (v, sn') regd pre n d, c) l -> sn' = sn) -> exists pre, In (pre, v, sn) (pcues s).
Proof.
  intros l s v sn H C U. destruct (c129_complete_partial l s (v, sn) H C) as (_ & _ & _ & _ & _ & _ & p & sn' & n' & d' & I & B). cbn [fst] in I, B. exists p. replace sn with sn'; [exact I|].
  destruct B as [((w & c & g & n0 & d0 & S & _) & _)|((w & c & g & S & _) & _)]; exact (U _ _ _ _ _ _ _ S).
Qed.

Lemma c129_credential : forall l s c, hist l s -> In c (ccrd s) ->
  exists sn w c', In (w, Cred (c, sn), c') l /\ in_world l (fun w => w_saved w c = true) /\ recorded s (c, sn).
Proof. intros l s c H I. destruct (g6 _ _ (good_hist l s H) c I) as (sn & (w & c' & X) & A1 & A2). exists sn, w, c'. auto. Qed.




Lemma c129_early_refuted : exists l s, hist l s /\ whole l /\ complete s (7, 1) = true /\ (forall p, ~ In (p, 7, 1) (pcues s)) /\ In (1, 7, 1) (pmsgs s).
Proof.
  pose (l := [(w1, Pass, None); (w0, Receipted, None); (w0, Start (7, 1) 71 1 4 40, None)] ++ issued). exists l, (runl rg0 l). split; [apply runl_hist|]. split.
  - intros w o c I. left. cbn [l issued app In] in I. repeat (destruct I as [I|I]; [injection I as _ _ <-; reflexivity|]). destruct I.
  - split; [vm_compute; reflexivity|]. split; [intros p I; vm_compute in I; destruct I as [I|[]]; discriminate I|vm_compute; auto].
Qed.

Lemma c130_progress_partial : forall w s k pre n d, waits_single s k pre n d ->
  w_wits w pre = [] \/ (len (w_wigs w pre d) = len (w_wits w pre) /\ In (pre, n) (rcues s)) ->
  w_tel w (fst k) (snd k) <> None ->
  recorded (run w Pass None s) k /\ In (pre, fst k, snd k) (pmsgs (run w Pass None s)) /\
  (w_hab w pre = true -> exists j, complete (publish j w (run w Pass None s)) k = true).
Proof.
  intros w s k pre n d I R T. assert (R' : ready w s (pre, n, d) = true).
  { unfold ready. destruct (w_wits w pre); [reflexivity|]. destruct R as [R|(R1 & R2)]; [discriminate R|]. rewrite R1, N.eqb_refl. apply existsb_exists. exists (pre, n). split; [exact R2|apply eq2_refl]. }
  pose proof (tede_single w s k _ I R') as X. destruct (pass_does w s k pre n d X T) as (Y1 & Y2). do 2 (split; [assumption|]). intros HB. exact (pass_publish w s k pre n d X T HB).
Qed.

Lemma c130_group_partial : forall w s k regd pre n d, waits_group s k regd pre n d -> w_cgms w pre n = Some d -> w_tel w (fst k) (snd k) <> None ->
  recorded (run w Pass None s) k /\ In (pre, fst k, snd k) (pmsgs (run w Pass None s)) /\
  (w_hab w pre = true -> exists j, complete (publish j w (run w Pass None s)) k = true).
Proof.
  intros w s k g pre n d I R T. pose proof (tede_group w s k g pre n d I R) as X. destruct (pass_does w s k pre n d X T) as (Y1 & Y2). do 2 (split; [assumption|]). intros HB. exact (pass_publish w s k pre n d X T HB).
Qed.

Lemma c130_log_partial : forall w s k pre n d, waits_log s k pre n d -> w_tel w (fst k) (snd k) <> None ->
  recorded (run w Pass None s) k /\ In (pre, fst k, snd k) (pmsgs (run w Pass None s)) /\
  (w_hab w pre = true -> exists j, complete (publish j w (run w Pass None s)) k = true).
Proof.
  intros w s k pre n d I T. pose proof (tede_first w s k _ I) as X. destruct (pass_does w s k pre n d X T) as (Y1 & Y2). do 2 (split; [assumption|]). intros HB. exact (pass_publish w s k pre n d X T HB).
Qed.

Lemma c130_kept_partial : forall s w k regd pre n d l s', w_group w pre = false -> later (run w (Start k regd pre n d) None s) l s' -> whole l ->
  (exists p i e, waits_single s' k p i e) \/ (exists p i e, waits_log s' k p i e) \/ recorded s' k.
Proof.
  intros s w k g pre n d l s' G L W. assert (X : on_way (run w (Start k g pre n d) None s) k).
  { left. unfold run. cbn [writes]. unfold startW. rewrite G. destruct (w_last w pre) as [n' d']. exists (pre, n', d'). fields. apply in_adds. }
  apply (on_way_later _ _ _ _ L W) in X. destruct X as [([[p i] e] & X)|[([[p i] e] & X)|X]]; [left|right; left|right; right; exact X]; exists p, i, e; exact X.
Qed.




Lemma c130_crash_refuted : (forall w s k pre n d, tpwe s = [(k, (pre, n, d))] -> unstarted_else s k -> ready w s (pre, n, d) = true ->
    unknown (run w Pass (Some 1%nat) s) k /\ forall l s', later (run w Pass (Some 1%nat) s) l s' -> not_started l k -> complete s' k = false) /\
  exists w s l, hist l s /\ whole l /\ tpwe s = [((7, 0), (1, 4, 40))] /\ unstarted_else s (7, 0) /\ ready w s (1, 4, 40) = true.
Proof.
  split.
  - intros w s k pre n d T (U1 & U2 & U3) R. assert (UK : unknown (run w Pass (Some 1%nat) s) k).
    { unfold run. cbn [writes]. unfold passW, witnessW. rewrite T. cbn [flat_map fst snd]. rewrite R. cbn [app firstn]. unfold unknown, restart. fields. rewrite T. split; [|auto]. intros a I. apply In_rems in I. destruct I as (_ & NK). apply NK. reflexivity. }
    split; [exact UK|]. destruct UK as (A1 & A2 & A3 & A4). intros l s' L NS. assert (HD : held k (fun _ => False) s').
    { induction L as [|l s' w' o c L IH]; [split; auto|]. assert (NS' : not_started l k) by (intros w0 c0 g p i e I; exact (NS w0 c0 g p i e (or_intror I))). specialize (IH NS'). apply held_run; [exact IH| |].
      - intros a I. destruct (h1 _ _ _ IH a I).
      - intros g p i e ->. exact (NS w' c g p i e (or_introl eq_refl)). }
    exact (held_incomplete _ _ _ HD).
  - pose (l := [(w0, Receipted, None); (w0, Start (7, 0) 70 1 4 40, None)] : list step). exists w1, (runl rg0 l), l. split; [apply runl_hist|]. split.
    + intros w o c I. left. cbn [l In] in I. repeat (destruct I as [I|I]; [injection I as _ _ <-; reflexivity|]). destruct I.
    + split; [vm_compute; reflexivity|]. split; [|vm_compute; reflexivity]. split; [intros g a []|]. split; [intros a []|vm_compute; reflexivity].
Qed.

Lemma c130_restart_refuted : (forall w o s k pre n d l s', waits_only s k pre n d -> later (run w o (Some 0%nat) s) l s' -> not_started l k -> moved_on l pre n ->
    (forall w' o' c', In (w', o', c') l -> w_wits w' pre <> []) -> complete s' k = false) /\
  exists s l, hist l s /\ waits_only s (7, 0) 1 4 40 /\ waits_single s (7, 0) 1 4 40 /\ ready w1 s (1, 4, 40) = true.
Proof.
  split.
  - intros w o s k pre n d l s' (W1 & W2 & W3 & W4) L NS MO WT.
    assert (HD : held k (fun a => a = (pre, n, d)) s' /\ ~ In (pre, n) (rmsgs s') /\ ~ In (pre, n) (rcues s')).
    { induction L as [|l s' w' o' c L IH]; [unfold run; cbn [firstn fold_left]; split; [split; auto|split; intros []]|].
      assert (NS' : not_started l k) by (intros w0 c0 g p i e I; exact (NS w0 c0 g p i e (or_intror I))).
      assert (MO' : moved_on l pre n) by (intros w0 c0 k0 g i e I; exact (MO w0 c0 k0 g i e (or_intror I))).
      assert (WT' : forall w' o' c', In (w', o', c') l -> w_wits w' pre <> []) by (intros w0 o0 c0 I; exact (WT w0 o0 c0 (or_intror I))).
      destruct (IH NS' MO' WT') as (H & M & C). clear IH. split.
      - apply held_run; [exact H| |intros g p i e ->; exact (NS w' c g p i e (or_introl eq_refl))]. intros a I. rewrite (h1 _ _ _ H a I). unfold ready. pose proof (WT w' o' c (or_introl eq_refl)) as Z. destruct (w_wits w' pre); [congruence|].
        apply andb_false_iff. right. destruct (existsb (eq2 (pre, n)) (rcues s')) eqn:E; [|reflexivity]. apply existsb_exists in E. destruct E as (x & I' & E). apply eq2_eq in E. subst x. destruct (C I').
      - assert (NA : forall ws, Forall (fun x => x <> AddRmsg (pre, n)) ws -> forall z, ~ In (pre, n) (rmsgs z) /\ ~ In (pre, n) (rcues z) -> ~ In (pre, n) (rmsgs (fold_left apply ws z)) /\ ~ In (pre, n) (rcues (fold_left apply ws z))).
        { clear. intros ws F. induction F as [|x ws X F IH]; intros z (M & C); cbn [fold_left]; [auto|]. apply IH. destruct x; cbn [apply rmsgs rcues]; auto.
          - split; [|exact C]. intros I. apply in_app_iff in I. destruct I as [I|[I|[]]]; [auto|]. subst m. destruct (X eq_refl).
          - split; [intros I; apply M; destruct (rmsgs z); [exact I|right; exact I]|]. intros I. apply in_app_iff in I. destruct I as [I|I]; [auto|]. apply M. destruct (rmsgs z) as [|y r]; [destruct I|]. destruct I as [I|[]]. left. exact I. }
        assert (F : Forall (fun x => x <> AddRmsg (pre, n)) (writes w' o' s')).
        { clear H M C L. destruct o' as [k0 g p i e|k0| | | |]; cbn [writes].
          - unfold startW. destruct (w_group w' p) eqn:GR; [constructor; [discriminate|constructor]|]. destruct (w_last w' p) as [n' d'] eqn:LA. constructor; [discriminate|]. constructor; [|constructor; [discriminate|constructor]].
            intros Q. injection Q as -> ->. apply (MO w' c k0 g i e (or_introl eq_refl) GR). rewrite LA. reflexivity.
          - constructor; [discriminate|constructor].
          - constructor; [discriminate|constructor].
          - destruct (pmsgs s') as [|[[p v] sn] r]; [constructor|]. constructor; [discriminate|constructor].
          - unfold passW. apply Forall_app. split; [apply Forall_app; split|]; apply Forall_flat.
            + intros [k1 a] _. destruct (ready w' s' (snd (k1, a))); [|constructor]. constructor; [discriminate|]. constructor; [discriminate|constructor].
            + intros [[k1 g] [[p i] e]] _. destruct (w_cgms w' p i) as [e'|]; [|constructor]. destruct (e' =? e); [|constructor; [discriminate|constructor]]. do 3 (constructor; [discriminate|]). constructor.
            + intros [k1 [[p i] e]] _. destruct (w_tel w' (fst k1) (snd k1)); [|constructor]. do 3 (constructor; [discriminate|]). constructor.
          - apply Forall_flat. intros k1 _. destruct (complete s' k1 && w_saved w' (fst k1)); [|constructor]. do 2 (constructor; [discriminate|]). constructor. }
        unfold run. destruct c as [j|]; [unfold restart; cbn [rmsgs rcues]; split; intros []|]. exact (NA _ F s' (conj M C)). }
    exact (held_incomplete _ _ _ (proj1 HD)).
  - pose (l := [(w0, Receipted, None); (w0, Start (7, 0) 70 1 4 40, None)] : list step). exists (runl rg0 l), l. split; [apply runl_hist|]. split; [|vm_compute; auto].
    split; [intros a I; vm_compute in I; destruct I as [I|[]]; injection I as <-; reflexivity|]. split; [intros g a []|]. split; [intros a []|vm_compute; reflexivity].
Qed.

Lemma c130_down_refuted : (forall s k pre n d l s', waits_only s k pre n d -> later s l s' -> not_started l k ->
    (forall w o c, In (w, o, c) l -> w_wits w pre <> [] /\ len (w_wigs w pre d) <> len (w_wits w pre)) -> complete s' k = false) /\
  exists s l w, hist l s /\ waits_only s (7, 0) 1 4 40 /\ waits_single s (7, 0) 1 4 40 /\ In (1, 4) (rcues s) /\ len (w_wits w 1) = 3 /\ len (w_wigs w 1 40) = 2 /\ complete (run w Pass None s) (7, 0) = false.
Proof.
  split.
  - intros s k pre n d l s' (W1 & W2 & W3 & W4) L NS WT. assert (HD : held k (fun a => a = (pre, n, d)) s').
    { induction L as [|l s' w o c L IH]; [split; auto|]. assert (NS' : not_started l k) by (intros w0 c0 g p i e I; exact (NS w0 c0 g p i e (or_intror I))).
      assert (WT' : forall w o c, In (w, o, c) l -> w_wits w pre <> [] /\ len (w_wigs w pre d) <> len (w_wits w pre)) by (intros w0 o0 c0 I; exact (WT w0 o0 c0 (or_intror I))).
      specialize (IH NS' WT'). apply held_run; [exact IH| |intros g p i e ->; exact (NS w c g p i e (or_introl eq_refl))]. intros a I. rewrite (h1 _ _ _ IH a I). unfold ready. destruct (WT w o c (or_introl eq_refl)) as (Z1 & Z2). destruct (w_wits w pre); [congruence|].
      apply andb_false_iff. left. apply N.eqb_neq. exact Z2. }
    exact (held_incomplete _ _ _ HD).
  - pose (l := [(w0, Receipted, None); (w0, Start (7, 0) 70 1 4 40, None)] : list step).
    exists (runl rg0 l), l, (mkWorld (fun _ => true) (fun p => p =? 2) (fun _ => (4, 40)) (fun _ => [9; 10; 11]) (fun _ _ => [9; 10]) (fun _ _ => None) (fun _ _ => Some 5) (fun _ => true)).
    split; [apply runl_hist|]. split; [|vm_compute; auto 8].
    split; [intros a I; vm_compute in I; destruct I as [I|[]]; injection I as <-; reflexivity|]. split; [intros g a []|]. split; [intros a []|vm_compute; reflexivity].
Qed.

Lemma c130_forgotten_refuted : (forall w o s l s' k, tpwe s = [] -> tmse s = [] -> tede s = [] -> later (run w o (Some 0%nat) s) l s' ->
    (forall w' c' k' regd pre n d, ~ In (w', Start k' regd pre n d, c') l) -> complete s' k = false) /\
  exists s l, hist l s /\ tpwe s = [] /\ tmse s = [] /\ tede s = [] /\ complete s (7, 0) = true.
Proof.
  split.
  - intros w o s l s' k T1 T2 T3 L NS. assert (ID : tpwe s' = [] /\ tmse s' = [] /\ tede s' = [] /\ pmsgs s' = [] /\ pcues s' = []).
    { induction L as [|l s' w' o' c L IH]; [unfold run, restart; cbn [firstn fold_left tpwe tmse tede pmsgs pcues]; auto|].
      assert (NS' : forall w' c' k' regd pre n d, ~ In (w', Start k' regd pre n d, c') l) by (intros w0 c0 k0 g p i e I; exact (NS w0 c0 k0 g p i e (or_intror I))).
      specialize (IH NS'). assert (FI : forall ws, Forall (fun x => match x with PutCmse _ | RemCmse _ | PutCcrd _ | PopRmsg => True | _ => False end) ws ->
        forall z, tpwe z = [] /\ tmse z = [] /\ tede z = [] /\ pmsgs z = [] /\ pcues z = [] -> tpwe (fold_left apply ws z) = [] /\ tmse (fold_left apply ws z) = [] /\ tede (fold_left apply ws z) = [] /\ pmsgs (fold_left apply ws z) = [] /\ pcues (fold_left apply ws z) = []).
      { clear. intros ws F. induction F as [|x ws X F IH]; intros z Z; cbn [fold_left]; [exact Z|]. apply IH. destruct x; try destruct X; exact Z. }
      assert (F : Forall (fun x => match x with PutCmse _ | RemCmse _ | PutCcrd _ | PopRmsg => True | _ => False end) (writes w' o' s')).
      { destruct IH as (I1 & I2 & I3 & I4 & I5). destruct o' as [k0 g p i e|k0| | | |]; cbn [writes].
        - destruct (NS w' c k0 g p i e (or_introl eq_refl)).
        - constructor; [exact Logic.I|constructor].
        - constructor; [exact Logic.I|constructor].
        - rewrite I4. constructor.
        - unfold passW, witnessW, multisigW. rewrite I1, I2. cbn [flat_map app fold_left]. unfold dissemW. rewrite I3. constructor.
        - apply Forall_flat. intros k1 _. destruct (complete s' k1 && w_saved w' (fst k1)); [|constructor]. do 2 (constructor; [exact Logic.I|]). constructor. }
      unfold run. destruct c as [j|]; [|exact (FI _ F s' IH)]. pose proof (FI _ (Forall_firstn _ j _ F) s' IH) as Z. unfold restart. cbn [tpwe tmse tede pmsgs pcues]. destruct Z as (Z1 & Z2 & Z3 & _). auto. }
    destruct ID as (_ & _ & _ & _ & Q). unfold complete. rewrite Q. destruct (get (ctel s') k); reflexivity.
  - exists (runl rg0 issued), issued. split; [apply runl_hist|]. vm_compute. auto.
Qed.

Lemma anc_apply : forall s x k v, get (ancs s) k = Some v -> get (ancs (apply s x)) k = Some v.
Proof. intros s x k v Q. destruct x; fields; try exact Q. rewrite get_put, Q. reflexivity. Qed.
Lemma anc_fold : forall ws s k v, get (ancs s) k = Some v -> get (ancs (fold_left apply ws s)) k = Some v.
Proof. intros ws. induction ws as [|x ws IH]; intros s k v Q; cbn [fold_left]; [exact Q|]. apply IH. apply anc_apply. exact Q. Qed.
Lemma anc_later : forall s l s' k v, later s l s' -> get (ancs s) k = Some v -> get (ancs s') k = Some v.
Proof. intros s l s' k v L Q. induction L as [|l s' w o c L IH]; [exact Q|]. unfold run. destruct c as [j|]; [unfold restart; cbn [ancs]|]; apply anc_fold; exact IH. Qed.

Lemma c131_single_partial : forall w s k regd pre n d, w_group w pre = false -> w_last w pre = (n, d) -> get (ancs s) (fst k, regd) = None ->
  forall l s', later (run w (Start k regd pre n d) None s) l s' -> get (ancs s') (fst k, regd) = Some (n, d).
Proof.
  intros w s k g pre n d G LA NO l s' L. apply (anc_later _ _ _ _ _ L). unfold run. cbn [writes]. unfold startW. rewrite G, LA. fields. rewrite get_put, NO, eq2_refl. reflexivity.
Qed.

Lemma c131_group_partial : forall w s k regd pre n d, waits_group s k regd pre n d -> w_cgms w pre n = Some d -> get (ancs s) (fst k, regd) = None ->
  (forall sn p i e, waits_group s (fst k, sn) regd p i e -> (i, e) = (n, d)) ->
  forall l s', later (run w Pass None s) l s' -> get (ancs s') (fst k, regd) = Some (n, d).
Proof.
  intros w s k g pre n d I C NO UQ l s' L. apply (anc_later _ _ _ _ _ L). unfold run. cbn [writes]. unfold passW. rewrite !fold_left_app. apply anc_fold. unfold multisigW.
  assert (NO1 : get (ancs (fold_left apply (witnessW w s) s)) (fst k, g) = None).
  { unfold witnessW. apply (fold_flat _ (fun z => get (ancs z) (fst k, g) = None)); [|exact NO]. intros [k1 a] z _ Z. destruct (ready w s (snd (k1, a))); exact Z. }
  unfold waits_group in UQ, I. revert NO1. generalize (fold_left apply (witnessW w s) s). revert I UQ. generalize (tmse s). intros m. induction m as [|[[k1 g1] [[p i] e]] m IH]; intros I UQ z Z; [destruct I|].
  cbn [flat_map]. rewrite fold_left_app. destruct I as [I|I].
  - injection I as <- <- <- <- <-. rewrite C, N.eqb_refl. apply anc_fold. fields. rewrite get_put, Z, eq2_refl. reflexivity.
  - destruct (w_cgms w p i) as [e'|] eqn:CG; [|apply IH; [exact I|intros sn p0 i0 e0 I0; apply (UQ sn p0); right; exact I0|exact Z]].
    destruct (e' =? e) eqn:E; [|apply IH; [exact I|intros sn p0 i0 e0 I0; apply (UQ sn p0); right; exact I0|exact Z]].
    destruct (eq2 (fst k1, g1) (fst k, g)) eqn:Q.
    + apply anc_fold. fields. rewrite get_put, Z, Q. apply eq2_eq in Q. injection Q as Q1 Q2. subst g1. destruct k1 as [v sn]. cbn [fst] in Q1. subst v. rewrite (UQ sn p i e (or_introl eq_refl)). reflexivity.
    + apply IH; [exact I|intros sn p0 i0 e0 I0; apply (UQ sn p0); right; exact I0|]. fields. rewrite get_put, Z, Q. reflexivity.
Qed.

Lemma c131_origin : forall l s v regd n d, hist l s -> get (ancs s) (v, regd) = Some (n, d) ->
  exists sn pre n0 d0 w c, In (w, Start (v, sn) regd pre n0 d0, c) l /\
    ((w_group w pre = false /\ w_last w pre = (n, d)) \/ (w_group w pre = true /\ (n0, d0) = (n, d) /\ in_world l (fun w' => w_cgms w' pre n = Some d))).
Proof.
  intros l s v g n d H. revert v g n d.
  assert (X : (forall k g pre n d, In (k, g, (pre, n, d)) (tmse s) -> exists w c, In (w, Start k g pre n d, c) l /\ w_group w pre = true) /\
    forall k v, get (ancs s) k = Some v -> exists sn pre n0 d0 w c, In (w, Start (fst k, sn) (snd k) pre n0 d0, c) l /\
    ((w_group w pre = false /\ w_last w pre = v) \/ (w_group w pre = true /\ (n0, d0) = v /\ in_world l (fun w' => w_cgms w' pre (fst v) = Some (snd v))))).
  { induction H as [|l s w o c H (T & A)]; [split; [intros k g pre n d []|intros k v; discriminate]|].
    assert (T' : forall k g pre n d, In (k, g, (pre, n, d)) (tmse s) -> exists w0 c0, In (w0, Start k g pre n d, c0) ((w, o, c) :: l) /\ w_group w0 pre = true).
    { intros k g pre n d I. destruct (T _ _ _ _ _ I) as (w0 & c0 & I0 & G0). exists w0, c0. split; [right; exact I0|exact G0]. }
    assert (A' : forall k v, get (ancs s) k = Some v -> exists sn pre n0 d0 w0 c0, In (w0, Start (fst k, sn) (snd k) pre n0 d0, c0) ((w, o, c) :: l) /\
      ((w_group w0 pre = false /\ w_last w0 pre = v) \/ (w_group w0 pre = true /\ (n0, d0) = v /\ in_world ((w, o, c) :: l) (fun w' => w_cgms w' pre (fst v) = Some (snd v))))).
    { intros k v Q. destruct (A k v Q) as (sn & pre & n0 & d0 & w0 & c0 & I0 & Z). exists sn, pre, n0, d0, w0, c0. split; [right; exact I0|]. destruct Z as [Z|(Z1 & Z2 & Z3)]; [left; exact Z|right; split; [exact Z1|split; [exact Z2|apply in_world_more; exact Z3]]]. }
    clear T A H. remember ((w, o, c) :: l) as L eqn:LE.
    pose (J := fun x : write => match x with
      | AddTmse (k, g) (pre, n, d) => exists w0 c0, In (w0, Start k g pre n d, c0) L /\ w_group w0 pre = true
      | PutAncs k v => exists sn pre n0 d0 w0 c0, In (w0, Start (fst k, sn) (snd k) pre n0 d0, c0) L /\
        ((w_group w0 pre = false /\ w_last w0 pre = v) \/ (w_group w0 pre = true /\ (n0, d0) = v /\ in_world L (fun w' => w_cgms w' pre (fst v) = Some (snd v))))
      | _ => True end).
    assert (FJ : forall ws, Forall J ws -> forall z,
      (forall k g pre n d, In (k, g, (pre, n, d)) (tmse z) -> exists w0 c0, In (w0, Start k g pre n d, c0) L /\ w_group w0 pre = true) /\
      (forall k v, get (ancs z) k = Some v -> exists sn pre n0 d0 w0 c0, In (w0, Start (fst k, sn) (snd k) pre n0 d0, c0) L /\
        ((w_group w0 pre = false /\ w_last w0 pre = v) \/ (w_group w0 pre = true /\ (n0, d0) = v /\ in_world L (fun w' => w_cgms w' pre (fst v) = Some (snd v))))) ->
      (forall k g pre n d, In (k, g, (pre, n, d)) (tmse (fold_left apply ws z)) -> exists w0 c0, In (w0, Start k g pre n d, c0) L /\ w_group w0 pre = true) /\
      (forall k v, get (ancs (fold_left apply ws z)) k = Some v -> exists sn pre n0 d0 w0 c0, In (w0, Start (fst k, sn) (snd k) pre n0 d0, c0) L /\
        ((w_group w0 pre = false /\ w_last w0 pre = v) \/ (w_group w0 pre = true /\ (n0, d0) = v /\ in_world L (fun w' => w_cgms w' pre (fst v) = Some (snd v)))))).
    { clear T' A'. intros ws F. induction F as [|x ws X F IH]; intros z (T & A); cbn [fold_left]; [split; assumption|]. apply IH. clear IH F.
      destruct x; cbn [J] in X; split; fields; auto.
      - intros k0 g pre n d I. apply In_addm in I. destruct I as [I|I]; [eauto|]. injection I as <- <-. exact X.
      - intros k0 g pre n d I. apply In_remm in I. destruct I as (I & _). eauto.
      - intros k0 v0 Q. rewrite get_put in Q. destruct (get (ancs z) k0) eqn:GA; [apply A; congruence|]. destruct (eq2 k k0) eqn:E; [|discriminate Q]. injection Q as <-. apply eq2_eq in E. subst k0. exact X. }
    assert (F : Forall J (writes w o s)).
    { clear FJ. destruct o as [k0 g p i e|k0| | | |]; cbn [writes].
      - unfold startW. destruct (w_group w p) eqn:GR.
        + constructor; [|constructor]. exists w, c. rewrite LE. split; [left; reflexivity|exact GR].
        + destruct (w_last w p) as [n' d'] eqn:LA. constructor; [|constructor; [exact Logic.I|constructor; [exact Logic.I|constructor]]]. destruct k0 as [v sn]. exists sn, p, i, e, w, c. cbn [fst snd]. rewrite LE. split; [left; reflexivity|left; auto].
      - constructor; [exact Logic.I|constructor].
      - constructor; [exact Logic.I|constructor].
      - destruct (pmsgs s) as [|[[p v] sn] r]; [constructor|]. constructor; [exact Logic.I|constructor].
      - unfold passW. apply Forall_app. split; [apply Forall_app; split|]; apply Forall_flat.
        + intros [k1 a] _. destruct (ready w s (snd (k1, a))); [|constructor]. do 2 (constructor; [exact Logic.I|]). constructor.
        + intros [[k1 g] [[p i] e]] I. destruct (w_cgms w p i) as [e'|] eqn:CG; [|constructor]. destruct (e' =? e) eqn:E; [|constructor; [exact Logic.I|constructor]]. constructor; [|do 2 (constructor; [exact Logic.I|]); constructor].
          apply N.eqb_eq in E. subst e'. destruct (T' _ _ _ _ _ I) as (w0 & c0 & I0 & G0). destruct k1 as [v sn]. exists sn, p, i, e, w0, c0. cbn [fst snd]. split; [exact I0|]. right. split; [exact G0|]. split; [reflexivity|]. rewrite LE. apply in_world_now. exact CG.
        + intros [k1 [[p i] e]] _. destruct (w_tel w (fst k1) (snd k1)); [|constructor]. do 3 (constructor; [exact Logic.I|]). constructor.
      - apply Forall_flat. intros k1 _. destruct (complete s k1 && w_saved w (fst k1)); [|constructor]. do 2 (constructor; [exact Logic.I|]). constructor. }
    unfold run. destruct c as [j|]; [unfold restart; cbn [tmse ancs]; apply (FJ _ (Forall_firstn _ j _ F) s)|apply (FJ _ F s)]; split; assumption. }
  intros v g n d Q. destruct X as (_ & X). exact (X (v, g) (n, d) Q).
Qed.




Lemma c131_between_refuted : (forall w s k regd pre n d n' d', w_group w pre = false -> w_last w pre = (n', d') -> (n', d') <> (n, d) -> get (ancs s) (fst k, regd) = None ->
    forall l s', later (run w (Start k regd pre n d) None s) l s' -> get (ancs s') (fst k, regd) <> Some (n, d)) /\
  w_group w0 1 = false /\ w_last w0 1 = (4, 40) /\ get (ancs (run w0 (Start (7, 0) 70 1 3 30) None rg0)) (7, 70) = Some (4, 40).
Proof.
  split; [|vm_compute; auto]. intros w s k g pre n d n' d' G LA NE NO l s' L Q. assert (Z : get (ancs s') (fst k, g) = Some (n', d')).
  { apply (anc_later _ _ _ _ _ L). unfold run. cbn [writes]. unfold startW. rewrite G, LA. fields. rewrite get_put, NO, eq2_refl. reflexivity. }
  congruence.
Qed.
