(** Invariants of the key event log database over all executions. *)
From Verif Require Import Prelude B64Model MatterModel SubsModel ThModel ThSpec ThThms KelModel KelSpec KelProofs.
Ltac Zify.zify_post_hook ::= Z.div_mod_to_equations.
Open Scope N_scope.

(** ** Facts about one acceptance *)
Lemma tr_pre : forall E d x e ko k', tr E d x e ko k' -> k_pre k' = e_pre e.
Proof.
  intros E d x e ko k' T. inversion T; subst; cbn; auto.
  unfold incept in H1. repeat match type of H1 with raise_if ?b _ _ = _ => destruct b; [discriminate|]; cbn in H1 end.
  inv H1. reflexivity.
Qed.

Lemma incept_inv : forall E e k, incept E e = Ok k ->
  e_sn e = 0 /\ thsize (e_kt e) <= len (e_keys e) /\
  (transf E (e_pre e) = false -> e_ndigs e = [] /\ e_wits e = [] /\ e_seals e = []) /\
  NoDup (e_wits e) /\ inbounds (e_bt e) (e_wits e) /\
  k = mkKever (e_vn e) (e_pre e) (e_sn e) e (e_ilk e) (e_kt e) (e_keys e) (e_ndigs e) (e_nt e)
        (e_bt e) (e_wits e) [] [] (e_estOnly e) (e_dnd e) (e_sn e) (e_said e) None 0 0 true.
Proof.
  intros E e k X. unfold incept in X.
  apply raise_if_ok in X. destruct X as [A1 X]. apply raise_if_ok in X. destruct X as [A2 X].
  apply raise_if_ok in X. destruct X as [A3 X]. apply raise_if_ok in X. destruct X as [A4 X].
  apply raise_if_ok in X. destruct X as [A5 X]. apply raise_if_ok in X. destruct X as [A6 X].
  apply raise_if_ok in X. destruct X as [A7 X]. apply ok_inj in X. subst k.
  apply N.ltb_ge in A1. apply N.ltb_ge in A2. apply negb_false_iff, N.eqb_eq, oset_len in A5.
  split; [lia|]. split; [lia|]. split.
  { intros T. rewrite T in *. cbn in A3, A4, A7.
    split; [|split]; [destruct (e_ndigs e)|destruct (e_wits e)|destruct (e_seals e)]; (reflexivity || discriminate). }
  split; [tauto|]. split; [|reflexivity].
  unfold inbounds. destruct (e_wits e) eqn:W; cbn [isnil] in A6.
  - apply negb_false_iff, N.eqb_eq in A6. exact A6.
  - apply orb_false_iff in A6. destruct A6 as [B1 B2]. apply N.ltb_ge in B1. apply N.ltb_ge in B2. lia.
Qed.

(** What [rotate] guarantees. *)
Lemma deriveBacks_inv : forall k e wits cuts adds, deriveBacks k e = Ok (wits, cuts, adds) -> isRot (e_ilk e) = true ->
  NoDup (k_wits k) -> NoDup (k_cuts k) -> NoDup (k_adds k) -> (forall w, In w (k_cuts k) -> In w (k_adds k) -> False) ->
  NoDup wits /\ NoDup cuts /\ NoDup adds /\ (forall w, In w cuts -> In w adds -> False) /\
  (k_sn k < e_sn e -> cuts = e_cuts e /\ adds = e_adds e /\ incl cuts (k_wits k) /\
     (forall w, In w adds -> ~ In w (k_wits k)) /\
     wits = filter (fun w => negb (memN w (e_cuts e))) (k_wits k) ++ e_adds e) /\
  (e_sn e <= k_sn k -> wits = k_wits k /\ cuts = k_cuts k /\ adds = k_adds k).
Proof.
  intros k e wits cuts adds X RO N1 N2 N3 DJ. unfold deriveBacks in X. rewrite RO in X. cbn [negb orb] in X.
  destruct (N.leb_spec (e_sn e) (k_sn k)) as [LE|GT].
  - apply ok_inj in X. inv X. split; [assumption|]. split; [assumption|]. split; [assumption|]. split; [assumption|].
    split; [lia|]. auto.
  - cbv zeta in X.
    apply raise_if_ok in X. destruct X as [A1 X]. apply raise_if_ok in X. destruct X as [A2 X].
    apply raise_if_ok in X. destruct X as [A3 X]. apply raise_if_ok in X. destruct X as [A4 X].
    apply raise_if_ok in X. destruct X as [A5 X]. apply raise_if_ok in X. destruct X as [A6 X].
    apply ok_inj in X.
    apply negb_false_iff, N.eqb_eq, oset_len in A1. destruct A1 as [C1 C2].
    apply negb_false_iff, N.eqb_eq, oset_len in A3. destruct A3 as [D1 D2].
    apply negb_false_iff, leqb_eq in A2. apply negb_false_iff in A4, A5. rewrite isnil_inter in A4, A5.
    rewrite (oset_id _ N1) in *. rewrite C1, D1 in *.
    assert (W : addNs (diff (k_wits k) (e_cuts e)) (e_adds e) =
                filter (fun w => negb (memN w (e_cuts e))) (k_wits k) ++ e_adds e).
    { rewrite addNs_disj; [reflexivity|exact D2|]. intros w I1 I2. apply diff_In in I2. eapply A5; [apply I2|exact I1]. }
    inversion X; subst cuts adds; clear X. subst wits. rewrite W.
    split. { rewrite <- W. apply addNs_NoDup. apply NoDup_filter. exact N1. }
    split; [exact C2|]. split; [exact D2|]. split; [exact A4|]. split; [|lia].
    intros _. split; [reflexivity|]. split; [reflexivity|]. split.
    { intros w I. rewrite <- A2 in I. apply inter_In in I. tauto. }
    split; [|reflexivity]. intros w I1 I2. eapply A5; eauto.
Qed.

Lemma rotate_inv : forall d x k e wits cuts adds, rotate d x k e = Ok (wits, cuts, adds) ->
  k_ndigs k <> [] /\ thsize (e_kt e) <= len (e_keys e) /\ inbounds (e_bt e) wits /\
  deriveBacks k e = Ok (wits, cuts, adds) /\
  ((e_sn e = k_sn k + 1 /\ e_prior e = Some (e_said (k_evt k))) \/
   (e_sn e <= k_sn k /\ (e_ilk e = Rot -> k_ilk k = Ixn /\ k_lastS k < e_sn e) /\ (e_ilk e = Drt -> k_lastS k <= e_sn e) /\
    exists pd pe, 0 < e_sn e /\ klast (kels d (e_pre e)) (e_sn e - 1) = Some pd /\ evts x (e_pre e) pd = Some pe /\
      e_prior e = Some (e_said pe))).
Proof.
  intros d x k e wits cuts adds X. unfold rotate in X.
  apply bind_ok in X. destruct X as (u & A & X).
  apply raise_if_ok in X. destruct X as [A1 X]. apply raise_if_ok in X. destruct X as [A2 X].
  apply bind_ok in X. destruct X as ([[w c] a] & DB & X). apply raise_if_ok in X. destruct X as [A3 X].
  apply ok_inj in X. inv X.
  split. { destruct (k_ndigs k); [discriminate|congruence]. }
  split. { apply N.ltb_ge in A2. exact A2. }
  split. { unfold inbounds. destruct wits; cbn [isnil] in A3.
           - apply negb_false_iff, N.eqb_eq in A3. exact A3.
           - apply orb_false_iff in A3. destruct A3 as [B1 B2]. apply N.ltb_ge in B1. apply N.ltb_ge in B2. lia. }
  split; [exact DB|]. clear DB A1 A2 A3.
  destruct (N.ltb_spec (k_sn k + 1) (e_sn e)) as [L1|L1]; [discriminate|].
  destruct (N.leb_spec (e_sn e) (k_sn k)) as [L2|L2].
  - right. apply raise_if_ok in A. destruct A as [B1 A]. apply raise_if_ok in A. destruct A as [B2 A].
    split; [exact L2|]. apply orb_false_iff in B1. destruct B1 as [B1 B3].
    split. { intros R. rewrite R in *. cbn in B1, B2. apply negb_false_iff, ilk_eqb_eq in B2. apply N.leb_gt in B1. auto. }
    split. { intros R. rewrite R in *. cbn in B3. apply N.ltb_ge in B3. exact B3. }
    destruct (N.eqb_spec (e_sn e) 0) as [|NZ]; [discriminate|].
    destruct (klast (kels d (e_pre e)) (e_sn e - 1)) as [pd|] eqn:KL; [|discriminate].
    destruct (evts x (e_pre e) pd) as [pe|] eqn:EV; [|discriminate].
    apply raise_if_ok in A. destruct A as [B4 _]. apply negb_false_iff in B4. unfold compare in B4.
    destruct (e_prior e) as [q|]; [|discriminate]. apply N.eqb_eq in B4. subst q.
    exists pd, pe. repeat split; auto. lia.
  - left. apply raise_if_ok in A. destruct A as [B4 _]. apply negb_false_iff in B4. unfold compare in B4.
    destruct (e_prior e) as [q|]; [|discriminate]. apply N.eqb_eq in B4. subst q. split; [lia|reflexivity].
Qed.

(** ** The unconditional invariant *)
Definition chain (H : N -> option evt) (d : acc) (x : aux) (p : N) (c : list evt) : Prop :=
  log H c /\ Forall (fun a => e_pre a = p /\ In (e_said a) (fels d p) /\ evts x p (e_said a) = Some a) c.

Record goodk (E : env) (H : N -> option evt) (d : acc) (x : aux) (p : N) (k : kever) (c : list evt) (ee : evt) : Prop := mkGood {
  g_chain : chain H d x p (k_evt k :: c);
  g_pre : k_pre k = p;
  g_sn : k_sn k = e_sn (k_evt k);
  g_ilk : k_ilk k = e_ilk (k_evt k);
  g_est : est_of (k_evt k :: c) = Some ee;
  g_keys : k_keys k = e_keys ee;
  g_th : k_tholder k = e_kt ee;
  g_ndigs : k_ndigs k = e_ndigs ee;
  g_nt : k_nt k = e_nt ee;
  g_toad : k_toad k = e_bt ee;
  g_lastS : k_lastS k = e_sn ee;
  g_lastD : k_lastD k = e_said ee;
  g_wits : NoDup (k_wits k);
  g_cuts : NoDup (k_cuts k);
  g_adds : NoDup (k_adds k);
  g_disj : forall w, In w (k_cuts k) -> In w (k_adds k) -> False;
  g_in : inbounds (k_toad k) (k_wits k);
  g_size : thsize (k_tholder k) <= len (k_keys k);
  g_pos : k_tholder k <> TNum 0 }.

Record inv (E : env) (H : N -> option evt) (d : acc) (x : aux) : Prop := mkInv {
  i_ev : forall p s a, evts x p s = Some a -> H s = Some a /\ e_pre a = p;
  i_fe : forall p s, In s (fels d p) -> exists e c ee, e_said e = s /\ chain H d x p (e :: c) /\
           est_of (e :: c) = Some ee /\ signedBy E (e_keys ee) (e_kt ee) (e_raw e) (getSigs x p s);
  i_kf : forall p n s, In s (krow (kels d p) n) -> In s (fels d p) /\ exists e, evts x p s = Some e /\ e_sn e = n;
  i_fk : forall p s e, In s (fels d p) -> evts x p s = Some e -> In s (krow (kels d p) (e_sn e));
  i_ord : forall p j s e, nth_error (fels d p) j = Some s -> evts x p s = Some e -> isIncept (e_ilk e) = false ->
            exists i q, (i < j)%nat /\ e_prior e = Some q /\ nth_error (fels d p) i = Some q;
  i_fn : forall p s n, fons d p s = Some n -> nth_error (fels d p) (N.to_nat n) = Some s;
  i_nf : forall p s, In s (fels d p) -> exists n, fons d p s = Some n;
  i_kv : forall p k, kevers d p = Some k -> exists c ee, goodk E H d x p k c ee;
  i_st : forall p st, states d p = Some st -> exists k c ee, goodk E H d x p k c ee /\ kstate k = Ok st }.

Lemma inv_said_ok : forall E H d x, world H -> inv E H d x -> said_ok x.
Proof. intros E H d x W I p s a EV. apply (i_ev _ _ _ _ I) in EV. destruct EV as [EV _]. apply W in EV. tauto. Qed.

Lemma last_cons : forall A (l : list A) a b, last (a :: l) b = last l a.
Proof. induction l as [|y l IH]; intros; [reflexivity|]. change (last (a :: y :: l) b) with (last (y :: l) b). rewrite !IH. reflexivity. Qed.

Lemma last_In : forall A (l : list A) a, In (last l a) (a :: l).
Proof. induction l as [|y l IH]; intros; [cbn; auto|]. rewrite last_cons. right. apply IH. Qed.

(** growth of the accepted part *)
Definition grows (d : acc) (x : aux) (d' : acc) (x' : aux) : Prop :=
  (forall p s, In s (fels d p) -> In s (fels d' p)) /\
  (forall p s a, evts x p s = Some a -> evts x' p s = Some a) /\
  (forall p s, incl (getSigs x p s) (getSigs x' p s)).

Lemma chain_grows : forall H d x d' x' p c, grows d x d' x' -> chain H d x p c -> chain H d' x' p c.
Proof.
  intros H d x d' x' p c (G1 & G2 & _) (C1 & C2). split; [exact C1|].
  eapply Forall_impl; [|exact C2]. cbn. intros a (A1 & A2 & A3). auto.
Qed.
Lemma goodk_grows : forall E H d x d' x' p k c ee, grows d x d' x' -> goodk E H d x p k c ee -> goodk E H d' x' p k c ee.
Proof. intros E H d x d' x' p k c ee G []. constructor; eauto using chain_grows. Qed.
Lemma signedBy_incl : forall E keys th raw a b, incl a b -> signedBy E keys th raw a -> signedBy E keys th raw b.
Proof. intros E keys th raw a b I (vs & A & B). exists vs. split; [eapply incl_tran; eauto|exact B]. Qed.
Lemma exposedBy_incl : forall E keys raw nd nt a b, incl a b -> exposedBy E keys raw nd nt a -> exposedBy E keys raw nd nt b.
Proof. intros E keys raw nd nt a b I (vs & os & A & B). exists vs, os. split; [eapply incl_tran; eauto|exact B]. Qed.

Lemma valid_signed : forall E cf d x k e sg0 vf th wg0 toad wits local sg wg dp cpl,
  valid E cf d x k e sg0 vf th wg0 toad wits local sg wg dp cpl -> signedBy E vf th (e_raw e) sg.
Proof. intros. destruct H. exists sg. auto using incl_refl. Qed.

(** kget returns a good Kever *)
Definition reloaded (k : kever) : kever :=
  mkKever (e_vn (k_evt k)) (k_pre k) (k_sn k) (k_evt k) (k_ilk k) (k_tholder k) (k_keys k) (k_ndigs k) (k_nt k) (k_toad k)
    (k_wits k) (k_cuts k) (k_adds k) (k_estOnly k) (k_dnd k) (k_lastS k) (k_lastD k) (k_delpre k) (k_fn k) (k_dts k) false.

Lemma goodk_threshold : forall E H d x p k c ee, world H -> goodk E H d x p k c ee ->
  threshold (k_tholder k) /\ threshold (k_nt k).
Proof.
  intros E H d x p k c ee W G. rewrite (g_th _ _ _ _ _ _ _ _ G), (g_nt _ _ _ _ _ _ _ _ G).
  pose proof (g_est _ _ _ _ _ _ _ _ G) as F. unfold est_of in F. apply find_some in F. destruct F as [F _].
  destruct (g_chain _ _ _ _ _ _ _ _ G) as [_ C]. rewrite Forall_forall in C. apply C in F.
  destruct F as (_ & _ & F).
  destruct (g_chain _ _ _ _ _ _ _ _ G) as [L C']. clear C.
  assert (R : forall l, log H l -> forall a, In a l -> real H a).
  { clear. induction 1; cbn; intros a [<-|I]; auto. destruct I. }
  pose proof (find_some _ _ (g_est _ _ _ _ _ _ _ _ G)) as [F' _]. apply (R _ L) in F'.
  apply W in F'. tauto.
Qed.

Lemma kstate_reload : forall E H d x p k c ee st, world H -> goodk E H d x p k c ee -> kstate k = Ok st ->
  kreload x st = Ok (reloaded k).
Proof.
  intros E H d x p k c ee st W G S.
  destruct (goodk_threshold _ _ _ _ _ _ _ _ W G) as [T1 T2].
  unfold kstate in S. rewrite (c12_sith_round_trip _ T1) in S. cbn [bind] in S.
  apply raise_if_ok in S. destruct S as [_ S]. apply raise_if_ok in S. destruct S as [_ S].
  rewrite (c12_sith_round_trip _ T2) in S. cbn [bind] in S.
  do 6 (apply raise_if_ok in S; destruct S as [_ S]). apply ok_inj in S. subst st.
  unfold kreload. cbn [s_kt s_nt s_i s_d s_vn s_s s_et s_k s_n s_bt s_b s_br s_ba s_estOnly s_dnd s_eeS s_eeD s_di s_f s_dt].
  rewrite (c12_sith_round_trip _ T1), (c12_sith_round_trip _ T2). cbn [bind].
  destruct (g_chain _ _ _ _ _ _ _ _ G) as [_ C]. inversion C as [|? ? (C1 & C2 & C3) ?]; subst.
  rewrite (g_pre _ _ _ _ _ _ _ _ G). rewrite C3. unfold reloaded. rewrite (g_pre _ _ _ _ _ _ _ _ G). reflexivity.
Qed.

Lemma goodk_reloaded : forall E H d x p k c ee, goodk E H d x p k c ee -> goodk E H d x p (reloaded k) c ee.
Proof. intros E H d x p k c ee []. constructor; assumption. Qed.

Lemma kget_good : forall E H d x p k, world H -> inv E H d x -> kget d x p = Some k -> exists c ee, goodk E H d x p k c ee.
Proof.
  intros E H d x p k W I K. unfold kget in K. destruct (kevers d p) as [k0|] eqn:KV.
  - inv K. eapply i_kv; eauto.
  - destruct (states d p) as [st|] eqn:ST; [|discriminate].
    destruct (i_st _ _ _ _ I _ _ ST) as (k0 & c & ee & G & S).
    rewrite (kstate_reload _ _ _ _ _ _ _ _ _ W G S) in K. inv K. eauto using goodk_reloaded.
Qed.

Lemma chain_hd : forall H d x p e c, chain H d x p (e :: c) -> e_pre e = p /\ In (e_said e) (fels d p) /\ evts x p (e_said e) = Some e /\ real H e.
Proof.
  intros H d x p e c [L C]. inversion C as [|? ? (C1 & C2 & C3) ?]; subst. repeat split; auto.
  inversion L; assumption.
Qed.

Lemma est_cons : forall e c, est_of (e :: c) = if isEst (e_ilk e) then Some e else est_of c.
Proof. reflexivity. Qed.

Lemma isRot_facts : forall i, isRot i = true -> isIncept i = false /\ isEst i = true.
Proof. destruct i; cbn; intros; split; congruence. Qed.
Lemma isIncept_facts : forall i, isIncept i = true -> isRot i = false /\ isEst i = true.
Proof. destruct i; cbn; intros; split; congruence. Qed.

(** ** One acceptance preserves the invariant *)
Lemma accept_grows : forall E cf m d x d' x' r ko k' sg wg dp cpl,
  accept E cf m d x d' x' r ko k' sg wg dp cpl -> grows d x d' x'.
Proof.
  intros. destruct H. destruct a_ext as (X1 & X2 & X3 & X4). split; [|split]; auto.
  intros p s I. rewrite a_fels.
  destruct (fset_cases _ (fels d) (e_pre (m_evt m)) (fels d (e_pre (m_evt m)) ++ [e_said (m_evt m)]) p) as [(-> & ->)|(_ & ->)]; [|exact I].
  apply in_or_app. auto.
Qed.

Lemma ext_ev : forall H e x x', world H -> real H e ->
  (forall p s a, evts x p s = Some a -> H s = Some a /\ e_pre a = p) -> ext e x x' ->
  (forall p s a, evts x' p s = Some a -> H s = Some a /\ e_pre a = p).
Proof.
  intros H e x x' W R I (_ & X & _) p s a EV. apply X in EV. destruct EV as [EV|(-> & -> & ->)]; [auto|].
  split; [exact R|reflexivity].
Qed.

Lemma accept_self : forall E H cf m d x d' x' r ko k' sg wg dp cpl, world H -> inv E H d x -> real H (m_evt m) ->
  accept E cf m d x d' x' r ko k' sg wg dp cpl ->
  evts x' (e_pre (m_evt m)) (e_said (m_evt m)) = Some (m_evt m) /\
  In (e_said (m_evt m)) (fels d' (e_pre (m_evt m))).
Proof.
  intros E H cf m d x d' x' r ko k' sg wg dp cpl W I R A. split.
  - destruct (a_evt _ _ _ _ _ _ _ _ _ _ _ _ _ _ A) as (a & EV).
    pose proof (ext_ev H _ _ _ W R (i_ev _ _ _ _ I) (a_ext _ _ _ _ _ _ _ _ _ _ _ _ _ _ A) _ _ _ EV) as [Q _].
    unfold real in R. rewrite EV. rewrite R in Q. congruence.
  - rewrite (a_fels _ _ _ _ _ _ _ _ _ _ _ _ _ _ A). rewrite fset_same. apply in_or_app. cbn. auto.
Qed.

(** where the accepted event attaches *)
Inductive attach (E : env) (H : N -> option evt) (d : acc) (x : aux) (e : evt) : option kever -> list evt -> Prop :=
| at_icp : isIncept (e_ilk e) = true -> e_sn e = 0 -> kget d x (e_pre e) = None -> attach E H d x e None []
| at_next : forall k c ee, kget d x (e_pre e) = Some k -> goodk E H d x (e_pre e) k c ee ->
    isIncept (e_ilk e) = false -> e_sn e = k_sn k + 1 -> e_prior e = Some (e_said (k_evt k)) ->
    attach E H d x e (Some k) (k_evt k :: c)
| at_rec : forall k pe c, kget d x (e_pre e) = Some k -> isRot (e_ilk e) = true -> e_sn e <= k_sn k ->
    (e_ilk e = Rot -> k_ilk k = Ixn /\ k_lastS k < e_sn e) -> (e_ilk e = Drt -> k_lastS k <= e_sn e) ->
    klast (kels d (e_pre e)) (e_sn e - 1) = Some (e_said pe) -> chain H d x (e_pre e) (pe :: c) ->
    e_sn e = e_sn pe + 1 -> e_prior e = Some (e_said pe) ->
    attach E H d x e (Some k) (pe :: c).

Lemma chain_evt : forall H d x p e c s a, chain H d x p (e :: c) -> e_said e = s -> evts x p s = Some a -> e = a.
Proof. intros. subst s. apply chain_hd in H0. destruct H0 as (_ & _ & H0 & _). congruence. Qed.

Lemma accept_attach : forall E H cf m d x d' x' r ko k' sg wg dp cpl, world H -> inv E H d x -> real H (m_evt m) ->
  accept E cf m d x d' x' r ko k' sg wg dp cpl -> exists c, attach E H d x (m_evt m) ko c.
Proof.
  intros E H cf m d x d' x' r ko k' sg wg dp cpl W I R A.
  pose proof (a_tr _ _ _ _ _ _ _ _ _ _ _ _ _ _ A) as T. inversion T; subst.
  - apply incept_inv in H2. exists []. constructor; tauto.
  - destruct (kget_good _ _ _ _ _ _ W I H0) as (c & ee & G).
    destruct (isRot_facts _ H3) as [F1 F2]. apply rotate_inv in H7.
    destruct H7 as (_ & _ & _ & _ & [(B1 & B2)|(B1 & B2 & B3 & pd & pe & B4 & B5 & B6 & B7)]).
    + exists (k_evt k :: c). eapply at_next; eauto.
    + pose proof (klast_In _ _ _ B5) as KI. destruct (i_kf _ _ _ _ I _ _ _ KI) as (FI & e1 & E1 & E2).
      destruct (i_fe _ _ _ _ I _ _ FI) as (e2 & c2 & ee2 & S1 & S2 & _ & _).
      pose proof (chain_evt _ _ _ _ _ _ _ _ S2 S1 E1). pose proof (chain_evt _ _ _ _ _ _ _ _ S2 S1 B6). subst e1 pe pd.
      exists (e2 :: c2). eapply at_rec; eauto. lia.
  - destruct (kget_good _ _ _ _ _ _ W I H0) as (c & ee & G). exists (k_evt k :: c). eapply at_next; eauto.
    rewrite H3. reflexivity.
Qed.

Lemma attach_chain : forall E H cf m d x d' x' r ko k' sg wg dp cpl c, world H -> inv E H d x -> real H (m_evt m) ->
  accept E cf m d x d' x' r ko k' sg wg dp cpl -> attach E H d x (m_evt m) ko c ->
  chain H d' x' (e_pre (m_evt m)) (m_evt m :: c).
Proof.
  intros E H cf m d x d' x' r ko k' sg wg dp cpl c W I R A AT.
  destruct (accept_self _ _ _ _ _ _ _ _ _ _ _ _ _ _ _ W I R A) as [S1 S2].
  pose proof (accept_grows _ _ _ _ _ _ _ _ _ _ _ _ _ _ A) as G.
  assert (HD : forall c0, chain H d x (e_pre (m_evt m)) c0 -> log H (m_evt m :: c0) -> chain H d' x' (e_pre (m_evt m)) (m_evt m :: c0)).
  { intros c0 C L. split; [exact L|]. constructor; [auto|]. eapply chain_grows in C; [|exact G]. apply C. }
  inversion AT; subst.
  - split; [apply log_icp; assumption|]. constructor; auto.
  - apply HD; [eapply g_chain; eauto|]. pose proof (g_chain _ _ _ _ _ _ _ _ H1) as C.
    destruct (chain_hd _ _ _ _ _ _ C) as (P1 & _). apply log_next; auto; [apply C|].
    rewrite <- (g_sn _ _ _ _ _ _ _ _ H1). assumption.
  - apply HD; [assumption|]. destruct (chain_hd _ _ _ _ _ _ H6) as (P1 & _).
    apply log_next; auto; [apply H6|]. apply isRot_facts. assumption.
Qed.

Lemma log_root : forall H e c, log H (e :: c) -> isIncept (e_ilk (last c e)) = true /\ e_sn (last c e) = 0.
Proof.
  intros H e c. revert e. induction c as [|a c IH]; intros e L; inversion L; subst; [cbn; auto|].
  rewrite last_cons. apply IH. assumption.
Qed.

Lemma satisfy_pos : forall is, satisfy (TNum 0) is = false.
Proof. reflexivity. Qed.

Lemma accept_good : forall E H cf m d x d' x' r ko k' sg wg dp cpl c, world H -> inv E H d x -> real H (m_evt m) ->
  accept E cf m d x d' x' r ko k' sg wg dp cpl -> attach E H d x (m_evt m) ko c ->
  exists ee, goodk E H d' x' (e_pre (m_evt m)) k' c ee /\ k_evt k' = m_evt m.
Proof.
  intros E H cf m d x d' x' r ko k' sg wg dp cpl c W I R A AT.
  pose proof (attach_chain _ _ _ _ _ _ _ _ _ _ _ _ _ _ _ _ W I R A AT) as CH.
  pose proof (a_tr _ _ _ _ _ _ _ _ _ _ _ _ _ _ A) as T.
  pose proof (a_valid _ _ _ _ _ _ _ _ _ _ _ _ _ _ A) as V.
  assert (POS : k_tholder k' <> TNum 0).
  { intros Z. pose proof (v_sat _ _ _ _ _ _ _ _ _ _ _ _ _ _ _ _ _ V) as S. rewrite Z in S. discriminate. }
  pose proof (v_size _ _ _ _ _ _ _ _ _ _ _ _ _ _ _ _ _ V) as SZ.
  inversion T; subst.
  - apply incept_inv in H2. destruct H2 as (B1 & B2 & B3 & B4 & B5 & ->).
    cbn [withDelFn k_vn k_pre k_sn k_evt k_ilk k_tholder k_keys k_ndigs k_nt k_toad k_wits k_cuts k_adds k_estOnly k_dnd k_lastS k_lastD k_cues] in *.
    exists (m_evt m). split; [|reflexivity]. constructor; cbn; auto using NoDup_nil.
    rewrite (proj2 (isIncept_facts _ H1)). reflexivity.
  - destruct (kget_good _ _ _ _ _ _ W I H0) as (c0 & ee0 & G).
    destruct (isRot_facts _ H3) as [F1 F2]. pose proof (rotate_inv _ _ _ _ _ _ _ H7) as (B1 & B2 & B3 & B4 & _).
    apply deriveBacks_inv in B4; [|assumption|eapply g_wits; eauto|eapply g_cuts; eauto|eapply g_adds; eauto|eapply g_disj; eauto].
    destruct B4 as (D1 & D2 & D3 & D4 & _).
    exists (m_evt m). split; [|reflexivity]. constructor; cbn; auto. rewrite F2. reflexivity.
  - assert (c = k_evt k :: tl c /\ exists c0 ee, c = k_evt k :: c0 /\ goodk E H d x (e_pre (m_evt m)) k c0 ee) as (_ & c0 & ee & -> & G).
    { inversion AT; subst; [eauto 6|]. rewrite H3 in *. discriminate. }
    pose proof (accept_grows _ _ _ _ _ _ _ _ _ _ _ _ _ _ A) as GR.
    exists ee. split; [|reflexivity]. destruct G. constructor; cbn; auto. rewrite H3. cbn. exact g_est0.
Qed.

Lemma nth_snoc : forall A (l : list A) a n b, nth_error (l ++ [a]) n = Some b ->
  nth_error l n = Some b \/ (n = List.length l /\ b = a).
Proof.
  intros A l a n b X. destruct (Nat.lt_ge_cases n (List.length l)) as [L|L].
  - rewrite nth_error_app1 in X by exact L. auto.
  - rewrite nth_error_app2 in X by exact L. destruct (n - List.length l)%nat eqn:Z; cbn in X; [inv X; right; split; [lia|reflexivity]|].
    destruct n0; discriminate.
Qed.
Lemma nth_app_l : forall A (l l' : list A) n b, nth_error l n = Some b -> nth_error (l ++ l') n = Some b.
Proof. intros. rewrite nth_error_app1; [assumption|]. apply nth_error_Some. congruence. Qed.
Lemma nth_last : forall A (l : list A) a, nth_error (l ++ [a]) (List.length l) = Some a.
Proof. intros. rewrite nth_error_app2 by lia. rewrite Nat.sub_diag. reflexivity. Qed.

Lemma attach_prior : forall E H d x e ko c, attach E H d x e ko c -> isIncept (e_ilk e) = false ->
  exists q, e_prior e = Some q /\ In q (fels d (e_pre e)).
Proof.
  intros E H d x e ko c AT IC. inversion AT; subst; [congruence| |].
  - eexists. split; [eassumption|]. apply g_chain, chain_hd in H1. tauto.
  - eexists. split; [eassumption|]. apply chain_hd in H6. tauto.
Qed.

Lemma accept_inv : forall E H cf m d x d' x' r ko k' sg wg dp cpl, world H -> inv E H d x -> real H (m_evt m) ->
  accept E cf m d x d' x' r ko k' sg wg dp cpl -> inv E H d' x'.
Proof.
  intros E H cf m d x d' x' r ko k' sg wg dp cpl W I R A.
  destruct (accept_attach _ _ _ _ _ _ _ _ _ _ _ _ _ _ _ W I R A) as (c & AT).
  destruct (accept_good _ _ _ _ _ _ _ _ _ _ _ _ _ _ _ _ W I R A AT) as (ee & GK & KE).
  destruct (accept_self _ _ _ _ _ _ _ _ _ _ _ _ _ _ _ W I R A) as (S1 & S2).
  pose proof (accept_grows _ _ _ _ _ _ _ _ _ _ _ _ _ _ A) as GR.
  pose proof (a_ext _ _ _ _ _ _ _ _ _ _ _ _ _ _ A) as X.
  pose proof (ext_ev _ _ _ _ W R (i_ev _ _ _ _ I) X) as EV'.
  pose proof (a_fels _ _ _ _ _ _ _ _ _ _ _ _ _ _ A) as AF.
  set (p := e_pre (m_evt m)) in *. set (s := e_said (m_evt m)) in *.
  assert (FE : forall q t, In t (fels d' q) -> In t (fels d q) \/ (q = p /\ t = s)).
  { intros q t Y. rewrite AF in Y. destruct (fset_cases _ (fels d) p (fels d p ++ [s]) q) as [(-> & Z)|(_ & Z)]; rewrite Z in Y; [|auto].
    apply in_app_or in Y. destruct Y as [Y|[<-|[]]]; auto. }
  assert (OLD : forall q t, In t (fels d q) -> exists e c ee, e_said e = t /\ evts x q t = Some e /\ evts x' q t = Some e /\ chain H d x q (e :: c) /\
           est_of (e :: c) = Some ee /\ signedBy E (e_keys ee) (e_kt ee) (e_raw e) (getSigs x q t)).
  { intros q t Y. destruct (i_fe _ _ _ _ I _ _ Y) as (e0 & c0 & e1 & Y1 & Y2 & Y3 & Y4).
    exists e0, c0, e1. pose proof (chain_hd _ _ _ _ _ _ Y2) as (_ & _ & Y5 & _). subst t.
    split; [reflexivity|]. split; [exact Y5|]. split; [apply GR; exact Y5|]. auto. }
  assert (NTH : forall q j t, nth_error (fels d' q) j = Some t -> nth_error (fels d q) j = Some t \/ (q = p /\ t = s /\ j = List.length (fels d p))).
  { intros q j t Y. rewrite AF in Y. destruct (fset_cases _ (fels d) p (fels d p ++ [s]) q) as [(-> & Z)|(_ & Z)]; rewrite Z in Y; [|auto].
    apply nth_snoc in Y. destruct Y as [Y|[Y1 Y2]]; auto. }
  assert (NTH' : forall q j t, nth_error (fels d q) j = Some t -> nth_error (fels d' q) j = Some t).
  { intros q j t Y. rewrite AF. destruct (fset_cases _ (fels d) p (fels d p ++ [s]) q) as [(-> & Z)|(_ & Z)]; rewrite Z; [|auto].
    apply nth_app_l. exact Y. }
  assert (GKO : forall q k c ee, goodk E H d x q k c ee -> goodk E H d' x' q k c ee) by (intros; eapply goodk_grows; eauto).
  constructor.
  - exact EV'.
  - intros q t Y. apply FE in Y. destruct Y as [Y|[-> ->]].
    + destruct (OLD _ _ Y) as (e0 & c0 & e1 & Y1 & Y2 & Y3 & Y4 & Y5 & Y6). exists e0, c0, e1.
      split; [exact Y1|]. split; [eapply chain_grows; eauto|]. split; [exact Y5|].
      eapply signedBy_incl; [|exact Y6]. apply GR.
    + exists (m_evt m), c, ee. split; [reflexivity|].
      split; [rewrite <- KE; eapply g_chain; eauto|]. split; [rewrite <- KE; eapply g_est; eauto|].
      eapply signedBy_incl; [apply (a_sigs _ _ _ _ _ _ _ _ _ _ _ _ _ _ A)|].
      rewrite <- (g_keys _ _ _ _ _ _ _ _ GK), <- (g_th _ _ _ _ _ _ _ _ GK).
      eapply valid_signed. exact (a_valid _ _ _ _ _ _ _ _ _ _ _ _ _ _ A).
  - intros q n t Y. rewrite (a_kels _ _ _ _ _ _ _ _ _ _ _ _ _ _ A) in Y. fold p s in Y.
    assert (Z : In t (krow (kels d q) n) \/ (q = p /\ t = s /\ n = e_sn (m_evt m))).
    { match type of Y with In _ (krow (fset _ _ ?v _) _) => destruct (fset_cases _ (kels d) p v q) as [(-> & Z)|(_ & Z)] end;
        rewrite Z in Y; [|auto].
      rewrite krow_add in Y. destruct (N.eqb_spec n (e_sn (m_evt m))) as [->|]; [|auto].
      destruct (memN _ _); [auto|]. apply in_app_or in Y. destruct Y as [Y|[<-|[]]]; auto. }
    destruct Z as [Z|(-> & -> & ->)].
    + destruct (i_kf _ _ _ _ I _ _ _ Z) as (Z1 & e0 & Z2 & Z3). split; [apply GR; exact Z1|]. exists e0. split; [apply GR; exact Z2|exact Z3].
    + split; [exact S2|]. exists (m_evt m). auto.
  - intros q t e0 Y1 Y2. rewrite (a_kels _ _ _ _ _ _ _ _ _ _ _ _ _ _ A). fold p s.
    apply FE in Y1. destruct Y1 as [Y1|[-> ->]].
    + destruct (OLD _ _ Y1) as (e1 & c0 & e2 & Y3 & Y4 & Y5 & _). rewrite Y5 in Y2. inv Y2.
      pose proof (i_fk _ _ _ _ I _ _ _ Y1 Y4) as Z.
      match goal with |- In _ (krow (fset _ _ ?v _) _) => destruct (fset_cases _ (kels d) p v q) as [(-> & Z')|(_ & Z')] end; rewrite Z'; [|exact Z].
      rewrite krow_add. destruct (N.eqb_spec (e_sn e0) (e_sn (m_evt m))) as [Q|]; [|exact Z].
      rewrite Q in Z. destruct (memN _ _); [exact Z|]. apply in_or_app. auto.
    + rewrite S1 in Y2. inv Y2. rewrite fset_same, krow_add, N.eqb_refl.
      destruct (memN s (krow (kels d p) (e_sn (m_evt m)))) eqn:M; [apply memN_In; exact M|]. apply in_or_app. cbn. auto.
  - intros q j t e0 Y1 Y2 Y3. apply NTH in Y1. destruct Y1 as [Y1|(-> & -> & ->)].
    + destruct (OLD q t (nth_error_In _ _ Y1)) as (e1 & c0 & e2 & Y4 & Y5 & Y6 & _). rewrite Y6 in Y2. inv Y2.
      destruct (i_ord _ _ _ _ I _ _ _ _ Y1 Y5 Y3) as (i & z & Z1 & Z2 & Z3). exists i, z. auto.
    + rewrite S1 in Y2. inv Y2. destruct (attach_prior _ _ _ _ _ _ _ AT Y3) as (z & Z1 & Z2).
      apply In_nth_error in Z2. destruct Z2 as (i & Z2). exists i, z. split; [|auto].
      apply nth_error_Some. fold p in Z2. congruence.
  - intros q t n Y. rewrite (a_fons _ _ _ _ _ _ _ _ _ _ _ _ _ _ A) in Y. fold p s in Y.
    destruct (aset_cases _ (fons d) p s (Some (len (fels d p))) q t) as [(-> & -> & Z)|(_ & Z)]; rewrite Z in Y.
    + inv Y. rewrite AF, fset_same. unfold len. rewrite Nat2N.id. apply nth_last.
    + apply NTH'. eapply i_fn; eauto.
  - intros q t Y. rewrite (a_fons _ _ _ _ _ _ _ _ _ _ _ _ _ _ A). fold p s.
    destruct (aset_cases _ (fons d) p s (Some (len (fels d p))) q t) as [(-> & -> & Z)|(NE & Z)]; rewrite Z; [eauto|].
    apply FE in Y. destruct Y as [Y|[-> ->]]; [eapply i_nf; eauto|]. destruct NE; congruence.
  - intros q k Y. destruct (a_pin _ _ _ _ _ _ _ _ _ _ _ _ _ _ A) as [(_ & st & _ & Z & _)|(ex & _ & _ & _ & Z)]; rewrite Z in Y.
    + rewrite (g_pre _ _ _ _ _ _ _ _ GK) in Y. fold p in Y.
      destruct (fset_cases _ (kevers d) p (Some k') q) as [(-> & Q)|(_ & Q)]; rewrite Q in Y; [inv Y; eauto|].
      destruct (i_kv _ _ _ _ I _ _ Y) as (? & ? & ?). eauto.
    + destruct ko.
      * rewrite (g_pre _ _ _ _ _ _ _ _ GK) in Y. fold p in Y.
        destruct (fset_cases _ (kevers d) p (Some k') q) as [(-> & Q)|(_ & Q)]; rewrite Q in Y; [inv Y; eauto|].
        destruct (i_kv _ _ _ _ I _ _ Y) as (? & ? & ?). eauto.
      * destruct (i_kv _ _ _ _ I _ _ Y) as (? & ? & ?). eauto.
  - intros q st Y. destruct (a_pin _ _ _ _ _ _ _ _ _ _ _ _ _ _ A) as [(_ & st' & KS & _ & Z)|(ex & _ & _ & Z & _)]; rewrite Z in Y.
    + rewrite (g_pre _ _ _ _ _ _ _ _ GK) in Y. fold p in Y.
      destruct (fset_cases _ (states d) p (Some st') q) as [(-> & Q)|(_ & Q)]; rewrite Q in Y; [inv Y; eauto|].
      destruct (i_st _ _ _ _ I _ _ Y) as (? & ? & ? & ? & ?). eauto 6.
    + destruct (i_st _ _ _ _ I _ _ Y) as (? & ? & ? & ? & ?). eauto 6.
Qed.

(** ** Executions as sequences of small changes *)
Inductive micro (E : env) (H : N -> option evt) (cf : conf) : db -> db -> Prop :=
| mi_same : forall e d x d' x', real H e -> ext e x x' -> same_acc d d' -> micro E H cf (d, x) (d', x')
| mi_quiet : forall d x x', evts x' = evts x -> sigs x' = sigs x -> wigs x' = wigs x -> micro E H cf (d, x) (d, x')
| mi_acc : forall m d x d' x' r ko k' sg wg dp cpl, real H (m_evt m) ->
    accept E cf m d x d' x' r ko k' sg wg dp cpl -> micro E H cf (d, x) (d', x')
| mi_restart : forall d x, micro E H cf (d, x) (restart (d, x)).

Inductive micros (E : env) (H : N -> option evt) (cf : conf) : db -> db -> Prop :=
| ms_nil : forall a, micros E H cf a a
| ms_snoc : forall a b c, micros E H cf a b -> micro E H cf b c -> micros E H cf a c.

Lemma ms_trans : forall E H cf a b c, micros E H cf a b -> micros E H cf b c -> micros E H cf a c.
Proof. intros E H cf a b c A B. induction B; [assumption|]. eapply ms_snoc; [apply IHB; assumption|assumption]. Qed.
Lemma ms_one : forall E H cf a b, micro E H cf a b -> micros E H cf a b.
Proof. intros. eapply ms_snoc; [apply ms_nil|assumption]. Qed.

Lemma same_grows : forall d x d' x', same_acc d d' -> (forall p s a, evts x p s = Some a -> evts x' p s = Some a) ->
  (forall p s, incl (getSigs x p s) (getSigs x' p s)) -> grows d x d' x'.
Proof.
  intros d x d' x' (_ & S & _) A B. split; [|split]; auto. intros p s. rewrite S. auto.
Qed.

Lemma inv_same : forall E H d x d' x', inv E H d x -> same_acc d d' ->
  (forall p s a, evts x p s = Some a -> evts x' p s = Some a) ->
  (forall p s a, evts x' p s = Some a -> H s = Some a /\ e_pre a = p) ->
  (forall p s, incl (getSigs x p s) (getSigs x' p s)) -> inv E H d' x'.
Proof.
  intros E H d x d' x' I SA X1 X2 X3. pose proof (same_grows _ _ _ _ SA X1 X3) as GR.
  destruct SA as (A1 & A2 & A3 & A4 & A5 & A6).
  assert (OLD : forall p s e, In s (fels d p) -> evts x' p s = Some e -> evts x p s = Some e).
  { intros p s e Y1 Y2. destruct (i_fe _ _ _ _ I _ _ Y1) as (e0 & c0 & e1 & Z1 & Z2 & _).
    apply chain_hd in Z2. destruct Z2 as (_ & _ & Z2 & _). subst s. pose proof (X1 _ _ _ Z2). congruence. }
  constructor.
  - exact X2.
  - intros p s Y. rewrite A2 in Y. destruct (i_fe _ _ _ _ I _ _ Y) as (e0 & c0 & e1 & Y1 & Y2 & Y3 & Y4).
    exists e0, c0, e1. split; [exact Y1|]. split; [eapply chain_grows; eauto|]. split; [exact Y3|].
    eapply signedBy_incl; [apply X3|exact Y4].
  - intros p n s Y. rewrite A1 in Y. rewrite A2. destruct (i_kf _ _ _ _ I _ _ _ Y) as (Z1 & e0 & Z2 & Z3). eauto.
  - intros p s e Y1 Y2. rewrite A2 in Y1. rewrite A1. eapply i_fk; eauto.
  - intros p j s e Y1 Y2 Y3. rewrite A2 in Y1. assert (In s (fels d p)) by (eapply nth_error_In; eauto).
    destruct (i_ord _ _ _ _ I _ _ _ _ Y1 (OLD _ _ _ H0 Y2) Y3) as (i & q & Z). rewrite A2. eauto.
  - intros p s n Y. rewrite A3 in Y. rewrite A2. eapply i_fn; eauto.
  - intros p s Y. rewrite A2 in Y. rewrite A3. eapply i_nf; eauto.
  - intros p k Y. rewrite A6 in Y. destruct (i_kv _ _ _ _ I _ _ Y) as (? & ? & ?). eauto using goodk_grows.
  - intros p st Y. rewrite A5 in Y. destruct (i_st _ _ _ _ I _ _ Y) as (k & c & ee & G & S). exists k, c, ee.
    eauto using goodk_grows.
Qed.

Lemma inv_restart : forall E H d x, inv E H d x -> inv E H (set_kevers (fun _ => None) d) x.
Proof.
  intros E H d x I. assert (GR : grows d x (set_kevers (fun _ => None) d) x).
  { split; [|split]; auto. intros. apply incl_refl. }
  destruct I. constructor; auto.
  - intros p k Y. discriminate.
  - intros p st Y. destruct (i_st0 p st Y) as (k & c & ee & G & S). exists k, c, ee. split; [eapply goodk_grows; eauto|exact S].
Qed.

Lemma inv_micro : forall E H cf d x d' x', world H -> inv E H d x -> micro E H cf (d, x) (d', x') -> inv E H d' x'.
Proof.
  intros E H cf d x d' x' W I M.
  inversion M as [e0 d0 x0 d1 x1 R X S|d0 x0 x1 Q1 Q2 Q3|m d0 x0 d1 x1 r ko k' sg wg dp cpl R A|d0 x0]; subst.
  - eapply inv_same; eauto; [apply X|eapply ext_ev; eauto; exact (i_ev _ _ _ _ I)|apply X].
  - eapply inv_same; eauto using same_acc_refl; unfold getSigs.
    + intros. rewrite Q1. assumption.
    + intros p s a. rewrite Q1. apply (i_ev _ _ _ _ I).
    + intros. rewrite Q2. apply incl_refl.
  - eapply accept_inv; eauto.
  - apply inv_restart. exact I.
Qed.

Lemma inv_micros : forall E H cf a b, world H -> inv E H (fst a) (snd a) -> micros E H cf a b -> inv E H (fst b) (snd b).
Proof.
  intros E H cf a b W I M. induction M; [exact I|]. destruct b as [d x], c as [d' x'].
  eapply inv_micro; [exact W|exact (IHM I)|eassumption].
Qed.

Lemma micro_process : forall E H cf m d x d' x' r, world H -> inv E H d x -> real H (m_evt m) ->
  processEvent E cf m (d, x) = ((d', x'), r) -> micros E H cf (d, x) (d', x').
Proof.
  intros E H cf m d x d' x' r W I R P. apply process_inv in P. apply ms_one.
  destruct P as [(X & _ & S)|(ko & k' & sg & wg & dp & cpl & A)].
  - eapply mi_same; eauto. apply S. eapply inv_said_ok; eauto.
  - eapply mi_acc; eauto.
Qed.

Lemma quiet_p_rem : forall q r x, evts (p_rem q r x) = evts x /\ sigs (p_rem q r x) = sigs x /\ wigs (p_rem q r x) = wigs x.
Proof. intros q r x. destruct q; repeat split. Qed.
Lemma micro_drop : forall E H cf q r p s d x,
  micros E H cf (d, x) (d, match q with PPD => remUdes p s (p_rem q r x) | _ => p_rem q r x end).
Proof.
  intros. apply ms_one. destruct (quiet_p_rem q r x) as (A & B & C).
  destruct q; apply mi_quiet; assumption.
Qed.
Lemma micro_done : forall E H cf q r p s d x,
  micros E H cf (d, x) (d, match q with POO => p_rem q r x | _ => remUdes p s (p_rem q r x) end).
Proof.
  intros. apply ms_one. destruct (quiet_p_rem q r x) as (A & B & C).
  destruct q; apply mi_quiet; assumption.
Qed.

Lemma micro_unescrow1 : forall E H cf now q r dx, world H -> inv E H (fst dx) (snd dx) ->
  micros E H cf dx (unescrow1 E cf now q r dx).
Proof.
  intros E H cf now q [[p sn] s] [d x] W I. cbn [fst snd] in I. unfold unescrow1.
  destruct (esrs x p s) as [local|]; [|apply micro_drop].
  destruct (dtss x p s) as [dt|]; [|apply micro_drop].
  destruct (evts x p s) as [e|] eqn:EV; [|apply micro_drop].
  destruct (getSigs x p s) as [|g sg]; [apply micro_drop|].
  destruct (p_timeout q <? now - dt); [apply micro_drop|].
  match goal with |- context [processEvent E cf ?m (d, x)] => set (m0 := m) end.
  assert (R : real H (m_evt m0)).
  { cbn. apply (i_ev _ _ _ _ I) in EV. destruct EV as [EV _]. pose proof (W _ _ EV) as (Z & _). unfold real. rewrite Z. exact EV. }
  destruct (processEvent E cf m0 (d, x)) as [[d' x'] o] eqn:P.
  pose proof (micro_process _ _ _ _ _ _ _ _ _ W I R P) as M1.
  destruct o as [u|ex].
  - eapply ms_trans; [exact M1|apply micro_done].
  - destruct (p_keep q ex); [exact M1|]. eapply ms_trans; [exact M1|apply micro_drop].
Qed.

Lemma micro_fold : forall A E H cf (f : db -> A -> db) l dx, world H -> inv E H (fst dx) (snd dx) ->
  (forall dx a, inv E H (fst dx) (snd dx) -> micros E H cf dx (f dx a)) ->
  micros E H cf dx (fold_left f l dx).
Proof.
  intros A E H cf f l. induction l as [|a l IH]; intros dx W I F; cbn [fold_left]; [apply ms_nil|].
  pose proof (F dx a I) as M. eapply ms_trans; [exact M|]. apply IH; auto. eapply inv_micros; eauto.
Qed.

Lemma micro_step : forall E H cf o dx, world H -> inv E H (fst dx) (snd dx) -> real_op H o ->
  micros E H cf dx (step E cf o dx).
Proof.
  intros E H cf o dx W I R. destruct o as [m|now|]; cbn [step].
  - destruct dx as [d x]. destruct (processEvent E cf m (d, x)) as [[d' x'] r] eqn:P. eapply micro_process; eauto.
  - unfold processEscrows. apply micro_fold; auto. intros dx' q I'. unfold unescrow.
    apply micro_fold; auto. intros. apply micro_unescrow1; auto.
  - destruct dx as [d x]. apply ms_one, mi_restart.
Qed.

Lemma micro_run : forall E H cf ops dx, world H -> inv E H (fst dx) (snd dx) -> Forall (real_op H) ops ->
  micros E H cf dx (run E cf ops dx).
Proof.
  intros E H cf ops. induction ops as [|o ops IH]; intros dx W I R; [apply ms_nil|].
  inversion R; subst. change (run E cf (o :: ops) dx) with (run E cf ops (step E cf o dx)).
  pose proof (micro_step E H cf o dx W I H2) as M. eapply ms_trans; [exact M|]. apply IH; auto. eapply inv_micros; eauto.
Qed.

Lemma inv0 : forall E H, inv E H acc0 aux0.
Proof.
  intros. constructor; cbn [fels kels fons states kevers evts acc0 aux0]; intros; try discriminate; try contradiction.
  - unfold krow in H0. destruct (N.to_nat n); contradiction.
Qed.

Lemma inv_run : forall E H cf ops, world H -> Forall (real_op H) ops ->
  inv E H (fst (run E cf ops db0)) (snd (run E cf ops db0)).
Proof. intros. eapply (inv_micros E H cf db0); [assumption|apply (inv0 E H)|]. apply micro_run; auto. apply inv0. Qed.

(** ** The invariant for events whose next threshold fits their next digests *)
Lemma log_real : forall H c, log H c -> forall a, In a c -> real H a.
Proof. induction 1; cbn; intros a [<-|I]; auto. destruct I. Qed.

Lemma log_unique : forall H c1 c2 e, log H (e :: c1) -> log H (e :: c2) -> c1 = c2.
Proof.
  induction c1 as [|a c1 IH]; intros c2 e L1 L2.
  - inversion L1; subst. inversion L2; subst; [reflexivity|congruence].
  - inversion L1; subst. inversion L2; subst; [congruence|].
    assert (a = pe).
    { match goal with A : e_prior e = Some (e_said a), B : e_prior e = Some (e_said pe) |- _ => rewrite A in B; injection B as B end.
      pose proof (log_real _ _ H4 a (or_introl eq_refl)) as R1. pose proof (log_real _ _ H9 pe (or_introl eq_refl)) as R2.
      unfold real in *. congruence. }
    subst pe. f_equal. eapply IH; eauto.
Qed.

Lemma log_sns : forall H e c, log H (e :: c) -> forall a, In a c -> e_sn a < e_sn e.
Proof.
  intros H e c. revert e. induction c as [|b c IH]; intros e L a I; [destruct I|].
  inversion L; subst. destruct I as [<-|I]; [lia|]. match goal with L : log _ (b :: c) |- _ => specialize (IH b L a I) end. lia.
Qed.

Lemma kstate_ok : forall E H d x p k c ee, world H -> sane H -> goodk E H d x p k c ee -> exists st, kstate k = Ok st.
Proof.
  intros E H d x p k c ee W SN G.
  destruct (goodk_threshold _ _ _ _ _ _ _ _ W G) as [T1 T2].
  assert (NT : thsize (k_nt k) <= len (k_ndigs k)).
  { rewrite (g_nt _ _ _ _ _ _ _ _ G), (g_ndigs _ _ _ _ _ _ _ _ G).
    pose proof (find_some _ _ (g_est _ _ _ _ _ _ _ _ G)) as [F _].
    eapply SN. exact (log_real _ _ (proj1 (g_chain _ _ _ _ _ _ _ _ G)) _ F). }
  unfold kstate. rewrite (c12_sith_round_trip _ T1), (c12_sith_round_trip _ T2). cbn [bind].
  destruct G.
  replace (match k_tholder k with TNum n => n <? 1 | TWt _ => false end) with false
    by (destruct (k_tholder k) as [n|]; [symmetry; apply N.ltb_ge; assert (n <> 0) by congruence; lia|reflexivity]).
  rewrite (proj2 (N.ltb_ge _ _) g_size0), (proj2 (N.ltb_ge _ _) NT).
  rewrite (oset_id _ g_wits0), (oset_id _ g_cuts0), (oset_id _ g_adds0), !N.eqb_refl. cbn [negb].
  assert (B : (if isnil (k_wits k) then negb (k_toad k =? 0) else (k_toad k <? 1) || (len (k_wits k) <? k_toad k)) = false).
  { unfold inbounds in g_in0. destruct (k_wits k); cbn [isnil].
    - rewrite g_in0. reflexivity.
    - apply orb_false_iff. split; apply N.ltb_ge; lia. }
  rewrite B. rewrite (proj2 (isnil_inter _ _) g_disj0). cbn [negb]. eauto.
Qed.

Definition flags (k : kever) (c : list evt) : Prop :=
  k_estOnly k = e_estOnly (last c (k_evt k)) /\ k_dnd k = e_dnd (last c (k_evt k)) /\ k_delpre k = delegator (last c (k_evt k)) /\
  (e_ilk (last c (k_evt k)) = Dip -> e_delpre (last c (k_evt k)) <> None).

Definition sfacts (E : env) (H : N -> option evt) (d : acc) (x : aux) (p : N) (k : kever) : Prop :=
  exists c ee l, goodk E H d x p k c ee /\ fels d p = l ++ [e_said (k_evt k)] /\ k_fn k = len l /\ flags k c /\
    (forall s e, In s (fels d p) -> evts x p s = Some e -> isEst (e_ilk e) = true -> e_sn e <= k_lastS k) /\
    (forall s e, In s (fels d p) -> evts x p s = Some e -> isIncept (e_ilk e) = true -> e = last c (k_evt k)).

Record sinv (E : env) (H : N -> option evt) (d : acc) (x : aux) : Prop := mkSinv {
  s_inv : inv E H d x;
  s_p : forall p, (fels d p = [] /\ states d p = None /\ kevers d p = None) \/
          exists k st, sfacts E H d x p k /\ kstate k = Ok st /\ states d p = Some st /\ (kevers d p = None \/ kevers d p = Some k);
  s_law : forall p e c, chain H d x p (e :: c) -> lawful E (e :: c) }.

Lemma sfacts_reloaded : forall E H d x p k, sfacts E H d x p k -> sfacts E H d x p (reloaded k).
Proof. intros E H d x p k (c & ee & l & G & A). exists c, ee, l. split; [apply goodk_reloaded; exact G|exact A]. Qed.

Lemma sinv_kget : forall E H d x p, world H -> sinv E H d x ->
  (kget d x p = None /\ fels d p = [] /\ states d p = None /\ kevers d p = None) \/
  exists k, kget d x p = Some k /\ sfacts E H d x p k.
Proof.
  intros E H d x p W S. destruct (s_p _ _ _ _ S p) as [(A & B & C)|(k & st & F & KS & ST & [KV|KV])].
  - left. unfold kget. rewrite B, C. auto.
  - right. exists (reloaded k). split; [|apply sfacts_reloaded; exact F]. destruct F as (c & ee & l & G & _).
    unfold kget. rewrite KV, ST, (kstate_reload _ _ _ _ _ _ _ _ _ W G KS). reflexivity.
  - right. exists k. split; [|exact F]. unfold kget. rewrite KV. reflexivity.
Qed.

Lemma inv_old : forall E H d x x' p s e, inv E H d x -> (forall p s a, evts x p s = Some a -> evts x' p s = Some a) ->
  In s (fels d p) -> evts x' p s = Some e -> evts x p s = Some e.
Proof.
  intros E H d x x' p s e I X1 Y1 Y2. destruct (i_fe _ _ _ _ I _ _ Y1) as (e0 & c0 & e1 & Z1 & Z2 & _).
  apply chain_hd in Z2. destruct Z2 as (_ & _ & Z2 & _). subst s. pose proof (X1 _ _ _ Z2). congruence.
Qed.

(** a log of accepted events whose newest was accepted before *)
Lemma chain_old : forall E H d x d' x' p e c, inv E H d x -> chain H d' x' p (e :: c) -> In (e_said e) (fels d p) ->
  (forall p s a, evts x p s = Some a -> evts x' p s = Some a) -> chain H d x p (e :: c).
Proof.
  intros E H d x d' x' p e c I C F X1. destruct (i_fe _ _ _ _ I _ _ F) as (e0 & c0 & e1 & Z1 & Z2 & _).
  pose proof (chain_hd _ _ _ _ _ _ Z2) as (_ & _ & Z3 & _). pose proof (chain_hd _ _ _ _ _ _ C) as (_ & _ & Z4 & _).
  rewrite Z1 in Z3. apply X1 in Z3. assert (e0 = e) by congruence. subst e0.
  rewrite (log_unique _ _ _ _ (proj1 C) (proj1 Z2)). exact Z2.
Qed.

Lemma sinv_same : forall E H d x d' x', sinv E H d x -> same_acc d d' ->
  (forall p s a, evts x p s = Some a -> evts x' p s = Some a) ->
  (forall p s, incl (getSigs x p s) (getSigs x' p s)) -> inv E H d' x' -> sinv E H d' x'.
Proof.
  intros E H d x d' x' S SA X1 X3 I'. pose proof (same_grows _ _ _ _ SA X1 X3) as GR.
  destruct SA as (A1 & A2 & A3 & A4 & A5 & A6). pose proof (s_inv _ _ _ _ S) as I. constructor; [exact I'| |].
  - intros p. rewrite A2, A5, A6.
    destruct (s_p _ _ _ _ S p) as [A|(k & st & (c & ee & l & G & B1 & B2 & B3 & B4 & B5) & B)]; [auto|].
    right. exists k, st. split; [|exact B]. exists c, ee, l.
    split; [eapply goodk_grows; eauto|]. rewrite A2. split; [exact B1|]. split; [exact B2|]. split; [exact B3|].
    split; intros s e Y1 Y2 Y3; [eapply B4|eapply B5]; eauto using inv_old.
  - intros p e c C. pose proof (chain_hd _ _ _ _ _ _ C) as (_ & F & _). rewrite A2 in F.
    eapply s_law; [exact S|]. eapply chain_old; eauto.
Qed.

Lemma chain_root : forall H d x p e c, chain H d x p (e :: c) ->
  In (e_said (last c e)) (fels d p) /\ evts x p (e_said (last c e)) = Some (last c e) /\ isIncept (e_ilk (last c e)) = true.
Proof.
  intros H d x p e c [L C]. rewrite Forall_forall in C. destruct (C _ (last_In _ c e)) as (_ & A & B).
  repeat split; auto. eapply log_root; eauto.
Qed.

Lemma est_in : forall c ee, est_of c = Some ee -> In ee c /\ isEst (e_ilk ee) = true.
Proof. intros c ee X. apply find_some in X. exact X. Qed.

Lemma lastS_le : forall E H d x p k c ee, goodk E H d x p k c ee -> k_lastS k <= k_sn k.
Proof.
  intros E H d x p k c ee G. rewrite (g_lastS _ _ _ _ _ _ _ _ G), (g_sn _ _ _ _ _ _ _ _ G).
  destruct (est_in _ _ (g_est _ _ _ _ _ _ _ _ G)) as [[<-|I] _]; [lia|].
  pose proof (log_sns _ _ _ (proj1 (g_chain _ _ _ _ _ _ _ _ G)) _ I). lia.
Qed.

Lemma tr_flags : forall E d x e ko k', tr E d x e ko k' ->
  k_evt k' = e /\
  match ko with
  | None => k_estOnly k' = e_estOnly e /\ k_dnd k' = e_dnd e /\ k_lastS k' = e_sn e /\ isIncept (e_ilk e) = true /\ kget d x (e_pre e) = None
  | Some k => k_estOnly k' = k_estOnly k /\ k_dnd k' = k_dnd k /\ k_delpre k' = k_delpre k /\ kget d x (e_pre e) = Some k /\
      transferable E k = true /\ k_pre k = e_pre e /\
      ((isRot (e_ilk e) = true /\ k_lastS k' = e_sn e) \/ (e_ilk e = Ixn /\ k_lastS k' = k_lastS k /\ k_estOnly k = false)) /\
      (k_delpre k <> None -> e_ilk e = Drt \/ e_ilk e = Ixn) /\
      (e_sn e = k_sn k + 1 \/ (e_ilk e = Rot /\ k_lastS k < e_sn e) \/ (e_ilk e = Drt /\ k_lastS k <= e_sn e))
  end.
Proof.
  intros E d x e ko k' T. inversion T; subst; cbn.
  - apply incept_inv in H1. destruct H1 as (_ & _ & _ & _ & _ & ->). cbn. auto 10.
  - repeat (split; auto).
  - repeat (split; auto 10).
Qed.

Lemma same_root : forall E H d x p k c ee e1 c1, inv E H d x -> goodk E H d x p k c ee ->
  (forall s e, In s (fels d p) -> evts x p s = Some e -> isIncept (e_ilk e) = true -> e = last c (k_evt k)) ->
  chain H d x p (e1 :: c1) -> last c1 e1 = last c (k_evt k).
Proof.
  intros E H d x p k c ee e1 c1 I G U C. apply chain_root in C. destruct C as (A & B & D). eapply U; eauto.
Qed.

Lemma accept_sinv : forall E H cf m d x d' x' r ko k' sg wg dp cpl, world H -> sane H -> sinv E H d x -> real H (m_evt m) ->
  accept E cf m d x d' x' r ko k' sg wg dp cpl -> sinv E H d' x' /\ r = Ok tt /\ kevers d' (e_pre (m_evt m)) = Some k' /\ sfacts E H d' x' (e_pre (m_evt m)) k'.
Proof.
  intros E H cf m d x d' x' r ko k' sg wg dp cpl W SN S R A.
  pose proof (s_inv _ _ _ _ S) as I.
  pose proof (accept_inv _ _ _ _ _ _ _ _ _ _ _ _ _ _ _ W I R A) as I'.
  destruct (accept_attach _ _ _ _ _ _ _ _ _ _ _ _ _ _ _ W I R A) as (c & AT).
  destruct (accept_good _ _ _ _ _ _ _ _ _ _ _ _ _ _ _ _ W I R A AT) as (ee & GK & KE).
  destruct (accept_self _ _ _ _ _ _ _ _ _ _ _ _ _ _ _ W I R A) as (S1 & S2).
  pose proof (accept_grows _ _ _ _ _ _ _ _ _ _ _ _ _ _ A) as GR.
  pose proof (a_fels _ _ _ _ _ _ _ _ _ _ _ _ _ _ A) as AF.
  pose proof (a_fn _ _ _ _ _ _ _ _ _ _ _ _ _ _ A) as FN.
  destruct (tr_flags _ _ _ _ _ _ (a_tr _ _ _ _ _ _ _ _ _ _ _ _ _ _ A)) as (_ & TF).
  destruct (kstate_ok _ _ _ _ _ _ _ _ W SN GK) as (st & KS).
  set (p := e_pre (m_evt m)) in *. set (s := e_said (m_evt m)) in *.
  assert (PIN : r = Ok tt /\ kevers d' = fset (kevers d) p (Some k') /\ states d' = fset (states d) p (Some st)).
  { destruct (a_pin _ _ _ _ _ _ _ _ _ _ _ _ _ _ A) as [(Z1 & st' & Z2 & Z3 & Z4)|(ex & _ & Z & _)]; [|congruence].
    rewrite KS in Z2. inv Z2. rewrite (g_pre _ _ _ _ _ _ _ _ GK) in *. auto. }
  destruct PIN as (-> & KV & ST).
  assert (FP : fels d' p = fels d p ++ [s]) by (rewrite AF; apply fset_same).
  (* the facts about the key state of p *)
  assert (SF : sfacts E H d' x' p k').
  { exists c, ee, (fels d p). split; [exact GK|]. rewrite KE. fold s. split; [exact FP|]. split; [exact FN|].
    destruct ko as [k|].
    - destruct TF as (T1 & T2 & T3 & T4 & T5 & T6 & T7 & T8 & T9).
      destruct (sinv_kget _ _ _ _ p W S) as [(KG & _)|(k0 & KG & SFk)]; [congruence|].
      assert (k0 = k) by congruence. subst k0.
      destruct SFk as (ck & eek & lk & Gk & Fk1 & Fk2 & (Fl1 & Fl2 & Fl3 & Fl4) & Fk4 & Fk5).
      assert (RT : last c (k_evt k') = last ck (k_evt k)).
      { pose proof (attach_chain _ _ _ _ _ _ _ _ _ _ _ _ _ _ _ _ W I R A AT) as CH. rewrite KE.
        inversion AT; subst.
        - rewrite last_cons. apply (same_root E H d x p k ck eek _ _ I Gk Fk5). eapply g_chain. eassumption.
        - rewrite last_cons. apply (same_root E H d x p k ck eek _ _ I Gk Fk5). assumption. }
      split. { unfold flags. rewrite RT. rewrite T1, T2, T3. auto. }
      assert (LS : k_lastS k <= k_lastS k').
      { pose proof (lastS_le _ _ _ _ _ _ _ _ Gk).
        destruct T7 as [(R1 & R2)|(R1 & R2 & _)]; [|lia]. rewrite R2. destruct T9 as [T9|[(_ & T9)|(_ & T9)]]; lia. }
      split.
      + intros t e0 Y1 Y2 Y3. rewrite FP in Y1. apply in_app_or in Y1. destruct Y1 as [Y1|[<-|[]]].
        * pose proof (Fk4 _ _ Y1 (inv_old _ _ _ _ _ _ _ _ I (proj1 (proj2 GR)) Y1 Y2) Y3). lia.
        * rewrite S1 in Y2. inv Y2. destruct T7 as [(R1 & R2)|(R1 & R2 & _)]; [lia|]. rewrite R1 in Y3. discriminate.
      + intros t e0 Y1 Y2 Y3. rewrite <- KE, RT. rewrite FP in Y1. apply in_app_or in Y1. destruct Y1 as [Y1|[<-|[]]].
        * exact (Fk5 _ _ Y1 (inv_old _ _ _ _ _ _ _ _ I (proj1 (proj2 GR)) Y1 Y2) Y3).
        * rewrite S1 in Y2. inv Y2. destruct T7 as [(R1 & R2)|(R1 & R2 & _)].
          -- apply isRot_facts in R1. destruct R1. congruence.
          -- rewrite R1 in Y3. discriminate.
    - destruct TF as (T1 & T2 & T3 & T4 & T5).
      destruct (sinv_kget _ _ _ _ p W S) as [(KG & F0 & _)|(k0 & KG & _)]; [|fold p in T5; congruence].
      assert (c = []) by (inversion AT; reflexivity). subst c. cbn [last].
      split.
      { unfold flags. cbn [last]. rewrite KE, T1, T2. split; [reflexivity|]. split; [reflexivity|].
        rewrite (a_delpre _ _ _ _ _ _ _ _ _ _ _ _ _ _ A eq_refl).
        pose proof (a_valid _ _ _ _ _ _ _ _ _ _ _ _ _ _ A) as V. cbn beta iota in V.
        rewrite (v_delpre _ _ _ _ _ _ _ _ _ _ _ _ _ _ _ _ _ V).
        pose proof (v_dip _ _ _ _ _ _ _ _ _ _ _ _ _ _ _ _ _ V) as VD.
        rewrite (v_delpre _ _ _ _ _ _ _ _ _ _ _ _ _ _ _ _ _ V) in VD.
        unfold delegator. destruct (e_ilk (m_evt m)); try discriminate; auto. split; [reflexivity|discriminate]. }
      rewrite FP, F0. split.
      + intros t e0 [<-|[]] Y2 Y3. rewrite S1 in Y2. inv Y2. lia.
      + intros t e0 [<-|[]] Y2 Y3. rewrite S1 in Y2. inv Y2. reflexivity. }
  split; [|split; [reflexivity|split; [rewrite KV; apply fset_same|exact SF]]].
  constructor; [exact I'| |].
  - intros q. destruct (N.eq_dec q p) as [->|NE].
    + right. exists k', st. split; [exact SF|]. split; [exact KS|]. rewrite KV, ST, !fset_same. auto.
    + rewrite KV, ST, AF, !fset_other by exact NE.
      destruct (s_p _ _ _ _ S q) as [Z|(k & st0 & (c0 & ee0 & l & G & B1 & B2 & B3 & B4 & B5) & B)]; [auto|].
      right. exists k, st0. split; [|exact B]. exists c0, ee0, l.
      split; [eapply goodk_grows; eauto|]. rewrite AF, !fset_other by exact NE. split; [exact B1|]. split; [exact B2|]. split; [exact B3|].
      split; intros t e Y1 Y2 Y3; [refine (B4 _ _ Y1 _ Y3)|refine (B5 _ _ Y1 _ Y3)]; exact (inv_old _ _ _ _ _ _ _ _ I (proj1 (proj2 GR)) Y1 Y2).
  - intros q e0 c0 C. pose proof (chain_hd _ _ _ _ _ _ C) as (P1 & F & EV & _). rewrite AF in F.
    assert (OLD : In (e_said e0) (fels d q) -> lawful E (e0 :: c0)).
    { intros Z. eapply s_law; [exact S|]. eapply chain_old; eauto. apply GR. }
    destruct (fset_cases _ (fels d) p (fels d p ++ [s]) q) as [(-> & Z)|(_ & Z)]; rewrite Z in F; [|auto].
    apply in_app_or in F. destruct F as [F|[F|[]]]; [auto|]. rewrite <- F in EV. rewrite S1 in EV. inv EV.
    assert (c0 = c).
    { eapply log_unique; [apply C|]. rewrite <- KE. apply (g_chain _ _ _ _ _ _ _ _ GK). }
    subst c0. cbn [lawful]. split.
    + intros NN. destruct ko as [k|]; [|inversion AT; congruence].
      destruct TF as (T1 & T2 & T3 & T4 & T5 & T6 & T7 & T8 & T9).
      destruct SF as (c1 & ee1 & l1 & G1 & _ & _ & (Fl1 & Fl2 & Fl3 & _) & _).
      assert (c1 = c). { eapply log_unique; [apply (g_chain _ _ _ _ _ _ _ _ G1)|apply (g_chain _ _ _ _ _ _ _ _ GK)]. }
      subst c1. rewrite KE in *. split.
      { unfold transferable in T5. destruct (k_ndigs k); [discriminate|]. rewrite T6 in T5. exact T5. }
      rewrite <- Fl1, <- Fl3, T1, T3. split; [|exact T8].
      intros EO. destruct T7 as [(R1 & _)|(_ & _ & R1)]; [apply isRot_facts; exact R1|congruence].
    + inversion AT; subst; [exact Logic.I| |].
      * eapply s_law; [exact S|]. eapply g_chain; eauto.
      * eapply s_law; [exact S|]. eauto.
Qed.

Lemma sinv_restart : forall E H d x, sinv E H d x -> sinv E H (set_kevers (fun _ => None) d) x.
Proof.
  intros E H d x S. assert (GR : grows d x (set_kevers (fun _ => None) d) x).
  { split; [|split]; auto. intros. apply incl_refl. }
  destruct S as [I P L]. constructor.
  - apply inv_restart. exact I.
  - intros p. destruct (P p) as [(A & B & C)|(k & st & (c & ee & l & G & Z) & B & C & D)]; [auto|].
    right. exists k, st. split; [|auto]. exists c, ee, l. split; [eapply goodk_grows; eauto|exact Z].
  - intros p e c C. apply (L p). exact C.
Qed.

Lemma sinv_micro : forall E H cf d x d' x', world H -> sane H -> sinv E H d x -> micro E H cf (d, x) (d', x') -> sinv E H d' x'.
Proof.
  intros E H cf d x d' x' W SN S M. pose proof (inv_micro _ _ _ _ _ _ _ W (s_inv _ _ _ _ S) M) as I'.
  inversion M as [e0 d0 x0 d1 x1 R X SA|d0 x0 x1 Q1 Q2 Q3|m d0 x0 d1 x1 r ko k' sg wg dp cpl R A|d0 x0]; subst.
  - eapply sinv_same; eauto; apply X.
  - eapply sinv_same; eauto using same_acc_refl; unfold getSigs; intros; rewrite ?Q1, ?Q2; auto using incl_refl.
  - eapply accept_sinv; eauto.
  - apply sinv_restart. exact S.
Qed.
Lemma sinv_micros : forall E H cf a b, world H -> sane H -> sinv E H (fst a) (snd a) -> micros E H cf a b -> sinv E H (fst b) (snd b).
Proof.
  intros E H cf a b W SN S M. induction M; [exact S|]. destruct b as [d x], c as [d' x'].
  eapply sinv_micro; [exact W|exact SN|exact (IHM S)|eassumption].
Qed.
Lemma sinv0 : forall E H, sinv E H acc0 aux0.
Proof.
  intros. constructor; [apply inv0|cbn; auto|].
  intros p e c C. apply chain_hd in C. destruct C as (_ & [] & _).
Qed.
Lemma sinv_run : forall E H cf ops, world H -> sane H -> Forall (real_op H) ops ->
  sinv E H (fst (run E cf ops db0)) (snd (run E cf ops db0)).
Proof. intros. eapply (sinv_micros E H cf db0); [assumption|assumption|apply (sinv0 E H)|]. apply micro_run; auto. apply inv0. Qed.

(** ** The invariant when no establishment event was superseded *)
Record tipok (E : env) (H : N -> option evt) (d : acc) (x : aux) (p : N) : Prop := mkTip {
  t_nodup : NoDup (fels d p);
  t_last : forall l e c, fels d p = l ++ [e_said e] -> chain H d x p (e :: c) ->
             Forall (fun a => klast (kels d p) (e_sn a) = Some (e_said a)) (e :: c) /\
             (forall s a, In s (fels d p) -> evts x p s = Some a -> isEst (e_ilk a) = true -> In a (e :: c));
  t_desc : forall l e c ee a ca, fels d p = l ++ [e_said e] -> chain H d x p (e :: c) -> est_of (e :: c) = Some ee ->
             chain H d x p (a :: ca) -> In ee (a :: ca) -> In a (e :: c);
  t_exp : forall e c, chain H d x p (e :: c) -> isRot (e_ilk e) = true -> exists ee, est_of c = Some ee /\ e_ndigs ee <> [] /\
             exposedBy E (e_keys e) (e_raw e) (e_ndigs ee) (e_nt ee) (getSigs x p (e_said e)) }.

Definition ninv (E : env) (H : N -> option evt) (d : acc) (x : aux) : Prop :=
  sinv E H d x /\ forall p, no_est_superseded (d, x) p -> tipok E H d x p.

Lemma seen_keep : forall E H d x d' x' p l, inv E H d x -> fels d' p = fels d p ++ l ->
  (forall p s a, evts x p s = Some a -> evts x' p s = Some a) ->
  seen (d', x') p = seen (d, x) p ++ map (evts x' p) l.
Proof.
  intros E H d x d' x' p l I F X. unfold seen. cbn [fst snd]. rewrite F, map_app. f_equal.
  apply map_ext_in. intros s Y. destruct (i_fe _ _ _ _ I _ _ Y) as (e0 & c0 & e1 & Z1 & Z2 & _).
  apply chain_hd in Z2. destruct Z2 as (_ & _ & Z2 & _). subst s. rewrite Z2. apply X. exact Z2.
Qed.

Lemma nes_prefix : forall dx dx' p l, seen dx' p = seen dx p ++ l -> no_est_superseded dx' p -> no_est_superseded dx p.
Proof.
  intros dx dx' p l S N i j ei ej L A B. eapply N; eauto; rewrite S; apply nth_app_l; assumption.
Qed.

Lemma NoDup_snoc : forall A (l : list A) a, NoDup l -> ~ In a l -> NoDup (l ++ [a]).
Proof.
  induction l as [|b l IH]; intros a N NI; cbn [app]; [constructor; auto|]. inversion N; subst. constructor.
  - intros Y. apply in_app_or in Y. destruct Y as [Y|[<-|[]]]; [auto|]. apply NI. left. reflexivity.
  - apply IH; [assumption|]. intros Y. apply NI. right. exact Y.
Qed.

Lemma log_at : forall H c e n, log H (e :: c) -> n <= e_sn e ->
  exists pre b post, e :: c = pre ++ b :: post /\ e_sn b = n.
Proof.
  induction c as [|a c IH]; intros e n L LE.
  - inversion L; subst. exists [], e, []. split; [reflexivity|]. lia.
  - destruct (N.eq_dec (e_sn e) n) as [Q|NE]; [exists [], e, (a :: c); auto|].
    inversion L; subst. destruct (IH a n) as (pre & b & post & Q & S); [assumption|lia|].
    exists (e :: pre), b, post. rewrite Q. auto.
Qed.
Lemma log_suffix : forall H pre b post, log H (pre ++ b :: post) -> log H (b :: post).
Proof.
  induction pre as [|a pre IH]; intros b post L; [exact L|]. cbn [app] in L. inversion L; subst.
  - destruct pre; discriminate.
  - apply IH. rewrite <- H1. assumption.
Qed.
Lemma log_pre_sn : forall H pre b post a, log H (pre ++ b :: post) -> In a pre -> e_sn b < e_sn a.
Proof.
  intros H pre b post a L I. induction pre as [|y pre IH]; [destruct I|]. destruct I as [<-|I].
  - cbn [app] in L. eapply log_sns; [exact L|]. apply in_or_app. right. left. reflexivity.
  - apply IH; [|exact I]. cbn [app] in L. destruct pre as [|z pre]; [destruct I|].
    cbn [app] in *. inversion L; subst. assumption.
Qed.
Lemma est_suffix : forall pre c ee, est_of (pre ++ c) = Some ee -> ~ In ee pre -> est_of c = Some ee.
Proof.
  induction pre as [|a pre IH]; intros c ee X NI; [exact X|]. cbn [app] in X. rewrite est_cons in X.
  destruct (isEst (e_ilk a)); [inv X; exfalso; apply NI; left; reflexivity|]. apply IH; [exact X|].
  intros Y. apply NI. right. exact Y.
Qed.

Lemma tipok_same : forall E H d x d' x' p, sinv E H d x -> same_acc d d' ->
  (forall p s a, evts x p s = Some a -> evts x' p s = Some a) ->
  (forall p s, incl (getSigs x p s) (getSigs x' p s)) -> tipok E H d x p -> tipok E H d' x' p.
Proof.
  intros E H d x d' x' p S SA X1 X3 T. pose proof (s_inv _ _ _ _ S) as I.
  destruct SA as (A1 & A2 & A3 & A4 & A5 & A6).
  assert (CO : forall e c, chain H d' x' p (e :: c) -> chain H d x p (e :: c)).
  { intros e c C. pose proof (chain_hd _ _ _ _ _ _ C) as (_ & F & _). rewrite A2 in F. eapply chain_old; eauto. }
  constructor.
  - rewrite A2. apply (t_nodup _ _ _ _ _ T).
  - intros l e c F C. rewrite A2 in F. rewrite A1, A2. destruct (t_last _ _ _ _ _ T l e c F (CO _ _ C)) as [B1 B2].
    split; [exact B1|]. intros s a Y1 Y2 Y3. eapply B2; eauto. eapply inv_old; eauto.
  - intros l e c ee a ca F C EE CA. rewrite A2 in F. exact (t_desc _ _ _ _ _ T l e c ee a ca F (CO _ _ C) EE (CO _ _ CA)).
  - intros e c C RO. destruct (t_exp _ _ _ _ _ T e c (CO _ _ C) RO) as (ee & B1 & B2 & B3). exists ee.
    split; [exact B1|]. split; [exact B2|]. eapply exposedBy_incl; eauto.
Qed.

Lemma valid_exposed : forall E cf d x k e sg0 vf th wg0 toad wits local sg wg dp cpl,
  valid E cf d x k e sg0 vf th wg0 toad wits local sg wg dp cpl -> isRot (e_ilk e) = true ->
  exposedBy E vf (e_raw e) (k_ndigs k) (k_nt k) sg.
Proof.
  intros. destruct H. destruct (exposeds_spec E (k_ndigs k) _ _ _ v_nodup v_ver) as (us & A & B & C & D).
  exists us, (exposeds E (k_ndigs k) vf sg). auto 6.
Qed.

(** Acceptance is fresh: the accepted event was not accepted before. *)
Lemma accept_fresh : forall E H cf m d x d' x' r ko k' sg wg dp cpl, world H -> sinv E H d x -> real H (m_evt m) ->
  accept E cf m d x d' x' r ko k' sg wg dp cpl -> tipok E H d x (e_pre (m_evt m)) ->
  (e_ilk (m_evt m) = Drt -> forall k, kget d x (e_pre (m_evt m)) = Some k -> k_lastS k <> e_sn (m_evt m)) ->
  ~ In (e_said (m_evt m)) (fels d (e_pre (m_evt m))).
Proof.
  intros E H cf m d x d' x' r ko k' sg wg dp cpl W S R A TP DR IN.
  pose proof (s_inv _ _ _ _ S) as I.
  destruct (accept_attach _ _ _ _ _ _ _ _ _ _ _ _ _ _ _ W I R A) as (c & AT).
  destruct (i_fe _ _ _ _ I _ _ IN) as (e0 & c0 & ee0 & Z1 & Z2 & _).
  pose proof (chain_hd _ _ _ _ _ _ Z2) as (_ & _ & Z3 & Z4).
  assert (e0 = m_evt m). { unfold real in *. rewrite Z1 in Z4. congruence. } subst e0.
  destruct (sinv_kget _ _ _ _ (e_pre (m_evt m)) W S) as [(KG & F0 & _)|(k1 & KG & SF)]; [rewrite F0 in IN; exact IN|].
  destruct SF as (ck & eek & lk & Gk & Fk1 & Fk2 & _ & Fk4 & _).
  inversion AT; subst.
  - congruence.
  - assert (k = k1) by congruence. subst k1. apply In_nth_error in IN. destruct IN as (j & IN).
    destruct (i_ord _ _ _ _ I _ _ _ _ IN Z3 H2) as (i & q & L & Q1 & Q2).
    rewrite H4 in Q1. injection Q1 as Q1. subst q.
    assert (i = List.length lk).
    { eapply (proj1 (NoDup_nth_error _) (t_nodup _ _ _ _ _ TP)); [apply nth_error_Some; congruence|].
      rewrite Q2, Fk1, nth_last. reflexivity. }
    assert (j < List.length (fels d (e_pre (m_evt m))))%nat by (apply nth_error_Some; congruence).
    rewrite Fk1, app_length in *. cbn in *. lia.
  - assert (k = k1) by congruence. subst k1. pose proof (Fk4 _ _ IN Z3 (proj2 (isRot_facts _ H1))) as LS.
    destruct (e_ilk (m_evt m)) eqn:IK; try discriminate.
    + destruct (H3 eq_refl). lia.
    + pose proof (H4 eq_refl). pose proof (DR eq_refl _ KG). lia.
Qed.

Lemma accept_ninv : forall E H cf m d x d' x' r ko k' sg wg dp cpl, world H -> sane H -> ninv E H d x -> real H (m_evt m) ->
  accept E cf m d x d' x' r ko k' sg wg dp cpl -> ninv E H d' x'.
Proof.
  intros E H cf m d x d' x' r ko k' sg wg dp cpl W SN [S NI] R A.
  pose proof (s_inv _ _ _ _ S) as I.
  destruct (accept_sinv _ _ _ _ _ _ _ _ _ _ _ _ _ _ _ W SN S R A) as (S' & _).
  split; [exact S'|]. intros q NES'.
  pose proof (accept_grows _ _ _ _ _ _ _ _ _ _ _ _ _ _ A) as GR.
  pose proof (a_fels _ _ _ _ _ _ _ _ _ _ _ _ _ _ A) as AF.
  pose proof (a_kels _ _ _ _ _ _ _ _ _ _ _ _ _ _ A) as AK.
  destruct (accept_self _ _ _ _ _ _ _ _ _ _ _ _ _ _ _ W I R A) as (S1 & S2).
  destruct (accept_attach _ _ _ _ _ _ _ _ _ _ _ _ _ _ _ W I R A) as (c & AT).
  pose proof (attach_chain _ _ _ _ _ _ _ _ _ _ _ _ _ _ _ _ W I R A AT) as CH.
  destruct (tr_flags _ _ _ _ _ _ (a_tr _ _ _ _ _ _ _ _ _ _ _ _ _ _ A)) as (KE & TF).
  destruct (accept_good _ _ _ _ _ _ _ _ _ _ _ _ _ _ _ _ W I R A AT) as (ee & GK & _).
  set (p := e_pre (m_evt m)) in *. set (s := e_said (m_evt m)) in *.
  destruct (N.eq_dec q p) as [->|NE].
  2:{ assert (FQ : fels d' q = fels d q ++ []) by (rewrite AF, fset_other by exact NE; rewrite app_nil_r; reflexivity).
      assert (NES : no_est_superseded (d, x) q).
      { eapply nes_prefix; [|exact NES']. eapply seen_keep; eauto. apply GR. }
      specialize (NI q NES). rewrite app_nil_r in FQ.
      assert (CO : forall e c, chain H d' x' q (e :: c) -> chain H d x q (e :: c)).
      { intros e1 c1 C. pose proof (chain_hd _ _ _ _ _ _ C) as (_ & F & _). rewrite FQ in F. eapply chain_old; eauto. apply GR. }
      constructor.
      - rewrite FQ. apply (t_nodup _ _ _ _ _ NI).
      - intros l e1 c1 F C. rewrite FQ in F. rewrite AK, FQ, fset_other by exact NE.
        destruct (t_last _ _ _ _ _ NI l e1 c1 F (CO _ _ C)) as [B1 B2].
        split; [exact B1|]. intros t a Y1 Y2 Y3. refine (B2 _ _ Y1 _ Y3). exact (inv_old _ _ _ _ _ _ _ _ I (proj1 (proj2 GR)) Y1 Y2).
      - intros l e1 c1 ee1 a ca F C EE CA. rewrite FQ in F. exact (t_desc _ _ _ _ _ NI l e1 c1 ee1 a ca F (CO _ _ C) EE (CO _ _ CA)).
      - intros e1 c1 C RO. destruct (t_exp _ _ _ _ _ NI e1 c1 (CO _ _ C) RO) as (ee1 & B1 & B2 & B3). exists ee1.
        split; [exact B1|]. split; [exact B2|]. eapply exposedBy_incl; [|exact B3]. apply GR. }
  assert (FP : fels d' p = fels d p ++ [s]) by (rewrite AF; apply fset_same).
  assert (SEEN : seen (d', x') p = seen (d, x) p ++ [Some (m_evt m)]).
  { rewrite (seen_keep _ _ _ _ d' x' p [s] I FP) by apply GR. cbn [map]. rewrite S1. reflexivity. }
  assert (NES : no_est_superseded (d, x) p) by (eapply nes_prefix; eauto).
  specialize (NI p NES).
  (* strict increase of establishment sns *)
  assert (STR : forall k, kget d x p = Some k -> k_lastS k < e_sn (m_evt m)).
  { intros k KG. destruct ko as [k1|]; [|destruct TF as (_ & _ & _ & _ & TF); fold p in TF; congruence].
    destruct TF as (_ & _ & _ & T4 & _ & _ & _ & _ & T9). fold p in T4. assert (k1 = k) by congruence. subst k1.
    destruct (kget_good _ _ _ _ _ _ W I KG) as (ck & eek & Gk). pose proof (lastS_le _ _ _ _ _ _ _ _ Gk) as LE.
    destruct T9 as [T9|[(_ & T9)|(DR & T9)]]; [lia|exact T9|].
    enough (k_lastS k <> e_sn (m_evt m)) by lia. rewrite (g_lastS _ _ _ _ _ _ _ _ Gk).
    destruct (est_in _ _ (g_est _ _ _ _ _ _ _ _ Gk)) as [EI EE].
    destruct (g_chain _ _ _ _ _ _ _ _ Gk) as [_ FC]. rewrite Forall_forall in FC. destruct (FC _ EI) as (_ & F1 & F2).
    apply In_nth_error in F1. destruct F1 as (i & F1).
    apply (NES' i (List.length (seen (d, x) p)) eek (m_evt m)); auto.
    - unfold seen. rewrite map_length. cbn [fst]. apply nth_error_Some. congruence.
    - rewrite SEEN. apply nth_app_l. unfold seen. cbn [fst snd]. rewrite (map_nth_error _ _ _ F1), F2. reflexivity.
    - rewrite SEEN. apply nth_last. }
  assert (FR : ~ In s (fels d p)).
  { eapply accept_fresh; eauto. intros DR k KG. pose proof (STR k KG). lia. }
  (* the log under the new tip is a part of the log under the old one *)
  assert (SUF : forall k ck eek, kget d x p = Some k -> goodk E H d x p k ck eek ->
     exists pre, k_evt k :: ck = pre ++ c /\ (forall a, In a pre -> e_sn (m_evt m) <= e_sn a)).
  { intros k ck eek KG Gk. inversion AT as [? ? KN|k1 c1 ee1 KG1 G1 IC1 SN1 PR1|k1 pe c1 KG1 RO1 LE1 RT1 DT1 KL1 CH1 SN1 PR1]; subst.
    - fold p in KN. congruence.
    - fold p in KG1. assert (k1 = k) by congruence. subst k1. exists []. cbn [app]. split; [|intros a []]. f_equal.
      eapply log_unique; [apply (g_chain _ _ _ _ _ _ _ _ Gk)|apply (g_chain _ _ _ _ _ _ _ _ G1)].
    - fold p in KG1. assert (k1 = k) by congruence. subst k1.
      pose proof (g_chain _ _ _ _ _ _ _ _ Gk) as CK.
      destruct (log_at H ck (k_evt k) (e_sn (m_evt m) - 1) (proj1 CK)) as (pre & b & post & Q1 & Q2).
      { rewrite <- (g_sn _ _ _ _ _ _ _ _ Gk). lia. }
      destruct (sinv_kget _ _ _ _ p W S) as [(KN & _)|(k2 & KG2 & SF)]; [congruence|].
      assert (k2 = k) by congruence. subst k2. destruct SF as (c2 & ee2 & l2 & G2 & F2 & _).
      destruct (t_last _ _ _ _ _ NI l2 (k_evt k) ck F2 CK) as [B1 _].
      assert (BI : In b (k_evt k :: ck)) by (rewrite Q1; apply in_or_app; right; left; reflexivity).
      rewrite Forall_forall in B1. pose proof (B1 _ BI) as B2. rewrite Q2 in B2. fold p in KL1. rewrite KL1 in B2.
      injection B2 as B2. destruct CK as [LK FK]. rewrite Forall_forall in FK. destruct (FK _ BI) as (_ & _ & B3).
      pose proof (chain_hd _ _ _ _ _ _ CH1) as (_ & _ & B4 & _). fold p in B4. rewrite B2 in B4.
      assert (pe = b) by congruence. subst pe.
      assert (LS : log H (b :: post)) by (eapply log_suffix; rewrite <- Q1; exact LK).
      rewrite (log_unique _ _ _ _ (proj1 CH1) LS).
      exists pre. split; [exact Q1|]. intros a AI. rewrite Q1 in LK. pose proof (log_pre_sn _ _ _ _ _ LK AI). lia. }
  assert (CU : forall e1 c1, chain H d' x' p (e1 :: c1) -> e_said e1 = s -> e1 = m_evt m /\ c1 = c).
  { intros e1 c1 C1 Q. pose proof (chain_hd _ _ _ _ _ _ C1) as (_ & _ & EV & _). rewrite Q in EV. rewrite S1 in EV. inv EV.
    split; [reflexivity|]. eapply log_unique; [apply C1|apply CH]. }
  assert (CO : forall e c, chain H d' x' p (e :: c) -> In (e_said e) (fels d p) -> chain H d x p (e :: c)).
  { intros e1 c1 C F. eapply chain_old; eauto. apply GR. }
  constructor.
  - rewrite FP. apply NoDup_snoc; [apply (t_nodup _ _ _ _ _ NI)|exact FR].
  - intros l e1 c1 F C1.
    assert (Q : e_said e1 = s). { rewrite FP in F. apply app_inj_tail in F. destruct F as [_ F]. congruence. }
    destruct (CU _ _ C1 Q) as (-> & ->).
    assert (KR : klast (kels d' p) (e_sn (m_evt m)) = Some s).
    { rewrite AK. fold p. rewrite fset_same. apply klast_add. intros Y. apply FR. eapply i_kf; eauto. }
    destruct (sinv_kget _ _ _ _ p W S) as [(KN & F0 & _)|(k & KG & SF)].
    + assert (c = []). { inversion AT as [|k1 c1 ee1 KG1|k1 pe c1 KG1]; [reflexivity|fold p in KG1; congruence|fold p in KG1; congruence]. } subst c.
      split; [constructor; [exact KR|constructor]|].
      intros t a Y1 Y2 Y3. rewrite FP, F0 in Y1. destruct Y1 as [<-|[]]. rewrite S1 in Y2. inv Y2. left. reflexivity.
    + destruct SF as (ck & eek & lk & Gk & Fk1 & _ & _ & Fk4 & _). destruct (SUF k ck eek KG Gk) as (pre & Q1 & Q2).
      destruct (t_last _ _ _ _ _ NI lk (k_evt k) ck Fk1 (g_chain _ _ _ _ _ _ _ _ Gk)) as [B1 B2].
      split.
      * constructor; [exact KR|]. rewrite Forall_forall in *. intros a AI.
        assert (AS : e_sn a < e_sn (m_evt m)) by (eapply log_sns; [apply CH|exact AI]).
        rewrite AK. fold p. rewrite fset_same, klast_add_other by lia. apply B1. rewrite Q1. apply in_or_app. auto.
      * intros t a Y1 Y2 Y3. rewrite FP in Y1. apply in_app_or in Y1. destruct Y1 as [Y1|[<-|[]]].
        -- pose proof (inv_old _ _ _ _ _ _ _ _ I (proj1 (proj2 GR)) Y1 Y2) as Y4.
           pose proof (B2 _ _ Y1 Y4 Y3) as Y5. rewrite Q1 in Y5. apply in_app_or in Y5. destruct Y5 as [Y5|Y5]; [|right; exact Y5].
           apply Q2 in Y5. pose proof (Fk4 _ _ Y1 Y4 Y3). pose proof (STR k KG). lia.
        -- rewrite S1 in Y2. inv Y2. left. reflexivity.
  - intros l e1 c1 ee1 a ca F C1 EE CA IE.
    assert (Q : e_said e1 = s). { rewrite FP in F. apply app_inj_tail in F. destruct F as [_ F]. congruence. }
    destruct (CU _ _ C1 Q) as (-> & ->).
    pose proof (chain_hd _ _ _ _ _ _ CA) as (_ & FA & _). rewrite FP in FA. apply in_app_or in FA.
    destruct FA as [FA|[FA|[]]]; [|destruct (CU _ _ CA (eq_sym FA)) as (-> & _); left; reflexivity].
    pose proof (CO _ _ CA FA) as CA'. rewrite est_cons in EE.
    destruct (isEst (e_ilk (m_evt m))) eqn:EST.
    + inv EE. exfalso. apply FR. destruct CA' as [_ CA']. rewrite Forall_forall in CA'. apply CA' in IE. apply IE.
    + right. destruct (sinv_kget _ _ _ _ p W S) as [(KN & F0 & _)|(k & KG & SF)]; [rewrite F0 in FA; destruct FA|].
      destruct SF as (ck & eek & lk & Gk & Fk1 & _).
      assert (QC : c = k_evt k :: ck).
      { inversion AT as [IC1 ? KN|k1 c1 ee2 KG1 G1 IC1 SN1 PR1|k1 pe c1 KG1 RO1]; subst.
        - apply isIncept_facts in IC1. destruct IC1. congruence.
        - fold p in KG1. assert (k1 = k) by congruence. subst k1. f_equal.
          eapply log_unique; [apply (g_chain _ _ _ _ _ _ _ _ G1)|apply (g_chain _ _ _ _ _ _ _ _ Gk)].
        - apply isRot_facts in RO1. destruct RO1. congruence. }
      rewrite QC in *. exact (t_desc _ _ _ _ _ NI lk _ _ _ _ _ Fk1 (g_chain _ _ _ _ _ _ _ _ Gk) EE CA' IE).
  - intros e1 c1 C1 RO. pose proof (chain_hd _ _ _ _ _ _ C1) as (_ & F & _). rewrite FP in F. apply in_app_or in F.
    destruct F as [F|[F|[]]].
    + destruct (t_exp _ _ _ _ _ NI e1 c1 (CO _ _ C1 F) RO) as (ee1 & B1 & B2 & B3). exists ee1.
      split; [exact B1|]. split; [exact B2|]. eapply exposedBy_incl; [|exact B3]. apply GR.
    + destruct (CU _ _ C1 (eq_sym F)) as (-> & ->).
      destruct ko as [k|].
      2:{ destruct TF as (_ & _ & _ & TF & _). apply isIncept_facts in TF. destruct TF. congruence. }
      destruct TF as (_ & _ & _ & KG & T5 & _). fold p in KG.
      destruct (kget_good _ _ _ _ _ _ W I KG) as (ck & eek & Gk). destruct (SUF k ck eek KG Gk) as (pre & Q1 & Q2).
      exists eek. split.
      { apply (est_suffix pre); [rewrite <- Q1; apply (g_est _ _ _ _ _ _ _ _ Gk)|].
        intros Y. apply Q2 in Y. pose proof (STR k KG) as Z. rewrite (g_lastS _ _ _ _ _ _ _ _ Gk) in Z. lia. }
      rewrite <- (g_ndigs _ _ _ _ _ _ _ _ Gk), <- (g_nt _ _ _ _ _ _ _ _ Gk). split.
      { unfold transferable in T5. destruct (k_ndigs k); [discriminate|congruence]. }
      eapply exposedBy_incl; [apply (a_sigs _ _ _ _ _ _ _ _ _ _ _ _ _ _ A)|].
      assert (KK : e_keys (m_evt m) = k_keys k').
      { pose proof (g_est _ _ _ _ _ _ _ _ GK) as Z. rewrite KE, est_cons, (proj2 (isRot_facts _ RO)) in Z. inv Z.
        symmetry. apply (g_keys _ _ _ _ _ _ _ _ GK). }
      rewrite KK. eapply valid_exposed; [|exact RO]. exact (a_valid _ _ _ _ _ _ _ _ _ _ _ _ _ _ A).
Qed.

Lemma ninv_micro : forall E H cf d x d' x', world H -> sane H -> ninv E H d x -> micro E H cf (d, x) (d', x') -> ninv E H d' x'.
Proof.
  intros E H cf d x d' x' W SN [S NI] M. pose proof (sinv_micro _ _ _ _ _ _ _ W SN S M) as S'.
  assert (SM : same_acc d d' -> (forall p s a, evts x p s = Some a -> evts x' p s = Some a) ->
     (forall p s, incl (getSigs x p s) (getSigs x' p s)) -> ninv E H d' x').
  { intros SA X1 X3. split; [exact S'|]. intros p N. apply (tipok_same E H d x d' x' p S SA X1 X3). apply NI.
    eapply (nes_prefix (d, x) (d', x') p []); [|exact N]. rewrite app_nil_r.
    rewrite (seen_keep E H d x d' x' p [] (s_inv _ _ _ _ S)); [apply app_nil_r| |exact X1].
    rewrite app_nil_r. apply SA. }
  inversion M as [e0 d0 x0 d1 x1 R X SA|d0 x0 x1 Q1 Q2 Q3|m d0 x0 d1 x1 r ko k' sg wg dp cpl R A|d0 x0]; subst.
  - apply SM; [exact SA|apply X|apply X].
  - apply SM; [apply same_acc_refl| |]; unfold getSigs; intros; rewrite ?Q1, ?Q2; auto using incl_refl.
  - eapply accept_ninv; eauto. split; assumption.
  - split; [exact S'|]. intros p N. specialize (NI p N). destruct NI. constructor; assumption.
Qed.
Lemma ninv_micros : forall E H cf a b, world H -> sane H -> ninv E H (fst a) (snd a) -> micros E H cf a b -> ninv E H (fst b) (snd b).
Proof.
  intros E H cf a b W SN S M. induction M; [exact S|]. destruct b as [d x], c as [d' x'].
  eapply ninv_micro; [exact W|exact SN|exact (IHM S)|eassumption].
Qed.
Lemma ninv0 : forall E H, ninv E H acc0 aux0.
Proof.
  intros. split; [apply sinv0|]. intros p _. constructor; cbn [fels acc0].
  - constructor.
  - intros l e c F. destruct l; discriminate.
  - intros l e c ee a ca F. destruct l; discriminate.
  - intros e c C. apply chain_hd in C. destruct C as (_ & [] & _).
Qed.
Lemma ninv_run : forall E H cf ops, world H -> sane H -> Forall (real_op H) ops ->
  ninv E H (fst (run E cf ops db0)) (snd (run E cf ops db0)).
Proof. intros. eapply (ninv_micros E H cf db0); [assumption|assumption|apply (ninv0 E H)|]. apply micro_run; auto. apply inv0. Qed.

(** ** Growth over executions *)
Lemma micros_grows : forall E H cf a b, world H -> inv E H (fst a) (snd a) -> micros E H cf a b ->
  (forall p, exists l, fels (fst b) p = fels (fst a) p ++ l) /\ (forall p s e, evts (snd a) p s = Some e -> evts (snd b) p s = Some e) /\
  (forall p s, incl (getSigs (snd a) p s) (getSigs (snd b) p s)).
Proof.
  intros E H cf a b W I M. induction M as [|a b c M IH Mi].
  - split; [intros p; exists []; rewrite app_nil_r; reflexivity|]. split; auto using incl_refl.
  - destruct (IH I) as (A1 & A2 & A3). clear IH. destruct b as [d x], c as [d' x']. cbn [fst snd] in *.
    assert (B : (forall p, exists l, fels d' p = fels d p ++ l) /\ (forall p s e, evts x p s = Some e -> evts x' p s = Some e) /\
              (forall p s, incl (getSigs x p s) (getSigs x' p s))).
    { inversion Mi as [e0 d0 x0 d1 x1 R X SA|d0 x0 x1 Q1 Q2 Q3|m d0 x0 d1 x1 r ko k' sg wg dp cpl R A|d0 x0]; subst.
      - split; [intros p; exists []; rewrite app_nil_r; apply SA|]. split; apply X.
      - split; [intros p; exists []; rewrite app_nil_r; reflexivity|]. unfold getSigs. rewrite Q1, Q2. auto using incl_refl.
      - split; [|split; apply (accept_grows _ _ _ _ _ _ _ _ _ _ _ _ _ _ A)].
        intros p. rewrite (a_fels _ _ _ _ _ _ _ _ _ _ _ _ _ _ A). unfold fset. destruct (p =? _) eqn:Q.
        + apply N.eqb_eq in Q. subst p. eauto.
        + exists []. rewrite app_nil_r. reflexivity.
      - split; [intros p; exists []; rewrite app_nil_r; reflexivity|]. auto using incl_refl. }
    destruct B as (B1 & B2 & B3). split; [|split; [auto|intros; eapply incl_tran; eauto]].
    intros p. destruct (A1 p) as (l1 & L1). destruct (B1 p) as (l2 & L2). exists (l1 ++ l2). rewrite L2, L1, app_assoc. reflexivity.
Qed.

(** ** Order of accepted events *)
Definition ordered (dx : db) : Prop := forall p i j ei ej, (i < j)%nat ->
  nth_error (seen dx p) i = Some (Some ei) -> nth_error (seen dx p) j = Some (Some ej) -> isEst (e_ilk ei) = true ->
  e_sn ei < e_sn ej \/ (e_ilk ej = Drt /\ e_sn ei = e_sn ej).

Lemma seen_micro : forall E H cf d x d' x', world H -> inv E H d x -> micro E H cf (d, x) (d', x') ->
  (forall p, seen (d', x') p = seen (d, x) p) \/
  exists m r ko k' sg wg dp cpl, real H (m_evt m) /\ accept E cf m d x d' x' r ko k' sg wg dp cpl /\
    seen (d', x') (e_pre (m_evt m)) = seen (d, x) (e_pre (m_evt m)) ++ [Some (m_evt m)] /\
    (forall p, p <> e_pre (m_evt m) -> seen (d', x') p = seen (d, x) p).
Proof.
  intros E H cf d x d' x' W I M.
  assert (SM : same_acc d d' -> (forall p s a, evts x p s = Some a -> evts x' p s = Some a) -> forall p, seen (d', x') p = seen (d, x) p).
  { intros SA X1 p. rewrite (seen_keep E H d x d' x' p [] I); [apply app_nil_r| |exact X1]. rewrite app_nil_r. apply SA. }
  inversion M as [e0 d0 x0 d1 x1 R X SA|d0 x0 x1 Q1 Q2 Q3|m d0 x0 d1 x1 r ko k' sg wg dp cpl R A|d0 x0]; subst.
  - left. apply SM; [exact SA|apply X].
  - left. apply SM; [apply same_acc_refl|]. intros. rewrite Q1. assumption.
  - right. exists m, r, ko, k', sg, wg, dp, cpl. split; [exact R|]. split; [exact A|].
    pose proof (accept_grows _ _ _ _ _ _ _ _ _ _ _ _ _ _ A) as GR.
    pose proof (a_fels _ _ _ _ _ _ _ _ _ _ _ _ _ _ A) as AF.
    destruct (accept_self _ _ _ _ _ _ _ _ _ _ _ _ _ _ _ W I R A) as (S1 & S2). split.
    + rewrite (seen_keep E H d x d' x' _ [e_said (m_evt m)] I); [cbn [map]; rewrite S1; reflexivity| |apply GR].
      rewrite AF, fset_same. reflexivity.
    + intros p NE. rewrite (seen_keep E H d x d' x' p [] I); [apply app_nil_r| |apply GR].
      rewrite AF, fset_other, app_nil_r by exact NE. reflexivity.
  - left. reflexivity.
Qed.

Lemma seen_in : forall d x p i e, nth_error (seen (d, x) p) i = Some (Some e) ->
  exists s, nth_error (fels d p) i = Some s /\ evts x p s = Some e.
Proof.
  intros d x p i e X. unfold seen in X. cbn [fst snd] in X. rewrite nth_error_map in X.
  destruct (nth_error (fels d p) i) as [s|]; [|discriminate]. cbn in X. inv X. eauto.
Qed.

Lemma ordered_micro : forall E H cf d x d' x', world H -> sinv E H d x -> ordered (d, x) -> micro E H cf (d, x) (d', x') -> ordered (d', x').
Proof.
  intros E H cf d x d' x' W S O M. destruct (seen_micro _ _ _ _ _ _ _ W (s_inv _ _ _ _ S) M) as [Q|Q].
  - intros p i j ei ej L A B. rewrite Q in A, B. eapply O; eauto.
  - destruct Q as (m & r & ko & k' & sg & wg & dp & cpl & R & A & Q1 & Q2). intros p i j ei ej L A1 A2 EST.
    destruct (N.eq_dec p (e_pre (m_evt m))) as [->|NE]; [|rewrite Q2 in A1, A2 by exact NE; eapply O; eauto].
    rewrite Q1 in A1, A2. apply nth_snoc in A2. destruct A2 as [A2|[A2 A3]].
    + eapply O; eauto. rewrite nth_error_app1 in A1; [exact A1|].
      assert (j < List.length (seen (d, x) (e_pre (m_evt m))))%nat by (apply nth_error_Some; congruence). lia.
    + inv A3. rewrite nth_error_app1 in A1 by lia. apply seen_in in A1. destruct A1 as (s & B1 & B2).
      apply nth_error_In in B1.
      destruct (sinv_kget _ _ _ _ (e_pre (m_evt m)) W S) as [(_ & F0 & _)|(k & KG & SF)]; [rewrite F0 in B1; destruct B1|].
      destruct SF as (ck & eek & lk & Gk & Fk1 & _ & _ & Fk4 & _). pose proof (Fk4 _ _ B1 B2 EST) as LE.
      pose proof (lastS_le _ _ _ _ _ _ _ _ Gk).
      destruct (tr_flags _ _ _ _ _ _ (a_tr _ _ _ _ _ _ _ _ _ _ _ _ _ _ A)) as (_ & TF).
      destruct ko as [k1|]; [|destruct TF as (_ & _ & _ & _ & TF); congruence].
      destruct TF as (_ & _ & _ & T4 & _ & _ & _ & _ & T9). assert (k1 = k) by congruence. subst k1.
      destruct T9 as [T9|[(_ & T9)|(DR & T9)]]; [left; lia|left; lia|].
      destruct (N.eq_dec (e_sn ei) (e_sn (m_evt m))); [right; auto|left; lia].
Qed.

Lemma ordered_micros : forall E H cf a b, world H -> sane H -> sinv E H (fst a) (snd a) -> ordered a -> micros E H cf a b -> ordered b.
Proof.
  intros E H cf a b W SN S O M. induction M as [|a b c M IH Mi]; [exact O|].
  pose proof (sinv_micros _ _ _ _ _ W SN S M) as S'. destruct b as [d x], c as [d' x'].
  eapply ordered_micro; [exact W|exact S'|exact (IH S O)|exact Mi].
Qed.

(** ** Reachable states *)
Lemma reach_inv : forall E H cf dx, world H -> reachable E H cf dx -> inv E H (fst dx) (snd dx).
Proof. intros E H cf dx W (ops & R & ->). apply inv_run; assumption. Qed.
Lemma reach_sinv : forall E H cf dx, world H -> sane H -> reachable E H cf dx -> sinv E H (fst dx) (snd dx).
Proof. intros E H cf dx W SN (ops & R & ->). apply sinv_run with (cf := cf); assumption. Qed.
Lemma reach_ninv : forall E H cf dx, world H -> sane H -> reachable E H cf dx -> ninv E H (fst dx) (snd dx).
Proof. intros E H cf dx W SN (ops & R & ->). apply ninv_run with (cf := cf); assumption. Qed.
Lemma reach_ordered : forall E H cf dx, world H -> sane H -> reachable E H cf dx -> ordered dx.
Proof.
  intros E H cf dx W SN (ops & R & ->). apply (ordered_micros E H cf db0); auto using sinv0.
  - intros p i j ei ej _ A. unfold seen in A. cbn in A. destruct i; discriminate.
  - apply micro_run; auto. apply inv0.
Qed.
Lemma enters_inv : forall E cf m d x dx', enters E cf m (d, x) dx' ->
  exists d' x' r ko k' sg wg dp cpl, dx' = (d', x') /\ accept E cf m d x d' x' r ko k' sg wg dp cpl.
Proof.
  intros E cf m d x dx' [P F]. destruct (processEvent E cf m (d, x)) as [[d' x'] r] eqn:Q. cbn [fst] in P. subst dx'.
  apply process_inv in Q. destruct Q as [(_ & (_ & _ & U & _) & _)|(ko & k' & sg & wg & dp & cpl & A)].
  - exfalso. apply F. cbn [fst]. rewrite U. reflexivity.
  - exists d', x', r, ko, k', sg, wg, dp, cpl. auto.
Qed.
Lemma keyState_after : forall E cf m d x d' x' r ko k' sg wg dp cpl k, accept E cf m d x d' x' r ko k' sg wg dp cpl ->
  kevers d (e_pre (m_evt m)) <> None \/ ko <> None \/ r = Ok tt ->
  keyState (d', x') (e_pre (m_evt m)) = Some k -> k = k'.
Proof.
  intros E cf m d x d' x' r ko k' sg wg dp cpl k A HY K. unfold keyState in K. cbn [fst snd] in K.
  pose proof (tr_pre _ _ _ _ _ _ (a_tr _ _ _ _ _ _ _ _ _ _ _ _ _ _ A)) as P. unfold kget in K.
  destruct (a_pin _ _ _ _ _ _ _ _ _ _ _ _ _ _ A) as [(_ & st & _ & Z & _)|(ex & R & _ & Z0 & Z)].
  - rewrite Z, P, fset_same in K. congruence.
  - destruct ko as [k1|]; [rewrite Z, P, fset_same in K; congruence|].
    destruct HY as [HY|[HY|HY]]; [|congruence|congruence].
    pose proof (a_tr _ _ _ _ _ _ _ _ _ _ _ _ _ _ A) as T. inversion T; subst. unfold kget in H.
    destruct (kevers d (e_pre (m_evt m))); congruence.
Qed.
