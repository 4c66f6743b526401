(** Credentials whose chain, schemas and logs arrive are saved, in whatever order they came. *)
From Verif Require Import Prelude B64Model MatterModel SubsModel ThModel ThProofs KelModel TlModel TlSpec TlProofs TlInv VcModel VcSpec VcTel VcProofs VcInv.
Open Scope N_scope.
Ltac Zify.zify_post_hook ::= Z.div_mod_to_equations.

Lemma numbered_In : forall l k s g, numbered k l -> In (s, g) l -> find (fun r => fst r =? s) l = Some (s, g).
Proof.
  induction l as [|(s0, g0) l IH]; intros k s g Nu H; [destruct H|]. destruct Nu as [<- Nu]. cbn [find fst]. destruct H as [H|H].
  - injection H as <- <-. rewrite N.eqb_refl. reflexivity.
  - destruct (s0 =? s) eqn:B; [|apply (IH _ _ _ Nu H)]. apply N.eqb_eq in B. subst s0. exfalso. clear - Nu H. assert (Q : forall l k, numbered k l -> In (s, g) l -> k <= s).
    { clear. induction l as [|(a, b) l IH]; intros k Nu H; [destruct H|]. destruct Nu as [<- Nu]. destruct H as [H|H]; [injection H as <- <-; lia|]. specialize (IH _ Nu H). lia. }
    specialize (Q l _ Nu H). lia.
Qed.
Lemma last_In : forall A (l : list A) r, In (List.last l r) (r :: l).
Proof.
  intros A l r. destruct l as [|a l]; [left; reflexivity|]. right. pose proof (app_removelast_last r (l := a :: l) ltac:(discriminate)) as Z. rewrite Z at 2. apply in_or_app. right. left. reflexivity.
Qed.

Section L.
  Context (E : tenv) (cf : tconf) (X : cenv) (H : list vact) (cs : list cred).
  Hypothesis One : oneCred H.
  Hypothesis Sent : forall c, In c cs -> sent H c /\ consistent (telOf H) c.
  Hypothesis Chain : forall l1 c l2, cs = l1 ++ c :: l2 ->
       acceptable X (truns E cf (telOf H) tdb0) (fun s => In (VSchema s) H) (map c_said l1)
                  (fun n => find (fun f => c_said f =? n) l1) c.
  Hypothesis Time : timely X H cs.

  Lemma tel_prefix : forall h0 h1, H = h0 ++ h1 -> ext (truns E cf (telOf h0) tdb0) (truns E cf (telOf H) tdb0).
  Proof. intros h0 h1 ->. rewrite telOf_app. unfold truns at 2. rewrite fold_left_app. apply truns_ext. Qed.
  Lemma delivered_prefix : forall h0 h1 e, H = h0 ++ h1 -> delivered (telOf h0) e -> delivered (telOf H) e.
  Proof. intros h0 h1 e -> D. rewrite telOf_app. apply delivered_app'. exact D. Qed.

  (** the state of a credential of the list *)
  Lemma state_ok : forall h0 h1 c tv x now, H = h0 ++ h1 -> In c cs -> In x H -> timeOf x = Some now ->
    tget (truns E cf (telOf h0) tdb0) (c_reg c) = Some tv ->
    (tels (truns E cf (telOf h0) tdb0) (c_said c) = [] /\ credState X tv (c_said c) (truns E cf (telOf h0) tdb0) = inr None)
    \/ exists r l dt, tels (truns E cf (telOf h0) tdb0) (c_said c) = r :: l /\ credState X tv (c_said c) (truns E cf (telOf h0) tdb0) = inr (Some (negb (isnil l), dt)) /\ now <= dt + expiry X.
  Proof.
    intros h0 h1 c tv x now Eh Ic Ix Tx T. destruct (Sent c Ic) as [_ (C1 & C2 & C3)]. set (t := truns E cf (telOf h0) tdb0) in *.
    pose proof (truns_inv E cf (telOf h0)) as I0. pose proof (truns_s E cf (telOf h0)) as S0. pose proof (truns_anchors E cf (telOf h0)) as A0. pose proof (truns_k E cf (telOf h0)) as K0. fold t in I0, S0, A0, K0.
    unfold credState. destruct (tels t (c_said c)) as [|r l] eqn:Tl; [left; split; reflexivity|]. right.
    assert (At : telAt t (c_said c) (fst (List.last l r)) = Some (snd (List.last l r))).
    { unfold telAt. rewrite Tl. rewrite (numbered_In (r :: l) 0 (fst (List.last l r)) (snd (List.last l r))); [reflexivity| |].
      - rewrite <- Tl. apply (i_num _ _ I0).
      - rewrite <- surjective_pairing. apply last_In. }
    pose proof (s_log t S0 _ _ _ At) as V. destruct (tvts t (c_said c) (snd (List.last l r))) as [e|] eqn:Ve; [|congruence]. destruct (i_tvts _ _ I0 _ _ _ Ve) as (De & Pe & _).
    apply (delivered_prefix h0 h1 e Eh) in De. pose proof (C2 e De Pe) as Re.
    assert (Ki : t_ilk e = Iss \/ t_ilk e = Rev \/ t_ilk e = Bis \/ t_ilk e = Brv).
    { unfold registryOf in Re. destruct (t_ilk e); auto; exfalso; apply C1; congruence. }
    assert (Nb : negb (v_nob tv) && negb (match t_ilk e with Bis | Brv => true | _ => false end) = false).
    { destruct C3 as [C3|C3].
      - destruct (C3 e De Pe) as [-> | ->]; apply andb_false_r.
      - destruct (kinv_get _ _ _ _ K0 T) as (q & Q1 & Q2 & Q3 & Q4). rewrite Q4, (C3 q (delivered_prefix h0 h1 q Eh Q1) Q2 Q3). reflexivity. }
    rewrite Nb. pose proof (A0 _ _ _ At) as An. destruct (ancs t (c_said c) (snd (List.last l r))) as [a|]; [|congruence].
    exists r, l, (dated X e). split; [reflexivity|]. split; [destruct Ki as [Ki|[Ki|[Ki|Ki]]]; rewrite Ki; reflexivity|]. apply (proj2 Time c e x now Ic De Pe Ix Tx).
  Qed.

  (** a state in the course of the action [x] after the history [h0] *)
  Record mid (h0 : list vact) (x : vact) (d : vdb) : Prop := mkMid {
    m_inv : exists o, vinv E cf X (h0 ++ [x]) o d;
    m_tel : tel d = truns E cf (telOf h0) tdb0;
    m_sch : forall s, schs d s = true <-> In (VSchema s) h0;
    m_esc : forall w s t, In (s, t) (escs d w) -> exists y, In y (h0 ++ [x]) /\ timeOf y = Some t }.
  Lemma mid_process : forall h0 x d c a now, mid h0 x d -> timeOf x = Some now -> sent (h0 ++ [x]) c -> (exists c' t, In (VCred c' a t) (h0 ++ [x]) /\ c_said c' = c_said c) ->
    mid h0 x (fst (process X c a now d)).
  Proof.
    intros h0 x d c a now [(o & V) T S0 M] Tx Sn An. destruct (process_fr X c a now d) as [F1 F2]. constructor.
    - destruct (process_inv E cf X h0 [x] o c a now d V T (fun s => proj1 (S0 s)) Sn An) as (o' & W & _). exists o'. exact W.
    - rewrite F1. exact T.
    - rewrite F2. exact S0.
    - intros w s t Q. unfold process in Q. destruct (judge X c now d) as [|w'|y]; cbn [fst] in Q; [apply (M w s t Q)| |apply (M w s t Q)].
      cbn [escrowC eset set_escs escs] in Q. destruct (wait_eqb w w'); [|apply (M w s t Q)]. apply eput_In in Q. destruct Q as [Q|Q]; [|apply (M w' s t Q)]. injection Q as _ ->. exists x. split; [apply in_or_app; right; left; reflexivity|exact Tx].
  Qed.
  Lemma mid_rem : forall h0 x d w s, mid h0 x d -> mid h0 x (eset w (erem s (escs d w)) d).
  Proof.
    intros h0 x d w s [(o & V) T S0 M]. constructor; auto; [exists o; apply erem_inv; exact V|].
    intros w' s' t Q. cbn [eset set_escs escs] in Q. destruct (wait_eqb w' w); [|apply (M w' s' t Q)]. apply filter_In in Q. apply (M w s' t). apply Q.
  Qed.

  (** a credential of the list is saved or waits, and is saved when those before it are and everything
      has arrived *)
  Lemma judge_list : forall h0 x h1 d l1 c l2 now, H = h0 ++ x :: h1 -> timeOf x = Some now -> mid h0 x d -> cs = l1 ++ c :: l2 ->
    (judge X c now d = Save \/ exists w, judge X c now d = Wait w)
    /\ (telOf h0 = telOf H -> (forall s, In (VSchema s) H -> In (VSchema s) h0) -> (forall f, In f l1 -> saved d (c_said f) = true) -> judge X c now d = Save).
  Proof.
    intros h0 x h1 d l1 c l2 now Eh Tx Md Ec. destruct Md as [(o & V) Tl Sc _].
    assert (Ix : In x H) by (rewrite Eh; apply in_or_app; right; left; reflexivity). assert (Ic : In c cs) by (rewrite Ec; apply in_or_app; right; left; reflexivity).
    destruct (Chain l1 c l2 Ec) as [A1 A2 A3 A4 (es & A5 & A6)]. unfold judge. rewrite Tl. set (t := truns E cf (telOf h0) tdb0) in *.
    destruct (tget t (c_reg c)) as [tv|] eqn:T.
    2:{ split; [right; exists MRE; reflexivity|]. intros Q _ _. exfalso. apply A1. unfold t in T. rewrite Q in T. exact T. }
    destruct (state_ok h0 (x :: h1) c tv x now Eh Ic Ix Tx T) as [(Ti & St)|(r & l & dt & Ti & St & Fr)]; fold t in Ti, St; rewrite St.
    { split; [right; exists MRE; reflexivity|]. intros Q _ _. exfalso. apply A2. unfold t in Ti. rewrite Q in Ti. unfold vcState. rewrite Ti. reflexivity. }
    assert (Fr' : (dt + expiry X <? now) = false) by (apply N.ltb_ge; exact Fr). rewrite Fr'.
    destruct (schs d (c_schema c)) eqn:Sk; cbn [negb].
    2:{ split; [right; exists MSE; reflexivity|]. intros _ Q _. exfalso. apply Q in A3. apply Sc in A3. congruence. }
    rewrite A4. cbn [negb]. rewrite A5. clear St Fr Fr' Ti r l dt Sk.
    assert (Each : forall e, In e es -> (checkEdge X c now e d = None \/ exists w, checkEdge X c now e d = Some (Wait w))
       /\ (telOf h0 = telOf H -> (forall s, In (VSchema s) H -> In (VSchema s) h0) -> (forall f, In f l1 -> saved d (c_said f) = true) -> checkEdge X c now e d = None)).
    { intros e He. destruct (A6 e He) as [->|(n & ops & s & f & -> & B1 & B2 & B3 & B4 & B5 & B6)]; [split; [left|]; reflexivity|].
      apply find_some in B2. destruct B2 as [B2 Bn]. apply N.eqb_eq in Bn. assert (If : In f cs) by (rewrite Ec; apply in_or_app; left; exact B2).
      unfold checkEdge. destruct (saved d n) eqn:Sv.
      2:{ unfold verifyChain. rewrite Sv. cbn [negb]. split; [right; exists MCE; reflexivity|]. intros _ _ Q. exfalso. rewrite <- Bn, (Q f B2) in Sv. discriminate. }
      destruct (Sent f If) as [Sf _].
      assert (Mo : forall g, sent (h0 ++ [x]) g -> sent H g).
      { intros g Q. rewrite Eh. change (x :: h1) with ([x] ++ h1). rewrite app_assoc. apply sent_app. exact Q. }
      assert (Cr : creds d n = Some f).
      { pose proof (g_has _ _ _ _ _ _ V n Sv) as Q. destruct (creds d n) as [f'|] eqn:Cq; [|congruence]. destruct (g_creds _ _ _ _ _ _ V n f' Cq) as [Q1 Q2]. f_equal. apply One; [apply Mo; exact Q2|exact Sf|congruence]. }
      assert (Sj : forall i, c_issuee f = Some i -> subjs d i <> []).
      { intros i Hi. destruct (g_idx _ _ _ _ _ _ V n Sv) as (f' & Q1 & Q2 & _ & _ & Q5). assert (f' = f) by (apply One; [apply Mo; exact Q1|exact Sf|congruence]). subst f'. intros Z. specialize (Q5 i Hi). rewrite Z in Q5. exact Q5. }
      rewrite (chain_pass X n ops c f d B3 Sv Cr Sj). rewrite Cr, Tl. fold t. destruct (tget t (c_reg f)) as [tv'|] eqn:T'.
      2:{ split; [right; exists MCE; reflexivity|]. intros Q _ _. exfalso. apply B4. unfold t in T'. rewrite Q in T'. exact T'. }
      destruct (state_ok h0 (x :: h1) f tv' x now Eh If Ix Tx T') as [(Ti & St)|(r & l & dt & Ti & St & Fr)]; fold t in Ti, St; rewrite Bn in Ti, St; rewrite St.
      { split; [right; exists MCE; reflexivity|]. intros Q _ _. exfalso. unfold t in Ti. rewrite Q in Ti. unfold unrevokedIn, vcState in B5. rewrite Ti in B5. discriminate. }
      assert (Fr' : (dt + expiry X <? now) = false) by (apply N.ltb_ge; exact Fr). rewrite Fr'.
      assert (Nl : isnil l = true).
      { destruct (tel_prefix h0 (x :: h1) Eh n) as (l' & Q). fold t in Q. rewrite Ti in Q. unfold unrevokedIn, vcState in B5. rewrite Q in B5. destruct l; [reflexivity|discriminate]. }
      rewrite Nl. cbn [negb].
      destruct s as [s'|]; [|split; [left; reflexivity|intros _ _ _; reflexivity]]. destruct (B6 s' eq_refl) as [-> |[K1 K2]]; [rewrite N.eqb_refl; split; [left; reflexivity|intros _ _ _; reflexivity]|].
      destruct (c_schema f =? s'); [split; [left; reflexivity|intros _ _ _; reflexivity]|]. rewrite K2. cbn [negb]. destruct (schs d s') eqn:Ss; cbn [negb]; [split; [left; reflexivity|intros _ _ _; reflexivity]|].
      split; [right; exists MSE; reflexivity|]. intros _ Q _. exfalso. apply Q in K1. apply Sc in K1. congruence. }
    clear - Each. induction es as [|e es IH]; [split; [left|intros _ _ _]; reflexivity|]. cbn [checkEdges]. destruct (Each e (or_introl eq_refl)) as [P1 P2].
    destruct IH as [I1 I2]; [intros e' He'; apply Each; right; exact He'|]. split.
    - destruct P1 as [-> |(w & ->)]; [exact I1|right; exists w; reflexivity].
    - intros Q1 Q2 Q3. rewrite (P2 Q1 Q2 Q3). apply I2; assumption.
  Qed.

  (** ** Waiting credentials are kept *)
  Definition present (s : N) (d : vdb) : Prop := saved d s = true \/ exists w t, In (s, t) (escs d w).
  Lemma eput_has : forall s now l, exists t, In (s, t) (eput s now l).
  Proof.
    intros s now l. induction l as [|(s', t) l (u & IH)]; [exists now; left; reflexivity|]. cbn [eput]. destruct (s' =? s) eqn:B; [apply N.eqb_eq in B; subst; exists t; left; reflexivity|].
    destruct (s <? s'); [exists now; left; reflexivity|]. exists u. right. exact IH.
  Qed.
  Lemma eput_keeps : forall s now l r, In r l -> In r (eput s now l).
  Proof.
    intros s now l r. induction l as [|(s', t) l IH]; [intros []|]. cbn [eput]. destruct (s' =? s); [auto|]. destruct (s <? s'); [intros Q; right; exact Q|]. intros [Q|Q]; [left; exact Q|right; apply IH; exact Q].
  Qed.
  Lemma wait_eqb_eq : forall a b, wait_eqb a b = true <-> a = b.
  Proof. intros a b. destruct a, b; cbn; split; congruence. Qed.
  (** rows of [w] only go by removal *)
  Lemma process_rows : forall c a now d w r, In r (escs d w) -> In r (escs (fst (process X c a now d)) w).
  Proof.
    intros c a now d w r Q. unfold process. destruct (judge X c now d) as [|w'|y]; cbn [fst]; [exact Q| |exact Q]. cbn [escrowC eset set_escs escs logCred]. destruct (wait_eqb w w') eqn:B; [|exact Q].
    apply wait_eqb_eq in B. subst w'. apply eput_keeps. exact Q.
  Qed.
  Lemma rem_rows : forall w s d w' r, fst r <> s \/ w' <> w -> In r (escs d w') -> In r (escs (eset w (erem s (escs d w)) d) w').
  Proof.
    intros w s d w' r N0 Q. cbn [eset set_escs escs]. destruct (wait_eqb w' w) eqn:B; [|exact Q]. apply wait_eqb_eq in B. subst w'. apply filter_In. split; [exact Q|].
    destruct N0 as [N0|N0]; [|contradiction]. destruct (fst r =? s) eqn:B; [apply N.eqb_eq in B; contradiction|reflexivity].
  Qed.
  Lemma process_present : forall c a now d, (judge X c now d = Save \/ exists w, judge X c now d = Wait w) -> present (c_said c) (fst (process X c a now d)).
  Proof.
    intros c a now d Q. unfold process. destruct Q as [-> |(w & ->)]; cbn [fst].
    - left. unfold saveC. cbn [saved]. apply fset_self.
    - right. exists w. cbn [escrowC eset set_escs escs]. rewrite (proj2 (wait_eqb_eq w w) eq_refl). apply eput_has.
  Qed.
  Lemma stored_is : forall h0 x h1 d s c c', H = h0 ++ x :: h1 -> mid h0 x d -> In c cs -> c_said c = s -> creds d s = Some c' -> c' = c.
  Proof.
    intros h0 x h1 d s c c' Eh [(o & V) _ _ _] Ic Es Cr. destruct (g_creds _ _ _ _ _ _ V s c' Cr) as [Q1 Q2]. apply One; [|apply (Sent c Ic)|congruence].
    rewrite Eh. change (x :: h1) with ([x] ++ h1). rewrite app_assoc. apply sent_app. exact Q2.
  Qed.
  Lemma row_step : forall h0 now h1 w r d d', H = h0 ++ VSweep now :: h1 -> mid h0 (VSweep now) d -> escRow X w now r d = Some d' ->
    mid h0 (VSweep now) d' /\ keeps d d'
    /\ (forall l1 c l2, cs = l1 ++ c :: l2 -> present (c_said c) d -> (exists y, In y (h0 ++ [VSweep now]) /\ timeOf y = Some (snd r)) -> present (c_said c) d').
  Proof.
    intros h0 now h1 w (s, t) d d' Eh Md R. unfold escRow in R. destruct (creds d s) as [c0|] eqn:Cr; [|discriminate]. destruct (cancs d s) as [a|] eqn:Ca; [|discriminate]. injection R as <-.
    destruct (m_inv _ _ _ Md) as (o & V). destruct (g_creds _ _ _ _ _ _ V s c0 Cr) as [Q1 Q2]. destruct (g_canc _ _ _ _ _ _ V s a Ca) as (c' & t' & Q3 & Q4).
    pose proof (mid_process h0 (VSweep now) d c0 a now Md eq_refl Q2 ltac:(exists c', t'; split; [exact Q3|congruence])) as Md1. pose proof (keeps_process X c0 a now d) as K1.
    assert (Stale : (exists y, In y (h0 ++ [VSweep now]) /\ timeOf y = Some t) -> (t + timeoutE <? now) = false).
    { intros (y & Y1 & Y2). apply N.ltb_ge. apply (proj1 Time (VSweep now) y now t); [| |reflexivity|exact Y2].
      - rewrite Eh. apply in_or_app. right. left. reflexivity.
      - rewrite Eh. change (VSweep now :: h1) with ([VSweep now] ++ h1). rewrite app_assoc. apply in_or_app. left. exact Y1. }
    assert (Pk : forall c, fst (s, t) <> c_said c -> present (c_said c) d -> present (c_said c) (fst (process X c0 a now d))).
    { intros c _ [P|(w' & u & P)]; [left; apply K1; exact P|right; exists w', u; apply process_rows; exact P]. }
    assert (Pr : forall c d0, s <> c_said c -> present (c_said c) d0 -> present (c_said c) (eset w (erem s (escs d0 w)) d0)).
    { intros c d0 N0 [P|(w' & u & P)]; [left; exact P|right; exists w', u; apply rem_rows; [left; cbn; congruence|exact P]]. }
    split; [|split].
    - destruct (t + timeoutE <? now); [apply mid_rem; exact Md|]. destruct (process X c0 a now d) as (d1, y). cbn [fst] in Md1. destruct y as [y|]; [|apply mid_rem; exact Md1]. destruct w, y; first [exact Md1|apply mid_rem; exact Md1].
    - destruct (t + timeoutE <? now); [split; auto|]. destruct (process X c0 a now d) as (d1, y). cbn [fst] in K1. destruct y as [y|]; [|exact K1]. destruct w, y; exact K1.
    - intros l1 c l2 Ec Pc Alt. destruct (N.eq_dec s (c_said c)) as [Es|Es].
      + rewrite (Stale Alt). assert (Ic : In c cs) by (rewrite Ec; apply in_or_app; right; left; reflexivity).
        assert (c0 = c) by (apply (stored_is h0 (VSweep now) h1 d s); auto). subst c0. clear Pk.
        destruct (judge_list h0 (VSweep now) h1 d l1 c l2 now Eh eq_refl Md Ec) as [[J|(w' & J)] _].
        * left. unfold process. rewrite J. cbn [saved saveC eset set_escs]. apply fset_self.
        * unfold process. rewrite J. cbn [fst]. assert (Row : exists u, In (c_said c, u) (escs (escrowC w' c a now d) w')).
          { cbn [escrowC eset set_escs escs]. rewrite (proj2 (wait_eqb_eq w' w') eq_refl). apply eput_has. }
          destruct Row as (u & Row). right. exists w', u. destruct w, w'; cbn [waitExn]; try exact Row; apply rem_rows; try exact Row; right; discriminate.
      + destruct (t + timeoutE <? now); [apply Pr; assumption|]. specialize (Pk c Es Pc). destruct (process X c0 a now d) as (d1, y). cbn [fst] in Pk. destruct y as [y|]; [|apply Pr; assumption].
        destruct w, y; first [exact Pk|apply Pr; assumption].
  Qed.
  Lemma loop_step : forall h0 now h1 w rows d, H = h0 ++ VSweep now :: h1 -> mid h0 (VSweep now) d ->
    (forall r, In r rows -> exists y, In y (h0 ++ [VSweep now]) /\ timeOf y = Some (snd r)) -> (forall r, In r rows -> creds d (fst r) <> None) ->
    let d' := fst (escLoop X w now rows d) in
    mid h0 (VSweep now) d' /\ keeps d d' /\ snd (escLoop X w now rows d) = true
    /\ (forall l1 c l2, cs = l1 ++ c :: l2 -> present (c_said c) d -> present (c_said c) d').
  Proof.
    intros h0 now h1 w rows. induction rows as [|r rows IH]; intros d Eh Md Ti Cr; cbn [escLoop].
    - split; [exact Md|]. split; [apply keeps_refl|]. split; [reflexivity|]. intros l1 c l2 _ P. exact P.
    - destruct (escRow X w now r d) as [d1|] eqn:R.
      + destruct (row_step h0 now h1 w r d d1 Eh Md R) as (Md1 & K1 & P1). destruct (IH d1 Eh Md1) as (Md2 & K2 & B2 & P2).
        * intros q Q. apply Ti. right. exact Q.
        * intros q Q. pose proof (Cr q (or_intror Q)) as Z. destruct (creds d (fst q)) as [f|] eqn:C; [|congruence]. rewrite (proj2 K1 _ f C). discriminate.
        * split; [exact Md2|]. split; [eapply keeps_trans; eassumption|]. split; [exact B2|]. intros l1 c l2 Ec P. apply (P2 l1 c l2 Ec). apply (P1 l1 c l2 Ec P). apply Ti. left. reflexivity.
      + exfalso. destruct r as (s, t). unfold escRow in R. destruct (m_inv _ _ _ Md) as (o & V). pose proof (Cr (s, t) (or_introl eq_refl)) as Z. cbn [fst] in Z. pose proof (g_both _ _ _ _ _ _ V s Z) as Z'.
        destruct (creds d s); [|congruence]. destruct (cancs d s); [discriminate|congruence].
  Qed.
  Lemma mid_rows : forall h0 x d w, mid h0 x d -> (forall r, In r (escs d w) -> exists y, In y (h0 ++ [x]) /\ timeOf y = Some (snd r)) /\ (forall r, In r (escs d w) -> creds d (fst r) <> None).
  Proof.
    intros h0 x d w Md. destruct (m_inv _ _ _ Md) as (o & V). split; intros (s, t) Q; cbn [fst snd]; [apply (m_esc _ _ _ Md w s t Q)|apply (g_esc _ _ _ _ _ _ V w s t Q)].
  Qed.
  Lemma sweep_step : forall h0 now h1 d, H = h0 ++ VSweep now :: h1 -> mid h0 (VSweep now) d ->
    mid h0 (VSweep now) (fst (vsweep X now d)) /\ (forall l1 c l2, cs = l1 ++ c :: l2 -> present (c_said c) d -> present (c_said c) (fst (vsweep X now d))).
  Proof.
    intros h0 now h1 d Eh Md. unfold vsweep. destruct (mid_rows _ _ _ MCE Md) as [T0 C0]. destruct (loop_step h0 now h1 MCE (escs d MCE) d Eh Md T0 C0) as (Md1 & _ & B1 & P1).
    destruct (escLoop X MCE now (escs d MCE) d) as (d1, b1). cbn [fst snd] in *. subst b1. destruct (mid_rows _ _ _ MSE Md1) as [T1 C1]. destruct (loop_step h0 now h1 MSE (escs d1 MSE) d1 Eh Md1 T1 C1) as (Md2 & _ & B2 & P2).
    destruct (escLoop X MSE now (escs d1 MSE) d1) as (d2, b2). cbn [fst snd] in *. subst b2. destruct (mid_rows _ _ _ MRE Md2) as [T2 C2]. destruct (loop_step h0 now h1 MRE (escs d2 MRE) d2 Eh Md2 T2 C2) as (Md3 & _ & B3 & P3).
    split; [exact Md3|]. intros l1 c l2 Ec P. apply (P3 l1 c l2 Ec), (P2 l1 c l2 Ec), (P1 l1 c l2 Ec), P.
  Qed.

  (** the state before an action *)
  Lemma mid_start : forall h0 x h1, H = h0 ++ x :: h1 -> (forall w s t, In (s, t) (escs (vruns E cf X h0 vdb0) w) -> exists y, In y h0 /\ timeOf y = Some t) -> mid h0 x (vruns E cf X h0 vdb0).
  Proof.
    intros h0 x h1 Eh Es. destruct (vruns_inv E cf X h0) as (o & V). constructor.
    - exists o. apply vinv_more. exact V.
    - apply vruns_tel.
    - apply vruns_schs.
    - intros w s t Q. destruct (Es w s t Q) as (y & Y1 & Y2). exists y. split; [apply in_or_app; left; exact Y1|exact Y2].
  Qed.
  Lemma runs_present : forall h0 h1, H = h0 ++ h1 ->
    (forall w s t, In (s, t) (escs (vruns E cf X h0 vdb0) w) -> exists y, In y h0 /\ timeOf y = Some t)
    /\ (forall l1 c l2, cs = l1 ++ c :: l2 -> sent h0 c -> present (c_said c) (vruns E cf X h0 vdb0)).
  Proof.
    induction h0 as [|x h0 IH] using rev_ind; intros h1 Eh.
    - split; [intros w s t []|]. intros l1 c l2 _ (a & t & []).
    - rewrite <- app_assoc in Eh. cbn [app] in Eh. destruct (IH (x :: h1) Eh) as [Es Pr]. pose proof (mid_start h0 x h1 Eh Es) as Md. rewrite vruns_app. cbn [vruns fold_left].
      set (d := vruns E cf X h0 vdb0) in *.
      assert (Old : forall c, sent (h0 ++ [x]) c -> sent h0 c \/ exists a t, x = VCred c a t).
      { intros c (a & t & Q). apply in_app_or in Q. destruct Q as [Q|[Q|[]]]; [left; exists a, t; exact Q|right; exists a, t; exact Q]. }
      destruct x as [y|s|c a now|now]; cbn [vdo].
      + split; [intros w s t Q; destruct (Es w s t Q) as (z & Z1 & Z2); exists z; split; [apply in_or_app; left; exact Z1|exact Z2]|].
        intros l1 c l2 Ec Q. destruct (Old c Q) as [Q1|(a & t & Q1)]; [apply (Pr l1 c l2 Ec Q1)|discriminate].
      + split; [intros w s0 t Q; destruct (Es w s0 t Q) as (z & Z1 & Z2); exists z; split; [apply in_or_app; left; exact Z1|exact Z2]|].
        intros l1 c l2 Ec Q. destruct (Old c Q) as [Q1|(a & t & Q1)]; [apply (Pr l1 c l2 Ec Q1)|discriminate].
      + assert (Me : In (VCred c a now) (h0 ++ [VCred c a now])) by (apply in_or_app; right; left; reflexivity).
        pose proof (mid_process h0 _ d c a now Md eq_refl ltac:(exists a, now; exact Me) ltac:(exists c, now; split; [exact Me|reflexivity])) as Md1. split; [apply (m_esc _ _ _ Md1)|].
        intros l1 c' l2 Ec Q. destruct (N.eq_dec (c_said c') (c_said c)) as [Eq|Ne].
        * assert (c' = c). { apply One; [| |exact Eq]; [apply (Sent c'); rewrite Ec; apply in_or_app; right; left; reflexivity|exists a, now; rewrite Eh; apply in_or_app; right; left; reflexivity]. } subst c'.
          apply process_present. apply (judge_list h0 (VCred c a now) h1 d l1 c l2 now Eh eq_refl Md Ec).
        * destruct (Old c' Q) as [Q1|(a' & t & Q1)]; [|injection Q1 as -> _ _; contradiction]. destruct (Pr l1 c' l2 Ec Q1) as [P|(w & t & P)]; [left; apply (keeps_process X c a now d); exact P|].
          right. exists w, t. apply process_rows. exact P.
      + destruct (sweep_step h0 now h1 d Eh Md) as [Md1 P1]. split; [apply (m_esc _ _ _ Md1)|].
        intros l1 c l2 Ec Q. apply (P1 l1 c l2 Ec). destruct (Old c Q) as [Q1|(a & t & Q1)]; [apply (Pr l1 c l2 Ec Q1)|discriminate].
  Qed.

  (** ** A sweep when everything has arrived *)
  Section Ready.
    Context (h0 : list vact) (now : N) (h1 l1 l2 : list vact).
    Context (p1 : list cred) (c : cred) (p2 : list cred).
    Hypothesis Eh : H = h0 ++ VSweep now :: h1.
    Hypothesis Et : telOf h0 = telOf H.
    Hypothesis Ss : forall s, In (VSchema s) H -> In (VSchema s) h0.
    Hypothesis Ec : cs = p1 ++ c :: p2.

    Definition early (d : vdb) : Prop := forall f, In f p1 -> saved d (c_said f) = true.
    Definition inRow (w : wait) (d : vdb) : Prop := saved d (c_said c) = true \/ exists t, In (c_said c, t) (escs d w).
    Lemma row_ready : forall w w' r d d', mid h0 (VSweep now) d -> early d -> escRow X w now r d = Some d' -> (exists y, In y (h0 ++ [VSweep now]) /\ timeOf y = Some (snd r)) ->
      early d' /\ (inRow w' d -> inRow w' d') /\ (fst r = c_said c -> saved d' (c_said c) = true).
    Proof.
      intros w w' (s, t) d d' Md Er R Ti. destruct (row_step h0 now h1 w (s, t) d d' Eh Md R) as (_ & K & _). split; [intros f Hf; apply K, Er, Hf|].
      assert (Z : s = c_said c -> saved d' (c_said c) = true).
      { intros Es. unfold escRow in R. destruct (creds d s) as [c0|] eqn:Cr; [|discriminate]. destruct (cancs d s) as [a|]; [|discriminate]. injection R as <-.
        assert (Ic : In c cs) by (rewrite Ec; apply in_or_app; right; left; reflexivity). assert (c0 = c) by (apply (stored_is h0 (VSweep now) h1 d s); auto). subst c0.
        assert (St : (t + timeoutE <? now) = false).
        { apply N.ltb_ge. destruct Ti as (y & Y1 & Y2). apply (proj1 Time (VSweep now) y now t); [| |reflexivity|exact Y2].
          - rewrite Eh. apply in_or_app. right. left. reflexivity.
          - rewrite Eh. change (VSweep now :: h1) with ([VSweep now] ++ h1). rewrite app_assoc. apply in_or_app. left. exact Y1. }
        rewrite St. destruct (judge_list h0 (VSweep now) h1 d p1 c p2 now Eh eq_refl Md Ec) as [_ J]. unfold process. rewrite (J Et Ss Er). cbn [saved saveC eset set_escs]. apply fset_self. }
      split; [|exact Z]. intros [Q|(u & Q)]; [left; apply K; exact Q|]. destruct (N.eq_dec s (c_said c)) as [Es|Es]; [left; apply Z; exact Es|]. right. exists u.
      clear Z. unfold escRow in R. destruct (creds d s) as [c0|]; [|discriminate]. destruct (cancs d s) as [a|]; [|discriminate]. injection R as <-.
      destruct (t + timeoutE <? now); [apply rem_rows; [left; cbn; congruence|exact Q]|]. pose proof (process_rows c0 a now d w' (c_said c, u) Q) as Q'. destruct (process X c0 a now d) as (d1, y). cbn [fst] in Q'.
      destruct y as [y|]; [|apply rem_rows; [left; cbn; congruence|exact Q']]. destruct w, y; first [exact Q'|apply rem_rows; [left; cbn; congruence|exact Q']].
    Qed.
    Lemma loop_ready : forall w rows d, mid h0 (VSweep now) d -> early d ->
      (forall r, In r rows -> exists y, In y (h0 ++ [VSweep now]) /\ timeOf y = Some (snd r)) -> (forall r, In r rows -> creds d (fst r) <> None) ->
      let d' := fst (escLoop X w now rows d) in early d' /\ (forall w', inRow w' d -> inRow w' d') /\ ((exists t, In (c_said c, t) rows) -> saved d' (c_said c) = true).
    Proof.
      intros w rows. induction rows as [|r rows IH]; intros d Md Er Ti Cr; cbn [escLoop].
      - split; [exact Er|]. split; [auto|]. intros (t & []).
      - destruct (escRow X w now r d) as [d1|] eqn:R.
        + destruct (row_step h0 now h1 w r d d1 Eh Md R) as (Md1 & K1 & _). assert (Ti0 := Ti r (or_introl eq_refl)).
          destruct (row_ready w w r d d1 Md Er R Ti0) as (Er1 & _ & Z1). assert (In1 : forall w', inRow w' d -> inRow w' d1) by (intros w'; apply (row_ready w w' r d d1 Md Er R Ti0)).
          assert (Cr1 : forall q, In q rows -> creds d1 (fst q) <> None).
          { intros q Q. pose proof (Cr q (or_intror Q)) as Z. destruct (creds d (fst q)) as [f|] eqn:C; [|congruence]. rewrite (proj2 K1 _ f C). discriminate. }
          destruct (IH d1 Md1 Er1 (fun q Q => Ti q (or_intror Q)) Cr1) as (Er2 & In2 & Z2). split; [exact Er2|]. split; [auto|].
          intros (t & [Q|Q]); [|apply Z2; exists t; exact Q]. subst r. destruct (loop_step h0 now h1 w rows d1 Eh Md1 (fun q Q => Ti q (or_intror Q)) Cr1) as (_ & K2 & _). apply K2, Z1. reflexivity.
        + exfalso. destruct r as (s, t). unfold escRow in R. destruct (m_inv _ _ _ Md) as (o & V). pose proof (Cr (s, t) (or_introl eq_refl)) as Z. cbn [fst] in Z. pose proof (g_both _ _ _ _ _ _ V s Z) as Z'.
          destruct (creds d s); [|congruence]. destruct (cancs d s); [discriminate|congruence].
    Qed.
    Lemma sweep_ready : forall d, mid h0 (VSweep now) d -> early d -> present (c_said c) d -> saved (fst (vsweep X now d)) (c_said c) = true.
    Proof.
      intros d Md Er P. assert (P' : exists w, inRow w d) by (destruct P as [P|(w & t & P)]; [exists MCE; left; exact P|exists w; right; exists t; exact P]). clear P. destruct P' as (w0 & P). unfold vsweep.
      destruct (mid_rows _ _ _ MCE Md) as [T0 C0]. destruct (loop_step h0 now h1 MCE (escs d MCE) d Eh Md T0 C0) as (Md1 & K1 & B1 & _). destruct (loop_ready MCE (escs d MCE) d Md Er T0 C0) as (Er1 & P1 & Z1).
      destruct (escLoop X MCE now (escs d MCE) d) as (d1, b1). cbn [fst snd] in *. subst b1.
      destruct (mid_rows _ _ _ MSE Md1) as [T1 C1]. destruct (loop_step h0 now h1 MSE (escs d1 MSE) d1 Eh Md1 T1 C1) as (Md2 & K2 & B2 & _). destruct (loop_ready MSE (escs d1 MSE) d1 Md1 Er1 T1 C1) as (Er2 & P2 & Z2).
      destruct (escLoop X MSE now (escs d1 MSE) d1) as (d2, b2). cbn [fst snd] in *. subst b2.
      destruct (mid_rows _ _ _ MRE Md2) as [T2 C2]. destruct (loop_step h0 now h1 MRE (escs d2 MRE) d2 Eh Md2 T2 C2) as (_ & K3 & _ & _). destruct (loop_ready MRE (escs d2 MRE) d2 Md2 Er2 T2 C2) as (_ & _ & Z3).
      destruct w0.
      - destruct (P2 MRE (P1 MRE P)) as [Q|Q]; [apply K3, Q|apply Z3, Q].
      - destruct (P1 MSE P) as [Q|Q]; [apply K3, K2, Q|apply K3, Z2, Q].
      - destruct P as [Q|Q]; [apply K3, K2, K1, Q|apply K3, K2, Z1, Q].
    Qed.
  End Ready.
End L.

(** everything is saved after as many passes as there are credentials *)
Lemma all_saved : forall E cf X h cs ts, oneCred h -> supplied E cf X h cs -> timely X (h ++ map VSweep ts) cs -> (List.length cs <= List.length ts)%nat ->
  forall c, In c cs -> saved (vruns E cf X (h ++ map VSweep ts) vdb0) (c_said c) = true.
Proof.
  intros E cf X h cs ts One [Sn Ch] Ti Le. set (H := h ++ map VSweep ts).
  assert (Et : telOf H = telOf h). { unfold H. rewrite telOf_app. replace (telOf (map VSweep ts)) with (@nil tact); [apply app_nil_r|]. clear. induction ts as [|t ts IH]; [reflexivity|exact IH]. }
  assert (Ss : forall s, In (VSchema s) H <-> In (VSchema s) h). { intros s. unfold H. rewrite in_app_iff. split; [intros [Q|Q]; [exact Q|]|auto]. apply in_map_iff in Q. destruct Q as (t & Q & _). discriminate. }
  assert (Sh : forall c, sent H c <-> sent h c). { intros c. unfold sent, H. split; intros (a & t & Q); exists a, t; [|apply in_or_app; left; exact Q]. apply in_app_or in Q. destruct Q as [Q|Q]; [exact Q|]. apply in_map_iff in Q. destruct Q as (u & Q & _). discriminate. }
  assert (One' : oneCred H) by (intros c c' Q Q'; apply One; apply Sh; assumption).
  assert (Sn' : forall c, In c cs -> sent H c /\ consistent (telOf H) c) by (intros c Q; rewrite Et, Sh; apply Sn; exact Q).
  assert (Ch' : forall l1 c l2, cs = l1 ++ c :: l2 -> acceptable X (truns E cf (telOf H) tdb0) (fun s => In (VSchema s) H) (map c_said l1) (fun n => find (fun f => c_said f =? n) l1) c).
  { intros l1 c l2 Q. rewrite Et. destruct (Ch l1 c l2 Q) as [A1 A2 A3 A4 (es & A5 & A6)]. constructor; auto; [apply Ss; exact A3|]. exists es. split; [exact A5|]. intros e He.
    destruct (A6 e He) as [->|(n & ops & s & f & B1 & B2 & B3 & B4 & B5 & B6 & B7)]; [left; reflexivity|]. right. exists n, ops, s, f. repeat (split; [assumption|]). intros s' Hs. destruct (B7 s' Hs) as [Z|[Z1 Z2]]; [left; exact Z|right; split; [apply Ss; exact Z1|exact Z2]]. }
  assert (K : forall p q, cs = p ++ q -> (List.length p <= List.length ts)%nat -> forall c, In c p -> saved (vruns E cf X (h ++ map VSweep (firstn (List.length p) ts)) vdb0) (c_said c) = true).
  { induction p as [|c p IH] using rev_ind; intros q Eq Lp c' Ic; [destruct Ic|]. rewrite app_length in *. cbn [List.length] in *. rewrite <- app_assoc in Eq. cbn [app] in Eq.
    specialize (IH (c :: q) Eq ltac:(lia)). assert (Ne : exists t ts', skipn (List.length p) ts = t :: ts'). { destruct (skipn (List.length p) ts) as [|t ts'] eqn:Q; [|eauto]. pose proof (skipn_length (List.length p) ts) as Z. rewrite Q in Z. cbn in Z. lia. }
    destruct Ne as (t & ts' & Ne). assert (Ts : ts = firstn (List.length p) ts ++ t :: ts') by (rewrite <- Ne; symmetry; apply firstn_skipn).
    assert (Fn : firstn (List.length p + 1) ts = firstn (List.length p) ts ++ [t]).
    { rewrite Ts at 1. rewrite firstn_app. rewrite firstn_firstn. rewrite firstn_length_le by lia. replace (Nat.min (List.length p + 1) (List.length p)) with (List.length p) by lia. replace (List.length p + 1 - List.length p)%nat with 1%nat by lia. reflexivity. }
    rewrite Fn, map_app. cbn [map]. rewrite app_assoc, vruns_app. cbn [vruns fold_left vdo]. set (h0 := h ++ map VSweep (firstn (List.length p) ts)) in *.
    assert (Eh : H = h0 ++ VSweep t :: map VSweep ts') by (unfold H, h0; rewrite <- app_assoc; f_equal; rewrite Ts at 1; rewrite map_app; reflexivity).
    destruct (runs_present E cf X H cs One' Sn' Ch' Ti h0 _ Eh) as [Es Pr]. pose proof (mid_start E cf X H h0 (VSweep t) _ Eh Es) as Md.
    apply in_app_or in Ic. destruct Ic as [Ic|[<-|[]]].
    - apply (keeps_do E cf X (VSweep t)). apply IH. exact Ic.
    - assert (Sn0 : sent h0 c). { destruct (Sn c) as [(a & u & Q) _]; [rewrite Eq; apply in_or_app; right; left; reflexivity|]. exists a, u. unfold h0. apply in_or_app. left. exact Q. }
      apply (sweep_ready E cf X H cs One' Sn' Ch' Ti h0 t (map VSweep ts') p c q Eh).
      + rewrite Et. unfold h0. rewrite telOf_app. replace (telOf (map VSweep (firstn (List.length p) ts))) with (@nil tact); [apply app_nil_r|]. generalize (firstn (List.length p) ts). clear. intros l. induction l as [|u l IH]; [reflexivity|exact IH].
      + intros s Q. unfold h0. apply in_or_app. left. apply Ss. exact Q.
      + exact Eq.
      + exact Md.
      + intros f Hf. apply IH. exact Hf.
      + apply (Pr p c q Eq Sn0). }
  intros c Ic. assert (Z : saved (vruns E cf X (h ++ map VSweep (firstn (List.length cs) ts)) vdb0) (c_said c) = true) by (apply (K cs [] ltac:(symmetry; apply app_nil_r) Le c Ic)).
  unfold H. rewrite <- (firstn_skipn (List.length cs) ts). rewrite map_app, app_assoc, vruns_app. apply (keeps_runs E cf X _ _). exact Z.
Qed.
