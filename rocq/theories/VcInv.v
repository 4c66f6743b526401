(** Invariant of a verifier over whole histories. *)
From Verif Require Import Prelude B64Model MatterModel SubsModel ThModel ThProofs KelModel TlModel TlSpec TlProofs TlInv VcModel VcSpec VcTel VcProofs.
Open Scope N_scope.
Ltac Zify.zify_post_hook ::= Z.div_mod_to_equations.

Section I.
  Context (E : tenv) (cf : tconf) (X : cenv).

  (** acceptance of [c] at some point of [h] *)
  Definition acceptedIn (h : list vact) (l : list N) (far : N -> option cred) (s : N) : Prop :=
    exists c h1 h2, h = h1 ++ h2 /\ sent h c /\ c_said c = s
      /\ acceptable X (truns E cf (telOf h1) tdb0) (fun s => In (VSchema s) h1) l far c.
  Record vinv (h : list vact) (o : list N) (d : vdb) : Prop := mkV {
    g_creds : forall s c, creds d s = Some c -> c_said c = s /\ sent h c;
    g_canc : forall s a, cancs d s = Some a -> exists c now, In (VCred c a now) h /\ c_said c = s;
    g_both : forall s, creds d s <> None -> cancs d s <> None;
    g_nodup : NoDup o;
    g_saved : forall s, saved d s = true <-> In s o;
    g_has : forall s, saved d s = true -> creds d s <> None;
    g_esc : forall w s t, In (s, t) (escs d w) -> creds d s <> None;
    g_ord : forall l1 s l2, o = l1 ++ s :: l2 -> acceptedIn h l1 (creds d) s;
    g_iss : forall s i, In s (issus d i) -> saved d s = true /\ exists c, sent h c /\ c_said c = s /\ c_issuer c = i;
    g_sch : forall s i, In s (schms d i) -> saved d s = true /\ exists c, sent h c /\ c_said c = s /\ c_schema c = i;
    g_sub : forall s i, In s (subjs d i) -> saved d s = true /\ exists c, sent h c /\ c_said c = s /\ c_issuee c = Some i;
    g_idx : forall s, saved d s = true -> exists c, sent h c /\ c_said c = s /\ In s (issus d (c_issuer c)) /\ In s (schms d (c_schema c))
      /\ (forall i, c_issuee c = Some i -> In s (subjs d i)) }.

  Lemma sent_app : forall h x c, sent h c -> sent (h ++ x) c.
  Proof. intros h x c (a & t & H). exists a, t. apply in_or_app. left. exact H. Qed.
  Lemma vinv_more : forall h x o d, vinv h o d -> vinv (h ++ x) o d.
  Proof.
    intros h x o d [A B C D F G H J K L M N0]. constructor; auto.
    - intros s c Q. destruct (A s c Q) as [Q1 Q2]. split; [exact Q1|apply sent_app; exact Q2].
    - intros s a Q. destruct (B s a Q) as (c & t & Q1 & Q2). exists c, t. split; [apply in_or_app; left; exact Q1|exact Q2].
    - intros l1 s l2 Q. destruct (J l1 s l2 Q) as (c & h1 & h2 & Q1 & Q2 & Q3 & Q4). exists c, h1, (h2 ++ x). split; [rewrite Q1, app_assoc; reflexivity|]. split; [apply sent_app; exact Q2|]. split; assumption.
    - intros s i Q. destruct (K s i Q) as (Q0 & c & Q1 & Q2). split; [exact Q0|]. exists c. split; [apply sent_app; exact Q1|exact Q2].
    - intros s i Q. destruct (L s i Q) as (Q0 & c & Q1 & Q2). split; [exact Q0|]. exists c. split; [apply sent_app; exact Q1|exact Q2].
    - intros s i Q. destruct (M s i Q) as (Q0 & c & Q1 & Q2). split; [exact Q0|]. exists c. split; [apply sent_app; exact Q1|exact Q2].
    - intros s Q. destruct (N0 s Q) as (c & Q1 & Q2). exists c. split; [apply sent_app; exact Q1|exact Q2].
  Qed.
  Lemma fset_self : forall A (m : N -> A) k v, fset m k v k = v.
  Proof. intros A m k v. unfold fset. rewrite N.eqb_refl. reflexivity. Qed.
  Lemma fset_other : forall A (m : N -> A) k v k', k' <> k -> fset m k v k' = m k'.
  Proof. intros A m k v k' H. unfold fset. destruct (k' =? k) eqn:B; [apply N.eqb_eq in B; contradiction|reflexivity]. Qed.
  Lemma memN_In : forall x l, memN x l = true <-> In x l.
  Proof.
    intros x l. unfold memN. rewrite existsb_exists. split; [intros (y & A & B); apply N.eqb_eq in B; congruence|]. intros H. exists x. split; [exact H|apply N.eqb_refl].
  Qed.
  Lemma addDup_In : forall m k v k' s, In s (addDup m k v k') <-> In s (m k') \/ (k' = k /\ s = v).
  Proof.
    intros m k v k' s. unfold addDup, fset. destruct (k' =? k) eqn:B.
    - apply N.eqb_eq in B. subst k'. destruct (memN v (m k)) eqn:M.
      + apply memN_In in M. split; [auto|]. intros [H|[_ ->]]; [exact H|exact M].
      + rewrite in_app_iff. split; [intros [H|[<-|[]]]; auto|]. intros [H|[_ ->]]; [auto|right; left; reflexivity].
    - split; [auto|]. intros [H|[-> _]]; [exact H|]. rewrite N.eqb_refl in B. discriminate.
  Qed.
  (** what logCred leaves and adds *)
  Lemma log_creds : forall c a d s f, creds d s = Some f -> creds (logCred c a d) s = Some f.
  Proof.
    intros c a d s f H. unfold logCred. cbn [creds]. destruct (creds d (c_said c)) as [f'|] eqn:C; [exact H|]. rewrite fset_other; [exact H|]. congruence.
  Qed.
  Lemma log_cases : forall c a d s f, creds (logCred c a d) s = Some f -> creds d s = Some f \/ (creds d s = None /\ s = c_said c /\ f = c).
  Proof.
    intros c a d s f. unfold logCred. cbn [creds]. destruct (creds d (c_said c)) as [f'|] eqn:C; [auto|]. unfold fset. destruct (s =? c_said c) eqn:B; [|auto].
    apply N.eqb_eq in B. subst s. intros H. injection H as <-. auto.
  Qed.
  Lemma log_has : forall c a d, creds (logCred c a d) (c_said c) <> None.
  Proof. intros c a d. unfold logCred. cbn [creds]. destruct (creds d (c_said c)) as [f'|] eqn:C; [congruence|]. rewrite fset_self. discriminate. Qed.
  Lemma accepted_far : forall h l far far' s, (forall s f, far s = Some f -> far' s = Some f) -> acceptedIn h l far s -> acceptedIn h l far' s.
  Proof.
    intros h l far far' s M (c & h1 & h2 & A & B & C & [D1 D2 D3 D4 (es & D5 & D6)]). exists c, h1, h2. split; [exact A|]. split; [exact B|]. split; [exact C|]. constructor; auto.
    exists es. split; [exact D5|]. intros e He. destruct (D6 e He) as [->|(n & ops & s' & f & Q1 & Q2 & Q3 & Q4)]; [left; reflexivity|]. right. exists n, ops, s', f. split; [exact Q1|]. split; [exact Q2|]. split; [apply M; exact Q3|exact Q4].
  Qed.
  Lemma log_inv : forall h o c a d, vinv h o d -> sent h c -> (exists c' now, In (VCred c' a now) h /\ c_said c' = c_said c) -> vinv h o (logCred c a d).
  Proof.
    intros h o c a d [A B C D F G H J K L M N0] Sn An. constructor; auto.
    - intros s f Q. destruct (log_cases _ _ _ _ _ Q) as [Q'|(_ & -> & ->)]; [apply A; exact Q'|split; [reflexivity|exact Sn]].
    - intros s a' Q. unfold logCred in Q. cbn [cancs] in Q. unfold fset in Q. destruct (s =? c_said c) eqn:B0; [|apply B; exact Q]. apply N.eqb_eq in B0. subst s. injection Q as <-. exact An.
    - intros s Q. unfold logCred. cbn [cancs]. unfold fset. destruct (s =? c_said c) eqn:B0; [discriminate|]. destruct (creds (logCred c a d) s) as [f|] eqn:Q1; [|congruence].
      destruct (log_cases _ _ _ _ _ Q1) as [Q'|(_ & -> & _)]; [apply C; congruence|]. rewrite N.eqb_refl in B0. discriminate.
    - intros s Q. specialize (G s Q). destruct (creds d s) as [f|] eqn:Q1; [|congruence]. rewrite (log_creds c a d s f Q1). discriminate.
    - intros w s t Q. specialize (H w s t Q). destruct (creds d s) as [f|] eqn:Q1; [|congruence]. rewrite (log_creds c a d s f Q1). discriminate.
    - intros l1 s l2 Q. eapply accepted_far; [|apply (J l1 s l2 Q)]. intros s' f Q'. apply log_creds. exact Q'.
  Qed.
  Lemma eput_In : forall s now l r, In r (eput s now l) -> r = (s, now) \/ In r l.
  Proof.
    intros s now l r. induction l as [|(s', t) l IH]; cbn [eput]; [intros [<-|[]]; left; reflexivity|]. destruct (s' =? s); [auto|]. destruct (s <? s'); [intros [<-|H]; auto|].
    intros [<-|H]; [right; left; reflexivity|]. destruct (IH H) as [Q|Q]; [auto|right; right; exact Q].
  Qed.
  Lemma esc_inv : forall h o w l d, vinv h o d -> (forall s t, In (s, t) l -> creds d s <> None) -> vinv h o (eset w l d).
  Proof.
    intros h o w l d [A B C D F G H J K L M N0] Q. constructor; auto. intros w' s t. cbn [escs eset set_escs creds]. destruct (wait_eqb w' w); [apply Q|apply H].
  Qed.
  Lemma erem_inv : forall h o w s d, vinv h o d -> vinv h o (eset w (erem s (escs d w)) d).
  Proof. intros h o w s d V. apply esc_inv; [exact V|]. intros s' t H. apply filter_In in H. destruct H as [H _]. apply (g_esc h o d V w s' t H). Qed.

  (** processing a credential; [h0] is the history before the action that does *)
  Lemma process_inv : forall h0 h1 o c a now d, let h := h0 ++ h1 in vinv h o d -> tel d = truns E cf (telOf h0) tdb0 -> (forall s, schs d s = true -> In (VSchema s) h0) ->
    sent h c -> (exists c' now, In (VCred c' a now) h /\ c_said c' = c_said c) ->
    exists o', vinv h o' (fst (process X c a now d)) /\ (exists l, o' = o ++ l).
  Proof.
    intros h0 h1 o c a now d h V Tl Sc Sn An. unfold process. destruct (judge X c now d) as [|w|x] eqn:J; cbn [fst].
    - apply judge_save in J. destruct J as [Acc (es & Es & Ed)]. pose proof (log_inv h o c a d V Sn An) as W.
      assert (AccC : acceptable X (truns E cf (telOf h0) tdb0) (fun s => In (VSchema s) h0) o (creds (logCred c a d)) c).
      { destruct Acc as [D1 D2 D3 D4 _]. cbn in D1, D2, D3, D4. rewrite Tl in D1, D2. constructor; auto. exists es. split; [exact Es|]. intros e He.
        destruct (Ed e He) as [->|(n & ops & s & f & Q1 & Q2 & Q3 & Q4 & Q5 & Q6 & Q7)]; [left; reflexivity|]. right. exists n, ops, s, f. split; [exact Q1|].
        split; [apply (g_saved h o d V); exact Q2|]. split; [apply log_creds; exact Q3|]. split; [exact Q4|]. rewrite Tl in Q5, Q6. split; [exact Q5|]. split; [exact Q6|].
        intros s' Hs. destruct (Q7 s' Hs) as [Z|[Z1 Z2]]; [left; exact Z|right]. split; [apply Sc; exact Z1|exact Z2]. }
      assert (Common : forall o', NoDup o' -> (forall s, In s o' <-> In s o \/ s = c_said c) -> (forall l1 s l2, o' = l1 ++ s :: l2 -> acceptedIn h l1 (creds (logCred c a d)) s) -> vinv h o' (saveC c a d)).
      { intros o' Nd In' Or. destruct W as [A B C D F G H J K L M N0]. constructor; auto.
        - intros s. unfold saveC. cbn [saved]. rewrite In'. unfold fset. destruct (s =? c_said c) eqn:B0.
          + apply N.eqb_eq in B0. split; auto.
          + rewrite F. split; [auto|]. intros [Q| ->]; [exact Q|]. rewrite N.eqb_refl in B0. discriminate.
        - intros s Q. unfold saveC in *. cbn [saved creds] in *. unfold fset in Q. destruct (s =? c_said c) eqn:B0; [|apply G; exact Q]. apply N.eqb_eq in B0. subst s. apply log_has.
        - intros s i Q. unfold saveC in *. cbn [saved issus] in *. apply addDup_In in Q. destruct Q as [Q|[-> ->]].
          + destruct (K s i Q) as [Q1 Q2]. split; [|exact Q2]. unfold fset. destruct (s =? c_said c); auto.
          + rewrite fset_self. split; [reflexivity|]. exists c. auto.
        - intros s i Q. unfold saveC in *. cbn [saved schms] in *. apply addDup_In in Q. destruct Q as [Q|[-> ->]].
          + destruct (L s i Q) as [Q1 Q2]. split; [|exact Q2]. unfold fset. destruct (s =? c_said c); auto.
          + rewrite fset_self. split; [reflexivity|]. exists c. auto.
        - intros s i Q. unfold saveC in *. cbn [saved subjs] in *. assert (Z : In s (subjs (logCred c a d) i) \/ c_issuee c = Some i /\ s = c_said c).
          { destruct (c_issuee c) as [j|]; [|left; exact Q]. apply addDup_In in Q. destruct Q as [Q|[-> ->]]; auto. }
          destruct Z as [Z|[Z ->]].
          + destruct (M s i Z) as [Q1 Q2]. split; [|exact Q2]. unfold fset. destruct (s =? c_said c); auto.
          + rewrite fset_self. split; [reflexivity|]. exists c. auto.
        - intros s Q. unfold saveC in *. cbn [saved issus schms subjs] in *. unfold fset in Q. destruct (s =? c_said c) eqn:B0.
          + apply N.eqb_eq in B0. subst s. exists c. split; [exact Sn|]. split; [reflexivity|]. split; [apply addDup_In; auto|]. split; [apply addDup_In; auto|].
            intros i Hi. rewrite Hi. apply addDup_In. auto.
          + destruct (N0 s Q) as (c' & Q1 & Q2 & Q3 & Q4 & Q5). exists c'. split; [exact Q1|]. split; [exact Q2|]. split; [apply addDup_In; auto|]. split; [apply addDup_In; auto|].
            intros i Hi. specialize (Q5 i Hi). destruct (c_issuee c) as [j|]; [apply addDup_In; auto|exact Q5]. }
      destruct (in_dec N.eq_dec (c_said c) o) as [Yes|No].
      + exists o. split; [|exists []; symmetry; apply app_nil_r]. apply Common; [apply (g_nodup h o d V)| |apply (g_ord _ _ _ W)]. intros s. split; [auto|]. intros [Q| ->]; assumption.
      + exists (o ++ [c_said c]). split; [|exists [c_said c]; reflexivity]. apply Common.
        * pose proof (g_nodup h o d V) as Nd. clear - Nd No. induction o as [|y o IH]; [constructor; [intros []|constructor]|]. inversion Nd as [|? ? N1 N2]. subst. cbn. constructor; [|apply IH; [intros Q; apply No; right; exact Q|exact N2]].
          rewrite in_app_iff. intros [Q|[Q|[]]]; [exact (N1 Q)|]. apply No. left. congruence.
        * intros s. rewrite in_app_iff. cbn [In]. split; [intros [Q|[Q|[]]]; auto|]. intros [Q| ->]; auto.
        * intros l1 s l2 Q. destruct l2 as [|y l2].
          -- apply app_inj_tail in Q. destruct Q as [<- <-]. exists c, h0, h1. split; [reflexivity|]. split; [exact Sn|]. split; [reflexivity|exact AccC].
          -- apply (g_ord _ _ _ W l1 s (removelast (y :: l2))). pose proof (app_removelast_last 0 (l := y :: l2) ltac:(discriminate)) as Z. rewrite Z in Q.
             change (l1 ++ s :: removelast (y :: l2) ++ [List.last (y :: l2) 0]) with (l1 ++ (s :: removelast (y :: l2)) ++ [List.last (y :: l2) 0]) in Q. rewrite app_assoc in Q. apply app_inj_tail in Q. apply Q.
    - exists o. split; [|exists []; symmetry; apply app_nil_r]. unfold escrowC. pose proof (log_inv h o c a d V Sn An) as W. apply esc_inv; [exact W|].
      intros s t Q. apply eput_In in Q. destruct Q as [Q|Q]; [injection Q as -> _; apply log_has|]. apply (g_esc _ _ _ W w s t Q).
    - exists o. split; [exact V|exists []; symmetry; apply app_nil_r].
  Qed.
  Lemma vinv_frame : forall h o d d', vinv h o d -> creds d' = creds d -> cancs d' = cancs d -> saved d' = saved d -> issus d' = issus d -> schms d' = schms d -> subjs d' = subjs d -> escs d' = escs d -> vinv h o d'.
  Proof. intros h o d d' [A B C D F G H J K L M N0] Q1 Q2 Q3 Q4 Q5 Q6 Q7. constructor; rewrite ?Q1, ?Q2, ?Q3, ?Q4, ?Q5, ?Q6, ?Q7; assumption. Qed.

  Lemma vdo_inv : forall h o d x, d = vruns E cf X h vdb0 -> vinv h o d -> exists o', vinv (h ++ [x]) o' (vdo E cf X d x) /\ exists l, o' = o ++ l.
  Proof.
    intros h o d x Dr V. pose proof (vruns_tel E cf X h vdb0) as Tl. rewrite <- Dr in Tl. cbn [tel vdb0] in Tl.
    assert (Sc : forall s, schs d s = true -> In (VSchema s) h) by (intros s Q; rewrite Dr in Q; apply (vruns_schs E cf X); exact Q).
    pose proof (vinv_more h [x] o d V) as V1. clear V Dr. destruct x as [x|s|c a now|now]; cbn [vdo].
    - exists o. split; [|exists []; symmetry; apply app_nil_r]. eapply vinv_frame; [exact V1|..]; reflexivity.
    - exists o. split; [|exists []; symmetry; apply app_nil_r]. eapply vinv_frame; [exact V1|..]; reflexivity.
    - assert (Q : In (VCred c a now) (h ++ [VCred c a now])) by (apply in_or_app; right; left; reflexivity).
      apply (process_inv h [VCred c a now]); [exact V1|exact Tl|exact Sc|exists a, now; exact Q|exists c, now; split; [exact Q|reflexivity]].
    - apply (vsweep_P X (fun d => tel d = truns E cf (telOf h) tdb0 /\ (forall s, schs d s = true -> In (VSchema s) h) /\ exists o', vinv (h ++ [VSweep now]) o' d /\ exists l, o' = o ++ l) now); [| |].
      + intros d0 s c a (T0 & S0 & o0 & V0 & l0 & L0) Cr Ca. destruct (process_fr X c a now d0) as [F1 F2]. rewrite F1, F2. split; [exact T0|]. split; [exact S0|].
        destruct (g_creds _ _ _ V0 s c Cr) as [Q1 Q2]. destruct (g_canc _ _ _ V0 s a Ca) as (c' & t' & Q3 & Q4).
        destruct (process_inv h [VSweep now] o0 c a now d0 V0 T0 S0 Q2) as (o1 & W & l1 & L1); [exists c', t'; split; [exact Q3|congruence]|].
        exists o1. split; [exact W|]. exists (l0 ++ l1). rewrite L1, L0, app_assoc. reflexivity.
      + intros d0 w s (T0 & S0 & o0 & V0 & L0). split; [exact T0|]. split; [exact S0|]. exists o0. split; [apply erem_inv; exact V0|exact L0].
      + split; [exact Tl|]. split; [exact Sc|]. exists o. split; [exact V1|exists []; symmetry; apply app_nil_r].
  Qed.
  Lemma vinv0 : vinv [] [] vdb0.
  Proof.
    constructor; try (intros; discriminate); try (intros; contradiction).
    - constructor.
    - intros s. split; [discriminate|intros []].
    - intros l1 s l2 Q. destruct l1; discriminate.
  Qed.
  Lemma vruns_inv : forall h, exists o, vinv h o (vruns E cf X h vdb0).
  Proof.
    induction h as [|x h (o & IH)] using rev_ind; [exists []; exact vinv0|]. rewrite vruns_app. cbn [vruns fold_left]. destruct (vdo_inv h o _ x eq_refl IH) as (o' & V & _). exists o'. exact V.
  Qed.

  (** what is saved stays, and so do the credentials kept *)
  Definition keeps (d d' : vdb) : Prop :=
    (forall s, saved d s = true -> saved d' s = true) /\ (forall s c, creds d s = Some c -> creds d' s = Some c).
  Lemma keeps_refl : forall d, keeps d d.
  Proof. intros d. split; auto. Qed.
  Lemma keeps_trans : forall a b c, keeps a b -> keeps b c -> keeps a c.
  Proof. intros a b c [A B] [C D]. split; auto. Qed.
  Lemma keeps_process : forall c a now d, keeps d (fst (process X c a now d)).
  Proof.
    intros c a now d. unfold process. destruct (judge X c now d); cbn [fst]; [| |apply keeps_refl].
    - split; [|intros s f; apply log_creds]. intros s H. unfold saveC. cbn [saved]. unfold fset. destruct (s =? c_said c); [reflexivity|exact H].
    - split; [intros s H; exact H|intros s f; apply log_creds].
  Qed.
  Lemma keeps_do : forall x d, keeps d (vdo E cf X d x).
  Proof.
    intros x d. destruct x as [x|s|c a now|now]; cbn [vdo]; [split; auto|split; auto|apply keeps_process|].
    apply (vsweep_P X (keeps d) now); [| |apply keeps_refl].
    - intros d0 s c a K _ _. eapply keeps_trans; [exact K|apply keeps_process].
    - intros d0 w s K. exact K.
  Qed.
  Lemma keeps_runs : forall h d, keeps d (vruns E cf X h d).
  Proof. induction h as [|x h IH] using rev_ind; intros d; [apply keeps_refl|]. rewrite vruns_app. eapply keeps_trans; [apply IH|apply keeps_do]. Qed.

  (** processing the escrows never ends early *)
  Lemma loop_runs : forall now w rows d, (forall s t, In (s, t) rows -> creds d s <> None) -> (forall s, creds d s <> None -> cancs d s <> None) -> snd (escLoop X w now rows d) = true.
  Proof.
    intros now w rows. induction rows as [|(s, t) rows IH]; intros d R B; [reflexivity|]. cbn [escLoop]. destruct (escRow X w now (s, t) d) as [d'|] eqn:Er.
    - assert (K : keeps d d' /\ forall s, creds d' s <> None -> cancs d' s <> None).
      { revert Er. apply (escRow_P X (fun d' => keeps d d' /\ forall s, creds d' s <> None -> cancs d' s <> None) now); [| |split; [apply keeps_refl|exact B]].
        - intros d0 s0 c a [K0 B0] _ _. split; [eapply keeps_trans; [exact K0|apply keeps_process]|]. intros s1. unfold process. destruct (judge X c now d0); cbn [fst]; [| |apply B0].
          + unfold saveC, logCred. cbn [creds cancs]. unfold fset. destruct (s1 =? c_said c) eqn:Q; [discriminate|]. intros Z. apply B0. destruct (creds d0 (c_said c)); [exact Z|]. rewrite Q in Z. exact Z.
          + unfold escrowC, logCred. cbn [creds cancs eset set_escs]. unfold fset. destruct (s1 =? c_said c) eqn:Q; [discriminate|]. intros Z. apply B0. destruct (creds d0 (c_said c)); [exact Z|]. rewrite Q in Z. exact Z.
        - intros d0 w0 s0 K0. exact K0. }
      destruct K as [K B']. apply IH; [|exact B']. intros s' t' Q. pose proof (R s' t' (or_intror Q)) as Z. destruct (creds d s') as [f|] eqn:C; [|congruence]. rewrite (proj2 K s' f C). discriminate.
    - exfalso. unfold escRow in Er. pose proof (R s t (or_introl eq_refl)) as Z. pose proof (B s Z) as Z'. destruct (creds d s); [|congruence]. destruct (cancs d s); [discriminate|congruence].
  Qed.
  Lemma loop_rel : forall now w rows d, (forall s, creds d s <> None -> cancs d s <> None) -> (forall w s t, In (s, t) (escs d w) -> creds d s <> None) ->
    let d' := fst (escLoop X w now rows d) in (forall s, creds d' s <> None -> cancs d' s <> None) /\ (forall w s t, In (s, t) (escs d' w) -> creds d' s <> None).
  Proof.
    intros now w rows d B Es. apply (escLoop_P X (fun d' => (forall s, creds d' s <> None -> cancs d' s <> None) /\ (forall w s t, In (s, t) (escs d' w) -> creds d' s <> None)) now); [| |split; assumption].
    - intros d0 s0 c a [B0 E0] _ _. assert (Lc : forall s, creds (logCred c a d0) s <> None -> cancs (logCred c a d0) s <> None).
      { intros s. unfold logCred. cbn [creds cancs]. unfold fset. destruct (s =? c_said c) eqn:Q; [discriminate|]. intros Z. apply B0. destruct (creds d0 (c_said c)); [exact Z|]. rewrite Q in Z. exact Z. }
      assert (Mo : forall s, creds d0 s <> None -> creds (logCred c a d0) s <> None).
      { intros s Z. destruct (creds d0 s) as [f|] eqn:C; [|congruence]. rewrite (log_creds c a d0 s f C). discriminate. }
      unfold process. destruct (judge X c now d0) as [|w0|x]; cbn [fst]; [| |split; assumption].
      + split; [exact Lc|]. intros w1 s t Q. apply Mo. apply (E0 w1 s t Q).
      + split; [exact Lc|]. intros w1 s t Q. cbn [escrowC eset set_escs escs creds] in *. destruct (wait_eqb w1 w0); [|apply Mo; apply (E0 w1 s t Q)].
        apply eput_In in Q. destruct Q as [Q|Q]; [injection Q as -> _; apply log_has|]. apply Mo. apply (E0 w0 s t Q).
    - intros d0 w0 s0 [B0 E0]. split; [exact B0|]. intros w1 s t Q. cbn [eset set_escs escs creds] in *. destruct (wait_eqb w1 w0); [|apply (E0 w1 s t Q)]. apply filter_In in Q. apply (E0 w0 s t). apply Q.
  Qed.
  Lemma sweep_runs : forall h now, snd (vsweep X now (vruns E cf X h vdb0)) = true.
  Proof.
    intros h now. destruct (vruns_inv h) as (o & V). set (d := vruns E cf X h vdb0) in *. pose proof (g_both _ _ _ V) as B. pose proof (g_esc _ _ _ V) as Es. clearbody d. clear V. unfold vsweep.
    pose proof (loop_runs now MCE (escs d MCE) d (Es MCE) B) as R1. destruct (loop_rel now MCE (escs d MCE) d B Es) as [B1 E1]. destruct (escLoop X MCE now (escs d MCE) d) as (d1, b1). cbn [fst snd] in *. subst b1.
    pose proof (loop_runs now MSE (escs d1 MSE) d1 (E1 MSE) B1) as R2. destruct (loop_rel now MSE (escs d1 MSE) d1 B1 E1) as [B2 E2]. destruct (escLoop X MSE now (escs d1 MSE) d1) as (d2, b2). cbn [fst snd] in *. subst b2.
    apply loop_runs; [apply E2|exact B2].
  Qed.
End I.
