(** Proofs about structures: what every constructor establishes. *)
From Verif Require Import Prelude B64Model B64Proofs MatterModel MatterProofs MatterInv MatterBinInv MatterSpec MatterThms SubsModel SubsThms CtrModel CtrProofs CtrThms ThModel VerModel JsonModel SerModel SerSpec SerProofs NmModel NmProofs NmProofs3 NkModel NkSpec MzModel BlModel BlSpec BlProofs.
Open Scope N_scope.
Ltac Zify.zify_post_hook ::= Z.div_mod_to_equations.
Notation val := JsonModel.val.

Lemma f2_length : forall A B (R : A -> B -> Prop) l l', Forall2 R l l' -> List.length l = List.length l'.
Proof. intros A B R l l' F. induction F; cbn [List.length]; congruence. Qed.
Lemma check_id : forall k m m', check k m = Ok m' -> m' = m.
Proof.
  intros k m m' H. destruct k; cbn [check] in H; unfold inLabelDex, isVerser in H; repeat (apply raise_if_ok in H; destruct H as [_ H]); apply ok_inj in H; auto.
Qed.
(** a primitive of class [k] that can be written and read again *)
Definition fit (k : kls) (m : matter) : Prop := check k m = Ok m /\ exists q, rw m q.
Lemma readText_fit : forall k s m, readText k s = Ok m -> fit k m.
Proof.
  intros k s m H. unfold readText in H. apply bind_ok in H. destruct H as (m' & X & C). pose proof (check_id _ _ _ C). subst m'.
  split; [exact C|exact (exfil_rw _ _ X)].
Qed.
Lemma readBin_fit : forall k s m, octets s -> readBin k s = Ok m -> fit k m /\ built m.
Proof.
  intros k s m O8 H. unfold readBin in H. apply bind_ok in H. destruct H as (m' & X & C). pose proof (check_id _ _ _ C). subst m'.
  pose proof (built_qb2 _ _ O8 X) as B. split; [|exact B]. split; [exact C|exact (built_rw _ B)].
Qed.
Lemma number_fit : forall n m, number_of_num n None = Ok m -> fit KNumber m.
Proof.
  intros n m H. pose proof (number_dex _ _ _ H) as D. split; [cbn [check]; rewrite D; reflexivity|]. apply built_rw. exact (number_built _ _ _ H).
Qed.
Lemma noncer_fit : forall s m, noncer_of_nonce s = Ok m -> fit KNoncer m.
Proof.
  intros s m H. unfold noncer_of_nonce in H. apply bind_ok in H. destruct H as (m' & X & C). pose proof (check_id _ _ _ C). subst m'. split; [exact C|].
  destruct s as [|x s]; [|exact (exfil_rw _ _ X)]. apply built_rw. eapply built_raw; [|exact X]. constructor.
Qed.
Lemma castVal_fit : forall k v m, crewOk v -> castVal k v = Ok m -> fit k m.
Proof.
  intros k v m O8 H. destruct v as [ | |z|s| | ]; destruct k; try discriminate; cbn [castVal crewOk] in *.
  - apply raise_if_ok in H. destruct H as [_ H]. exact (number_fit _ _ H).
  - exact (readText_fit _ _ _ H).
  - exact (readText_fit _ _ _ H).
  - unfold number_of_numh in H. apply bind_ok in H. destruct H as (n & _ & H). exact (number_fit _ _ H).
  - exact (readText_fit _ _ _ H).
  - exact (noncer_fit _ _ H).
  - pose proof (labeler_text_built _ _ O8 H) as B. split; [|exact (built_rw _ B)]. unfold labeler_text in H. apply bind_ok in H. destruct H as (m' & _ & C). pose proof (check_id KLabeler _ _ C). subst m'. exact C.
  - unfold texter_of_text in H. apply bind_ok in H. destruct H as (m' & X & C). pose proof (check_id _ _ _ C). subst m'. split; [exact C|]. apply built_rw. eapply built_raw; [|exact X]. exact O8.
  - exact (readText_fit _ _ _ H).
Qed.
Lemma castAll_fit : forall ks vs ms, Forall crewOk vs -> castAll ks vs = Ok ms -> Forall2 fit ks ms.
Proof.
  induction ks as [|k ks IH]; intros [|v vs] ms F H; try discriminate; cbn [castAll] in H.
  - apply ok_inj in H. subst ms. constructor.
  - inversion F as [|? ? F1 F2]; subst. apply bind_ok in H. destruct H as (m & M & H). apply bind_ok in H. destruct H as (ms' & MS & H). apply ok_inj in H. subst ms.
    constructor; [exact (castVal_fit _ _ _ F1 M)|]. exact (IH _ _ F2 MS).
Qed.
Lemma textAll_fit : forall ks s ms r, textAll ks s = Ok (ms, r) -> Forall2 fit ks ms.
Proof.
  induction ks as [|k ks IH]; intros s ms r H; cbn [textAll] in H.
  - apply ok_inj in H. injection H as <- _. constructor.
  - apply bind_ok in H. destruct H as (m & M & H). apply bind_ok in H. destruct H as (q & _ & H). apply bind_ok in H. destruct H as ([ms' r'] & T & H). apply ok_inj in H. injection H as <- _.
    constructor; [exact (readText_fit _ _ _ M)|]. exact (IH _ _ _ T).
Qed.
Lemma octets_ndrop : forall n s, octets s -> octets (ndrop n s).
Proof. intros n s H. apply Forall_skipn. exact H. Qed.
Lemma binAll_fit : forall ks s ms r, octets s -> binAll ks s = Ok (ms, r) -> Forall2 fit ks ms.
Proof.
  induction ks as [|k ks IH]; intros s ms r O8 H; cbn [binAll] in H.
  - apply ok_inj in H. injection H as <- _. constructor.
  - apply bind_ok in H. destruct H as (m & M & H). apply bind_ok in H. destruct H as (q & _ & H). apply bind_ok in H. destruct H as ([ms' r'] & T & H). apply ok_inj in H. injection H as <- _.
    constructor; [exact (proj1 (readBin_fit _ _ _ O8 M))|]. exact (IH _ _ _ (octets_ndrop _ _ O8) T).
Qed.

Lemma fit_rw : forall ks ms, Forall2 fit ks ms -> exists qs, Forall2 rw ms qs.
Proof.
  intros ks ms F. induction F as [|k m ks ms H F IH]; [exists []; constructor|]. destruct IH as (qs & IH). destruct H as [_ (q & Q)]. exists (q :: qs). constructor; assumption.
Qed.
Lemma matsB_rw : forall ms qs, Forall2 rw ms qs -> matsB ms = Ok (List.concat qs).
Proof.
  unfold matsB. intros ms qs F. induction F as [|m q ms qs H F IH]; [reflexivity|]. cbn [map cat]. rewrite (rw_infil _ _ H). cbn [bind]. rewrite IH. reflexivity.
Qed.

Section Digest.
Variable digest : bytes -> bytes -> bytes.
Hypothesis DOK : digest_ok digest.

Lemma saidCode_dig : forall d, In (saidCode d) DigDex.
Proof. intros d. unfold saidCode. destruct (memB (m_code d) DigDex) eqn:E; [apply memB_In; exact E|]. apply memB_In. reflexivity. Qed.
Lemma saidText_eq : forall d rest qd qs, rw d qd -> Forall2 rw rest qs ->
  saidText digest (d :: rest) = digerOf digest (saidCode d) (repeat 35 (N.to_nat (if len (saidCode d) =? 1 then 44 else 88)) ++ List.concat qs).
Proof.
  intros d rest qd qs R F. unfold saidText. rewrite (rw_infil _ _ R). cbn [bind]. rewrite (matsB_rw _ _ F). cbn [bind].
  destruct (dig_sizes _ (saidCode_dig d)) as (sz & S & _ & FS & _). rewrite S, FS. reflexivity.
Qed.
Lemma dummy_len : forall d (t : bytes), len t = (if len (saidCode d) =? 1 then 44 else 88) -> N.to_nat (if len (saidCode d) =? 1 then 44 else 88) = List.length t.
Proof. intros d t L. rewrite <- L. unfold len. lia. Qed.
(** the data of a settled structor whose class computes SAIDs *)
Definition saided (ms : list matter) : Prop := exists d rest qd qs, ms = d :: rest /\ rw d qd /\ Forall2 rw rest qs /\ In (m_code d) DigDex /\
  isDigestOf digest (m_code d) (repeat 35 (List.length qd) ++ List.concat qs) qd.
Lemma verify_saided : forall ks ms, Forall2 fit ks ms -> verifySaid digest ms = Ok tt -> saided ms.
Proof.
  intros ks ms F H. unfold verifySaid in H. apply bind_ok in H. destruct H as (said & S & H). destruct ms as [|d rest]; [discriminate|].
  inversion F as [|k ? ks' ? F1 F2]; subst. destruct F1 as [_ (qd & R)]. destruct (fit_rw _ _ F2) as (qs & FQ).
  rewrite (rw_infil _ _ R) in H. cbn [bind] in H. apply raise_if_ok in H. destruct H as [E _]. apply negb_false_iff, beq_eq in E. subst said.
  rewrite (saidText_eq _ _ _ _ R FQ) in S. destruct (digerOf_inv _ _ _ _ DOK S) as ((C & X & I) & L & _).
  pose proof (rw_exfil _ _ R []) as X'. rewrite app_nil_r, X in X'. apply ok_inj in X'. assert (MC : m_code d = saidCode d) by (pose proof (f_equal m_code X') as MC; cbn [m_code] in MC; congruence).
  exists d, rest, qd, qs. rewrite (dummy_len _ _ L) in X, I, S. rewrite MC. split; [reflexivity|]. split; [exact R|]. split; [exact FQ|]. split; [exact C|].
  split; [exact C|]. split; assumption.
Qed.
Lemma noncer_dig : forall c, In c DigDex -> memB c NonceDex = true.
Proof. intros c H. apply memB_In. unfold NonceDex. apply in_or_app. right. exact H. Qed.
Lemma makify_saided : forall ks ms ms', Forall2 fit ks ms -> makify digest ms = Ok ms' -> saided ms' /\ tl ms' = tl ms /\ (forall ks', ks = KNoncer :: ks' -> Forall2 fit ks ms').
Proof.
  intros ks ms ms' F H. unfold makify in H. apply bind_ok in H. destruct H as (said & S & H). apply bind_ok in H. destruct H as (m & M & H). apply ok_inj in H. subst ms'.
  destruct ms as [|d rest]; [discriminate|]. inversion F as [|k ? ks' ? F1 F2]; subst. destruct F1 as [_ (qd & R)]. destruct (fit_rw _ _ F2) as (qs & FQ). cbn [tl].
  rewrite (saidText_eq _ _ _ _ R FQ) in S. destruct (digerOf_inv _ _ _ _ DOK S) as ((C & X & I) & L & _).
  pose proof (readText_fit _ _ _ M) as FM. unfold readText in M. rewrite X in M. cbn [bind] in M. apply check_id in M. subst m.
  rewrite (dummy_len _ _ L) in X, I, S, FM. rewrite (dummy_len _ _ L). split; [|split; [reflexivity|]].
  - eexists _, rest, said, qs. split; [reflexivity|]. destruct FM as [_ (q & Q)].
    assert (q = said) by (pose proof (rw_infil _ _ Q) as Y; rewrite I in Y; apply ok_inj in Y; congruence). subst q. split; [exact Q|]. split; [exact FQ|]. split; [exact C|].
    split; [exact C|]. split; assumption.
  - intros ks0 E. injection E as -> ->. constructor; [exact FM|exact F2].
Qed.
Lemma saided_verify : forall ms, saided ms -> verifySaid digest ms = Ok tt.
Proof.
  intros ms (d & rest & qd & qs & -> & R & FQ & C & (C' & X & I)). unfold verifySaid. rewrite (saidText_eq _ _ _ _ R FQ).
  assert (SC : saidCode d = m_code d) by (unfold saidCode; apply memB_In in C; rewrite C; reflexivity). rewrite SC.
  pose proof (dig_text digest (m_code d) (repeat 35 (List.length qd) ++ List.concat qs) DOK C) as (t & (_ & _ & I2) & L & _). rewrite I in I2. apply ok_inj in I2. subst t.
  replace (N.to_nat (if len (m_code d) =? 1 then 44 else 88)) with (List.length qd) by (rewrite <- L; unfold len; lia).
  destruct (digerOf_ok digest (m_code d) (repeat 35 (List.length qd) ++ List.concat qs) DOK C) as (t & T & (_ & _ & I3) & _).
  { pose proof (rw_ne _ _ R). destruct qd; [congruence|discriminate]. }
  rewrite I in I3. apply ok_inj in I3. subst t. rewrite T. cbn [bind]. rewrite (rw_infil _ _ R). cbn [bind]. rewrite beq_refl. reflexivity.
Qed.

(** what is known of every structor *)
Record sound (f : family) (s : structor) : Prop := {
  sd_clan : hasClan f (s_clan s) = true;
  sd_fit : Forall2 fit (castOf (s_clan s)) (s_data s);
  sd_said : saidive f = true -> saided (s_data s) }.
Lemma said_first : forall f c, saidive f = true -> hasClan f c = true -> exists ks, castOf c = KNoncer :: ks.
Proof. intros f c S H. destruct f; try discriminate; destruct c; try discriminate; eexists; reflexivity. Qed.
Lemma settle_sound : forall f make c ms s, hasClan f c = true -> Forall2 fit (castOf c) ms -> settle digest f make c ms = Ok s -> sound f s /\ s_clan s = c.
Proof.
  intros f make c ms s C F H. unfold settle in H. destruct (saidive f) eqn:SV.
  - destruct make; apply bind_ok in H.
    + destruct H as (ms' & M & H). apply ok_inj in H. subst s. destruct (makify_saided _ _ _ F M) as (SD & _ & FF). destruct (said_first _ _ SV C) as (ks & K).
      split; [|reflexivity]. constructor; cbn [s_clan s_data]; [exact C|exact (FF _ K)|intros _; exact SD].
    + destruct H as ([] & V & H). apply ok_inj in H. subst s. split; [|reflexivity]. constructor; cbn [s_clan s_data]; [exact C|exact F|]. intros _. exact (verify_saided _ _ F V).
  - apply ok_inj in H. subst s. split; [|reflexivity]. constructor; cbn [s_clan s_data]; [exact C|exact F|]. intros E. congruence.
Qed.
Lemma ofCrew_sound : forall f make c crew s, Forall crewOk crew -> ofCrew digest f make c crew = Ok s -> sound f s /\ s_clan s = c.
Proof.
  intros f make c crew s O8 H. unfold ofCrew in H. apply raise_if_ok in H. destruct H as [C H]. apply negb_false_iff in C. apply bind_ok in H. destruct H as (ms & M & H).
  exact (settle_sound _ _ _ _ _ C (castAll_fit _ _ _ O8 M) H).
Qed.
Lemma ofText_sound : forall f c q s r, ofText digest f c q = Ok (s, r) -> sound f s /\ s_clan s = c.
Proof.
  intros f c q s r H. unfold ofText in H. apply raise_if_ok in H. destruct H as [C H]. apply negb_false_iff in C. destruct q as [|x q]; [discriminate|].
  apply bind_ok in H. destruct H as ([ms r'] & M & H). apply bind_ok in H. destruct H as (t & T & H). apply ok_inj in H. injection H as <- _.
  exact (settle_sound _ _ _ _ _ C (textAll_fit _ _ _ _ M) T).
Qed.
Lemma ofBin_sound : forall f c q s r, octets q -> ofBin digest f c q = Ok (s, r) -> sound f s /\ s_clan s = c.
Proof.
  intros f c q s r O8 H. unfold ofBin in H. apply raise_if_ok in H. destruct H as [C H]. apply negb_false_iff in C. destruct q as [|x q]; [discriminate|].
  apply bind_ok in H. destruct H as ([ms r'] & M & H). apply bind_ok in H. destruct H as (t & T & H). apply ok_inj in H. injection H as <- _.
  exact (settle_sound _ _ _ _ _ C (binAll_fit _ _ _ _ O8 M) T).
Qed.
Lemma obtained_sound : forall f s, obtained digest f s -> sound f s.
Proof.
  intros f s [make c crew O8 H|c q r H|c q r O8 H]; [exact (proj1 (ofCrew_sound _ _ _ _ _ O8 H))|exact (proj1 (ofText_sound _ _ _ _ _ H))|exact (proj1 (ofBin_sound _ _ _ _ _ O8 H))].
Qed.

(** ** Binding *)
Lemma said_over : forall f s, saidive f = true -> obtained digest f s -> saidOver digest s.
Proof.
  intros f s SV H. apply obtained_sound in H. destruct (sd_said _ _ H SV) as (d & rest & qd & qs & E & R & FQ & C & D).
  exists (m_code d), qd, d, rest, qs. split; [exact E|]. split; [exact (rw_infil _ _ R)|]. split; [|exact D].
  clear - FQ. induction FQ as [|m q ms qs H F IH]; constructor; [exact (rw_infil _ _ H)|exact IH].
Qed.
(** concatenations of texts of primitives *)
Lemma concat_inj : forall ms qs ms' qs', Forall2 rw ms qs -> Forall2 rw ms' qs' -> List.concat qs = List.concat qs' -> ms = ms'.
Proof.
  intros ms qs ms' qs' F. revert ms' qs'. induction F as [|m q ms qs H F IH]; intros ms' qs' F' E.
  - destruct F' as [|m' q' ms' qs' H' F']; [reflexivity|]. cbn [List.concat] in E. destruct q' as [|x q']; [destruct (rw_ne _ _ H'); reflexivity|discriminate].
  - destruct F' as [|m' q' ms' qs' H' F']; cbn [List.concat] in E.
    + destruct q as [|x q]; [destruct (rw_ne _ _ H); reflexivity|discriminate].
    + destruct (rw_prefix _ _ _ _ _ _ H H' E) as (-> & _ & E'). rewrite (IH _ _ F' E'). reflexivity.
Qed.
Lemma clan_len : forall f c c', saidive f = true -> hasClan f c = true -> hasClan f c' = true -> List.length (castOf c) = List.length (castOf c') -> c = c'.
Proof. intros f c c' S H H' L. destruct f; try discriminate; destruct c; try discriminate; destruct c'; try discriminate; reflexivity. Qed.
Lemma binding : forall f s1 s2, saidive f = true -> obtained digest f s1 -> obtained digest f s2 -> saidOfSt s1 = saidOfSt s2 -> s1 = s2 \/ collision digest.
Proof.
  intros f s1 s2 SV H1 H2 E. apply obtained_sound in H1. apply obtained_sound in H2.
  destruct (sd_said _ _ H1 SV) as (d1 & rest1 & q1 & qs1 & E1 & R1 & F1 & C1 & (_ & X1 & I1)).
  destruct (sd_said _ _ H2 SV) as (d2 & rest2 & q2 & qs2 & E2 & R2 & F2 & C2 & (_ & X2 & I2)).
  unfold saidOfSt in E. rewrite E1, E2, (rw_infil _ _ R1), (rw_infil _ _ R2) in E. apply ok_inj in E. subst q2.
  pose proof (rw_exfil _ _ R1 []) as Y1. pose proof (rw_exfil _ _ R2 []) as Y2. rewrite Y1 in Y2. apply ok_inj in Y2. subst d2.
  rewrite X1 in X2. apply ok_inj in X2. injection X2 as X2.
  destruct (list_N_dec (List.concat qs1) (List.concat qs2)) as [EQ|NE].
  - left. pose proof (concat_inj _ _ _ _ F1 F2 EQ). subst rest2. assert (s_data s1 = s_data s2) by congruence.
    pose proof (f2_length _ _ _ _ _ (sd_fit _ _ H1)) as L1. pose proof (f2_length _ _ _ _ _ (sd_fit _ _ H2)) as L2. rewrite H in L1.
    pose proof (clan_len _ _ _ SV (sd_clan _ _ H1) (sd_clan _ _ H2) ltac:(congruence)). destruct s1 as [c1 ms1], s2 as [c2 ms2]; cbn [s_clan s_data] in *. congruence.
  - right. exists (m_code d1), (repeat 35 (List.length q1) ++ List.concat qs1), (repeat 35 (List.length q1) ++ List.concat qs2).
    split; [exact C1|]. split; [|exact X2]. intros A. apply app_inv_head in A. contradiction.
Qed.
End Digest.
