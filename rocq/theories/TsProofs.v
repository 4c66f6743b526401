(** Proofs about notices of transaction states. *)
From Coq Require Import Lia.
From Verif Require Import Prelude SubsModel ThModel ThProofs JsonModel JsonProofs RpModel RpSpec RpProofs TsModel TsSpec.
Ltac Zify.zify_post_hook ::= Z.div_mod_to_equations.
Open Scope N_scope.

(** ** tables *)
Lemma etyp_eqb_eq : forall a b, etyp_eqb a b = true <-> a = b.
Proof. intros [] []; cbn; split; intros H; try reflexivity; discriminate H. Qed.
Lemma entry_eqb_eq : forall a b, entry_eqb a b = true <-> a = b.
Proof.
  intros [[[t p] q] d] [[[t' p'] q'] d']. cbn. rewrite !andb_true_iff, etyp_eqb_eq, !beq_eq. split.
  - intros (((-> & ->) & ->) & ->). reflexivity.
  - intros H. injection H as -> -> -> ->. auto.
Qed.
Lemma naget_naset : forall l p q d p' q', naget (naset l p q d) p' q' = if beq p p' && beq q q' then Some d else naget l p' q'.
Proof.
  intros l p q d p' q'. unfold naset. cbn [naget]. destruct (beq p p' && beq q q') eqn:M; [reflexivity|].
  induction l as [|[[a b] c] l IH]; [reflexivity|]. cbn [filter fst snd]. destruct (beq a p && beq b q) eqn:K; cbn [negb].
  - rewrite IH. cbn [naget]. apply andb_true_iff in K. destruct K as [K1 K2]. apply beq_eq in K1, K2. subst a b. rewrite M. reflexivity.
  - cbn [naget]. rewrite IH. reflexivity.
Qed.
Lemma naset_same : forall l p q d, naget (naset l p q d) p q = Some d.
Proof. intros. rewrite naget_naset, !beq_refl. reflexivity. Qed.
Lemma dget_dset_some : forall {V} (l : list (bytes * V)) k v k', dget l k' <> None -> dget (dset l k v) k' <> None.
Proof. intros V l k v k' H. rewrite dget_dset. destruct (beq k' k); [discriminate|exact H]. Qed.
Lemma dget_dput_some : forall {V} (l : list (bytes * V)) k v k' x, dget l k' = Some x -> dget (dput l k v) k' = Some x.
Proof. intros V l k v k' x H. rewrite dget_dput, H. reflexivity. Qed.
Lemma dget_dput_new : forall {V} (l : list (bytes * V)) k v, dget l k = None \/ dget l k = Some v -> dget (dput l k v) k = Some v.
Proof. intros V l k v [H|H]; rewrite dget_dput, H, ?beq_refl; reflexivity. Qed.
Lemma putCigs_get : forall cs said l k, dget (putCigs said cs l) k =
  if beq k said then match cs with [] => dget l k | _ => dget (putCigs said cs l) said end else dget l k.
Proof.
  intros cs said l k. destruct (beq k said) eqn:K.
  - apply beq_eq in K. subst k. destruct cs; reflexivity.
  - unfold putCigs. revert l. induction cs as [|c cs IH]; intros l; [reflexivity|]. cbn [fold_left]. rewrite IH, dget_dset, K. reflexivity.
Qed.
Lemma putCigs_keep : forall cs said l cg x, dget l said = Some x -> In cg x -> exists y, dget (putCigs said cs l) said = Some y /\ In cg y.
Proof.
  unfold putCigs. induction cs as [|c cs IH]; intros said l cg x H I; [exists x; auto|]. cbn [fold_left]. eapply IH; [rewrite dget_dset, beq_refl; reflexivity|].
  rewrite H. destruct (existsb (sameC c) x); [exact I|]. apply in_or_app. left. exact I.
Qed.
Lemma sameC_eq : forall a b, sameC a b = true -> a = b.
Proof. intros [k r] [k' r'] H. unfold sameC in H. cbn in H. apply andb_true_iff in H. destruct H as [H1 H2]. apply beq_eq in H1, H2. subst. reflexivity. Qed.
Lemma putCigs_new : forall cs said l cg, In cg cs -> exists y, dget (putCigs said cs l) said = Some y /\ In cg y.
Proof.
  induction cs as [|c cs IH]; intros said l cg I; [destruct I|]. destruct I as [->|I]; [|exact (IH said _ cg I)].
  change (exists y, dget (putCigs said cs (let old := match dget l said with Some x => x | None => [] end in
     dset l said (if existsb (sameC cg) old then old else old ++ [cg]))) said = Some y /\ In cg y). cbv zeta.
  eapply putCigs_keep; [rewrite dget_dset, beq_refl; reflexivity|].
  destruct (existsb (sameC cg) _) eqn:X; [|apply in_or_app; right; left; reflexivity].
  apply existsb_exists in X. destruct X as (y & Y & Q). apply sameC_eq in Q. subst y. exact Y.
Qed.
Lemma putGrps_other : forall gs d l s, s <> d -> fetchTsgs (putGrps d gs l) s None = fetchTsgs l s None.
Proof.
  unfold putGrps. induction gs as [|g gs IH]; intros d l s N; [reflexivity|]. cbn [fold_left]. rewrite IH by exact N. apply fetch_tput_other. cbn. congruence.
Qed.

(** ** what acceptReply leaves *)
Section Acc.
Variable e : renv.
Lemma rem_sdts : forall o d k, dget (sdts (removeReply o d)) k <> None -> dget (sdts d) k <> None.
Proof. intros [o|] d k H; [|exact H]. cbn in H. rewrite dget_drem in H. destruct (beq k o); [elim H; reflexivity|exact H]. Qed.
Lemma put_sdts : forall r d k, dget (sdts (putReply r d)) k <> None -> dget (sdts d) k <> None \/ k = q_said r.
Proof.
  intros r d k H. cbn [putReply sdts setRpys setSdts] in H. rewrite dget_dput in H. destruct (dget (sdts d) k); [left; discriminate|].
  destruct (beq k (q_said r)) eqn:K; [apply beq_eq in K; right; exact K|left; exact H].
Qed.
Lemma grpLoop_sdts : forall gs kv r route aid o odt acc d d' x, grpLoop e kv r route aid o odt acc gs d = (d', x) ->
  forall k, dget (sdts d') k <> None -> dget (sdts d) k <> None \/ k = q_said r.
Proof.
  induction gs as [|g gs IH]; intros kv r route aid o odt acc d d' x H k G.
  - injection H as <- <-. left. exact G.
  - destruct (grpLoop_cons _ _ _ _ _ _ _ _ _ _ _ _ _ H) as (q & d1 & RR & K).
    assert (G1 : dget (sdts d1) k <> None \/ k = q_said r).
    { destruct q as [b|]; [exact (IH _ _ _ _ _ _ _ _ _ _ K k G)|]. destruct K as [-> _]. left. exact G. }
    destruct G1 as [G1|G1]; [|right; exact G1].
    destruct RR; try (left; exact G1).
    + destruct (g_sigs g); [left; exact G1|]. apply put_sdts. exact G1.
    + destruct vs; [left; exact G1|]. apply put_sdts. exact G1.
    + apply rem_sdts in G1. apply put_sdts. exact G1.
Qed.
Lemma accept_sdts : forall kv r route aid o cs gs d d' x, acceptReply e kv r route aid o cs gs d = (d', x) ->
  forall k, dget (sdts d') k <> None -> dget (sdts d) k <> None \/ k = q_said r.
Proof.
  intros kv r route aid o cs gs d d' x H k G. rewrite acceptReply_eq in H.
  destruct (cigLoop e r aid o (odtOf o d) cs d) as [d1 y] eqn:C.
  destruct (cigLoop_spec _ _ _ _ _ _ _ _ _ C) as [(-> & ->)|(-> & cg & _ & _ & _ & _ & _ & ->)].
  - eapply grpLoop_sdts; eauto.
  - destruct (grpLoop_sdts _ _ _ _ _ _ _ _ _ _ _ H k G) as [G1|G1]; [|right; exact G1].
    apply rem_sdts in G1. apply put_sdts. exact G1.
Qed.
(** a good couple is enough when nothing is obsoleted *)
Lemma accept_cig : forall kv r route aid o cs cg d, In cg cs -> c_key cg = aid -> trans e aid = false -> vrfy e aid (c_raw cg) (q_raw r) = true ->
  ~ In aid (owns e) -> odtOf o d = None -> exists d', acceptReply e kv r route aid o cs [] d = (d', Ok true).
Proof.
  intros kv r route aid o cs cg d I K T V OW OD. rewrite acceptReply_eq, OD.
  assert (SK : skipOwn e aid = false).
  { unfold skipOwn. assert (M : memB aid (owns e) = false).
    { destruct (memB aid (owns e)) eqn:M; [|reflexivity]. elim OW. unfold memB in M. apply existsb_exists in M. destruct M as (z & Z & Q). apply beq_eq in Q. subst z. exact Z. }
    rewrite M. rewrite andb_false_r. reflexivity. }
  assert (L : exists d', cigLoop e r aid o None cs d = (d', Ok true)).
  { induction cs as [|c cs IH]; [destruct I|]. cbn [cigLoop]. destruct I as [->|I].
    - rewrite K, T, SK, beq_refl, V. cbn. eexists. reflexivity.
    - specialize (IH I). destruct (trans e (c_key c)); [exact IH|]. destruct (skipOwn e (c_key c)); [exact IH|].
      destruct (negb (beq aid (c_key c))); [exact IH|]. destruct (negb (vrfy e (c_key c) (c_raw c) (q_raw r))); [exact IH|]. cbn. eexists. reflexivity. }
  destruct L as (d' & ->). exists d'. reflexivity.
Qed.
End Acc.

Section Ts.
Variable E : tenv.

(** ** how a handler ends *)
Lemma stranger_no : forall aid pre baks, stranger E aid pre baks = false <-> maySpeak E aid pre baks.
Proof.
  intros aid pre baks. unfold stranger, maySpeak.
  assert (MB : forall l, memB aid l = true <-> In aid l).
  { intros l. unfold memB. rewrite existsb_exists. split; [intros (z & Z & Q); apply beq_eq in Q; subst z; exact Z|intros Z; exists aid; split; [exact Z|apply beq_refl]]. }
  pose proof (MB baks) as M1. pose proof (MB (twats E)) as M2. destruct (tlax E); cbn [negb andb]; [split; auto|].
  destruct (beq aid pre) eqn:K; cbn [negb andb]; [apply beq_eq in K; split; auto|]. apply beq_neq in K.
  destruct (memB aid baks); cbn [negb andb]; [split; [intros _; right; right; left; apply M1; reflexivity|reflexivity]|].
  destruct (memB aid (twats E)); cbn [negb andb]; [split; [intros _; right; right; right; apply M2; reflexivity|reflexivity]|].
  split; [discriminate|]. intros [H|[H|[H|H]]]; [discriminate|congruence|apply M1 in H; discriminate|apply M2 in H; discriminate].
Qed.
Definition tag (reg : bool) (t : etyp) : Prop := isReg t = reg.
Inductive ends (reg : bool) (v : view) (r : reply) (aid : bytes) (cs : list cigar) (gs : list group) (s : st) : st -> unit + texn -> Prop :=
| e_no : forall d e, (d = R s \/ exists o x, acceptReply (rv E) (kv v) r (q_route r) aid o cs gs (R s) = (d, x)) ->
    ends reg v r aid cs gs s (mkS d (B s) (cues s)) (inr e)
| e_park : forall d t pre q e, (d = R s \/ exists o x, acceptReply (rv E) (kv v) r (q_route r) aid o cs gs (R s) = (d, x)) -> isReg t = reg ->
    (if reg then exists x, asReg E r = Some x /\ r_i x = pre else exists x, asVc E r = Some x /\ v_i x = pre) ->
    ends reg v r aid cs gs s (fst (park t pre aid r cs gs q e (mkS d (B s) (cues s)))) (inr e)
| e_save : forall d id n, acceptReply (rv E) (kv v) r (q_route r) aid (current (B s) id aid) cs gs (R s) = (d, Ok true) -> ready E v reg r aid id n ->
    ends reg v r aid cs gs s (save id aid r n (mkS d (B s) (cues s))) (inl tt).
Lemma sigma : forall s, s = mkS (R s) (B s) (cues s).
Proof. intros []. reflexivity. Qed.
Lemma park_exn : forall t pre aid r cs gs q e s, snd (park t pre aid r cs gs q e s) = inr e.
Proof. intros. unfold park. destruct (escrow _ _ _ _ _ _ _). reflexivity. Qed.
Lemma park_eq : forall t pre aid r cs gs q e s, park t pre aid r cs gs q e s = (fst (park t pre aid r cs gs q e s), inr e).
Proof. intros. rewrite <- (park_exn t pre aid r cs gs q e s). apply surjective_pairing. Qed.
Lemma handle_ends : forall reg v r aid cs gs s, ends reg v r aid cs gs s (fst (handle E reg v r aid cs gs s)) (snd (handle E reg v r aid cs gs s)).
Proof.
  intros reg v r aid cs gs s.
  assert (NO : forall e, ends reg v r aid cs gs s s (inr e)) by (intros e; pattern s at 2; rewrite (sigma s); apply e_no; left; reflexivity).
  destruct reg; cbn [handle].
  - unfold registry. destruct (negb (startswith _ _)); [apply NO|]. destruct (asReg E r) as [n|] eqn:AR; [|apply NO].
    destruct (knows v (r_ii n)) eqn:KN; cbn [negb].
    2: { rewrite park_exn. pattern s at 2. rewrite (sigma s). apply e_park; [left; reflexivity|reflexivity|exists n; auto]. }
    cbv zeta. set (baks := if r_nob n then _ else _). destruct (stranger E aid (r_ii n) baks) eqn:ST; [apply NO|].
    set (stale := match tevers v (r_i n) with Some _ => _ | None => _ end). destruct stale eqn:SL; [apply NO|].
    destruct (acceptReply _ _ _ _ _ _ _ _ _) as [d [b|e]] eqn:AC; [|apply e_no; right; eauto].
    destruct b; [|apply e_no; right; eauto].
    destruct (telAt v (r_i n) (r_s n)) as [[said m]|] eqn:TA.
    2: { rewrite park_exn. apply e_park; [right; eauto|reflexivity|exists n; auto]. }
    destruct (beq said (r_d n)) eqn:SD; cbn [negb]; [|apply e_no; right; eauto]. apply beq_eq in SD. subst said. cbn [fst snd].
    apply e_save; [exact AC|]. split.
    + exists n. split; [exact AR|]. split; [exact KN|]. apply stranger_no. exact ST.
    + exists (r_s n). split; [exists n; auto|]. split; [exists m; exact TA|]. intros u U. unfold stale in SL. rewrite U in SL. apply N.ltb_ge in SL. exact SL.
  - unfold credential. destruct (negb (startswith _ _)); [apply NO|]. destruct (asVc E r) as [n|] eqn:AR; [|apply NO].
    destruct (match tevers v (v_ri n) with Some _ => _ | None => _ end) as [t|] eqn:TV.
    2: { rewrite park_exn. pattern s at 2. rewrite (sigma s). apply e_park; [left; reflexivity|reflexivity|exists n; auto]. }
    destruct (tevers v (v_ri n)) as [t'|] eqn:TE; [|discriminate TV]. destruct (tv_sn t' <? v_ra n) eqn:RA; [discriminate TV|]. injection TV as ->. apply N.ltb_ge in RA.
    cbv zeta. destruct (knows v (tv_pre t)) eqn:KN; cbn [negb].
    2: { rewrite park_exn. pattern s at 2. rewrite (sigma s). apply e_park; [left; reflexivity|reflexivity|exists n; auto]. }
    set (baks := if tv_nob t then _ else _). destruct (stranger E aid (tv_pre t) baks) eqn:ST; [apply NO|].
    destruct (acceptReply _ _ _ _ _ _ _ _ _) as [d [b|e]] eqn:AC; [|apply e_no; right; eauto].
    destruct b; [|apply e_no; right; eauto].
    destruct (telAt v (v_i n) (v_s n)) as [[said m]|] eqn:TA.
    2: { rewrite park_exn. apply e_park; [right; eauto|reflexivity|exists n; auto]. }
    destruct (v_s n <? m) eqn:SM; [apply e_no; right; eauto|]. apply N.ltb_ge in SM.
    destruct (beq said (v_d n)) eqn:SD; cbn [negb]; [|apply e_no; right; eauto]. apply beq_eq in SD. subst said. cbn [fst snd].
    apply e_save; [exact AC|]. split.
    + exists n, t. split; [exact AR|]. split; [exact TE|]. split; [exact RA|]. split; [exact KN|]. apply stranger_no. exact ST.
    + exists (v_s n), m. split; [exists n; auto|]. auto.
Qed.
Lemma accept_signed : forall v r rt aid o cs gs d d', acceptReply (rv E) (kv v) r rt aid o cs gs d = (d', Ok true) -> signed E v r aid.
Proof. intros v r rt aid o cs gs d d' H. apply accept_true in H. destruct H as [[S1 _]|(g & _ & _ & S1 & _)]; [left|right]; eauto. Qed.

(** ** what is stored came from notices that were received *)
Definition inv (P : reply -> Prop) (J : list (bytes * bytes * bytes) -> Prop) (s : st) : Prop :=
  (forall k r, dget (sns (B s)) k = Some r -> P r) /\ (forall k r, dget (rpys (R s)) k = Some r -> P r) /\ J (nas (B s)).
Section Inv.
Variable P : reply -> Prop.
Variable J : list (bytes * bytes * bytes) -> Prop.
Variable v : view.
Hypothesis HJ : forall reg r aid id d l, P r -> signed E v r aid -> ready E v reg r aid id d -> J l -> J (naset l id aid d).
Lemma handle_inv : forall reg r aid cs gs s, P r -> inv P J s -> inv P J (fst (handle E reg v r aid cs gs s)).
Proof.
  intros reg r aid cs gs s PR (I1 & I2 & I3).
  assert (RP : forall d, (d = R s \/ exists o x, acceptReply (rv E) (kv v) r (q_route r) aid o cs gs (R s) = (d, x)) -> forall k r', dget (rpys d) k = Some r' -> P r').
  { intros d [->|(o & x & A)] k r' G; [exact (I2 k r' G)|]. destruct (accept_rpys _ _ _ _ _ _ _ _ _ _ _ A k r' G) as [G1|[_ ->]]; [exact (I2 k r' G1)|exact PR]. }
  destruct (handle_ends reg v r aid cs gs s) as [d e D|d t pre q e D _ _|d id n A RD].
  - split; [exact I1|]. split; [exact (RP d D)|exact I3].
  - unfold park. destruct (escrow t pre aid r cs gs (B (mkS d (B s) (cues s)))) as [b new] eqn:ES. unfold escrow in ES. cbn [B] in ES. injection ES as <- <-. cbn [fst]. split; [|split; [exact (RP d D)|exact I3]].
    cbn [B sns]. intros k r' G. rewrite dget_dput in G. destruct (dget (sns (B s)) k) eqn:S0; [injection G as <-; exact (I1 k _ S0)|].
    destruct (beq k (q_said r)); [injection G as <-; exact PR|discriminate].
  - split; [|split].
    + cbn [save B sns]. intros k r' G. rewrite dget_dset in G. destruct (beq k n); [injection G as <-; exact PR|exact (I1 k r' G)].
    + cbn [save R]. apply RP. right. eauto.
    + cbn [save B nas]. eapply HJ; [exact PR|eapply accept_signed; exact A|exact RD|exact I3].
Qed.
Lemma deliver_inv : forall r cs gs s, (saidOk (rv E) r = true -> P r) -> inv P J s -> inv P J (fst (deliver E v r cs gs s)).
Proof.
  intros r cs gs s PR I. unfold deliver. destruct (saidOk (rv E) r) eqn:SO; cbn [negb]; [|exact I]. destruct (route r) as [[reg aid]|]; [|exact I]. apply handle_inv; auto.
Qed.
Lemma drop_inv : forall x s, inv P J s -> inv P J (dropEntry x s).
Proof. intros x s H. exact H. Qed.
Lemma unpark_inv : forall now x s, inv P J s -> inv P J (unpark E v now x s).
Proof.
  intros now [[[t pre] aid] said] s I. unfold unpark. destruct (dget (dts (B s)) said) as [dt|]; [|exact I].
  destruct (dget (sns (B s)) said) as [r|] eqn:SN; [|exact I]. destruct (_ && _); [exact I|]. destruct (timeout <? now - dt); [exact I|].
  set (cs := match dget (bcgs (B s)) said with Some l => l | None => [] end). set (gs := map _ _).
  pose proof (handle_inv (isReg t) r aid cs gs s (proj1 I said r SN) I) as HI. destruct (handle E (isReg t) v r aid cs gs s) as [s1 [u|e]]; cbn [fst] in HI; [exact HI|].
  destruct (waits t e); exact HI.
Qed.
Lemma loop_inv : forall now l s, inv P J s -> inv P J (fst (loop E v now l s)).
Proof. induction l as [|x l IH]; intros s I; [exact I|]. cbn [loop]. destruct (dotted x); [exact I|]. apply IH, unpark_inv, I. Qed.
Lemma pass_inv : forall now s, inv P J s -> inv P J (fst (pass E v now s)).
Proof.
  intros now s I. unfold pass. generalize [CredMre; CredMae; CredOoo; RegMae; RegOoo] as ts. intros ts.
  assert (G : forall o, inv P J (fst o) -> inv P J (fst (fold_left (fun o t => if snd o : bool then processState E t v now (fst o) else o) ts o))).
  { induction ts as [|t ts IH]; intros o H; [exact H|]. cbn [fold_left]. apply IH. destruct (snd o); [|exact H]. apply loop_inv. exact H. }
  apply G. exact I.
Qed.
Lemma sweep_inv : forall now rt said s, inv P J s -> inv P J (sweep E v now rt said s).
Proof.
  intros now rt said s I.
  assert (DR : forall s, inv P J s -> inv P J (mkS (removeReply (Some said) (remRpe rt said (R s))) (B s) (cues s))).
  { intros s1 (I1 & I2 & I3). split; [exact I1|]. split; [|exact I3]. intros k r G. cbn [R] in G. apply dget_rem_rpys in G. exact (I2 k r G). }
  unfold sweep. destruct (dget (sdts (R s)) said) as [dt|]; [|exact (DR s I)]. destruct (dget (rpys (R s)) said) as [r|] eqn:RP; [|exact (DR s I)].
  destruct (fetchTsgs (tsgs (R s)) said None) as [|t ts]; [exact (DR s I)|]. destruct (timeoutRPE <? now - dt); [exact (DR s I)|].
  set (gs := map _ _). pose proof (deliver_inv r [] gs s (fun _ => proj1 (proj2 I) said r RP) I) as H. destruct (deliver E v r [] gs s) as [s1 [u|e]]; cbn [fst] in H; [exact H|].
  destruct e as [e| |]; [destruct e; try exact (DR s1 H); exact H|exact (DR s1 H)|exact (DR s1 H)].
Qed.
End Inv.
Lemma step_inv : forall (P : reply -> Prop) (J : list (bytes * bytes * bytes) -> Prop) s e, (forall v r cs gs, e = Msg v r cs gs -> saidOk (rv E) r = true -> P r) ->
  (forall reg r aid id d l, P r -> signed E (viewOf e) r aid -> ready E (viewOf e) reg r aid id d -> J l -> J (naset l id aid d)) ->
  inv P J s -> inv P J (step E s e).
Proof.
  intros P J s [v r cs gs|v now|v now rt said] HP HJ I; cbn [step viewOf] in *.
  - apply deliver_inv; [exact HJ|eapply HP; reflexivity|exact I].
  - apply pass_inv; assumption.
  - apply sweep_inv; assumption.
Qed.

(** ** C120 *)
Definition because (es : list ev) (l : list (bytes * bytes * bytes)) : Prop := forall id aid d, naget l id aid = Some d ->
  exists e reg r, In e es /\ (received es r /\ saidOk (rv E) r = true) /\ signed E (viewOf e) r aid /\ ready E (viewOf e) reg r aid id d.
Lemma fold_inv : forall (P : reply -> Prop) (J : list (bytes * bytes * bytes) -> Prop) es s, (forall v r cs gs, In (Msg v r cs gs) es -> saidOk (rv E) r = true -> P r) ->
  (forall e reg r aid id d l, In e es -> P r -> signed E (viewOf e) r aid -> ready E (viewOf e) reg r aid id d -> J l -> J (naset l id aid d)) ->
  inv P J s -> inv P J (fold_left (step E) es s).
Proof.
  intros P J. induction es as [|e es IH]; intros s HP HJ I; [exact I|]. cbn [fold_left]. apply IH.
  - intros v r cs gs H. eapply HP. right. exact H.
  - intros e' reg r aid id d l H. apply HJ. right. exact H.
  - apply step_inv; [intros v r cs gs ->; eapply HP; left; reflexivity|intros reg r aid id d l; apply HJ; left; reflexivity|exact I].
Qed.
Lemma inv0 : forall P (J : list (bytes * bytes * bytes) -> Prop), J [] -> inv P J st0.
Proof. intros P J H. split; [intros k r G; discriminate G|]. split; [intros k r G; discriminate G|exact H]. Qed.
Lemma run_because : forall es, because es (nas (B (run E es))).
Proof.
  intros es. apply (fold_inv (fun r => received es r /\ saidOk (rv E) r = true) (because es) es st0).
  - intros v r cs gs H SO. split; [exists v, cs, gs; exact H|exact SO].
  - intros e reg r aid id d l I RC SG RD H id' aid' d' G. rewrite naget_naset in G. destruct (beq id id' && beq aid aid') eqn:K; [|exact (H _ _ _ G)].
    apply andb_true_iff in K. destruct K as [K1 K2]. apply beq_eq in K1, K2. subst id' aid'. injection G as <-. exists e, reg, r. auto.
  - apply inv0. intros id aid d G. discriminate G.
Qed.
Lemma run_received : forall es, inv (received es) (fun _ => True) (run E es).
Proof.
  intros es. apply (fold_inv (received es) (fun _ => True) es st0); [|auto|apply inv0; exact Logic.I]. intros v r cs gs H _. exists v, cs, gs. exact H.
Qed.

(** ** C121 *)
Lemma grows_app : forall es1 e es2, grows (es1 ++ e :: es2) -> forall e' id n x, In e' es1 -> telAt (viewOf e') id n = Some x -> telAt (viewOf e) id n = Some x.
Proof.
  induction es1 as [|a es1 IH]; intros e es2 G e' id n x I; [destruct I|]. destruct G as [G1 G2]. destruct I as [->|I]; [|exact (IH _ _ G2 _ _ _ _ I)].
  intros H. apply (G1 e); [apply in_or_app; right; left; reflexivity|exact H].
Qed.
Lemma latest : forall id aid es2 es1, grows (es1 ++ es2) -> Forall (fun e => capped id (viewOf e)) (es1 ++ es2) ->
  (forall r x, received (es1 ++ es2) r -> asVc E r = Some x -> v_i x <> id) -> forall n, recordedAt es1 (run E es1) id aid n ->
  exists n', recordedAt (es1 ++ es2) (run E (es1 ++ es2)) id aid n' /\ n <= n'.
Proof.
  intros id aid. induction es2 as [|e es2 IH]; intros es1 G C V n RC.
  - rewrite app_nil_r. exists n. split; [exact RC|lia].
  - replace (es1 ++ e :: es2) with ((es1 ++ [e]) ++ es2) in * by (rewrite <- app_assoc; reflexivity).
    assert (ST : exists n1, recordedAt (es1 ++ [e]) (run E (es1 ++ [e])) id aid n1 /\ n <= n1).
    { destruct RC as (d & e0 & CU & I0 & IL).
      set (J := fun l : list (bytes * bytes * bytes) => exists d1 n1, naget l id aid = Some d1 /\ inLog (viewOf e) id d1 n1 /\ n <= n1).
      assert (HI : inv (fun r => forall x, asVc E r = Some x -> v_i x <> id) J (step E (run E es1) e)).
      { apply step_inv.
        - intros v r cs gs -> _ x. apply V. exists v, cs, gs. apply in_or_app. left. apply in_or_app. right. left. reflexivity.
        - intros reg r aid' id' d' l NV _ RD (d1 & n1 & NG & IL1 & LE). unfold J. rewrite naget_naset. destruct (beq id' id && beq aid' aid) eqn:K; [|exists d1, n1; auto].
          apply andb_true_iff in K. destruct K as [K1 K2]. apply beq_eq in K1, K2. subst id' aid'. destruct reg.
          + destruct RD as (_ & n2 & _ & IL2 & TV). exists d', n2. split; [reflexivity|]. split; [exact IL2|].
            destruct IL1 as (m1 & T1). rewrite Forall_forall in C. destruct (C e ltac:(apply in_or_app; left; apply in_or_app; right; left; reflexivity) n1 _ T1) as (u & U & L). specialize (TV u U). lia.
          + destruct RD as (_ & n2 & m & (x & AX & VX & _) & _). elim (NV x AX VX).
        - destruct (run_received es1) as (A1 & A2 & _). assert (W : forall r, received es1 r -> forall x, asVc E r = Some x -> v_i x <> id).
          { intros r (v & cs & gs & I) x. apply V. exists v, cs, gs. apply in_or_app. left. apply in_or_app. left. exact I. }
          split; [intros k r H; apply W; exact (A1 k r H)|]. split; [intros k r H; apply W; exact (A2 k r H)|].
          exists d, n. split; [exact CU|]. split; [|lia]. destruct IL as (m & T). exists m. rewrite <- app_assoc in G. exact (grows_app es1 e es2 G e0 id n _ I0 T). }
      destruct HI as (_ & _ & d1 & n1 & NG & IL1 & LE). exists n1. split; [|exact LE]. exists d1, e. split; [|split; [apply in_or_app; right; left; reflexivity|exact IL1]].
      unfold run. rewrite fold_left_app. exact NG. }
    destruct ST as (n1 & R1 & L1). destruct (IH (es1 ++ [e]) G C V n1 R1) as (n2 & R2 & L2). exists n2. split; [exact R2|lia].
Qed.
End Ts.
