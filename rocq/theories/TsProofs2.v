(** Proofs about the escrows of notices of transaction states. *)
From Coq Require Import Lia.
From Verif Require Import Prelude SubsModel ThModel ThProofs JsonModel JsonProofs RpModel RpSpec RpProofs TsModel TsSpec TsProofs.
Ltac Zify.zify_post_hook ::= Z.div_mod_to_equations.
Open Scope N_scope.

Lemma dotted_no : forall t pre aid d, ~ In 46 pre -> ~ In 46 aid -> dotted (t, pre, aid, d) = false.
Proof.
  intros t pre aid d N1 N2. unfold dotted. apply orb_false_iff. split; apply not_true_is_false; intros H; apply existsb_exists in H; destruct H as (z & Z & Q); apply N.eqb_eq in Q; subst z; contradiction.
Qed.
Lemma dotted_yes : forall t pre aid d, In 46 pre \/ In 46 aid -> dotted (t, pre, aid, d) = true.
Proof. intros t pre aid d H. unfold dotted. apply orb_true_iff. destruct H as [H|H]; [left|right]; apply existsb_exists; exists 46; auto. Qed.
Lemma entry_dec : forall a b : entry, a = b \/ a <> b.
Proof. intros a b. destruct (entry_eqb a b) eqn:K; [left; apply entry_eqb_eq; exact K|right; intros H; apply entry_eqb_eq in H; congruence]. Qed.
Lemma in_drop : forall x y s, In y (nes (B s)) -> y <> x -> In y (nes (B (dropEntry x s))).
Proof. intros x y s I N. cbn [dropEntry B nes]. apply filter_In. split; [exact I|]. apply negb_true_iff. apply not_true_is_false. intros H. apply entry_eqb_eq in H. congruence. Qed.
Lemma drop_in : forall x y s, In y (nes (B (dropEntry x s))) -> In y (nes (B s)) /\ y <> x.
Proof. intros x y s I. cbn [dropEntry B nes] in I. apply filter_In in I. destruct I as [I N]. split; [exact I|]. intros ->. apply negb_true_iff in N. rewrite (proj2 (entry_eqb_eq x x) eq_refl) in N. discriminate. Qed.

(** ** the parts of a parked notice *)
Section Park.
Variables (t : etyp) (pre aid : bytes) (r : reply) (cs : list cigar) (gs : list group) (q : cue) (e : texn) (s : st).
Let s' := fst (park t pre aid r cs gs q e s).
Lemma park_R : R s' = R s. Proof. unfold s', park. destruct (escrow _ _ _ _ _ _ _). reflexivity. Qed.
Lemma park_dts : dts (B s') = dput (dts (B s)) (q_said r) (q_dt r). Proof. reflexivity. Qed.
Lemma park_sns : sns (B s') = dput (sns (B s)) (q_said r) r. Proof. reflexivity. Qed.
Lemma park_bsgs : bsgs (B s') = putGrps (q_said r) gs (bsgs (B s)). Proof. reflexivity. Qed.
Lemma park_bcgs : bcgs (B s') = putCigs (q_said r) cs (bcgs (B s)). Proof. reflexivity. Qed.
Lemma park_nas : nas (B s') = nas (B s). Proof. reflexivity. Qed.
Lemma park_nes : forall y, In y (nes (B s')) <-> In y (nes (B s)) \/ y = (t, pre, aid, q_said r).
Proof.
  intros y. unfold s', park, escrow. cbn [fst B nes]. set (x := (t, pre, aid, q_said r)). destruct (existsb (entry_eqb x) (nes (B s))) eqn:X.
  - split; [auto|]. intros [H| ->]; [exact H|]. apply existsb_exists in X. destruct X as (z & Z & Q). apply entry_eqb_eq in Q. subst z. exact Z.
  - rewrite in_app_iff. cbn. intuition congruence.
Qed.
Lemma park_cues : exists new, cues s' = cues s ++ new /\ (~ In (t, pre, aid, q_said r) (nes (B s)) -> new = [q]).
Proof.
  unfold s', park, escrow. cbn [fst cues]. set (x := (t, pre, aid, q_said r)). destruct (existsb (entry_eqb x) (nes (B s))) eqn:X; cbn [negb].
  - exists []. rewrite app_nil_r. split; [reflexivity|]. intros N. elim N. apply existsb_exists in X. destruct X as (z & Z & Q). apply entry_eqb_eq in Q. subst z. exact Z.
  - exists [q]. auto.
Qed.
End Park.

Section Ts.
Variable E : tenv.
Lemma route_eq : forall (t : etyp) (aid : bytes) (r : reply), onRoute E t r aid -> route r = Some (isReg t, aid).
Proof.
  intros t aid r RT.  destruct RT as (Q & N & F). unfold route. rewrite Q.
  assert (SP : splitb 47 aid = [aid]) by (apply splitb_nosep; apply Forall_forall; intros ch I K; subst ch; contradiction).
  assert (H : splitb 47 (s2b (if isReg t then "/tsn/registry/" else "/tsn/credential/") ++ aid) =
    [] :: s2b "tsn" :: s2b (if isReg t then "registry" else "credential") :: splitb 47 aid) by (destruct (isReg t); reflexivity).
  rewrite H, SP. cbn [nonempty]. rewrite beq_refl. destruct aid as [|b l]; [congruence|]. destruct (isReg t); reflexivity.
Qed.

(** ** frames of a handler *)
Lemma handle_keeps : forall reg v r aid cs gs s y, In y (nes (B s)) -> In y (nes (B (fst (handle E reg v r aid cs gs s)))).
Proof. intros reg v r aid cs gs s y H. destruct (handle_ends E reg v r aid cs gs s) as [d e D|d t pre q e D _ _|d id n A RD]; [exact H|apply park_nes; left; exact H|exact H]. Qed.
Lemma handle_sns : forall reg v r aid cs gs s k, dget (sns (B s)) k <> None -> dget (sns (B (fst (handle E reg v r aid cs gs s)))) k <> None.
Proof.
  intros reg v r aid cs gs s k H. destruct (handle_ends E reg v r aid cs gs s) as [d e D|d t pre q e D _ _|d id n A RD]; [exact H| |].
  - rewrite park_sns. cbn [B]. destruct (dget (sns (B s)) k) eqn:G; [|congruence]. rewrite (dget_dput_some _ _ _ _ _ G). discriminate.
  - cbn [save B sns]. apply dget_dset_some. exact H.
Qed.
Lemma handle_cues : forall reg v r aid cs gs s, exists new, cues (fst (handle E reg v r aid cs gs s)) = cues s ++ new.
Proof.
  intros reg v r aid cs gs s. destruct (handle_ends E reg v r aid cs gs s) as [d e D|d t pre q e D _ _|d id n A RD].
  - exists []. rewrite app_nil_r. reflexivity.
  - destruct (park_cues t pre aid r cs gs q e (mkS d (B s) (cues s))) as (new & H & _). exists new. exact H.
  - eexists. reflexivity.
Qed.
Lemma unpark_keeps : forall v now x s y, In y (nes (B s)) -> y <> x -> In y (nes (B (unpark E v now x s))).
Proof.
  intros v now [[[t pre] aid] said] s y I N. unfold unpark. destruct (dget (dts (B s)) said) as [dt|]; [|apply in_drop; assumption].
  destruct (dget (sns (B s)) said) as [r|]; [|apply in_drop; assumption]. destruct (_ && _); [apply in_drop; assumption|]. destruct (timeout <? now - dt); [apply in_drop; assumption|].
  set (cs := match dget (bcgs (B s)) said with Some l => l | None => [] end). set (gs := map _ _).
  pose proof (handle_keeps (isReg t) v r aid cs gs s y I) as H. destruct (handle E (isReg t) v r aid cs gs s) as [s1 [u|e]]; cbn [fst] in H; [apply in_drop; assumption|].
  destruct (waits t e); [exact H|apply in_drop; assumption].
Qed.
Lemma unpark_sns : forall v now x s k, dget (sns (B s)) k <> None -> dget (sns (B (unpark E v now x s))) k <> None.
Proof.
  intros v now [[[t pre] aid] said] s k I. unfold unpark. destruct (dget (dts (B s)) said) as [dt|]; [|exact I].
  destruct (dget (sns (B s)) said) as [r|]; [|exact I]. destruct (_ && _); [exact I|]. destruct (timeout <? now - dt); [exact I|].
  set (cs := match dget (bcgs (B s)) said with Some l => l | None => [] end). set (gs := map _ _).
  pose proof (handle_sns (isReg t) v r aid cs gs s k I) as H. destruct (handle E (isReg t) v r aid cs gs s) as [s1 [u|e]]; cbn [fst] in H; [exact H|]. destruct (waits t e); exact H.
Qed.
Lemma unpark_cues : forall v now x s, exists new, cues (unpark E v now x s) = cues s ++ new.
Proof.
  intros v now [[[t pre] aid] said] s. assert (Z : exists new, cues s = cues s ++ new) by (exists []; rewrite app_nil_r; reflexivity).
  unfold unpark. destruct (dget (dts (B s)) said) as [dt|]; [|exact Z].
  destruct (dget (sns (B s)) said) as [r|]; [|exact Z]. destruct (_ && _); [exact Z|]. destruct (timeout <? now - dt); [exact Z|].
  set (cs := match dget (bcgs (B s)) said with Some l => l | None => [] end). set (gs := map _ _).
  pose proof (handle_cues (isReg t) v r aid cs gs s) as H. destruct (handle E (isReg t) v r aid cs gs s) as [s1 [u|e]]; cbn [fst] in H; [exact H|]. destruct (waits t e); exact H.
Qed.
(** a property that every round keeps *)
Lemma loop_any : forall (I : st -> Prop) v now, (forall x s, I s -> I (unpark E v now x s)) -> forall l s, I s -> I (fst (loop E v now l s)).
Proof. intros I v now H. induction l as [|x l IH]; intros s Hs; [exact Hs|]. cbn [loop]. destruct (dotted x); [exact Hs|]. apply IH, H, Hs. Qed.
Lemma pass_any : forall (I : st -> Prop) v now, (forall x s, I s -> I (unpark E v now x s)) -> forall s, I s -> I (fst (pass E v now s)).
Proof.
  intros I v now H s Hs. unfold pass. generalize [CredMre; CredMae; CredOoo; RegMae; RegOoo] as ts. intros ts.
  assert (G : forall o, I (fst o) -> I (fst (fold_left (fun o t => if snd o : bool then processState E t v now (fst o) else o) ts o))).
  { induction ts as [|t ts IH]; intros o Ho; [exact Ho|]. cbn [fold_left]. apply IH. destruct (snd o); [|exact Ho]. unfold processState. apply (loop_any I v now H). exact Ho. }
  apply G. exact Hs.
Qed.

(** ** nothing of a notice is ever removed *)
Lemma deliver_sns : forall v r cs gs s k, dget (sns (B s)) k <> None -> dget (sns (B (fst (deliver E v r cs gs s)))) k <> None.
Proof. intros v r cs gs s k H. unfold deliver. destruct (negb _); [exact H|]. destruct (route r) as [[reg aid]|]; [apply handle_sns; exact H|exact H]. Qed.
Lemma sweep_B : forall v now rt said s, B (sweep E v now rt said s) = B s \/ exists r gs, B (sweep E v now rt said s) = B (fst (deliver E v r [] gs s)).
Proof.
  intros v now rt said s. unfold sweep. destruct (dget (sdts (R s)) said) as [dt|]; [|left; reflexivity]. destruct (dget (rpys (R s)) said) as [r|]; [|left; reflexivity].
  destruct (fetchTsgs (tsgs (R s)) said None) as [|t ts]; [left; reflexivity|]. destruct (timeoutRPE <? now - dt); [left; reflexivity|].
  right. set (gs := map _ _). exists r, gs. destruct (deliver E v r [] gs s) as [s1 [u|e]]; [reflexivity|]. destruct e as [e| |]; [destruct e; reflexivity|reflexivity|reflexivity].
Qed.
Lemma step_sns : forall s e k, dget (sns (B s)) k <> None -> dget (sns (B (step E s e))) k <> None.
Proof.
  intros s [v r cs gs|v now|v now rt said] k H; cbn [step].
  - apply deliver_sns. exact H.
  - apply (pass_any (fun s => dget (sns (B s)) k <> None)); [|exact H]. intros x s1. apply unpark_sns.
  - destruct (sweep_B v now rt said s) as [->|(r & gs & ->)]; [exact H|]. apply deliver_sns. exact H.
Qed.
Lemma fold_sns : forall es s k, dget (sns (B s)) k <> None -> dget (sns (B (fold_left (step E) es s))) k <> None.
Proof. induction es as [|e es IH]; intros s k H; [exact H|]. cbn [fold_left]. apply IH, step_sns, H. Qed.

(** ** one entry with a dot *)
Definition stuck (x : entry) (s : st) : Prop := In x (nes (B s)).
Lemma loop_stuck : forall v now x l s, dotted x = true -> In x l -> In x (nes (B s)) ->
  snd (loop E v now l s) = false /\ In x (nes (B (fst (loop E v now l s)))).
Proof.
  intros v now x. induction l as [|y l IH]; intros s D I K; [destruct I|]. cbn [loop]. destruct (dotted y) eqn:DY; [auto|].
  destruct I as [->|I]; [congruence|]. apply IH; [exact D|exact I|]. apply unpark_keeps; [exact K|]. intros ->. congruence.
Qed.
Lemma loop_others : forall v now l s z, (forall y, In y l -> y <> z) -> In z (nes (B s)) -> In z (nes (B (fst (loop E v now l s)))).
Proof.
  intros v now. induction l as [|y l IH]; intros s z D K; [exact K|]. cbn [loop]. destruct (dotted y); [exact K|].
  apply IH; [intros y' I; apply D; right; exact I|]. apply unpark_keeps; [exact K|]. intros ->. apply (D y); [left; reflexivity|reflexivity].
Qed.
Lemma pass_stuck : forall v now s pre aid d, In 46 pre \/ In 46 aid -> In (CredMre, pre, aid, d) (nes (B s)) ->
  snd (pass E v now s) = false /\ In (CredMre, pre, aid, d) (nes (B (fst (pass E v now s)))) /\
  forall y, fst (fst (fst y)) <> CredMre -> In y (nes (B s)) -> In y (nes (B (fst (pass E v now s)))).
Proof.
  intros v now s pre aid d D I. apply (dotted_yes CredMre pre aid d) in D. set (x := (CredMre, pre, aid, d)) in *.
  assert (P : pass E v now s = processState E CredMre v now s /\ snd (processState E CredMre v now s) = false /\ In x (nes (B (fst (processState E CredMre v now s))))).
  { destruct (loop_stuck v now x (filter (fun x : entry => etyp_eqb CredMre (fst (fst (fst x)))) (nes (B s))) s D) as [F K]; [apply filter_In; split; [exact I|reflexivity]|exact I|].
    split; [|split; [exact F|exact K]]. unfold pass. cbn [fold_left fst snd]. fold (processState E CredMre v now s) in F. rewrite F. cbn [snd fst]. rewrite F. rewrite F. rewrite F. reflexivity. }
  destruct P as (P1 & P2 & P3). rewrite P1. split; [exact P2|]. split; [exact P3|].
  intros y T K. apply loop_others; [|exact K]. intros z Z ->. apply filter_In in Z. destruct Z as [_ Z]. apply etyp_eqb_eq in Z. congruence.
Qed.
Lemma step_stuck : forall pre aid d, In 46 pre \/ In 46 aid -> forall e s, In (CredMre, pre, aid, d) (nes (B s)) ->
  In (CredMre, pre, aid, d) (nes (B (step E s e))) /\ forall y, fst (fst (fst y)) <> CredMre -> In y (nes (B s)) -> In y (nes (B (step E s e))).
Proof.
  intros pre aid d D e s I.
  assert (DL : forall v r cs gs y, In y (nes (B s)) -> In y (nes (B (fst (deliver E v r cs gs s))))).
  { intros v r cs gs y H. unfold deliver. destruct (negb _); [exact H|]. destruct (route r) as [[reg a]|]; [apply handle_keeps; exact H|exact H]. }
  destruct e as [v r cs gs|v now|v now rt said]; cbn [step].
  - split; [apply DL; exact I|]. intros y _. apply DL.
  - destruct (pass_stuck v now s pre aid d D I) as (_ & A & C). auto.
  - destruct (sweep_B v now rt said s) as [->|(r & gs & ->)]; [auto|]. split; [apply DL; exact I|]. intros y _. apply DL.
Qed.
Lemma fold_stuck : forall pre aid d, In 46 pre \/ In 46 aid -> forall es s, In (CredMre, pre, aid, d) (nes (B s)) ->
  In (CredMre, pre, aid, d) (nes (B (fold_left (step E) es s))) /\
  forall y, fst (fst (fst y)) <> CredMre -> In y (nes (B s)) -> In y (nes (B (fold_left (step E) es s))).
Proof.
  intros pre aid d D. induction es as [|e es IH]; intros s I; [auto|]. cbn [fold_left]. destruct (step_stuck pre aid d D e s I) as [A C].
  destruct (IH _ A) as [A' C']. split; [exact A'|]. intros y T K. apply C'; [exact T|]. apply C; assumption.
Qed.

(** ** a waiting notice, through a pass *)
Section Wait.
Variables (ds : bytes -> Prop) (v : view) (now : N) (t : etyp) (pre aid : bytes) (r : reply) (cg : cigar).
Let x : entry := (t, pre, aid, q_said r).
Hypothesis DS : digests ds v.
Hypothesis GD : good E r aid cg.
(** all but the entry *)
Definition core (s : st) : Prop :=
  dget (dts (B s)) (q_said r) = Some (q_dt r) /\ dget (sns (B s)) (q_said r) = Some r /\ (exists cs, dget (bcgs (B s)) (q_said r) = Some cs /\ In cg cs) /\
  plain s (q_said r) /\ apart ds s /\ dotless E s.
Lemma ready_ds : forall reg r' a id d, ready E v reg r' a id d -> ds d.
Proof. intros [] r' a id d RD; [destruct RD as (_ & n & _ & (m & T) & _)|destruct RD as (_ & n & m & _ & T & _)]; exact (DS _ _ _ _ T). Qed.
Lemma handle_core : forall reg r' a cs gs s, core s -> ~ ds (q_said r') -> ~ In 46 a ->
  ((forall z, asReg E r' = Some z -> ~ In 46 (r_i z)) /\ forall z, asVc E r' = Some z -> ~ In 46 (v_i z)) -> (q_said r' = q_said r -> gs = []) ->
  core (fst (handle E reg v r' a cs gs s)).
Proof.
  intros reg r' a cs gs s (C1 & C2 & (l & C3 & C4) & C5 & (A1 & A2 & A3 & A4) & (D1 & D2)) NR NA ND NG.
  assert (SD : forall d, (d = R s \/ exists o z, acceptReply (rv E) (kv v) r' (q_route r') a o cs gs (R s) = (d, z)) -> forall k, dget (sdts d) k <> None -> ~ ds k).
  { intros d [->|(o & z & A)] k G; [exact (A2 k G)|]. destruct (accept_sdts _ _ _ _ _ _ _ _ _ _ _ A k G) as [G1| ->]; [exact (A2 k G1)|exact NR]. }
  destruct (handle_ends E reg v r' a cs gs s) as [d e D|d t' pre' q e D _ ID|d id n A RD].
  - split; [exact C1|]. split; [exact C2|]. split; [exists l; auto|]. split; [exact C5|]. split; [|split; [exact D1|exact D2]]. split; [exact A1|]. split; [exact (SD d D)|]. split; [exact A3|exact A4].
  - set (s0 := mkS d (B s) (cues s)). split; [rewrite park_dts; apply dget_dput_some; exact C1|]. split; [rewrite park_sns; apply dget_dput_some; exact C2|]. split.
    { rewrite park_bcgs. cbn [s0 B]. rewrite putCigs_get. destruct (beq (q_said r) (q_said r')) eqn:K; [|exists l; auto]. apply beq_eq in K.
      destruct cs as [|c cs]; [exists l; auto|]. rewrite <- K. exact (putCigs_keep (c :: cs) (q_said r) (bcgs (B s)) cg l C3 C4). }
    split.
    { unfold plain. rewrite park_bsgs. cbn [s0 B]. destruct (beq (q_said r) (q_said r')) eqn:K.
      - apply beq_eq in K. rewrite (NG (eq_sym K)). exact C5.
      - apply beq_neq in K. rewrite putGrps_other by exact K. exact C5. }
    assert (NS : forall k r0, dget (sns (B (fst (park t' pre' a r' cs gs q e s0)))) k = Some r0 -> dget (sns (B s)) k = Some r0 \/ r0 = r').
    { intros k r0 G. rewrite park_sns in G. cbn [s0 B] in G. rewrite dget_dput in G. destruct (dget (sns (B s)) k); [left; exact G|]. destruct (beq k (q_said r')); [injection G as <-; auto|discriminate]. }
    split.
    + split; [intros i b dd; exact (A1 i b dd)|]. split; [rewrite park_R; exact (SD d D)|]. split.
      * intros k r0 G. rewrite park_sns in G. cbn [s0 B] in G. rewrite dget_dput in G. destruct (dget (sns (B s)) k) eqn:G0; [injection G as <-; exact (A3 k _ G0)|].
        destruct (beq k (q_said r')) eqn:K; [|discriminate]. apply beq_eq in K. injection G as <-. auto.
      * intros t0 p0 a0 d0 I. apply park_nes in I. destruct I as [I|I]; [exact (A4 t0 p0 a0 d0 I)|]. injection I as -> -> -> ->. exact NR.
    + split.
      * intros t0 p0 a0 d0 I. apply park_nes in I. destruct I as [I|I]; [exact (D1 t0 p0 a0 d0 I)|]. injection I as -> -> -> ->. split; [|exact NA].
        destruct reg; destruct ID as (z & Z & <-); [exact (proj1 ND z Z)|exact (proj2 ND z Z)].
      * intros k r0 G. destruct (NS k r0 G) as [G1| ->]; [exact (D2 k r0 G1)|exact ND].
  - pose proof (ready_ds _ _ _ _ _ RD) as DN. set (b := B s).
    assert (NQ : beq (q_said r) n = false) by (apply beq_neq; intros K; apply (proj1 (A3 _ _ C2)); rewrite K; exact DN).
    split; [cbn [save B dts]; apply dget_dput_some; exact C1|]. split; [cbn [save B sns]; rewrite dget_dset, NQ; exact C2|]. split; [exists l; auto|]. split; [exact C5|].
    assert (NS : forall k r0, dget (dset (sns b) n r') k = Some r0 -> dget (sns (B s)) k = Some r0 \/ r0 = r').
    { intros k r0 G. rewrite dget_dset in G. destruct (beq k n); [injection G as <-; auto|left; exact G]. }
    split; [split; [|split; [|split]]|split].
    + intros i c dd. unfold current. cbn [save B nas]. rewrite naget_naset. destruct (beq id i && beq a c); [intros H; injection H as <-; exact DN|exact (A1 i c dd)].
    + cbn [save R]. apply SD. right. eauto.
    + cbn [save B sns]. intros k r0 G. rewrite dget_dset in G. destruct (beq k n) eqn:K; [|exact (A3 k r0 G)]. apply beq_eq in K. subst k. injection G as <-. auto.
    + exact A4.
    + exact D1.
    + cbn [save B sns]. intros k r0 G. destruct (NS k r0 G) as [G1| ->]; [exact (D2 k r0 G1)|exact ND].
Qed.
Lemma drop_core : forall y s, core s -> core (dropEntry y s).
Proof.
  intros y s (C1 & C2 & C3 & C5 & A & (D1 & D2)). split; [exact C1|]. split; [exact C2|]. split; [exact C3|]. split; [exact C5|]. split.
  { destruct A as (A1 & A2 & A3 & A4). split; [exact A1|]. split; [exact A2|]. split; [exact A3|]. intros t0 p0 a0 d0 I. apply drop_in in I. exact (A4 _ _ _ _ (proj1 I)). }
  split; [|exact D2].
  intros t0 p0 a0 d0 I. apply drop_in in I. exact (D1 _ _ _ _ (proj1 I)).
Qed.
Lemma unpark_core : forall y s, dotted y = false -> ~ ds (snd y) -> core s -> core (unpark E v now y s).
Proof.
  intros [[[t0 p0] a0] said] s DY NY C. cbn [snd] in NY. unfold unpark. destruct (dget (dts (B s)) said) as [dt|]; [|apply drop_core; exact C].
  destruct (dget (sns (B s)) said) as [r0|] eqn:SN; [|apply drop_core; exact C]. destruct (_ && _); [apply drop_core; exact C|]. destruct (timeout <? now - dt); [apply drop_core; exact C|].
  set (cs := match dget (bcgs (B s)) said with Some l => l | None => [] end). set (gs := map _ _).
  assert (H : core (fst (handle E (isReg t0) v r0 a0 cs gs s))).
  { pose proof C as C'. destruct C' as (_ & _ & _ & PL & (_ & _ & A3 & _) & (_ & D2)). destruct (A3 said r0 SN) as [N0 K0].
    apply handle_core; [exact C|exact N0| |exact (D2 said r0 SN)|].
    - intros I. unfold dotted in DY. apply orb_false_iff in DY. destruct DY as [_ DY]. assert (X : existsb (N.eqb 46) a0 = true) by (apply existsb_exists; exists 46; auto). congruence.
    - intros Q. destruct K0 as [K0|K0]; [|contradiction]. unfold gs. rewrite K0, Q. unfold plain in PL. rewrite PL. reflexivity. }
  destruct (handle E (isReg t0) v r0 a0 cs gs s) as [s1 [u|e]]; cbn [fst] in H; [apply drop_core; exact H|]. destruct (waits t0 e); [exact H|apply drop_core; exact H].
Qed.

(** the notice is looked at with its couples *)
Lemma unpark_own : forall s, core s -> now - q_dt r <= timeout -> exists cs, In cg cs /\
  unpark E v now x s = match handle E (isReg t) v r aid cs [] s with (s1, inr e) => if waits t e then s1 else dropEntry x s1 | (s1, inl _) => dropEntry x s1 end.
Proof.
  intros s (C1 & C2 & (cs & C3 & C4) & C5 & _) TM. exists cs. split; [exact C4|]. unfold unpark, x. rewrite C1, C2, C3. unfold plain in C5. rewrite C5.
  destruct cs as [|c cs]; [destruct C4|]. cbn [andb]. replace (timeout <? now - q_dt r) with false by (symmetry; apply N.ltb_ge; exact TM). reflexivity.
Qed.
Lemma accept_own : forall s cs id, apart ds s -> In cg cs -> exists d, acceptReply (rv E) (kv v) r (q_route r) aid (current (B s) id aid) cs [] (R s) = (d, Ok true).
Proof.
  intros s cs id (A1 & A2 & _) I. destruct GD as (G1 & G2 & G3 & G4). apply (accept_cig (rv E) (kv v) r (q_route r) aid _ cs cg (R s)); try assumption.
  unfold odtOf. destruct (current (B s) id aid) as [o|] eqn:CU; [|reflexivity]. destruct (dget (sdts (R s)) o) eqn:SD; [|reflexivity].
  elim (A2 o); [congruence|]. exact (A1 _ _ _ CU).
Qed.
Hypothesis RT : onRoute E t r aid.
Lemma route_ok : startswith (s2b "/tsn") (q_route r) = true.
Proof. destruct RT as (Q & _). rewrite Q. destruct (isReg t); reflexivity. Qed.
Lemma handle_ready : forall s cs id d, apart ds s -> In cg cs -> ready E v (isReg t) r aid id d ->
  exists s1, handle E (isReg t) v r aid cs [] s = (save id aid r d s1, inl tt) /\ cues s1 = cues s /\ B s1 = B s.
Proof.
  intros s cs id d A I RD. destruct (accept_own s cs id A I) as (d' & AC). pose proof route_ok as RO. destruct (isReg t); cbn [handle].
  - destruct RD as ((z & Z & KN & MS) & n & (z' & Z' & I1 & I2 & I3) & (m & T) & TV). rewrite Z in Z'. injection Z' as <-. subst id d n.
    unfold registry. rewrite RO, Z. cbn [negb]. rewrite KN. cbn [negb]. apply stranger_no in MS. cbv zeta. rewrite MS.
    assert (SL : (match tevers v (r_i z) with Some u => r_s z <? tv_sn u | None => false end) = false).
    { destruct (tevers v (r_i z)) as [u|]; [|reflexivity]. apply N.ltb_ge. apply TV. reflexivity. }
    rewrite SL, AC, T, beq_refl. cbn [negb]. eexists. split; [reflexivity|]. auto.
  - destruct RD as ((z & u & Z & TE & RA & KN & MS) & n & m & (z' & Z' & I1 & I2 & I3) & T & LE). rewrite Z in Z'. injection Z' as <-. subst id d n.
    unfold credential. rewrite RO, Z. cbn [negb]. rewrite TE. replace (tv_sn u <? v_ra z) with false by (symmetry; apply N.ltb_ge; exact RA). cbv zeta. rewrite KN. cbn [negb].
    apply stranger_no in MS. rewrite MS, AC, T. replace (v_s z <? m) with false by (symmetry; apply N.ltb_ge; exact LE). rewrite beq_refl. cbn [negb]. eexists. split; [reflexivity|]. auto.
Qed.
(** the query that goes with an escrow type *)
Definition asks (t : etyp) (r : reply) : option cue :=
  match t with
  | CredMre => match asVc E r with Some z => Some (AskTel (v_ri z) None) | None => None end
  | CredMae => Some (AskKel aid)
  | CredOoo => match asVc E r with Some z => Some (AskTel (v_ri z) (Some (v_i z))) | None => None end
  | RegMae => match asReg E r with Some z => Some (AskKel (r_ii z)) | None => None end
  | RegOoo => match asReg E r with Some z => Some (AskTel (r_i z) None) | None => None end
  end.
Definition idOf (t : etyp) (r : reply) : option bytes :=
  if isReg t then match asReg E r with Some z => Some (r_i z) | None => None end else match asVc E r with Some z => Some (v_i z) | None => None end.
Lemma handle_lacks : forall s cs, apart ds s -> In cg cs -> lacks E v t r aid ->
  exists s1 id q e, handle E (isReg t) v r aid cs [] s = park t id aid r cs [] q e s1 /\ waits t e = true /\ idOf t r = Some id /\ asks t r = Some q /\ cues s1 = cues s /\ B s1 = B s.
Proof.
  clear x. intros s cs A I L. pose proof route_ok as RO. pose proof (accept_own s cs) as AC. unfold idOf, asks. destruct t; cbn [isReg handle lacks] in *.
  - destruct L as (z & Z & L). rewrite Z. unfold credential. rewrite RO, Z. cbn [negb].
    assert (TV : (match tevers v (v_ri z) with Some u => if tv_sn u <? v_ra z then None else Some u | None => None end) = None).
    { destruct (tevers v (v_ri z)) as [u|]; [|reflexivity]. rewrite (proj2 (N.ltb_lt _ _) (L u eq_refl)). reflexivity. }
    rewrite TV. exists s, (v_i z). eexists. eexists. split; [reflexivity|]. cbn. auto.
  - destruct L as (z & u & Z & TE & RA & KN). rewrite Z. unfold credential. rewrite RO, Z, TE. cbn [negb]. replace (tv_sn u <? v_ra z) with false by (symmetry; apply N.ltb_ge; exact RA).
    cbv zeta. rewrite KN. cbn [negb]. exists s, (v_i z). eexists. eexists. split; [reflexivity|]. cbn. auto.
  - destruct L as ((z & u & Z & TE & RA & KN & MS) & TN). specialize (TN z Z). rewrite Z. destruct (AC (v_i z) A I) as (d' & AC'). unfold credential. rewrite RO, Z, TE. cbn [negb].
    replace (tv_sn u <? v_ra z) with false by (symmetry; apply N.ltb_ge; exact RA). cbv zeta. rewrite KN. cbn [negb]. apply stranger_no in MS. rewrite MS, AC', TN.
    eexists. exists (v_i z). eexists. eexists. split; [reflexivity|]. cbn. auto.
  - destruct L as (z & Z & KN). rewrite Z. unfold registry. rewrite RO, Z. cbn [negb]. rewrite KN. cbn [negb]. exists s, (r_i z). eexists. eexists. split; [reflexivity|]. cbn. auto.
  - destruct L as ((z & Z & KN & MS) & TN). destruct (TN z Z) as [TN1 TN2]. rewrite Z. destruct (AC (r_i z) A I) as (d' & AC'). unfold registry. rewrite RO, Z. cbn [negb]. rewrite KN. cbn [negb].
    cbv zeta. apply stranger_no in MS. rewrite MS.
    assert (SL : (match tevers v (r_i z) with Some u => r_s z <? tv_sn u | None => false end) = false).
    { destruct (tevers v (r_i z)) as [u|]; [|reflexivity]. apply N.ltb_ge. apply TN2. reflexivity. }
    rewrite SL, AC', TN1. eexists. exists (r_i z). eexists. eexists. split; [reflexivity|]. cbn. auto.
Qed.
(** loops over entries without dots *)
Definition clean (l : list entry) : Prop := forall y, In y l -> dotted y = false /\ ~ ds (snd y).
Lemma core_clean : forall s (f : entry -> bool), core s -> clean (filter f (nes (B s))).
Proof.
  intros s f (_ & _ & _ & _ & (_ & _ & _ & A4) & (D1 & _)) [[[t0 p0] a0] d0] I. apply filter_In in I. destruct I as [I _]. split; [|exact (A4 _ _ _ _ I)].
  destruct (D1 _ _ _ _ I). apply dotted_no; assumption.
Qed.
Lemma loop_core : forall l s, clean l -> core s -> core (fst (loop E v now l s)) /\ snd (loop E v now l s) = true /\ exists new, cues (fst (loop E v now l s)) = cues s ++ new.
Proof.
  induction l as [|y l IH]; intros s CL C; [split; [exact C|]; split; [reflexivity|]; exists []; rewrite app_nil_r; reflexivity|].
  cbn [loop]. destruct (CL y (or_introl eq_refl)) as [DY NY]. rewrite DY.
  destruct (IH (unpark E v now y s)) as (A & T & new & C'); [intros z Z; apply CL; right; exact Z|apply unpark_core; assumption|]. split; [exact A|]. split; [exact T|].
  destruct (unpark_cues v now y s) as (new0 & C0). exists (new0 ++ new). rewrite C', C0, app_assoc. reflexivity.
Qed.
Hypothesis TM : now - q_dt r <= timeout.
Section Lacks.
Hypothesis LK : lacks E v t r aid.
Lemma unpark_waits : forall y s, core s -> In x (nes (B s)) -> In x (nes (B (unpark E v now y s))).
Proof.
  intros y s C I. destruct (entry_dec y x) as [->|N]; [|apply unpark_keeps; [exact I|congruence]].
  destruct (unpark_own s C TM) as (cs & CI & ->). destruct C as (_ & _ & _ & _ & A & _). destruct (handle_lacks s cs A CI LK) as (s1 & id & q & e & H & W & _ & _ & _ & B1).
  rewrite H. rewrite park_eq, W. apply park_nes. left. rewrite B1. exact I.
Qed.
Lemma loop_waits : forall l s, clean l -> core s -> In x (nes (B s)) -> In x (nes (B (fst (loop E v now l s)))).
Proof.
  induction l as [|y l IH]; intros s CL C I; [exact I|]. cbn [loop]. destruct (CL y (or_introl eq_refl)) as [DY NY]. rewrite DY.
  apply IH; [intros z Z; apply CL; right; exact Z|apply unpark_core; assumption|apply unpark_waits; assumption].
Qed.
Lemma pass_waits : forall s, core s -> In x (nes (B s)) -> core (fst (pass E v now s)) /\ In x (nes (B (fst (pass E v now s)))) /\ snd (pass E v now s) = true.
Proof.
  intros s C I. unfold pass. generalize [CredMre; CredMae; CredOoo; RegMae; RegOoo] as ts. intros ts.
  assert (G : forall o, core (fst o) -> In x (nes (B (fst o))) -> snd o = true ->
    let o' := fold_left (fun o t => if snd o : bool then processState E t v now (fst o) else o) ts o in core (fst o') /\ In x (nes (B (fst o'))) /\ snd o' = true).
  { induction ts as [|t' ts IH]; intros o H1 H2 H3; [cbn; auto|]. cbn [fold_left]. rewrite H3. unfold processState.
    pose proof (core_clean (fst o) (fun z => etyp_eqb t' (fst (fst (fst z)))) H1) as CL. destruct (loop_core _ _ CL H1) as (A1 & A2 & _). apply IH; [exact A1|apply loop_waits; assumption|exact A2]. }
  apply (G (s, true)); [exact C|exact I|reflexivity].
Qed.
End Lacks.
Section Ready.
Variables id d : bytes.
Hypothesis RD : ready E v (isReg t) r aid id d.
Lemma unpark_saves : forall s, core s -> exists new, cues (unpark E v now x s) = cues s ++ new /\ In (Saved id d) new.
Proof.
  intros s C. destruct (unpark_own s C TM) as (cs & CI & U). destruct C as (_ & _ & _ & _ & A & _). destruct (handle_ready s cs id d A CI RD) as (s1 & H & C1 & B1).
  rewrite U, H. exists [Saved id d]. split; [cbn; rewrite C1; reflexivity|]. left. reflexivity.
Qed.
(** the entry does not come back *)
Definition gone (s : st) : Prop := ~ In x (nes (B s)).
Lemma drop_gone : forall y s, gone s \/ y = x -> gone (dropEntry y s).
Proof. intros y s H I. apply drop_in in I. destruct I as [I N]. destruct H as [H| ->]; [exact (H I)|congruence]. Qed.
Lemma unpark_gone : forall y s, ~ ds (snd y) -> core s -> gone s \/ y = x -> gone (unpark E v now y s).
Proof.
  intros y s NY C G. destruct y as [[[t0 p0] a0] said]. cbn [snd] in NY.
  destruct (beq said (q_said r) && beq a0 aid && Bool.eqb (isReg t0) (isReg t)) eqn:K.
  - apply andb_true_iff in K. destruct K as [K K3]. apply andb_true_iff in K. destruct K as [K1 K2]. apply beq_eq in K1, K2. apply Bool.eqb_prop in K3. subst said a0.
    pose proof C as C'. destruct C' as (C1 & C2 & (cs & C3 & C4) & C5 & A & _). destruct (handle_ready s cs id d A C4 RD) as (s1 & H & _ & B1).
    unfold unpark. rewrite C1, C2, C3. unfold plain in C5. rewrite C5. destruct cs as [|c cs]; [destruct C4|]. cbn [andb].
    replace (timeout <? now - q_dt r) with false by (symmetry; apply N.ltb_ge; exact TM). cbn [map]. rewrite K3, H. apply drop_gone. destruct G as [G|G]; [left|right; exact G].
    unfold gone. cbn [save B nes]. rewrite B1. exact G.
  - assert (NX : (t0, p0, a0, said) <> x) by (unfold x; intros Q; injection Q as -> -> -> ->; rewrite !beq_refl, Bool.eqb_reflx in K; discriminate).
    destruct G as [G|G]; [|contradiction]. unfold unpark. destruct (dget (dts (B s)) said) as [dt|]; [|apply drop_gone; auto].
    destruct (dget (sns (B s)) said) as [r0|] eqn:SN; [|apply drop_gone; auto]. match goal with |- gone (if ?c then dropEntry _ _ else _) => destruct c end; [apply drop_gone; auto|]. destruct (timeout <? now - dt); [apply drop_gone; auto|].
    set (cs := match dget (bcgs (B s)) said with Some l => l | None => [] end). set (gs := map _ _).
    assert (H : gone (fst (handle E (isReg t0) v r0 a0 cs gs s))).
    { destruct (handle_ends E (isReg t0) v r0 a0 cs gs s) as [d' e D|d' t' pre' q e D TT _|d' id' n A RD']; [exact G| |exact G].
      intros I. apply park_nes in I. destruct I as [I|I]; [exact (G I)|]. unfold x in I. injection I as T1 _ T2 T3. subst t' a0.
      destruct C as (_ & _ & _ & _ & (_ & _ & A3 & _) & _). destruct (A3 said r0 SN) as [_ [Q|Q]]; [|contradiction].
      rewrite Q, T3, !beq_refl, TT, Bool.eqb_reflx in K. discriminate. }
    destruct (handle E (isReg t0) v r0 a0 cs gs s) as [s1 [u|e]]; cbn [fst] in H; [apply drop_gone; auto|]. destruct (waits t0 e); [exact H|apply drop_gone; auto].
Qed.
Lemma loop_gone : forall l s, clean l -> core s -> gone s -> gone (fst (loop E v now l s)).
Proof.
  induction l as [|y l IH]; intros s CL C G; [exact G|]. cbn [loop]. destruct (CL y (or_introl eq_refl)) as [DY NY]. rewrite DY.
  apply IH; [intros z Z; apply CL; right; exact Z|apply unpark_core; assumption|apply unpark_gone; auto].
Qed.
Lemma loop_saves : forall l s, clean l -> core s -> In x l -> In x (nes (B s)) -> gone (fst (loop E v now l s)) /\ exists new, cues (fst (loop E v now l s)) = cues s ++ new /\ In (Saved id d) new.
Proof.
  induction l as [|y l IH]; intros s CL C IL I; [destruct IL|]. cbn [loop]. destruct (CL y (or_introl eq_refl)) as [DY NY]. rewrite DY.
  assert (CL' : clean l) by (intros z Z; apply CL; right; exact Z). pose proof (unpark_core y s DY NY C) as C1.
  destruct (entry_dec y x) as [->|N].
  - destruct (unpark_saves s C) as (n1 & E1 & I1). destruct (loop_core l _ CL' C1) as (_ & _ & n2 & E2). split; [apply loop_gone; [exact CL'|exact C1|apply unpark_gone; auto]|].
    exists (n1 ++ n2). rewrite E2, E1, app_assoc. split; [reflexivity|]. apply in_or_app. left. exact I1.
  - destruct IL as [->|IL]; [congruence|]. destruct (unpark_cues v now y s) as (n1 & E1).
    destruct (IH (unpark E v now y s) CL' C1 IL) as (G & n2 & E2 & I2); [apply unpark_keeps; [exact I|congruence]|]. split; [exact G|]. exists (n1 ++ n2). rewrite E2, E1, app_assoc. split; [reflexivity|]. apply in_or_app. right. exact I2.
Qed.
Lemma pass_saves : forall s, core s -> In x (nes (B s)) -> gone (fst (pass E v now s)) /\ exists new, cues (fst (pass E v now s)) = cues s ++ new /\ In (Saved id d) new.
Proof.
  intros s C I. unfold pass.
  assert (TI : In t [CredMre; CredMae; CredOoo; RegMae; RegOoo]) by (destruct t; cbn; auto 10).
  revert TI. generalize [CredMre; CredMae; CredOoo; RegMae; RegOoo] as ts. intros ts TI.
  set (F := fold_left (fun o t => if snd o : bool then processState E t v now (fst o) else o)).
  assert (G0 : forall ts o, core (fst o) -> snd o = true -> gone (fst o) -> gone (fst (F ts o)) /\ exists new, cues (fst (F ts o)) = cues (fst o) ++ new).
  { intros ts0. induction ts0 as [|t' ts' IH]; intros o H1 H3 H4; [split; [exact H4|]; exists []; rewrite app_nil_r; reflexivity|].
    change (F (t' :: ts') o) with (F ts' (if snd o : bool then processState E t' v now (fst o) else o)). rewrite H3. unfold processState.
    pose proof (core_clean (fst o) (fun z => etyp_eqb t' (fst (fst (fst z)))) H1) as CL. destruct (loop_core _ _ CL H1) as (A1 & A2 & n1 & E1).
    destruct (IH _ A1 A2) as (G & n2 & E2); [apply loop_gone; assumption|]. split; [exact G|]. exists (n1 ++ n2). rewrite E2, E1, app_assoc. reflexivity. }
  assert (G : forall o, core (fst o) -> In x (nes (B (fst o))) -> snd o = true -> gone (fst (F ts o)) /\ exists new, cues (fst (F ts o)) = cues (fst o) ++ new /\ In (Saved id d) new).
  { induction ts as [|t' ts IH]; intros o H1 H2 H3; [destruct TI|]. change (F (t' :: ts) o) with (F ts (if snd o : bool then processState E t' v now (fst o) else o)). rewrite H3. unfold processState.
    pose proof (core_clean (fst o) (fun z => etyp_eqb t' (fst (fst (fst z)))) H1) as CL. destruct (loop_core _ _ CL H1) as (A1 & A2 & n1 & E1).
    destruct (etyp_eqb t' t) eqn:TT.
    - apply etyp_eqb_eq in TT. subst t'. destruct (loop_saves _ (fst o) CL H1) as (GG & n1' & E1' & I1'); [apply filter_In; split; [exact H2|unfold x; apply etyp_eqb_eq; reflexivity]|exact H2|].
      destruct (G0 ts _ A1 A2 GG) as (G2 & n2 & E2). split; [exact G2|]. exists (n1' ++ n2). rewrite E2, E1', app_assoc. split; [reflexivity|]. apply in_or_app. left. exact I1'.
    - assert (NT : t' <> t) by (intros K; apply etyp_eqb_eq in K; congruence). destruct TI as [TI|TI]; [congruence|].
      destruct (IH TI _ A1) as (G2 & n2 & E2 & I2); [|exact A2|split; [exact G2|]; exists (n1 ++ n2); rewrite E2, E1, app_assoc; split; [reflexivity|apply in_or_app; right; exact I2]].
      apply loop_others; [|exact H2]. intros y Y ->. apply filter_In in Y. destruct Y as [_ Y]. apply etyp_eqb_eq in Y. unfold x in Y. cbn in Y. congruence. }
  apply (G (s, true)); [exact C|exact I|reflexivity].
Qed.
End Ready.
End Wait.
End Ts.
