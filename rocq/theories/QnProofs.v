(** Proofs about queries. *)
From Coq Require Import Lia.
From Verif Require Import Prelude QnModel QnSpec.
Ltac Zify.zify_post_hook ::= Z.div_mod_to_equations.
Open Scope N_scope.
Local Arguments N.leb : simpl never.
Local Arguments N.ltb : simpl never.

Lemma seq_snoc : forall sn w es e, seqRun sn w (es ++ [e]) = seqTurn sn w (seqRun sn w es) e.
Proof. intros. unfold seqRun. rewrite fold_left_app. reflexivity. Qed.
Lemma anc_snoc : forall es e, ancRun (es ++ [e]) = ancTurn (ancRun es) e.
Proof. intros. unfold ancRun. rewrite fold_left_app. reflexivity. Qed.
Lemma not_snoc : forall st p es e, notRun st p (es ++ [e]) = notTurn st p (notRun st p es) e.
Proof. intros. unfold notRun. rewrite fold_left_app. reflexivity. Qed.

Lemma seq_done : forall sn w es, snd (seqRun sn w es) = true <-> exists e, In e es /\ reaches sn e.
Proof.
  intros sn w. induction es as [|e es IH] using rev_ind; [split; [discriminate|intros (e & [] & _)]|].
  rewrite seq_snoc. destruct (seqRun sn w es) as [q d]. cbn in *. destruct d.
  - split; [intros _|reflexivity]. destruct (proj1 IH eq_refl) as (x & X & R). exists x. split; [apply in_or_app; auto|exact R].
  - assert (NO : ~ exists x, In x es /\ reaches sn x) by (intros Z; apply IH in Z; discriminate Z).
    assert (EQ : (exists x, In x (es ++ [e]) /\ reaches sn x) <-> reaches sn e).
    { split; [intros (x & X & R)|intros R; exists e; split; [apply in_or_app; cbn; auto|exact R]]. apply in_app_or in X. destruct X as [X|[<-|[]]]; [destruct NO; eauto|exact R]. }
    rewrite EQ. unfold reaches. destruct (kn e) as [m|].
    + destruct (sn <=? m) eqn:L; cbn.
      * apply N.leb_le in L. split; [eauto|reflexivity].
      * apply N.leb_gt in L. split; [discriminate|]. intros (m' & M & Z). inversion M; subst. lia.
    + cbn. split; [discriminate|]. intros (m' & M & _). discriminate M.
Qed.
Lemma anc_done : forall es, snd (ancRun es) = true <-> exists e, In e es /\ kn e <> None /\ anc e = true.
Proof.
  induction es as [|e es IH] using rev_ind; [split; [discriminate|intros (e & [] & _)]|].
  rewrite anc_snoc. destruct (ancRun es) as [q d]. cbn in *. destruct d.
  - split; [intros _|reflexivity]. destruct (proj1 IH eq_refl) as (x & X & R). exists x. split; [apply in_or_app; auto|exact R].
  - assert (NO : ~ exists x, In x es /\ kn x <> None /\ anc x = true) by (intros Z; apply IH in Z; discriminate Z).
    assert (EQ : (exists x, In x (es ++ [e]) /\ kn x <> None /\ anc x = true) <-> kn e <> None /\ anc e = true).
    { split; [intros (x & X & R)|intros R; exists e; split; [apply in_or_app; cbn; auto|exact R]]. apply in_app_or in X. destruct X as [X|[<-|[]]]; [destruct NO; eauto|exact R]. }
    rewrite EQ. destruct (kn e) as [m|]; [|cbn; split; [discriminate|intros (Z & _); destruct (Z eq_refl)]].
    destruct (anc e); cbn; split; auto; [intros _; split; [discriminate|reflexivity]|discriminate|intros (_ & Z); discriminate Z].
Qed.

(** The message of a sequence number query goes at the first turn at which the identifier is known. *)
Lemma seq_inq : forall sn w es, let q := fst (seqRun sn w es) in
  (i_msg q = true /\ i_sent q = false /\ forall e, In e es -> ~ reaches sn e -> unknown e \/ exists x, In x es /\ reaches sn x) \/
  (i_msg q = false /\ exists es1 e es2, es = es1 ++ e :: es2 /\ Forall unknown es1 /\ behind sn e /\ i_sent q = (w || can e)).
Proof.
  intros sn w. induction es as [|e es IH] using rev_ind; cbv zeta in *; [left; cbn; split; [reflexivity|split; [reflexivity|intros e []]]|].
  rewrite seq_snoc. pose proof (seq_done sn w es) as SD. destruct (seqRun sn w es) as [q d]. cbn in *. destruct d.
  - cbn. destruct IH as [(A & B & C)|(A & es1 & x & es2 & -> & B & C & D)].
    + left. split; [exact A|]. split; [exact B|]. intros x _ _. right. destruct (proj1 SD eq_refl) as (y & Y & R). exists y. split; [apply in_or_app; auto|exact R].
    + right. split; [exact A|]. exists es1, x, (es2 ++ [e]). rewrite <- app_assoc. auto.
  - assert (NO : ~ exists x, In x es /\ reaches sn x) by (intros Z; apply SD in Z; discriminate Z). destruct (kn e) as [m|] eqn:K.
    + destruct (sn <=? m) eqn:L; cbn.
      * assert (RE : reaches sn e) by (exists m; apply N.leb_le in L; auto).
        destruct IH as [(A & B & C)|(A & es1 & x & es2 & -> & B & C & D)].
        -- left. split; [exact A|]. split; [exact B|]. intros x _ _. right. exists e. split; [apply in_or_app; cbn; auto|exact RE].
        -- right. split; [exact A|]. exists es1, x, (es2 ++ [e]). rewrite <- app_assoc. auto.
      * assert (BE : behind sn e) by (exists m; apply N.leb_gt in L; auto). unfold inqTurn. rewrite K.
        destruct IH as [(A & B & C)|(A & es1 & x & es2 & -> & B & C & D)].
        -- rewrite A. cbn. right. split; [reflexivity|]. exists es, e, []. split; [reflexivity|]. split; [|split; [exact BE|rewrite B; reflexivity]].
           apply Forall_forall. intros x X. destruct (C x X) as [U|U]; [intros Z; apply NO; eauto|exact U|destruct (NO U)].
        -- rewrite A. right. split; [exact A|]. exists es1, x, (es2 ++ [e]). rewrite <- app_assoc. auto.
    + cbn. destruct IH as [(A & B & C)|(A & es1 & x & es2 & -> & B & C & D)].
      * left. split; [exact A|]. split; [exact B|]. intros x X NR. apply in_app_or in X. destruct X as [X|[<-|[]]]; [|left; exact K].
        destruct (C x X NR) as [U|(y & Y & R)]; [auto|]. right. exists y. split; [apply in_or_app; auto|exact R].
      * right. split; [exact A|]. exists es1, x, (es2 ++ [e]). rewrite <- app_assoc. auto.
Qed.

(** Facts about the noticer that turns keep. *)
Definition arrived (es : list env) (c : cue) : Prop := exists e, In e es /\ In c (cues e).
Record ninv (pre : N) (es : list env) (s : noticer) : Prop := mkNinv {
  v_deck : forall c, In c (n_deck s) -> arrived es c;
  v_kept : forall c, arrived es c -> ours pre c = false -> n_st s = Going -> In c (n_deck s);
  v_logs : forall n q, In (n, q) (n_logs s) -> exists d, arrived es (Notice pre n d);
  v_some : n_st s = Going -> n_q s = None -> n_logs s <> [];
  v_fin : n_st s = Fin -> exists n d e, arrived es (Notice pre n d) /\ In e es /\ reaches n e }.

Lemma arrived_snoc : forall es e c, arrived (es ++ [e]) c <-> arrived es c \/ In c (cues e).
Proof.
  intros es e c. unfold arrived. split.
  - intros (x & X & C). apply in_app_or in X. destruct X as [X|[<-|[]]]; [left; eauto|auto].
  - intros [(x & X & C)|C]; [exists x; split; [apply in_or_app; auto|exact C]|exists e; split; [apply in_or_app; cbn; auto|exact C]].
Qed.

(** One turn of the doers inside, from facts about the state before it. *)
Lemma subs_inv : forall pre es e s,
  (forall c, In c (n_deck s) -> arrived (es ++ [e]) c) ->
  (forall c, arrived (es ++ [e]) c -> ours pre c = false -> In c (n_deck s)) ->
  (forall n q, In (n, q) (n_logs s) -> exists d, arrived (es ++ [e]) (Notice pre n d)) ->
  (n_q s = None -> n_logs s <> []) -> ninv pre (es ++ [e]) (subs e s).
Proof.
  intros pre es e s D1 D2 L1 L2. unfold subs. set (q := option_map (inqTurn false e) (n_q s)). set (logs := flat_map _ (n_logs s)).
  assert (LG : forall n x, In (n, x) logs -> exists y, In (n, y) (n_logs s)).
  { intros n x X. apply in_flat_map in X. destruct X as ((n', y) & Y & X). unfold logTurn in X. cbn in X. destruct (kn e) as [m|].
    - destruct (n' <=? m); [destruct X|]. destruct X as [X|[]]. inversion X; subst. eauto.
    - destruct X as [X|[]]. inversion X; subst. eauto. }
  assert (ST : forall st, st = match q, logs with None, [] => Fin | _, _ => Going end -> (st = Going -> q = None -> logs <> []) /\ (st = Fin -> q = None /\ logs = [])).
  { intros st ->. destruct q; [split; [discriminate|intros Z; discriminate Z]|]. destruct logs; split; intros Z; try discriminate Z; auto. discriminate. }
  destruct (ST _ eq_refl) as (ST1 & ST2). constructor; cbn.
  - exact D1.
  - intros c A B _. auto.
  - intros n x X. destruct (LG n x X) as (y & Y). eauto.
  - exact ST1.
  - intros F. destruct (ST2 F) as (QN & LN). unfold q in QN. destruct (n_q s) as [q0|] eqn:Q0; [discriminate QN|].
    specialize (L2 eq_refl). destruct (n_logs s) as [|(n, y) l] eqn:NL; [destruct (L2 eq_refl)|].
    destruct (L1 n y (or_introl eq_refl)) as (d & A). exists n, d, e. split; [exact A|]. split; [apply in_or_app; cbn; auto|].
    unfold logs in LN. cbn in LN. unfold logTurn in LN at 1. cbn in LN. destruct (kn e) as [m|] eqn:K; [|discriminate LN].
    destruct (n <=? m) eqn:L; [|discriminate LN]. exists m. split; [exact K|]. apply N.leb_le. exact L.
Qed.

Lemma ninv_run : forall st pre es, ninv pre es (notRun st pre es).
Proof.
  intros st pre. induction es as [|e es IH] using rev_ind.
  { constructor; cbn; [intros c []|intros c (e & [] & _)|intros n q []|discriminate|discriminate]. }
  rewrite not_snoc. destruct IH as [I1 I2 I3 I4 I5]. set (s := notRun st pre es) in *. unfold notTurn. destruct (n_st s) eqn:ST.
  - assert (D1 : forall c, In c (n_deck s ++ cues e) -> arrived (es ++ [e]) c).
    { intros c C. apply arrived_snoc. apply in_app_or in C. destruct C; auto. }
    assert (D2 : forall c, arrived (es ++ [e]) c -> ours pre c = false -> In c (n_deck s ++ cues e)).
    { intros c C O. apply arrived_snoc in C. apply in_or_app. destruct C; auto. }
    assert (L1 : forall n q, In (n, q) (n_logs s) -> exists d, arrived (es ++ [e]) (Notice pre n d)).
    { intros n q L. destruct (I3 n q L) as (d & A). exists d. apply arrived_snoc. auto. }
    specialize (I4 eq_refl). destruct (kn e) as [m|] eqn:K; [|apply subs_inv; auto].
    destruct (n_deck s ++ cues e) as [|c deck]; [apply subs_inv; auto|]. destruct c as [i n d|c].
    + destruct (i =? pre) eqn:IP.
      * apply N.eqb_eq in IP. subst i.
        assert (D3 : forall c, In c deck -> arrived (es ++ [e]) c) by (intros c C; apply D1; right; exact C).
        assert (D4 : forall c, arrived (es ++ [e]) c -> ours pre c = false -> In c deck).
        { intros c C O. destruct (D2 c C O) as [<-|Z]; [|exact Z]. cbn in O. rewrite N.eqb_refl in O. discriminate O. }
        assert (L3 : forall n' q, In (n', q) (n_logs s ++ [(n, inq0)]) -> exists d, arrived (es ++ [e]) (Notice pre n' d)).
        { intros n' q L. apply in_app_or in L. destruct L as [L|[L|[]]]; [eauto|]. inversion L; subst. exists d. apply D1. left. reflexivity. }
        assert (NE : n_logs s ++ [(n, inq0)] <> []) by (destruct (n_logs s); discriminate).
        destruct (m <? n) eqn:MN.
        -- destruct (n_q s); [apply subs_inv; auto|]. destruct st; [|apply subs_inv; auto]. constructor; cbn; [exact D3|intros ? ? ? Z; discriminate Z|exact L3|intros Z; discriminate Z|intros Z; discriminate Z].
        -- constructor; cbn; [exact D3|intros ? ? ? Z; discriminate Z|exact L1|intros Z; discriminate Z|]. intros _. exists n, d, e. split; [apply D1; left; reflexivity|].
           split; [apply in_or_app; cbn; auto|]. exists m. split; [exact K|]. apply N.ltb_ge. exact MN.
      * apply subs_inv; cbn; auto.
        -- intros c C. apply D1. apply in_app_or in C. destruct C as [C|[C|[]]]; [right; exact C|left; exact C].
        -- intros c C O. apply in_or_app. destruct (D2 c C O) as [Z|Z]; [right; left; exact Z|left; exact Z].
    + apply subs_inv; cbn; auto.
      * intros x C. apply D1. apply in_app_or in C. destruct C as [C|[C|[]]]; [right; exact C|left; exact C].
      * intros x C O. apply in_or_app. destruct (D2 x C O) as [Z|Z]; [right; left; exact Z|left; exact Z].
  - constructor; rewrite ?ST; try discriminate.
    + intros c C. apply arrived_snoc. auto.
    + intros n q L. destruct (I3 n q L) as (d & A). exists d. apply arrived_snoc. auto.
    + intros _. destruct (I5 eq_refl) as (n & d & x & A & B & C). exists n, d, x. split; [apply arrived_snoc; auto|]. split; [apply in_or_app; auto|exact C].
  - constructor; rewrite ?ST; try discriminate.
    + intros c C. apply arrived_snoc. auto.
    + intros n q L. destruct (I3 n q L) as (d & A). exists d. apply arrived_snoc. auto.
Qed.

(** Once the notice query was dropped it is never sent. *)
Lemma not_dropped : forall st pre es s, (match n_q s with Some q => i_msg q = false /\ i_sent q = false | None => True end) -> n_sent s = false ->
  n_sent (fold_left (notTurn st pre) es s) = false.
Proof.
  intros st pre. induction es as [|e es IH]; intros s Q N0; [exact N0|]. cbn [fold_left].
  assert (SB : forall s', (match n_q s' with Some q => i_msg q = false /\ i_sent q = false | None => True end) -> n_sent s' = false ->
     (match n_q (subs e s') with Some q => i_msg q = false /\ i_sent q = false | None => True end) /\ n_sent (subs e s') = false).
  { intros s' Q' N'. unfold subs. cbn. rewrite N'. destruct (n_q s') as [q|]; cbn; [|auto]. destruct Q' as (Q1 & Q2). unfold inqTurn. rewrite Q1. auto. }
  assert (G : (match n_q (notTurn st pre s e) with Some q => i_msg q = false /\ i_sent q = false | None => True end) /\ n_sent (notTurn st pre s e) = false).
  { unfold notTurn. destruct (n_st s); [|auto|auto]. destruct (kn e) as [m|]; [|apply SB; auto]. destruct (n_deck s ++ cues e) as [|c deck]; [apply SB; auto|].
    destruct c as [i n d|c]; [|apply SB; auto]. destruct (i =? pre); [|apply SB; auto]. destruct (m <? n); [|cbn; auto].
    destruct (n_q s); [apply SB; cbn; auto|]. destruct st; [cbn; auto|apply SB; cbn; auto]. }
  destruct G. apply IH; assumption.
Qed.
