(** Properties of queries and the waiting for their answers. *)
From Coq Require Import Lia.
From Verif Require Import Prelude QnModel QnSpec QnProofs.
Ltac Zify.zify_post_hook ::= Z.div_mod_to_equations.
Open Scope N_scope.
Local Arguments N.leb : simpl never.
Local Arguments N.ltb : simpl never.

(** An environment of a number and cues, with endpoint. *)
Definition ev (k : option N) (l : list cue) : env := mkEnv k false true l.

Lemma c141_seqno : forall sn wits es, doneBy (seqRun sn wits es) = true <-> exists e, In e es /\ reaches sn e.
Proof. exact seq_done. Qed.

Lemma c141_anchor : forall es, doneBy (ancRun es) = true <-> exists e, In e es /\ kn e <> None /\ anc e = true.
Proof. exact anc_done. Qed.

Lemma c141_notice_partial : forall strict pre es, n_st (notRun strict pre es) = Fin ->
  exists n d e1 e2, In e1 es /\ In (Notice pre n d) (cues e1) /\ In e2 es /\ reaches n e2.
Proof.
  intros strict pre es F. destruct (v_fin _ _ _ (ninv_run strict pre es) F) as (n & d & e & (e1 & A & B) & C & D). exists n, d, e1, e. auto.
Qed.
Lemma c141_cues : forall strict pre es e c, n_st (notRun strict pre es) = Going -> In e es -> In c (cues e) -> ours pre c = false ->
  In c (n_deck (notRun strict pre es)).
Proof. intros strict pre es e c G E C O. apply (v_kept _ _ _ (ninv_run strict pre es)); [exists e; auto|exact O|exact G]. Qed.


Lemma c141_digest_refuted : (forall strict pre es e m n d, n_st (notRun strict pre es) = Going -> n_deck (notRun strict pre es) = [] ->
    kn e = Some m -> n <= m -> cues e = [Notice pre n d] -> n_st (notRun strict pre (es ++ [e])) = Fin) /\
  n_st (notRun true 7 [ev (Some 3) [Notice 7 3 1]]) = Fin /\ n_st (notRun true 7 [ev (Some 3) [Notice 7 3 2]]) = Fin.
Proof.
  split; [|split; reflexivity]. intros strict pre es e m n d G D K L C. rewrite not_snoc. unfold notTurn. rewrite G, D, C, K. cbn [app].
  rewrite N.eqb_refl. replace (m <? n) with false by (symmetry; apply N.ltb_ge; exact L). reflexivity.
Qed.

Lemma c141_second_refuted : (forall pre es e m n d l, n_st (notRun true pre es) = Going -> n_q (notRun true pre es) = None -> kn e = Some m -> m < n ->
    n_deck (notRun true pre es) ++ cues e = Notice pre n d :: l -> n_st (notRun true pre (es ++ [e])) = Err) /\
  n_st (notRun true 7 [ev (Some 1) [Notice 7 2 0]; ev (Some 1) [Notice 7 2 0]; ev (Some 2) []]) = Err /\
  n_st (notRun false 7 [ev (Some 1) [Notice 7 2 0]; ev (Some 1) [Notice 7 2 0]; ev (Some 2) []]) = Fin.
Proof.
  split; [|split; reflexivity]. intros pre es e m n d l G Q K L D. rewrite not_snoc. unfold notTurn. rewrite G, D, K, Q, N.eqb_refl.
  replace (m <? n) with true by (symmetry; apply N.ltb_lt; exact L). reflexivity.
Qed.

Lemma c142_seqno_partial : (forall sn wits es1 e es2, Forall unknown es1 -> behind sn e -> sentBy (seqRun sn wits (es1 ++ e :: es2)) = (wits || can e)%bool) /\
  forall sn wits es, sentBy (seqRun sn wits es) = true -> exists es1 e es2, es = es1 ++ e :: es2 /\ Forall unknown es1 /\ behind sn e /\ (wits || can e)%bool = true.
Proof.
  assert (AF : forall sn w es q d, i_msg q = false -> fst (fold_left (seqTurn sn w) es (q, d)) = q).
  { intros sn w. induction es as [|e es IH]; intros q d M; [reflexivity|]. cbn. destruct d; [apply IH; exact M|]. destruct (kn e) as [m|]; [|apply IH; exact M].
    destruct (sn <=? m); [apply IH; exact M|]. unfold inqTurn. rewrite M. apply IH. exact M. }
  split.
  - intros sn w es1 e es2 U (m & K & L). unfold sentBy, seqRun. rewrite fold_left_app.
    assert (E1 : fold_left (seqTurn sn w) es1 (inq0, false) = (inq0, false)).
    { induction U as [|x l X U IH]; [reflexivity|]. cbn. unfold unknown in X. rewrite X. exact IH. }
    rewrite E1. cbn [fold_left seqTurn]. rewrite K. replace (sn <=? m) with false by (symmetry; apply N.leb_gt; exact L).
    rewrite AF; unfold inqTurn; cbn [i_msg inq0]; [rewrite K; reflexivity|reflexivity].
  - intros sn w es H. unfold sentBy in H. destruct (seq_inq sn w es) as [(_ & Z & _)|(_ & es1 & e & es2 & A & B & C & D)]; [cbv zeta in Z; congruence|].
    exists es1, e, es2. split; [exact A|]. split; [exact B|]. split; [exact C|]. cbv zeta in D. congruence.
Qed.


Lemma c142_unknown_refuted : (forall sn wits es, Forall unknown es -> seqRun sn wits es = (inq0, false)) /\ (forall es, Forall unknown es -> ancRun es = (inq0, false)) /\
  forall n, sentBy (seqRun 0 true (repeat (ev None []) n)) = false.
Proof.
  assert (A : forall sn wits es, Forall unknown es -> seqRun sn wits es = (inq0, false)).
  { intros sn w es U. unfold seqRun. induction U as [|x l X U IH]; [reflexivity|]. cbn. unfold unknown in X. rewrite X. exact IH. }
  split; [exact A|]. split.
  - intros es U. unfold ancRun. induction U as [|x l X U IH]; [reflexivity|]. cbn. unfold unknown in X. rewrite X. exact IH.
  - intros n. rewrite A; [reflexivity|]. induction n; [constructor|]. constructor; [reflexivity|exact IHn].
Qed.

Lemma c142_dropped_refuted : (forall sn es1 e es2, Forall unknown es1 -> behind sn e -> can e = false -> sentBy (seqRun sn false (es1 ++ e :: es2)) = false) /\
  (forall strict pre e es, (unknown e \/ (can e = false /\ cues e = [])) -> n_sent (notRun strict pre (e :: es)) = false) /\
  (forall n, sentBy (seqRun 3 false (mkEnv (Some 1) false false [] :: repeat (ev (Some 1) []) n)) = false) /\
  (forall n, n_sent (notRun true 7 (ev None [] :: repeat (ev (Some 1) []) n)) = false) /\
  n_sent (notRun true 7 [ev (Some 1) []]) = true.
Proof.
  assert (B : forall strict pre e es, (unknown e \/ (can e = false /\ cues e = [])) -> n_sent (notRun strict pre (e :: es)) = false).
  { intros strict pre e es U. unfold notRun. cbn [fold_left]. assert (T : notTurn strict pre noticer0 e = mkNot (cues e) (Some (mkInq false false)) false [] Going).
    { unfold notTurn. cbn [n_st noticer0 n_deck app n_q n_sent n_logs]. unfold subs, inqTurn. cbn. destruct U as [U|(U1 & U2)].
      - unfold unknown in U. rewrite U. cbn. reflexivity.
      - rewrite U2. cbn. destruct (kn e); rewrite ?U1; reflexivity. }
    rewrite T. apply not_dropped; cbn; auto. }
  assert (A : forall sn es1 e es2, Forall unknown es1 -> behind sn e -> can e = false -> sentBy (seqRun sn false (es1 ++ e :: es2)) = false).
  { intros sn es1 e es2 U BE C. rewrite (proj1 c142_seqno_partial sn false es1 e es2 U BE), C. reflexivity. }
  split; [exact A|]. split; [exact B|]. split; [|split; [|reflexivity]].
  - intros n. apply (A 3 [] (mkEnv (Some 1) false false [])); [constructor|exists 1; split; [reflexivity|lia]|reflexivity].
  - intros n. apply B. left. reflexivity.
Qed.

Lemma c141_ends : (forall strict pre es l1 n d l2 es' e, n_st (notRun strict pre es) = Going -> n_deck (notRun strict pre es) = l1 ++ Notice pre n d :: l2 ->
    Forall (fun c => ours pre c = false) l1 -> List.length es' = List.length l1 -> Forall (fun x => kn x <> None) es' -> reaches n e ->
    n_st (notRun strict pre (es ++ es' ++ [e])) = Fin) /\
  (forall strict pre es e, n_st (notRun strict pre es) = Going -> n_q (notRun strict pre es) = None ->
    Forall (fun c => ours pre c = false) (n_deck (notRun strict pre es) ++ cues e) -> Forall (fun x => reaches (fst x) e) (n_logs (notRun strict pre es)) ->
    n_st (notRun strict pre (es ++ [e])) = Fin).
Proof.
  split.
  - intros strict pre es l1 n d l2 es' e G D F LE K R. unfold notRun. rewrite fold_left_app. fold (notRun strict pre es). revert G D.
    generalize (notRun strict pre es) as s. revert es' l2 LE K.
    assert (FS : forall es0 s, n_st s = Fin -> n_st (fold_left (notTurn strict pre) es0 s) = Fin).
    { induction es0 as [|x es0 IH]; cbn; intros s H; [exact H|]. apply IH. unfold notTurn. rewrite H. exact H. }
    induction F as [|c l1 O F IH]; intros es' l2 LE K s G D.
    + destruct es'; [|discriminate LE]. cbn. unfold notTurn. rewrite G, D. destruct R as (m & -> & L). cbn [app].
      rewrite N.eqb_refl. replace (m <? n) with false by (symmetry; apply N.ltb_ge; exact L). reflexivity.
    + destruct es' as [|x es']; [discriminate LE|]. inversion K as [|? ? K1 K2]; subst. cbn [app fold_left].
      assert (X : exists s0, notTurn strict pre s x = subs x s0 /\ n_deck s0 = l1 ++ Notice pre n d :: (l2 ++ cues x) ++ [c]).
      { unfold notTurn. rewrite G, D. destruct (kn x) as [m|]; [|destruct (K1 eq_refl)]. cbn [app].
        destruct c as [i n' d'|c]; [cbn in O; rewrite O|]; eexists; (split; [reflexivity|]); cbn; rewrite <- !app_assoc; reflexivity. }
      destruct X as (s0 & E & D0). rewrite E. destruct (n_st (subs x s0)) eqn:ST.
      * apply (IH es' ((l2 ++ cues x) ++ [c])); [cbn in LE; lia|exact K2|exact ST|exact D0].
      * apply FS. exact ST.
      * exfalso. revert ST. unfold subs. cbn. destruct (option_map (inqTurn false x) (n_q s0)); [discriminate|].
        destruct (flat_map _ (n_logs s0)); discriminate.
  - intros strict pre es e G Q O R. pose proof (v_some _ _ _ (ninv_run strict pre es) G Q) as NE. rewrite not_snoc. set (s := notRun strict pre es) in *. clearbody s.
    assert (KE : exists m, kn e = Some m).
    { destruct (n_logs s) as [|x l]; [destruct (NE eq_refl)|]. inversion R as [|? ? (m & K & _) _]; subst. eauto. }
    destruct KE as (m & KE).
    assert (SB : forall dk, n_st (subs e (mkNot dk (n_q s) (n_sent s) (n_logs s) Going)) = Fin).
    { intros dk. unfold subs. cbn. rewrite Q. cbn.
      replace (flat_map (fun x => match logTurn e x with Some y => [y] | None => [] end) (n_logs s)) with (@nil (N * inq)); [reflexivity|].
      symmetry. clear - R KE. induction R as [|x l (m' & K & L) R IH]; [reflexivity|]. cbn. rewrite IH. unfold logTurn. rewrite K.
      replace (fst x <=? m') with true by (symmetry; apply N.leb_le; exact L). reflexivity. }
    unfold notTurn. rewrite G, KE. destruct (n_deck s ++ cues e) as [|c dk]; [apply SB|]. inversion O as [|? ? O1 O2]; subst.
    destruct c as [i n d|c]; [cbn in O1; rewrite O1|]; apply SB.
Qed.

