(** Proofs about queries. *)
From Coq Require Import Lia.
From Verif Require Import Prelude B64Model MatterModel SubsModel ThModel ThSpec KelModel KelSpec KelProofs KelInv OoSpec OoProofs ClModel ClSpec ClProofs ClProofs3 QyModel QySpec.
Ltac Zify.zify_post_hook ::= Z.div_mod_to_equations.
Open Scope N_scope.

(** ** The key events of a history *)
Definition kel_ops (ops : list qop) : list op := flat_map (fun o => match o with Kel o => [o] | _ => [] end) ops.
Lemma qstep_db E cf L n o : n_db (qstep E cf L n o) = match o with Kel o => step E cf o (n_db n) | _ => n_db n end.
Proof.
  destruct o; cbn [qstep]; [reflexivity| |].
  - destruct (receive v2 now (n_db n) lsg cg q (n_q n)) as [[s cs] r]. reflexivity.
  - destruct (unescrowQ L now (n_db n) (n_q n)) as [s cs]. reflexivity.
Qed.
Lemma qrun_app E cf L a b n : qrun E cf L (a ++ b) n = qrun E cf L b (qrun E cf L a n).
Proof. apply fold_left_app. Qed.
Lemma qrun_db E cf L ops : forall n, n_db (qrun E cf L ops n) = run E cf (kel_ops ops) (n_db n).
Proof.
  induction ops as [|o ops IH]; intros n; [reflexivity|]. change (qrun E cf L (o :: ops) n) with (qrun E cf L ops (qstep E cf L n o)).
  rewrite IH, qstep_db. destruct o; reflexivity.
Qed.
Lemma qrun_reach E H cf L ops : Forall (real_qop H) ops -> reachable E H cf (n_db (qrun E cf L ops node0)).
Proof.
  intros R. rewrite qrun_db. exists (kel_ops ops). split; [|reflexivity]. apply Forall_forall. intros o I.
  apply in_flat_map in I. destruct I as (a & IA & IO). rewrite Forall_forall in R. specialize (R _ IA). destruct a; cbn in IO; [destruct IO as [<-|[]]; exact R|destruct IO|destruct IO].
Qed.

(** ** Facts about reachable databases *)
Lemma reach_kget E H cf d x p k : world H -> reachable E H cf (d, x) -> kget d x p = Some k -> exists c ee, goodk E H d x p k c ee.
Proof.
  intros W R K. destruct (reach_all _ _ _ _ W R) as (_ & I & _). cbn [fst snd] in I. exact (kget_good _ _ _ _ _ _ W I K).
Qed.
Lemma krow_concat l : forall s, In s (List.concat l) <-> exists n, In s (krow l n).
Proof.
  intros s. rewrite in_concat. unfold krow. split.
  - intros (r & I & J). apply (In_nth _ _ []) in I. destruct I as (n & _ & Q). exists (N.of_nat n). rewrite Nnat.Nat2N.id, Q. exact J.
  - intros (n & J). exists (nth (N.to_nat n) l []). split; [|exact J]. destruct (Nat.lt_ge_cases (N.to_nat n) (List.length l)) as [Q|Q]; [apply nth_In; exact Q|].
    rewrite nth_overflow in J by exact Q. destruct J.
Qed.
Lemma allEvts_accepted E H cf d x p e : world H -> reachable E H cf (d, x) -> In e (allEvts x p (kels d p)) <-> accepted (d, x) p e.
Proof.
  intros W R. destruct (reach_all _ _ _ _ W R) as (_ & I & _). cbn [fst snd] in I. unfold allEvts, accepted. cbn [fst snd]. rewrite in_flat_map. split.
  - intros (s & IS & IE). destruct (evts x p s) as [e0|] eqn:EV; [|destruct IE]. destruct IE as [<-|[]].
    apply krow_concat in IS. destruct IS as (n & IS). destruct (i_kf _ _ _ _ I _ _ _ IS) as (IF & _).
    destruct (i_ev _ _ _ _ I _ _ _ EV) as (HE & _). apply W in HE. destruct HE as (SD & _). rewrite SD. auto.
  - intros (IF & EV). exists (e_said e). split; [|rewrite EV; left; reflexivity]. apply krow_concat. exists (e_sn e). apply (i_fk _ _ _ _ I _ _ _ IF EV).
Qed.
Lemma receipted_ok d x e : fullyWitnessed d x e = true <-> receipted (d, x) e.
Proof.
  unfold fullyWitnessed, receipted, keyState. cbn [fst snd]. destruct (kget d x (e_pre e)) as [k|].
  - rewrite N.leb_le. split; [intros Q; exists k; auto|]. intros (k' & Q & Z). injection Q as <-. exact Z.
  - split; [discriminate|]. intros (k & Q & _). discriminate.
Qed.
Lemma seal_eqb_eq i s d b : seal_eqb i s d b = true <-> b = SealEvt i s d.
Proof.
  destruct b; cbn [seal_eqb].
  - rewrite !andb_true_iff, !N.eqb_eq. split; [intros ((-> & ->) & ->); reflexivity|intros Q; injection Q as -> -> ->; auto].
  - split; discriminate.
Qed.
Lemma anchored_ok E H cf d x p a : world H -> reachable E H cf (d, x) -> fetchAllSealing d x p a = true <-> anchored (d, x) p a.
Proof.
  intros W R. unfold anchored. destruct a as [i s dg|z]; cbn [fetchAllSealing].
  - rewrite existsb_exists. split.
    + intros (e & IE & Q). split; [eauto|]. apply andb_true_iff in Q. destruct Q as [Q1 Q2]. apply existsb_exists in Q1. destruct Q1 as (b & IB & Q1).
      apply seal_eqb_eq in Q1. subst b. exists e. split; [apply (allEvts_accepted _ _ _ _ _ _ _ W R); exact IE|]. split; [exact IB|]. apply receipted_ok. exact Q2.
    + intros (_ & e & AC & IB & RC). exists e. split; [apply (allEvts_accepted _ _ _ _ _ _ _ W R); exact AC|]. apply andb_true_iff. split; [|apply receipted_ok; exact RC].
      apply existsb_exists. exists (SealEvt i s dg). split; [exact IB|]. apply seal_eqb_eq. reflexivity.
  - split; [discriminate|]. intros ((i & s & dd & Q) & _). discriminate.
Qed.
Lemma clone_is_log E H cf dx p fn : world H -> reachable E H cf dx -> is_log dx p fn (clonePre dx p fn).
Proof.
  intros W R. destruct (clonePre_all _ _ _ _ p fn W R) as (LN & X). split.
  - unfold len. rewrite LN. lia.
  - intros i s N0. destruct (X i s N0) as (e & dt & A1 & A2 & A3 & A4 & A5 & C). eexists. split; [exact C|]. cbn. unfold accepted. rewrite A2.
    split; [split; [exact (nth_error_In _ _ N0)|exact A1]|]. auto 8.
Qed.
Lemma ksn_ready E H cf d x p k : world H -> reachable E H cf (d, x) -> kget d x p = Some k ->
  (len (getWigs x p (e_said (k_evt k))) <? k_toad k) = false <-> receipted (d, x) (k_evt k).
Proof.
  intros W R K. destruct (reach_kget _ _ _ _ _ _ _ W R K) as (c & ee & G). destruct (chain_hd _ _ _ _ _ _ (g_chain _ _ _ _ _ _ _ _ G)) as (PE & _).
  unfold receipted, keyState. cbn [fst snd]. rewrite PE, K, N.ltb_ge. split; [intros Q; exists k; auto|]. intros (k' & Q & Z). injection Q as <-. exact Z.
Qed.

(** ** What an answer is *)
Lemma bind_ok {A B} (r : res A) (f : A -> res B) b : bind r f = Ok b -> exists a, r = Ok a /\ f a = Ok b.
Proof. destruct r; cbn; [eauto|discriminate]. Qed.
Lemma num_ok o n : num o = Ok n -> o <> Some None /\ n = match o with Some (Some m) => Some m | _ => None end.
Proof. destruct o as [[m|]|]; cbn; intros Q; [injection Q as <-|discriminate|injection Q as <-]; split; congruence. Qed.
Lemma field_ok {A} (o : option A) a : field o = Ok a -> o = Some a.
Proof. destruct o; cbn; congruence. Qed.
Lemma answer_good E H cf dx q p c : world H -> reachable E H cf dx -> answer dx q p = Ok (Some c) ->
  ready dx q /\ answers c q p /\ exists pre src k, q_i q = Some pre /\ q_src q = Some src /\ keyState dx pre = Some k /\
  match q_route q with
  | Logs => exists own more, c = CReplay q pre src (own ++ more) p /\ is_log dx pre (fromOf q) own /\
      match k_delpre k with None => more = [] | Some dp => is_log dx dp 0 more end
  | Ksn => exists st, c = CReply q src st p /\ kstate k = Ok st
  | Mbx => exists t, c = CStream q pre src t /\ q_topics q = Some t
  | OtherRoute => False
  end.
Proof.
  intros W R A. destruct dx as [d x]. unfold answer in A. unfold ready, keyState. cbn [fst snd]. destruct (q_route q) eqn:RT.
  - apply bind_ok in A. destruct A as (pre & F1 & A). apply field_ok in F1. apply bind_ok in A. destruct A as (src & F2 & A). apply field_ok in F2.
    apply bind_ok in A. destruct A as (sn & F3 & A). apply num_ok in F3. destruct F3 as (_ & F3). apply bind_ok in A. destruct A as (fn & F4 & A). apply num_ok in F4. destruct F4 as (_ & F4).
    destruct (kget d x pre) as [k|] eqn:K; [|discriminate]. apply bind_ok in A. destruct A as (u & C & A). apply bind_ok in A. destruct A as (ms & M & A).
    assert (FN : match fn with Some n => n | None => 0 end = fromOf q). { unfold fromOf. subst fn. destruct (q_fn q) as [[m|]|]; reflexivity. }
    rewrite FN in M. clear FN F4.
    assert (RD : match q_a q with Some a => anchored (d, x) pre a | None => forall n, q_s q = Some (Some n) -> n <= k_sn k /\ receipted (d, x) (k_evt k) end).
    { destruct (q_a q) as [a|].
      - destruct (fetchAllSealing d x pre a) eqn:FA; [|discriminate]. apply (anchored_ok _ _ _ _ _ _ _ W R). exact FA.
      - intros n QS. rewrite QS in F3. subst sn. match goal with H : (if ?b then _ else _) = Ok _ |- _ => destruct b eqn:B; [discriminate|] end.
        apply orb_false_iff in B. destruct B as [B1 B2]. apply negb_false_iff in B2. apply receipted_ok in B2. split; [lia|exact B2]. }
    destruct (isnil ms) eqn:NM; [discriminate|]. injection A as <-. split; [|split].
    + exists pre, k. auto.
    + cbn. auto.
    + exists pre, src, k. do 3 (split; [auto|]). destruct (k_delpre k) as [dp|].
      * destruct (kget d x dp); [|discriminate]. injection M as <-. eexists; eexists. split; [reflexivity|]. split; apply (clone_is_log _ _ _ _ _ _ W R).
      * injection M as <-. exists (clonePre (d, x) pre (fromOf q)), []. rewrite app_nil_r. split; [reflexivity|]. split; [apply (clone_is_log _ _ _ _ _ _ W R)|reflexivity].
  - apply bind_ok in A. destruct A as (pre & F1 & A). apply field_ok in F1. apply bind_ok in A. destruct A as (src & F2 & A). apply field_ok in F2.
    destruct (kget d x pre) as [k|] eqn:K; [|discriminate]. destruct (len (getWigs x pre (e_said (k_evt k))) <? k_toad k) eqn:B; [discriminate|].
    apply (ksn_ready _ _ _ _ _ _ _ W R K) in B. apply bind_ok in A. destruct A as (st & KS & A). injection A as <-. split; [exists pre, k; auto|]. split; [cbn; auto|].
    exists pre, src, k. do 3 (split; [auto|]). eauto.
  - apply bind_ok in A. destruct A as (pre & F1 & A). apply field_ok in F1. apply bind_ok in A. destruct A as (src & F2 & A). apply field_ok in F2. apply bind_ok in A. destruct A as (t & F3 & A). apply field_ok in F3.
    destruct (kget d x pre) as [k|] eqn:K; [|discriminate]. injection A as <-. split; [exists pre, k; auto|]. split; [cbn; auto|].
    exists pre, src, k. do 3 (split; [auto|]). eauto.
  - discriminate.
Qed.

(** ** When there is an answer *)
Lemma ready_answer E H cf dx q p : world H -> sane H -> reachable E H cf dx -> complete q -> (forall pre, q_i q = Some pre -> boss_known dx pre) -> ready dx q ->
  exists c, answer dx q p = Ok (Some c).
Proof.
  intros W SN R (C1 & C2 & C3 & C4 & C5 & C6) BK (pre & k & QI & K & RD). destruct dx as [d x]. unfold keyState in K. cbn [fst snd] in K.
  destruct (reach_kget _ _ _ _ _ _ _ W R K) as (c & ee & G).
  destruct (q_src q) as [src|] eqn:QS; [|congruence]. unfold answer. rewrite QI, QS. cbn [field bind].
  destruct (q_route q) eqn:RT.
  - assert (NS : exists sn, num (q_s q) = Ok sn). { destruct (q_s q) as [[m|]|]; cbn; eauto; congruence. } destruct NS as (sn & NS). rewrite NS. cbn [bind]. apply num_ok in NS. destruct NS as (_ & NS).
    assert (NF : exists fn, num (q_fn q) = Ok fn /\ match fn with Some n => n | None => 0 end = 0) by (destruct C4 as [-> | ->]; cbn; eauto).
    destruct NF as (fn & NF & NZ). rewrite NF. cbn [bind]. rewrite K, NZ. 
    assert (U : exists u, match q_a q with
               | Some a => if fetchAllSealing d x pre a then Ok tt else Err QueryNotFoundError
               | None => match sn with
                         | Some sn => if (k_sn k <? sn) || negb (fullyWitnessed d x (k_evt k)) then Err QueryNotFoundError else Ok tt
                         | None => Ok tt
                         end
               end = Ok u).
    { destruct (q_a q) as [a|].
      - apply (anchored_ok _ _ _ _ _ _ _ W R) in RD. rewrite RD. eauto.
      - destruct sn as [n|]; [|eauto]. destruct (RD n) as (R1 & R2); [destruct (q_s q) as [[m|]|]; congruence|]. apply receipted_ok in R2. rewrite R2.
        replace (k_sn k <? n) with false by lia. cbn. eauto. }
    destruct U as (u & U). rewrite U. cbn [bind].
    assert (NE : clonePre (d, x) pre 0 <> []).
    { destruct (clone_is_log _ _ _ _ pre 0 W R) as (LN & _). cbn [fst] in LN. destruct (chain_hd _ _ _ _ _ _ (g_chain _ _ _ _ _ _ _ _ G)) as (_ & IN & _).
      intros Z. rewrite Z in LN. destruct (fels d pre); [destruct IN|]. unfold len in LN. cbn [List.length] in LN. lia. }
    destruct (k_delpre k) as [dp|] eqn:DP.
    + destruct (kget d x dp) eqn:KD; [|destruct (BK pre QI k dp K DP KD)]. cbn [bind]. destruct (clonePre (d, x) pre 0); [congruence|]. cbn. eauto.
    + cbn [bind]. destruct (clonePre (d, x) pre 0); [congruence|]. cbn. eauto.
  - rewrite K. apply (ksn_ready _ _ _ _ _ _ _ W R K) in RD. rewrite RD. destruct (kstate_ok _ _ _ _ _ _ _ _ W SN G) as (st & KS). rewrite KS. cbn. eauto.
  - destruct (q_topics q) as [t|]; [|destruct (C5 eq_refl eq_refl)]. cbn [field bind]. rewrite K. eauto.
  - destruct RD.
Qed.
(** otherwise it is the error that escrows *)
Lemma answer_else E H cf dx q p : world H -> sane H -> reachable E H cf dx -> complete q -> (forall pre, q_i q = Some pre -> boss_known dx pre) ->
  (exists c, answer dx q p = Ok (Some c)) \/ answer dx q p = Err QueryNotFoundError.
Proof.
  intros W SN R CQ BK. destruct (answer dx q p) as [[c|]|e] eqn:A; [left; eauto| |].
  - exfalso. assert (RD : ready dx q). 
    { destruct dx as [d x]. unfold answer in A. unfold ready, keyState. cbn [fst snd]. destruct (q_route q) eqn:RT.
      - apply bind_ok in A. destruct A as (pre & F1 & A). apply field_ok in F1. apply bind_ok in A. destruct A as (src & F2 & A). 
        apply bind_ok in A. destruct A as (sn & F3 & A). apply num_ok in F3. destruct F3 as (_ & F3). apply bind_ok in A. destruct A as (fn & F4 & A). 
        destruct (kget d x pre) as [k|] eqn:K; [|discriminate]. apply bind_ok in A. destruct A as (u & C & A). exists pre, k. do 2 (split; [auto|]).
        destruct (q_a q) as [a|].
        + destruct (fetchAllSealing d x pre a) eqn:FA; [|discriminate]. apply (anchored_ok _ _ _ _ _ _ _ W R). exact FA.
        + intros n QS. rewrite QS in F3. subst sn. match goal with H : (if ?b then _ else _) = Ok _ |- _ => destruct b eqn:B; [discriminate|] end.
          apply orb_false_iff in B. destruct B as [B1 B2]. apply negb_false_iff in B2. apply receipted_ok in B2. split; [lia|exact B2].
      - apply bind_ok in A. destruct A as (pre & F1 & A). apply bind_ok in A. destruct A as (src & F2 & A). destruct (kget d x pre) as [k|]; [|discriminate].
        destruct (_ <? _); [discriminate|]. apply bind_ok in A. destruct A as (st & _ & A). discriminate.
      - apply bind_ok in A. destruct A as (pre & F1 & A). apply bind_ok in A. destruct A as (src & F2 & A). apply bind_ok in A. destruct A as (t & F3 & A). destruct (kget d x pre); discriminate.
      - discriminate. }
    destruct (ready_answer _ _ _ _ _ p W SN R CQ BK RD) as (c & Q). congruence.
  - right. destruct CQ as (C1 & C2 & C3 & C4 & C5 & C6). destruct dx as [d x]. unfold answer in A.
    destruct (q_i q) as [pre|] eqn:QI; [|congruence]. destruct (q_src q) as [src|] eqn:QS; [|congruence]. cbn [field bind] in A. destruct (q_route q) eqn:RT.
    + assert (NS : exists sn, num (q_s q) = Ok sn). { destruct (q_s q) as [[m|]|]; cbn; eauto; congruence. } destruct NS as (sn & NS). rewrite NS in A. cbn [bind] in A.
      assert (NF : exists fn, num (q_fn q) = Ok fn) by (destruct C4 as [-> | ->]; cbn; eauto). destruct NF as (fn & NF). rewrite NF in A. cbn [bind] in A.
      destruct (kget d x pre) as [k|] eqn:K; [|congruence]. specialize (BK pre eq_refl k). unfold keyState in BK. cbn [fst snd] in BK.
      match type of A with (bind ?b _) = _ => destruct b as [u|e'] eqn:B end; cbn [bind] in A.
      * destruct (k_delpre k) as [dp|]; [destruct (kget d x dp) eqn:KD; [|destruct (BK dp K eq_refl KD)]|]; cbn [bind] in A; discriminate.
      * injection A as <-. destruct (q_a q); [destruct (fetchAllSealing _ _ _ _); congruence|]. destruct sn; [|discriminate]. destruct (_ || _); congruence.
    + destruct (kget d x pre) as [k|] eqn:K; [|congruence]. destruct (_ <? _); [congruence|]. destruct (reach_kget _ _ _ _ _ _ _ W R K) as (c & ee & G).
      destruct (kstate_ok _ _ _ _ _ _ _ _ W SN G) as (st & KS). rewrite KS in A. discriminate.
    + destruct (q_topics q) as [t|]; [|destruct (C5 eq_refl eq_refl)]. cbn [field bind] in A. destruct (kget d x pre); congruence.
    + congruence.
Qed.
