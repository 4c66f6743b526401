(** Properties of messengers. *)
From Coq Require Import Lia.
From Verif Require Import Prelude TmModel TmSpec TmProofs.
Open Scope N_scope.

Lemma c147_tcp_partial : forall q xs, let s := tcpRun q xs in
  (exists r, tcpGiven q xs = t_sent s ++ r) /\ (t_q s = [] -> (tcpIdle s = true <-> t_sent s = tcpGiven q xs)).
Proof.
  intros q xs s. destruct (tcp_inv q xs) as (A & B). fold s in A, B. rewrite A. split; [eexists; reflexivity|]. intros Q. rewrite Q, app_nil_r. unfold tcpIdle. rewrite Nat.eqb_eq, B, app_length.
  destruct (cur s) as [|m l]; cbn; [rewrite app_nil_r; split; [reflexivity|lia]|]. split; [lia|]. intros Z. apply (f_equal (@List.length N)) in Z. rewrite app_length in Z. cbn in Z. lia.
Qed.


Lemma c147_tcp_refuted : (forall q xs, let s := tcpRun q xs in t_cur s = None -> tcpIdle s = true /\ forall m, tcpIdle (tcpStep s (TPut m)) = true /\ t_sent (tcpStep s (TPut m)) <> tcpGiven q (xs ++ [TPut m])) /\
  tcpIdle (tcpRun [1] []) = true /\ tcpIdle (tcpRun [1; 2; 3] [TTurn false; TTurn true]) = true /\ t_sent (tcpRun [1; 2; 3] [TTurn false; TTurn true]) = [1].
Proof.
  split; [|split; [reflexivity|split; reflexivity]]. intros q xs s C. destruct (tcp_inv q xs) as (A & B). fold s in A, B. unfold cur in *. rewrite C in *. rewrite app_nil_r in B.
  assert (ID : tcpIdle s = true) by (unfold tcpIdle; apply Nat.eqb_eq; lia). split; [exact ID|]. intros m. split; [exact ID|]. cbn. unfold tcpGiven in *. rewrite flat_map_app. cbn. rewrite app_assoc, A. cbn.
  intros Z. apply (f_equal (@List.length N)) in Z. rewrite !app_length in Z. cbn in Z. lia.
Qed.

Lemma c147_http : forall parts q xs, let s := httpRun parts q xs in
  httpIdle s = true <-> h_q s = [] /\ h_sent s = requests parts (httpGiven q xs).
Proof.
  intros parts q xs s. destruct (http_inv parts q xs) as (A & B & C). fold s in A, B, C. unfold httpIdle. rewrite andb_true_iff, !Nat.eqb_eq. split.
  - intros (L & E). destruct (h_q s) as [|m l]; [|discriminate L]. split; [reflexivity|]. rewrite A, app_nil_r. lia.
  - intros (Q & E). rewrite A, Q, app_nil_r in E. rewrite Q. split; [reflexivity|lia].
Qed.


Lemma c147_publisher_partial : forall xs, pubIdle (pubRun xs) = true <-> p_q (pubRun xs) = [] /\ Forall (fun x => snd x = true) (pubGiven xs).
Proof.
  intros xs. destruct (pub_inv xs) as (d & A & B & C). cbn zeta in *. set (s := pubRun xs) in *. unfold pubIdle. rewrite andb_true_iff, !Nat.eqb_eq, B, C, A. destruct (filter_le d) as (F1 & F2). split.
  - intros (L & E). destruct (p_q s) as [|m l]; [|discriminate L]. split; [reflexivity|]. rewrite app_nil_r. apply F2. lia.
  - intros (Q & F). rewrite Q, app_nil_r in F. rewrite Q. split; [reflexivity|]. clear - F. unfold worked. induction F as [|(m, b) d H F IH]; [reflexivity|]. cbn in *. subst b. cbn. rewrite <- IH. reflexivity.
Qed.


Lemma c147_publisher_refuted : forall xs m ys, pubIdle (pubRun (xs ++ PPut m false :: ys)) = false.
Proof.
  intros xs m ys. destruct (pubIdle _) eqn:E; [|reflexivity]. destruct (pub_inv (xs ++ PPut m false :: ys)) as (d & A & B & C). cbn zeta in *. set (s := pubRun _) in *.
  unfold pubIdle in E. apply andb_true_iff in E. destruct E as (E1 & E2). apply Nat.eqb_eq in E1, E2. destruct (p_q s); [|discriminate E1]. rewrite app_nil_r in A. destruct (filter_le d) as (_ & F2).
  rewrite B, C in E2. specialize (F2 (eq_sym E2)). rewrite Forall_forall in F2. assert (In (m, false) d) as M by (rewrite <- A; unfold pubGiven; rewrite flat_map_app; apply in_or_app; right; left; reflexivity). specialize (F2 _ M). discriminate F2.
Qed.
