(** Proofs on gathering receipts. *)
From Coq Require Import Lia.
From Verif Require Import Prelude GrModel GrSpec.
Ltac Zify.zify_post_hook ::= Z.div_mod_to_equations.
Open Scope N_scope.

Lemma indexOf_nth : forall w l i, indexOf w l = Some i -> nth_error l i = Some w.
Proof.
  intros w l. induction l as [|v l IH]; intros i X; cbn in X; [discriminate X|].
  destruct (N.eqb_spec v w) as [->|NE]; [inversion X; subst; reflexivity|].
  destruct (indexOf w l) as [j|]; [|discriminate X]. cbn in X. inversion X; subst. cbn. apply IH. reflexivity.
Qed.
Lemma indexOf_In : forall w l, In w l -> exists i, indexOf w l = Some i.
Proof.
  intros w l. induction l as [|v l IH]; intros X; [destruct X|]. cbn. destruct (N.eqb_spec v w); [eauto|].
  destruct X as [X|X]; [congruence|]. destruct (IH X) as (i & ->). cbn. eauto.
Qed.
Lemma weq_eq : forall a b, weq a b = true <-> a = b.
Proof.
  intros [i s] [j t]. unfold weq. cbn. rewrite andb_true_iff, Nat.eqb_eq, N.eqb_eq. split; [intros [-> ->]; reflexivity|intros X; inversion X; auto].
Qed.

(** Where stored signatures come from. *)
Lemma storeOne_in : forall W st c g, In g (storeOne W st c) <->
  In g st \/ (snd g = snd c /\ indexOf (fst c) (w_wits W) = Some (fst g) /\ w_valid W (fst c) (snd c) = true).
Proof.
  intros W st [w s] [i t]. unfold storeOne. cbn [fst snd]. destruct (w_valid W w s) eqn:V.
  2:{ split; [auto|intros [X|(_ & _ & X)]; [exact X|discriminate X]]. }
  destruct (indexOf w (w_wits W)) as [j|] eqn:IX.
  2:{ split; [auto|intros [X|(_ & X & _)]; [exact X|discriminate X]]. }
  destruct (existsb (weq (j, s)) st) eqn:EX.
  - split; [auto|]. intros [X|(-> & X & _)]; [exact X|]. inversion X; subst. apply existsb_exists in EX. destruct EX as (g & G1 & G2).
    apply weq_eq in G2. subst g. exact G1.
  - rewrite in_app_iff. split.
    + intros [X|[X|[]]]; [auto|]. inversion X; subst. auto.
    + intros [X|(-> & X & _)]; [auto|]. inversion X; subst. right. left. reflexivity.
Qed.
Lemma storeAll_in : forall W l st g, In g (storeAll W st l) <->
  In g st \/ exists w, In (w, snd g) l /\ indexOf w (w_wits W) = Some (fst g) /\ w_valid W w (snd g) = true.
Proof.
  intros W l. unfold storeAll. induction l as [|[v s] l IH]; intros st g; cbn [fold_left].
  - split; [auto|]. intros [X|(w & [] & _)]. exact X.
  - rewrite IH, storeOne_in. cbn [fst snd]. split.
    + intros [[X|(X1 & X2 & X3)]|(w & X1 & X2)]; [auto| |right; exists w; split; [right; exact X1|exact X2]].
      right. exists v. rewrite X1. split; [left; reflexivity|auto].
    + intros [X|(w & [X1|X1] & X2 & X3)]; [auto| |right; exists w; auto]. inversion X1; subst. left. right. auto.
Qed.

(** The posts. *)
Lemma posts_spec : forall W l st a st' rs r, posts W l st = (a, st', rs, r) ->
  (forall g, In g st' -> In g st \/ exists w v cs, In w l /\ w_reply W w = Reply 200 cs /\ In (v, snd g) cs /\ indexOf v (w_wits W) = Some (fst g) /\ w_valid W v (snd g) = true) /\
  (forall g, In g st -> In g st') /\
  (forall w, In w rs -> In w l /\ (exists cs, w_reply W w = Reply 200 cs)) /\
  match r with
  | None => (forall w, In w l -> w_reply W w <> Silent) /\ a = map Post l /\
            (forall w, In w l -> (exists cs, w_reply W w = Reply 200 cs) -> In w rs) /\
            (forall w v s cs i, In w l -> w_reply W w = Reply 200 cs -> In (v, s) cs -> indexOf v (w_wits W) = Some i -> w_valid W v s = true -> In (i, s) st')
  | Some x => exists l1 w l2, l = l1 ++ w :: l2 /\ w_reply W w = Silent /\ (forall v, In v l1 -> w_reply W v <> Silent) /\ x = Waits w /\ a = map Post (l1 ++ [w])
  end.
Proof.
  intros W l. induction l as [|w l IH]; intros st a st' rs r X; cbn [posts] in X.
  - inversion X; subst. split; [auto|]. split; [auto|]. split; [intros w []|]. split; [intros w []|]. split; [reflexivity|]. split; [intros w []|]. intros w v s cs i [].
  - destruct (w_reply W w) as [|n cs] eqn:RP.
    + inversion X; subst. split; [auto|]. split; [auto|]. split; [intros v []|]. exists [], w, l. split; [reflexivity|]. split; [exact RP|].
      split; [intros v []|]. auto.
    + destruct (N.eq_dec n 200) as [->|NE].
      * destruct (posts W l (storeAll W st cs)) as [[[a1 st1] rs1] r1] eqn:P. inversion X; subst. clear X.
        apply IH in P. destruct P as (P1 & P2 & P3 & P4).
        split.
        { intros g G. apply P1 in G. destruct G as [G|(u & v & cs' & G1 & G2)]; [|right; exists u, v, cs'; split; [right; exact G1|exact G2]].
          apply storeAll_in in G. destruct G as [G|(v & G1 & G2 & G3)]; [auto|]. right. exists w, v, cs. split; [left; reflexivity|]. auto. }
        split; [intros g G; apply P2, storeAll_in; auto|].
        split. { intros v [->|V]; [split; [left; reflexivity|eauto]|]. apply P3 in V. destruct V as [V1 V2]. split; [right; exact V1|exact V2]. }
        destruct r as [x|].
        { destruct P4 as (l1 & u & l2 & -> & Q2 & Q3 & Q4 & ->). exists (w :: l1), u, l2. split; [reflexivity|]. split; [exact Q2|].
          split; [intros v [->|V]; [congruence|auto]|]. auto. }
        destruct P4 as (Q1 & -> & Q3 & Q4). split; [intros v [->|V]; [congruence|auto]|]. split; [reflexivity|].
        split; [intros v [->|V] Z; [left; reflexivity|right; auto]|].
        intros u v s cs' i [->|U] Z1 Z2 Z3 Z4; [|eapply Q4; eauto]. rewrite RP in Z1. inversion Z1; subst cs'.
        apply P2, storeAll_in. right. exists v. auto.
      * assert (X' : (let '(a, st0, rs, r) := posts W l st in (Post w :: a, st0, rs, r)) = (a, st', rs, r)).
        { rewrite <- X. destruct n as [|q]; [reflexivity|]. do 8 (try destruct q as [q|q|]; try reflexivity). destruct (NE eq_refl). }
        clear X. destruct (posts W l st) as [[[a1 st1] rs1] r1] eqn:P. inversion X'; subst. clear X'.
        apply IH in P. destruct P as (P1 & P2 & P3 & P4).
        split. { intros g G. apply P1 in G. destruct G as [G|(u & v & cs' & G1 & G2)]; [auto|right; exists u, v, cs'; split; [right; exact G1|exact G2]]. }
        split; [exact P2|]. split. { intros v V. apply P3 in V. destruct V as [V1 V2]. split; [right; exact V1|exact V2]. }
        destruct r as [x|].
        { destruct P4 as (l1 & u & l2 & -> & Q2 & Q3 & Q4 & ->). exists (w :: l1), u, l2. split; [reflexivity|]. split; [exact Q2|].
          split; [intros v [->|V]; [congruence|auto]|]. auto. }
        destruct P4 as (Q1 & -> & Q3 & Q4). split; [intros v [->|V]; [congruence|auto]|]. split; [reflexivity|].
        split; [intros v [->|V] Z; [destruct Z as (cs' & Z); rewrite RP in Z; inversion Z; congruence|auto]|].
        intros u v s cs' i [->|U] Z1 Z2 Z3 Z4; [rewrite RP in Z1; inversion Z1; congruence|eapply Q4; eauto].
Qed.

(** The catching up. *)
Lemma catchups_spec : forall W l a r, catchups W l = (a, r) ->
  (forall x, In x a -> exists w, x = Catch w /\ In w l) /\
  match r with
  | None => a = map Catch l /\ Forall (fun w => w_url W w = true /\ w_caught W w = true) l
  | Some (Done _) => False
  | Some _ => ~ Forall (fun w => w_url W w = true /\ w_caught W w = true) l
  end.
Proof.
  intros W l. induction l as [|w l IH]; intros a r X; cbn [catchups] in X.
  - inversion X; subst. split; [intros x []|]. split; [reflexivity|constructor].
  - destruct (w_url W w) eqn:U; [destruct (w_caught W w) eqn:C|].
    + destruct (catchups W l) as [a1 r1] eqn:K. inversion X; subst. destruct (IH _ _ eq_refl) as (I1 & I2). split.
      { intros x [<-|Z]; [exists w; split; [reflexivity|left; reflexivity]|]. destruct (I1 x Z) as (v & V1 & V2). exists v. split; [exact V1|right; exact V2]. }
      destruct r as [[l0|v|]|]; [exact I2| | |].
      * intros Z. inversion Z; subst. destruct (I2 H2).
      * intros Z. inversion Z; subst. destruct (I2 H2).
      * destruct I2 as (-> & I2). split; [reflexivity|]. constructor; auto.
    + inversion X; subst. split; [intros x [<-|[]]; exists w; split; [reflexivity|left; reflexivity]|].
      intros Z. inversion Z; subst. destruct H1; congruence.
    + inversion X; subst. split; [intros x []|]. intros Z. inversion Z; subst. destruct H1; congruence.
Qed.

(** What is spread. *)
Lemma byWit_some : forall W st w g, byWit W st w = Some g -> In g st /\ ofWit W g w.
Proof.
  intros W st w g X. unfold byWit in X. apply find_some in X. destruct X as [X1 X2]. split; [apply in_rev; exact X1|].
  unfold ofWit. destruct (nth_error (w_wits W) (fst g)) as [v|]; [|discriminate X2]. apply N.eqb_eq in X2. subst v. reflexivity.
Qed.
Lemma byWit_none : forall W st w g, byWit W st w = None -> In g st -> ~ ofWit W g w.
Proof.
  intros W st w g X IN O. unfold byWit in X. apply in_rev in IN. apply (find_none _ _ X) in IN. unfold ofWit in O. rewrite O, N.eqb_refl in IN. discriminate IN.
Qed.
Lemma others_in : forall W st w g, In g (others W st w) -> In g st /\ exists v, ofWit W g v /\ v <> w.
Proof.
  intros W st w g X. unfold others in X. apply in_flat_map in X. destruct X as (v & V1 & V2). destruct (N.eqb_spec v w) as [|NE]; [destruct V2|].
  destruct (byWit W st v) as [g'|] eqn:B; [|destruct V2]. destruct V2 as [<-|[]]. apply byWit_some in B. destruct B. split; [assumption|]. exists v. auto.
Qed.
Lemma others_has : forall W st w v g, In v (w_wits W) -> v <> w -> In g st -> ofWit W g v -> exists g', In g' (others W st w) /\ ofWit W g' v.
Proof.
  intros W st w v g IN NE G O. destruct (byWit W st v) as [g'|] eqn:B; [|destruct (byWit_none _ _ _ _ B G O)].
  exists g'. split; [|apply byWit_some in B; apply B]. unfold others. apply in_flat_map. exists v. split; [exact IN|].
  destruct (N.eqb_spec v w); [congruence|]. rewrite B. left. reflexivity.
Qed.
Lemma spreads_spec : forall W st rs a r, spreads W st rs = (a, r) ->
  (forall x, In x a -> exists w, In w rs /\ x = Spread w (others W st w)) /\
  match r with
  | None => (forall w, In w rs -> others W st w <> [] -> In (Spread w (others W st w)) a /\ w_ack W w = true)
  | Some (Waits w) => In w rs /\ w_ack W w = false
  | Some _ => False
  end.
Proof.
  intros W st rs. induction rs as [|w rs IH]; intros a r X; cbn [spreads] in X.
  - inversion X; subst. split; [intros x []|]. intros w [].
  - destruct (others W st w) as [|g gs] eqn:OT.
    + destruct (IH _ _ X) as (I1 & I2). split.
      { intros x Z. destruct (I1 x Z) as (v & V1 & V2). exists v. split; [right; exact V1|exact V2]. }
      destruct r as [[l0|v|]|]; [exact I2|destruct I2; split; [right; assumption|assumption]|exact I2|].
      intros v [<-|V] NO; [congruence|apply I2; assumption].
    + destruct (w_ack W w) eqn:AK.
      * destruct (spreads W st rs) as [a1 r1] eqn:K. inversion X; subst. destruct (IH _ _ eq_refl) as (I1 & I2). split.
        { intros x [<-|Z]; [exists w; split; [left; reflexivity|rewrite OT; reflexivity]|]. destruct (I1 x Z) as (v & V1 & V2). exists v. split; [right; exact V1|exact V2]. }
        destruct r as [[l0|v|]|]; [exact I2|destruct I2; split; [right; assumption|assumption]|exact I2|].
        intros v [<-|V] NO; [split; [left; rewrite OT; reflexivity|exact AK]|]. destruct (I2 v V NO) as [J1 J2]. split; [right; exact J1|exact J2].
      * inversion X; subst. split; [intros x [<-|[]]; exists w; split; [left; reflexivity|rewrite OT; reflexivity]|]. split; [left; reflexivity|exact AK].
Qed.

Lemma inRange_tidy : forall W st, tidy W st -> inRange W st = true.
Proof.
  intros W st T. unfold inRange. apply forallb_forall. intros g G. unfold tidy in T. rewrite Forall_forall in T. destruct (T g G) as (w & O).
  unfold ofWit in O. rewrite O. reflexivity.
Qed.
Lemma clients_In : forall W w, In w (clients W) <-> In w (w_wits W) /\ w_url W w = true.
Proof. intros. unfold clients. apply filter_In. Qed.

(** The run in parts. *)
Lemma receipt_parts : forall W st, w_wits W <> [] ->
  exists a1 r1, (match w_kind W with Krot => catchups W (w_adds W) | _ => ([], None) end) = (a1, r1) /\
  match r1 with
  | Some r => receipt W st = (a1, st, r)
  | None =>
      exists a2 st' rs r2, posts W (clients W) st = (a2, st', rs, r2) /\
      match r2 with
      | Some r => receipt W st = (a1 ++ a2, st', r)
      | None =>
          if negb (inRange W st') then receipt W st = (a1 ++ a2, st', Raises) else
          exists a3 r3, spreads W st' rs = (a3, r3) /\ receipt W st = (a1 ++ a2 ++ a3, st', match r3 with Some r => r | None => Done rs end)
      end
  end.
Proof.
  intros W st NE. unfold receipt. destruct (w_wits W) as [|w0 l0]; [congruence|].
  destruct (match w_kind W with Krot => catchups W (w_adds W) | _ => ([], None) end) as [a1 r1]. exists a1, r1. split; [reflexivity|].
  destruct r1 as [r|]; [reflexivity|]. destruct (posts W (clients W) st) as [[[a2 st'] rs] r2]. exists a2, st', rs, r2. split; [reflexivity|].
  destruct r2 as [r|]; [reflexivity|]. destruct (inRange W st'); cbn [negb]; [|reflexivity].
  destruct (spreads W st' rs) as [a3 r3]. exists a3, r3. auto.
Qed.
Lemma posts_tidy : forall W l st a st' rs r, posts W l st = (a, st', rs, r) -> tidy W st -> tidy W st'.
Proof.
  intros W l st a st' rs r P T. apply posts_spec in P. destruct P as (P1 & _). unfold tidy in *. rewrite Forall_forall in *. intros g G.
  apply P1 in G. destruct G as [G|(w & v & cs & _ & _ & _ & G & _)]; [auto|]. exists v. unfold ofWit. apply indexOf_nth. exact G.
Qed.
