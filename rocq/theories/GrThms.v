(** Properties of gathering and spreading witness receipts. *)
From Coq Require Import Lia.
From Verif Require Import Prelude GrModel GrSpec GrProofs.
Ltac Zify.zify_post_hook ::= Z.div_mod_to_equations.
Open Scope N_scope.

(** Witness [w] signs with signature [w + 100]. *)
Definition val0 (w s : N) : bool := s =? w + 100.
Definition good (w : N) : reply := Reply 200 [(w, w + 100)].
(** three witnesses, a rotation adds the third *)
Definition W3 (k : kind) : world := mkWorld k [1; 2; 3] [3] (fun _ => true) good val0 (fun _ => true) (fun _ => true).
(** the second cannot accept the event yet *)
Definition Wlate : world := mkWorld Kixn [1; 2; 3] [] (fun _ => true) (fun w => if w =? 2 then Reply 202 [] else good w) val0 (fun _ => true) (fun _ => true).
(** the first does not answer *)
Definition Wdown : world := mkWorld Kixn [1; 2; 3] [] (fun _ => true) (fun w => if w =? 1 then Silent else good w) val0 (fun _ => true) (fun _ => true).
(** the added third has no endpoint *)
Definition Wurl : world := mkWorld Krot [1; 2; 3] [3] (fun w => negb (w =? 3)) good val0 (fun _ => true) (fun _ => true).
(** the second answers without a receipt *)
Definition Wbad : world := mkWorld Kixn [1; 2; 3] [] (fun _ => true) (fun w => if w =? 2 then Reply 200 [(2, 7)] else good w) val0 (fun _ => true) (fun _ => true).

Lemma c136_spread_partial : forall W st rs, outcome (receipt W st) = Done rs ->
  (forall w v g, In w rs -> In v (w_wits W) -> v <> w -> In g (held (receipt W st)) -> ofWit W g v -> sentOf W (acts (receipt W st)) w v) /\
  (forall w gs g, In (Spread w gs) (acts (receipt W st)) -> In g gs ->
     In w rs /\ In g (held (receipt W st)) /\ exists v, ofWit W g v /\ v <> w).
Proof.
  intros W st rs X. destruct (w_wits W) as [|w0 l0] eqn:WI.
  { assert (R : receipt W st = ([], st, Done [])) by (unfold receipt; rewrite WI; reflexivity). rewrite R in *. cbn in X. inversion X; subst.
    split; [intros w v g []|intros w gs g []]. }
  assert (NE : w_wits W <> []) by congruence. rewrite <- WI. clear WI w0 l0. destruct (receipt_parts W st NE) as (a1 & r1 & C & P).
  assert (NC : forall w gs, ~ In (Spread w gs) a1).
  { intros w gs Z. destruct (w_kind W); try (inversion C; subst; destruct Z; fail). apply catchups_spec in C. destruct C as (C & _). destruct (C _ Z) as (v & V & _). discriminate V. }
  destruct r1 as [r|].
  { rewrite P in X. cbn in X. subst r. destruct (w_kind W); try discriminate C. apply catchups_spec in C. destruct C as (_ & []). }
  destruct P as (a2 & st' & rs' & r2 & PO & P). pose proof (posts_spec _ _ _ _ _ _ _ PO) as (_ & _ & P3 & P4). destruct r2 as [r|].
  { rewrite P in X. cbn in X. subst r. destruct P4 as (? & ? & ? & _ & _ & _ & Z & _). discriminate Z. }
  destruct (negb (inRange W st')); [rewrite P in X; discriminate X|]. destruct P as (a3 & r3 & SP & P). rewrite P in *. cbn [acts held outcome fst snd] in *.
  apply spreads_spec in SP. destruct SP as (S1 & S2). destruct r3 as [r|]; [subst r; destruct S2|]. inversion X; subst rs'.
  destruct P4 as (_ & -> & _). split.
  - intros w v g IW IV NW G O. destruct (others_has W st' w v g IV NW G O) as (g' & G1 & G2).
    destruct (S2 w IW) as (S3 & _); [intros Z; rewrite Z in G1; destruct G1|].
    exists (others W st' w), g'. split; [apply in_or_app; right; apply in_or_app; right; exact S3|auto].
  - intros w gs g Z G. apply in_app_or in Z. destruct Z as [Z|Z]; [destruct (NC _ _ Z)|]. apply in_app_or in Z. destruct Z as [Z|Z].
    + apply in_map_iff in Z. destruct Z as (v & Z & _). discriminate Z.
    + apply S1 in Z. destruct Z as (v & V1 & V2). inversion V2; subst. split; [exact V1|]. apply others_in in G. exact G.
Qed.


Lemma c138_report : forall W st rs, w_wits W <> [] -> outcome (receipt W st) = Done rs -> forall w, In w rs <-> answered W w.
Proof.
  intros W st rs NE X w. destruct (receipt_parts W st NE) as (a1 & r1 & C & P).
  destruct r1 as [r|].
  { rewrite P in X. cbn in X. subst r. destruct (w_kind W); try discriminate C. apply catchups_spec in C. destruct C as (_ & []). }
  destruct P as (a2 & st' & rs' & r2 & PO & P). pose proof (posts_spec _ _ _ _ _ _ _ PO) as (_ & _ & P3 & P4). destruct r2 as [r|].
  { rewrite P in X. cbn in X. subst r. destruct P4 as (? & ? & ? & _ & _ & _ & Z & _). discriminate Z. }
  destruct (negb (inRange W st')); [rewrite P in X; discriminate X|]. destruct P as (a3 & r3 & SP & P). rewrite P in *. cbn [acts held outcome fst snd] in *.
  apply spreads_spec in SP. destruct SP as (S1 & S2). destruct r3 as [r|]; [subst r; destruct S2|]. inversion X; subst rs'.
  destruct P4 as (_ & _ & P4 & _). unfold answered. split.
  - intros Z. apply P3 in Z. destruct Z as [Z1 Z2]. apply clients_In in Z1. tauto.
  - intros (Z1 & Z2 & Z3). apply P4; [apply clients_In; auto|exact Z3].
Qed.

Lemma c138_held : forall W st,
  (forall g, In g (held (receipt W st)) -> In g st \/
     exists w v cs, answered W w /\ w_reply W w = Reply 200 cs /\ In (v, snd g) cs /\ ofWit W g v /\ w_valid W v (snd g) = true) /\
  (forall g, In g st -> In g (held (receipt W st))) /\
  (forall rs w cs v s, outcome (receipt W st) = Done rs -> answered W w -> w_reply W w = Reply 200 cs -> In (v, s) cs -> In v (w_wits W) -> w_valid W v s = true ->
     exists g, In g (held (receipt W st)) /\ ofWit W g v /\ snd g = s).
Proof.
  intros W st. destruct (w_wits W) as [|w0 l0] eqn:WI.
  { assert (R : receipt W st = ([], st, Done [])) by (unfold receipt; rewrite WI; reflexivity). rewrite R. cbn.
    split; [auto|]. split; [auto|]. intros rs w cs v s _ _ _ _ []. }
  assert (NE : w_wits W <> []) by congruence. rewrite <- WI. clear WI w0 l0. destruct (receipt_parts W st NE) as (a1 & r1 & C & P).
  destruct r1 as [r|].
  { rewrite P. cbn [held outcome fst snd]. split; [auto|]. split; [auto|]. intros rs w cs v s Z. subst r.
    destruct (w_kind W); try discriminate C. apply catchups_spec in C. destruct C as (_ & []). }
  destruct P as (a2 & st' & rs' & r2 & PO & P). pose proof (posts_spec _ _ _ _ _ _ _ PO) as (P1 & P2 & _ & P4).
  assert (H1 : forall g, In g st' -> In g st \/ exists w v cs, answered W w /\ w_reply W w = Reply 200 cs /\ In (v, snd g) cs /\ ofWit W g v /\ w_valid W v (snd g) = true).
  { intros g G. apply P1 in G. destruct G as [G|(w & v & cs & G1 & G2 & G3 & G4 & G5)]; [auto|]. right. exists w, v, cs.
    apply clients_In in G1. split; [unfold answered; destruct G1; eauto|]. split; [exact G2|]. split; [exact G3|]. split; [apply indexOf_nth; exact G4|exact G5]. }
  destruct r2 as [r|].
  { rewrite P. cbn [held outcome fst snd]. split; [exact H1|]. split; [exact P2|]. intros rs w cs v s Z. subst r. destruct P4 as (? & ? & ? & _ & _ & _ & Z & _). discriminate Z. }
  destruct P4 as (_ & _ & _ & P4).
  assert (H2 : forall w cs v s, answered W w -> w_reply W w = Reply 200 cs -> In (v, s) cs -> In v (w_wits W) -> w_valid W v s = true -> exists g, In g st' /\ ofWit W g v /\ snd g = s).
  { intros w cs v s (A1 & A2 & _) A3 A4 A5 A6. destruct (indexOf_In _ _ A5) as (i & IX). exists (i, s). split; [|split; [apply indexOf_nth; exact IX|reflexivity]].
    eapply P4; eauto. apply clients_In. auto. }
  destruct (negb (inRange W st')).
  - rewrite P. cbn [held outcome fst snd]. split; [exact H1|]. split; [exact P2|]. intros rs w cs v s Z. discriminate Z.
  - destruct P as (a3 & r3 & SP & P). rewrite P. cbn [held outcome fst snd]. split; [exact H1|]. split; [exact P2|]. intros rs w cs v s _. apply H2.
Qed.


Lemma c138_reported_refuted : (forall W st rs w, w_wits W <> [] -> outcome (receipt W st) = Done rs -> answered W w ->
    (forall g, In g st -> ~ ofWit W g w) -> (forall u cs s, w_reply W u = Reply 200 cs -> In (w, s) cs -> w_valid W w s = false) ->
    In w rs /\ forall g, In g (held (receipt W st)) -> ~ ofWit W g w) /\
  outcome (receipt Wbad []) = Done [1; 2; 3] /\ answered Wbad 2 /\ forall g, In g (held (receipt Wbad [])) -> ~ ofWit Wbad g 2.
Proof.
  split; [|split; [reflexivity|split]].
  - intros W st rs w NE X A N1 N2. split; [apply (c138_report W st rs NE X); exact A|]. intros g G O.
    apply (proj1 (c138_held W st)) in G. destruct G as [G|(u & v & cs & _ & G2 & G3 & G4 & G5)]; [exact (N1 g G O)|].
    unfold ofWit in *. rewrite O in G4. inversion G4; subst v. rewrite (N2 _ _ _ G2 G3) in G5. discriminate G5.
  - split; [cbn; auto|]. split; [reflexivity|]. exists [(2, 7)]. reflexivity.
  - cbn. intros g [<-|[<-|[]]] O; discriminate O.
Qed.

Lemma c137_through_partial : forall W st, tidy W st -> (w_kind W = Krot -> reachableAdds W) ->
  (forall w, In w (w_wits W) -> w_url W w = true -> w_reply W w <> Silent /\ w_ack W w = true) ->
  exists rs, outcome (receipt W st) = Done rs.
Proof.
  intros W st T RA AN. destruct (w_wits W) as [|w0 l0] eqn:WI; [exists []; unfold receipt; rewrite WI; reflexivity|].
  assert (NE : w_wits W <> []) by congruence. rewrite <- WI in AN. clear WI w0 l0. destruct (receipt_parts W st NE) as (a1 & r1 & C & P).
  destruct r1 as [r|].
  { exfalso. destruct (w_kind W); try discriminate C. apply catchups_spec in C. destruct C as (_ & C). destruct r; [exact C| |]; apply C; apply RA; reflexivity. }
  destruct P as (a2 & st' & rs' & r2 & PO & P). pose proof (posts_tidy _ _ _ _ _ _ _ PO T) as T'. apply posts_spec in PO. destruct PO as (_ & _ & P3 & P4). destruct r2 as [r|].
  { exfalso. destruct P4 as (l1 & w & l2 & L & Z & _). assert (IN : In w (clients W)) by (rewrite L; apply in_or_app; right; left; reflexivity).
    apply clients_In in IN. destruct IN as [I1 I2]. apply (AN w I1 I2). exact Z. }
  rewrite (inRange_tidy _ _ T') in P. cbn [negb] in P. destruct P as (a3 & r3 & SP & P). apply spreads_spec in SP. destruct SP as (_ & S2).
  rewrite P. cbn. destruct r3 as [[l|w|]|]; [destruct S2| |destruct S2|eauto].
  exfalso. destruct S2 as (S2 & S3). apply P3 in S2. destruct S2 as [S2 _]. apply clients_In in S2. destruct S2 as [S4 S5]. destruct (AN w S4 S5). congruence.
Qed.


Lemma c136_all : forall W st, tidy W st -> (w_kind W = Krot -> reachableAdds W) -> w_wits W <> [] -> Forall (honest W) (w_wits W) ->
  exists rs, outcome (receipt W st) = Done rs /\ (forall w, In w rs <-> In w (w_wits W)) /\
    forall w v, In w (w_wits W) -> In v (w_wits W) -> v <> w -> sentOf W (acts (receipt W st)) w v.
Proof.
  intros W st T RA NE HO. rewrite Forall_forall in HO.
  destruct (c137_through_partial W st T RA) as (rs & D).
  { intros w IW _. destruct (HO w IW) as (_ & A & cs & s & B & _). split; [congruence|exact A]. }
  assert (AN : forall w, In w (w_wits W) -> answered W w).
  { intros w IW. destruct (HO w IW) as (A & _ & cs & s & B & _). unfold answered. eauto. }
  exists rs. split; [exact D|]. split.
  - intros w. rewrite (c138_report W st rs NE D w). split; [intros Z; apply Z|apply AN].
  - intros w v IW IV NW. destruct (HO v IV) as (_ & _ & cs & s & B1 & B2 & B3).
    destruct (proj2 (proj2 (c138_held W st)) rs v cs v s D (AN v IV) B1 B2 IV B3) as (g & G1 & G2 & _).
    apply (proj1 (c136_spread_partial W st rs D) w v g); auto. apply (c138_report W st rs NE D w). auto.
Qed.


Lemma c136_late_refuted : (forall W st w gs, ~ answered W w -> ~ In (Spread w gs) (acts (receipt W st))) /\
  In 2 (w_wits Wlate) /\ w_reply Wlate 2 = Reply 202 [] /\ outcome (receipt Wlate []) = Done [1; 3] /\
  (forall v, ~ sentOf Wlate (acts (receipt Wlate [])) 2 v).
Proof.
  assert (G : forall W st w gs, ~ answered W w -> ~ In (Spread w gs) (acts (receipt W st))).
  { intros W st w gs NA Z. destruct (w_wits W) as [|w0 l0] eqn:WI.
    { assert (R : receipt W st = ([], st, Done [])) by (unfold receipt; rewrite WI; reflexivity). rewrite R in Z. destruct Z. }
    assert (NE : w_wits W <> []) by congruence. clear WI w0 l0. destruct (receipt_parts W st NE) as (a1 & r1 & C & P).
    assert (NC : ~ In (Spread w gs) a1).
    { intros Y. destruct (w_kind W); try (inversion C; subst; destruct Y; fail). apply catchups_spec in C. destruct C as (C & _). destruct (C _ Y) as (v & V & _). discriminate V. }
    destruct r1 as [r|]; [rewrite P in Z; destruct (NC Z)|].
    destruct P as (a2 & st' & rs' & r2 & PO & P). pose proof (posts_spec _ _ _ _ _ _ _ PO) as (_ & _ & P3 & P4).
    assert (NP : ~ In (Spread w gs) a2).
    { intros Y. assert (exists l, a2 = map Post l) as (l & ->).
      { destruct r2; [destruct P4 as (l1 & u & l2 & _ & _ & _ & _ & ->); eauto|destruct P4 as (_ & -> & _); eauto]. }
      apply in_map_iff in Y. destruct Y as (v & Y & _). discriminate Y. }
    destruct r2 as [r|]; [rewrite P in Z; cbn in Z; apply in_app_or in Z; tauto|].
    destruct (negb (inRange W st')); [rewrite P in Z; cbn in Z; apply in_app_or in Z; tauto|].
    destruct P as (a3 & r3 & SP & P). rewrite P in Z. cbn in Z. apply in_app_or in Z. destruct Z as [Z|Z]; [tauto|]. apply in_app_or in Z. destruct Z as [Z|Z]; [tauto|].
    apply spreads_spec in SP. destruct SP as (S1 & _). apply S1 in Z. destruct Z as (v & V1 & V2). inversion V2; subst v. apply P3 in V1. destruct V1 as [V1 V3].
    apply clients_In in V1. destruct V1 as [V1 V4]. apply NA. unfold answered. auto. }
  split; [exact G|]. split; [cbn; auto|]. split; [reflexivity|]. split; [reflexivity|].
  intros v (gs & g & Z & _). revert Z. apply G. intros (_ & _ & cs & Z). discriminate Z.
Qed.

Lemma c136_catchup : forall W st, w_kind W = Krot -> w_wits W <> [] ->
  (reachableAdds W -> exists l, acts (receipt W st) = map Catch (w_adds W) ++ l /\ forall w, ~ In (Catch w) l) /\
  (~ reachableAdds W -> (forall w, ~ In (Post w) (acts (receipt W st))) /\ forall rs, outcome (receipt W st) <> Done rs).
Proof.
  intros W st K NE. destruct (receipt_parts W st NE) as (a1 & r1 & C & P). rewrite K in C. apply catchups_spec in C. destruct C as (C1 & C2). split.
  - intros RA. destruct r1 as [[l|w|]|]; [destruct C2|destruct (C2 RA)|destruct (C2 RA)|]. destruct C2 as (-> & _).
    destruct P as (a2 & st' & rs' & r2 & PO & P). apply posts_spec in PO. destruct PO as (_ & _ & _ & P4).
    assert (NP : forall w, ~ In (Catch w) a2).
    { intros w Y. assert (exists l, a2 = map Post l) as (l & ->).
      { destruct r2; [destruct P4 as (l1 & u & l2 & _ & _ & _ & _ & ->); eauto|destruct P4 as (_ & -> & _); eauto]. }
      apply in_map_iff in Y. destruct Y as (v & Y & _). discriminate Y. }
    destruct r2 as [r|]; [exists a2; rewrite P; auto|]. destruct (negb (inRange W st')); [exists a2; rewrite P; auto|].
    destruct P as (a3 & r3 & SP & P). exists (a2 ++ a3). rewrite P. split; [reflexivity|]. intros w Z. apply in_app_or in Z. destruct Z as [Z|Z]; [exact (NP w Z)|].
    apply spreads_spec in SP. destruct SP as (S1 & _). apply S1 in Z. destruct Z as (v & _ & Z). discriminate Z.
  - intros NR. destruct r1 as [r|]; [|destruct C2 as (_ & C2); destruct (NR C2)]. rewrite P. cbn. split.
    + intros w Z. apply C1 in Z. destruct Z as (v & Z & _). discriminate Z.
    + intros rs ->. exact C2.
Qed.


Lemma c136_delegated_refuted : (forall W st w, w_kind W <> Krot -> ~ In (Catch w) (acts (receipt W st))) /\
  w_kind (W3 Kdrt) = Kdrt /\ In 3 (w_adds (W3 Kdrt)) /\ acts (receipt (W3 Krot) []) = Catch 3 :: acts (receipt (W3 Kdrt) []).
Proof.
  split; [|split; [reflexivity|split; [cbn; auto|reflexivity]]].
  intros W st w K Z. destruct (w_wits W) as [|w0 l0] eqn:WI.
  { assert (R : receipt W st = ([], st, Done [])) by (unfold receipt; rewrite WI; reflexivity). rewrite R in Z. destruct Z. }
  assert (NE : w_wits W <> []) by congruence. clear WI w0 l0. destruct (receipt_parts W st NE) as (a1 & r1 & C & P).
  assert (E1 : a1 = [] /\ r1 = None) by (destruct (w_kind W); try (inversion C; subst; auto; fail); destruct (K eq_refl)). destruct E1 as (-> & ->).
  destruct P as (a2 & st' & rs' & r2 & PO & P). apply posts_spec in PO. destruct PO as (_ & _ & _ & P4).
  assert (NP : ~ In (Catch w) a2).
  { intros Y. assert (exists l, a2 = map Post l) as (l & ->).
    { destruct r2; [destruct P4 as (l1 & u & l2 & _ & _ & _ & _ & ->); eauto|destruct P4 as (_ & -> & _); eauto]. }
    apply in_map_iff in Y. destruct Y as (v & Y & _). discriminate Y. }
  destruct r2 as [r|]; [rewrite P in Z; destruct (NP Z)|]. destruct (negb (inRange W st')); [rewrite P in Z; destruct (NP Z)|].
  destruct P as (a3 & r3 & SP & P). rewrite P in Z. cbn in Z. apply in_app_or in Z. destruct Z as [Z|Z]; [exact (NP Z)|].
  apply spreads_spec in SP. destruct SP as (S1 & _). apply S1 in Z. destruct Z as (v & _ & Z). discriminate Z.
Qed.

Lemma c137_silent_refuted : (forall W st l1 w l2, w_kind W <> Krot -> clients W = l1 ++ w :: l2 -> w_reply W w = Silent ->
    (forall v, In v l1 -> w_reply W v <> Silent) ->
    outcome (receipt W st) = Waits w /\ acts (receipt W st) = map Post (l1 ++ [w])) /\
  outcome (receipt Wdown []) = Waits 1 /\ acts (receipt Wdown []) = [Post 1] /\ honest Wdown 2 /\ honest Wdown 3.
Proof.
  split.
  - intros W st l1 w l2 K CL SI NS.
    assert (NE : w_wits W <> []) by (intros Z; unfold clients in CL; rewrite Z in CL; destruct l1; discriminate CL).
    destruct (receipt_parts W st NE) as (a1 & r1 & C & P).
    assert (E1 : a1 = [] /\ r1 = None) by (destruct (w_kind W); try (inversion C; subst; auto; fail); destruct (K eq_refl)). destruct E1 as (-> & ->).
    destruct P as (a2 & st' & rs' & r2 & PO & P). apply posts_spec in PO. destruct PO as (_ & _ & _ & P4). rewrite CL in P4. destruct r2 as [r|].
    + destruct P4 as (m1 & u & m2 & L & Z1 & Z2 & -> & ->). rewrite P. cbn [outcome acts fst snd app].
      assert (l1 = m1 /\ w = u) as (-> & ->); [|auto]. clear - L SI NS Z1 Z2. revert m1 L Z2. induction l1 as [|x l1 IH]; intros m1 L Z2.
      * destruct m1 as [|y m1]; cbn in L; inversion L; subst; [auto|]. destruct (Z2 y (or_introl eq_refl) SI).
      * destruct m1 as [|y m1]; cbn in L; inversion L; subst; [destruct (NS u (or_introl eq_refl) Z1)|].
        destruct (IH (fun v V => NS v (or_intror V)) m1 H1 (fun v V => Z2 v (or_intror V))) as (-> & ->). auto.
    + destruct P4 as (P4 & _). destruct (P4 w); [apply in_or_app; right; left; reflexivity|exact SI].
  - split; [reflexivity|]. split; [reflexivity|]. split; (split; [reflexivity|]; split; [reflexivity|]; eexists; eexists; split; [reflexivity|]; split; [left; reflexivity|reflexivity]).
Qed.

Lemma c137_endpoint_refuted : (forall W st w l, w_kind W = Krot -> w_wits W <> [] -> w_adds W = w :: l -> w_url W w = false ->
    receipt W st = ([], st, Raises)) /\
  receipt Wurl [] = ([], [], Raises) /\ honest Wurl 1 /\ honest Wurl 2 /\
  outcome (receipt (mkWorld Kixn (w_wits Wurl) [] (w_url Wurl) good val0 (fun _ => true) (fun _ => true)) []) = Done [1; 2].
Proof.
  split.
  - intros W st w l K NE AD U. unfold receipt. destruct (w_wits W); [congruence|]. rewrite K, AD. cbn [catchups]. rewrite U. reflexivity.
  - split; [reflexivity|]. split; [|split; [|reflexivity]]; (split; [reflexivity|]; split; [reflexivity|]; eexists; eexists; split; [reflexivity|]; split; [left; reflexivity|reflexivity]).
Qed.

Lemma c137_again : forall Ws W st, Forall (fun V => w_wits V = w_wits W) Ws -> tidy W st ->
  (w_kind W = Krot -> reachableAdds W) -> w_wits W <> [] -> Forall (honest W) (w_wits W) ->
  (forall g, In g st -> In g (rounds Ws st)) /\ (forall g, In g (rounds Ws st) -> In g (held (receipt W (rounds Ws st)))) /\
  exists rs, outcome (receipt W (rounds Ws st)) = Done rs /\ (forall w, In w rs <-> In w (w_wits W)) /\
    forall w v, In w (w_wits W) -> In v (w_wits W) -> v <> w -> sentOf W (acts (receipt W (rounds Ws st))) w v.
Proof.
  intros Ws W st EW T RA NE HO.
  assert (B : tidy W (rounds Ws st) /\ forall g, In g st -> In g (rounds Ws st)).
  { revert st T. induction EW as [|V Ws EV EW IH]; intros st T; cbn [rounds]; [auto|].
    assert (T' : tidy W (held (receipt V st))).
    { apply Forall_forall. intros g G. apply (proj1 (c138_held V st)) in G. destruct G as [G|(w & v & cs & _ & _ & _ & G & _)].
      - unfold tidy in T. rewrite Forall_forall in T. auto.
      - exists v. unfold ofWit in *. rewrite EV in G. exact G. }
    destruct (IH _ T') as (I1 & I2). split; [exact I1|]. intros g G. apply I2. apply (proj1 (proj2 (c138_held V st))). exact G. }
  destruct B as (B1 & B2). split; [exact B2|]. split; [apply (proj1 (proj2 (c138_held W (rounds Ws st))))|].
  apply c136_all; auto.
Qed.

