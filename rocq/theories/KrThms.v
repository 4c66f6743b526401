(** Request authentication. *)
From Verif Require Import Prelude B64Model SubsModel ThModel ThProofs JsonModel JsonProofs Lex SerProofs RpModel RpProofs RpLive KrModel KrSpec KrProofs KrHist KrInv KrConf.
Open Scope N_scope.
Ltac Zify.zify_post_hook ::= Z.div_mod_to_equations.

(** *** Concrete receiver for the examples: keys are texts, a signature is the key followed by the data *)
Definition xEnv : kenv := mkKenv (fun k => negb (startswith (s2b "B") k)) (fun k sig msg => beq sig (k ++ msg)).
Definition xSender : bytes := s2b "Ealice".
Definition xMsgAt (ilk : string) (said : string) (x : option bytes) (dt : N) : kmsg :=
  mkMsg xSender (s2b ilk) (s2b said) (Some (s2b "logs")) (Some dt) (s2b "{raw}") true (s2b "CAA") x.
Definition xMsg : kmsg := xMsgAt "qry" "Emessage" None 1000000.
Definition xSig (q : string) (i : N) (key : string) : siger := mkSiger (s2b q) i (s2b key ++ s2b "{raw}").
Definition xBare (l : list siger) : katt := mkAtt l [] [] [] [] [].
Definition xSeal : katt := mkAtt [] [] [] [] [(3, s2b "Eseal")] [].
Definition xOne : kst := mkKst 3 (s2b "Eseal") [s2b "k0"] (TNum 1).
Definition xTwo : kst := mkKst 3 (s2b "Eseal") [s2b "k0"; s2b "k1"] (TNum 2).
Definition xView (k : kst) : kview :=
  mkKview (fun p => if beq p xSender then Some k else None)
          (fun p sn => if beq p xSender then
                         if sn =? 3 then Some (s2b "Eseal", Some [s2b "Emessage"; s2b "Exip"])
                         else if sn =? 0 then Some (s2b "Eicp", Some []) else None
                       else None).
Definition xCf (c : ctyp) : list (bytes * ctyp) := [(s2b "~", c)].

Ltac decAd := unfold admits; vm_compute; reflexivity.
Ltac decIn := repeat match goal with
  | H : In _ (_ :: _) |- _ => destruct H as [H|H]
  | H : In _ [] |- _ => destruct H
  | H : In _ (_ ++ _) |- _ => cbn [app] in H
  end.
Ltac decClean := intros ? ? ? ? ?; decIn; match goal with H : Deliver _ _ _ _ = Deliver _ _ _ _ |- _ => injection H as <- <- <- <- | H : _ |- _ => discriminate H end;
  split; cbn; intuition discriminate.
Ltac decOne := intros ? ? ? ? ? ? ? ? ? ? ? ?; decIn; repeat match goal with H : Deliver _ _ _ _ = Deliver _ _ _ _ |- _ => injection H as <- <- <- <- end;
  try reflexivity; try discriminate.

Lemma c54_authentic : forall env t0 l now v m a,
  let h := l ++ [Deliver now v m a] in
  clean h -> oneMessage h -> oneKeyState h ->
  admits env v now m a (kruns env l (kdb0 t0)) ->
  sealedBy v m a \/ signedAsSelf env m a \/ signedByKeys env h v m.
Proof. exact authentic. Qed.

Lemma c35_timely : forall env t0 l now v m a,
  let h := l ++ [Deliver now v m a] in
  clean h -> oneMessage h -> admits env v now m a (kruns env l (kdb0 t0)) ->
  exists l0 l1 t v' a' c mdt lag, h = l0 ++ Deliver t v' m a' :: l1 /\ m_dt m = Some mdt
    /\ fetchCacheType (kruns env l0 (kdb0 t0)) (m_ilk m) (m_route m) = Some c
    /\ inWindow (c_d c) lag mdt t /\ (lag = c_sl c \/ lag = c_ll c).
Proof. exact timely. Qed.

Lemma c35_timely_now : forall env v now m a d, admits env v now m a d ->
  (forall k, kev v (m_pre m) = Some k -> len (kv_keys k) = 1) \/ hasSigs (m_pre m) a = false ->
  exists c mdt, m_dt m = Some mdt /\ fetchCacheType d (m_ilk m) (m_route m) = Some c /\ inWindow (c_d c) (c_sl c) mdt now.
Proof. exact timely_now. Qed.

Lemma c35_once_partial : forall env t0 l1 l2 t1 v1 m a1 t2 v2 a2 mdt c,
  clean (l1 ++ Deliver t1 v1 m a1 :: l2) -> oneMessage (l1 ++ Deliver t1 v1 m a1 :: l2) ->
  neverDelivered m l1 -> m_dt m = Some mdt ->
  fetchCacheType (kruns env l1 (kdb0 t0)) (m_ilk m) (m_route m) = Some c -> ctypOk c = true ->
  match exchangeId m with
  | None => c_ll c <= c_psl c
  | Some _ => mdt <= t1 /\ c_d c + c_ll c + (if beq (m_ilk m) (s2b "xip") then 0 else c_xl c) <= c_pxl c
  end ->
  noConfig l2 -> clockFrom t1 (l2 ++ [Deliver t2 v2 m a2]) ->
  admits env v1 t1 m a1 (kruns env l1 (kdb0 t0)) ->
  ~ admits env v2 t2 m a2 (kruns env (l1 ++ Deliver t1 v1 m a1 :: l2) (kdb0 t0)).
Proof. exact once. Qed.

(** a message signed by the one key, delivered again before and after pruning *)
Definition xCt : ctyp := mkCt 5 10 20 30 20 20 60.




Lemma c54_scope : forall env denials v now m a d,
  let label := m_ver m ++ s2b "." ++ m_ilk m ++ s2b "." ++ match m_route m with Some r => r | None => s2b "None" end in
  let exempt := exists p t, In p denials /\ label = p ++ t in
  (exempt -> intake env true denials v now m a d = (d, Admit))
  /\ (~ exempt -> intake env true denials v now m a d = kramit env v now m a d).
Proof.
  intros env denials v now m a d label exempt.
  assert (L : denial m = label) by (unfold denial, label, joinb, dot; cbn [fold_left app]; reflexivity).
  assert (E : existsb (fun p => startswith p (denial m)) denials = true <-> exempt).
  { rewrite existsb_exists. rewrite L. unfold exempt. split.
    - intros (p & J & H). apply startswith_ok in H. destruct H as [t H]. eauto.
    - intros (p & t & J & H). exists p. split; [exact J|]. apply startswith_ok. eauto. }
  unfold intake. destruct (existsb (fun p => startswith p (denial m)) denials); split; intros H; try reflexivity.
  - exfalso. apply H, E. reflexivity.
  - apply E in H. discriminate H.
Qed.


(** *** Service *)
Lemma c54_signed_admitted : forall env t0 l now v m sigs k c mdt,
  let h := l ++ [Deliver now v m (mkAtt sigs [] [] [] [] [])] in
  clean h -> oneMessage h -> neverDelivered m l ->
  exchangeId m = None \/ m_ilk m = s2b "xip" ->
  m_dt m = Some mdt -> kev v (m_pre m) = Some k ->
  fetchCacheType (kruns env l (kdb0 t0)) (m_ilk m) (m_route m) = Some c ->
  sigs <> [] -> NoDup (map sg_qb64 sigs) -> (forall s, In s sigs -> goodSig env k m s) ->
  (if len (kv_keys k) =? 1 then inWindow (c_d c) (c_sl c) mdt now
   else inWindow (c_d c) (c_ll c) mdt now /\ satisfy (kv_th k) (map sg_index sigs) = true) ->
  admits env v now m (mkAtt sigs [] [] [] [] []) (kruns env l (kdb0 t0)).
Proof. exact signed_admitted. Qed.

Lemma c54_sealed_admitted : forall env t0 l now v m sn dig seals k c mdt,
  let h := l ++ [Deliver now v m (mkAtt [] [] [] [] [(sn, dig)] [])] in
  clean h -> oneMessage h -> neverDelivered m l ->
  exchangeId m = None \/ m_ilk m = s2b "xip" ->
  m_dt m = Some mdt -> kev v (m_pre m) = Some k ->
  fetchCacheType (kruns env l (kdb0 t0)) (m_ilk m) (m_route m) = Some c ->
  evt v (m_pre m) sn = Some (dig, Some seals) -> In (m_said m) seals ->
  inWindow (c_d c) (c_sl c) mdt now ->
  admits env v now m (mkAtt [] [] [] [] [(sn, dig)] []) (kruns env l (kdb0 t0)).
Proof. exact sealed_admitted. Qed.



(** *** Refutations of unconditional replay protection *)
Definition replayed (env : kenv) (t0 : list (bytes * ctyp)) l1 t1 v1 m a1 l2 t2 v2 a2 : Prop :=
  (forall e, In e t0 -> ctypOk (snd e) = true) /\ clean (l1 ++ Deliver t1 v1 m a1 :: l2) /\ oneMessage (l1 ++ Deliver t1 v1 m a1 :: l2)
  /\ noConfig (l1 ++ l2)
  /\ admits env v1 t1 m a1 (kruns env l1 (kdb0 t0))
  /\ admits env v2 t2 m a2 (kruns env (l1 ++ Deliver t1 v1 m a1 :: l2) (kdb0 t0)).
Ltac decRep := unfold replayed; split; [intros e J; unfold xCf in J; decIn; subst; reflexivity|]; split; [decClean|]; split; [decOne|];
  split; [intros ? ?; decIn; discriminate|]; split; decAd.

Lemma c35_multikey_replay_refuted : exists env t0 l1 t1 v m a1 t2,
  replayed env t0 l1 t1 v m a1 [] t2 v a1 /\ t1 < t2 /\ clockFrom 0 (l1 ++ [Deliver t1 v m a1; Deliver t2 v m a1]).
Proof.
  exists xEnv, (xCf xCt), [Deliver 1001000 (xView xTwo) xMsg (xBare [xSig "AAs" 0 "k0"])], 1002000, (xView xTwo), xMsg, (xBare [xSig "ABs" 1 "k1"]), 1003000.
  split; [decRep|]. split; [lia|]. cbn. lia.
Qed.

Lemma c35_late_completion_refuted : exists env t0 l now v m a c mdt,
  clean (l ++ [Deliver now v m a]) /\ oneMessage (l ++ [Deliver now v m a]) /\ m_dt m = Some mdt
  /\ fetchCacheType (kruns env l (kdb0 t0)) (m_ilk m) (m_route m) = Some c /\ ctypOk c = true
  /\ admits env v now m a (kruns env l (kdb0 t0)) /\ ~ inWindow (c_d c) (c_pll c + 1000000) mdt now.
Proof.
  exists xEnv, (xCf xCt), [Deliver 1001000 (xView xTwo) xMsg (xBare [xSig "AAs" 0 "k0"])], 5000000000, (xView xTwo), xMsg, (xBare [xSig "ABs" 1 "k1"]), xCt, 1000000.
  split; [decClean|]. split; [decOne|]. split; [reflexivity|]. split; [vm_compute; reflexivity|]. split; [reflexivity|]. split; [decAd|].
  intros [W _]. vm_compute in W. congruence.
Qed.

Lemma c35_seal_then_sign_refuted : exists env t0 t1 v m a1 l2 t2 a2,
  replayed env t0 [] t1 v m a1 l2 t2 v a2 /\ exchangeId m = None /\ clockFrom t1 (l2 ++ [Deliver t2 v m a2]).
Proof.
  exists xEnv, (xCf (mkCt 0 10 20 30 10 20 30)), 1001000, (xView xTwo), xMsg, xSeal, [Prune 1011000], 1015000, (xBare [xSig "AAs" 0 "k0"; xSig "ABs" 1 "k1"]).
  split; [decRep|]. split; [reflexivity|]. cbn. lia.
Qed.

Lemma c35_exchange_ahead_refuted : exists env t0 t1 v m a1 l2 t2,
  replayed env t0 [] t1 v m a1 l2 t2 v a1 /\ m_ilk m = s2b "xip" /\ clockFrom t1 (l2 ++ [Deliver t2 v m a1]).
Proof.
  exists xEnv, (xCf (mkCt 5 10 20 30 20 20 100)), 999000, (xView xOne), (xMsgAt "xip" "Exip" None 1000000), (xBare [xSig "AAs" 0 "k0"]), [Prune 999500], 999600.
  split; [decRep|]. split; [reflexivity|]. cbn. lia.
Qed.

Lemma c35_exchange_lag_refuted : exists env t0 t1 v m a1 l2 t2,
  replayed env t0 [] t1 v m a1 l2 t2 v a1 /\ m_ilk m = s2b "xip" /\ m_dt m = Some t1 /\ clockFrom t1 (l2 ++ [Deliver t2 v m a1]).
Proof.
  exists xEnv, (xCf (mkCt 10 10 10 10 10 10 10)), 1000000, (xView xOne), (xMsgAt "xip" "Exip" None 1000000), (xBare [xSig "AAs" 0 "k0"]), [Prune 1011000], 1012000.
  split; [decRep|]. split; [reflexivity|]. split; [reflexivity|]. cbn. lia.
Qed.

Lemma c35_clock_back_refuted : exists env t0 t1 v m a1 l2 t2,
  replayed env t0 [] t1 v m a1 l2 t2 v a1 /\ exchangeId m = None /\ t1 <= t2.
Proof.
  exists xEnv, (xCf xCt), 1001000, (xView xOne), xMsg, (xBare [xSig "AAs" 0 "k0"]), [Prune 500000], 1002000.
  split; [decRep|]. split; [reflexivity|]. lia.
Qed.

(** *** Other refutations *)

Lemma c54_double_count_refuted : exists env t0 now v m a k,
  admits env v now m a (kdb0 t0) /\ kev v (m_pre m) = Some k /\ kv_th k = TNum 2
  /\ a_cigars a = [] /\ a_lsgs a = [] /\ a_tsgs a = [] /\ a_sscs a = [] /\ a_ssts a = []
  /\ forall s, In s (a_sigers a) -> sg_index s = 0.
Proof.
  exists xEnv, (xCf xCt), 1001000, (xView xTwo), xMsg, (xBare [xSig "AAs" 0 "k0"; xSig "BAs" 0 "k0"]), xTwo.
  split; [decAd|]. repeat (split; [reflexivity|]). intros s J. cbn [a_sigers xBare] in J. decIn; subst; reflexivity.
Qed.

Lemma c54_group_after_interaction_refuted : exists env t0 now v m a g k mdt c,
  a = mkAtt [] [] [] [g] [] [] /\ g_pre g = m_pre m /\ evt v (m_pre m) (g_sn g) = Some (g_dig g, Some [])
  /\ kev v (m_pre m) = Some k /\ len (kv_keys k) = 1 /\ g_sn g < kv_sn k
  /\ g_sigs g <> [] /\ (forall s, In s (g_sigs g) -> goodSig env k m s)
  /\ m_dt m = Some mdt /\ fetchCacheType (kdb0 t0) (m_ilk m) (m_route m) = Some c /\ inWindow (c_d c) (c_sl c) mdt now
  /\ kramit env v now m a (kdb0 t0) = (kdb0 t0, Drop).
Proof.
  exists xEnv, (xCf xCt), 1001000, (xView xOne), xMsg, (mkAtt [] [] [] [mkG xSender 0 (s2b "Eicp") [xSig "AAs" 0 "k0"]] [] []), (mkG xSender 0 (s2b "Eicp") [xSig "AAs" 0 "k0"]), xOne, 1000000, xCt.
  split; [reflexivity|]. split; [reflexivity|]. split; [reflexivity|]. split; [reflexivity|]. split; [reflexivity|]. split; [reflexivity|]. split; [discriminate|].
  split; [intros s J; cbn [g_sigs] in J; decIn; subst; exists (s2b "k0"); split; [reflexivity|vm_compute; reflexivity]|].
  split; [reflexivity|]. split; [reflexivity|]. split; [split; vm_compute; discriminate|]. vm_compute. reflexivity.
Qed.

(** A sender can end the receiver's pruning for good: the exchange identifier of a message is not
    checked, and one that contains a dot makes every later round raise. *)
Definition xDots : list kact :=
  let v := xView xOne in let s := xBare [xSig "AAs" 0 "k0"] in
  [Deliver 1001000 v (xMsgAt "xip" "Exip" None 1000000) s; Deliver 1002000 v (xMsgAt "exn" "Eexn" (Some (s2b "Exip.E")) 1001000) s].
Lemma c35_pruner_ended_refuted : exists env t0 l, clean l /\ oneMessage l /\
  forall now, snd (prune now (kruns env l (kdb0 t0))) = Some ValueErr.
Proof.
  exists xEnv, (xCf xCt), xDots. split; [unfold xDots; decClean|]. split; [unfold xDots; decOne|]. intros now.
  assert (E : exists h h', kruns xEnv xDots (kdb0 (xCf xCt)) =
    mkKdb (xCf xCt) [] [(s2b "Ealice.Exip.Exip", h); (s2b "Ealice.Exip.E.Eexn", h')] [] [] []).
  { eexists. eexists. vm_compute. reflexivity. }
  destruct E as (h & h' & ->). unfold prune. cbn [msgc pruneMessages tmsc].
  cbn [pruneExchanges]. change (splitb dot (s2b "Ealice.Exip.Exip")) with [s2b "Ealice"; s2b "Exip"; s2b "Exip"].
  change (splitb dot (s2b "Ealice.Exip.E.Eexn")) with [s2b "Ealice"; s2b "Exip"; s2b "E"; s2b "Eexn"]. cbv iota beta.
  destruct ((h_xdt h / 1000 <=? now / 1000) && (now / 1000 <=? h_xdt h / 1000 + h_pxl h)); reflexivity.
Qed.

(** *** Changing the configuration *)

Lemma c53_not_wider_at_once : forall now over new s s' ct o n,
  changeConfig now over new s = (s', None) -> NoDup (map fst new) ->
  dget (k_cf s) ct = Some o -> dget new ct = Some n ->
  exists c, dget (kctyp (k_db s')) ct = Some c /\ c_d c = c_d o
    /\ c_sl c <= c_sl o /\ c_ll c <= c_ll o /\ c_xl c <= c_xl o.
Proof. exact not_wider. Qed.

Lemma c53_increase_delayed : forall now new s s' t s'' ct o n e,
  changeConfig now None new s = (s', None) -> NoDup (map fst new) -> k_pend s = [] ->
  dget (k_cf s) ct = Some o -> dget new ct = Some n ->
  t < now + (c_sl n - c_sl o) * 1000 \/ t < now + (c_ll n - c_ll o) * 1000 \/ t < now + (c_xl n - c_xl o) * 1000 ->
  reconcileConfig t s' = (s'', e) -> e = None /\ dget (kctyp (k_db s'')) ct = dget (kctyp (k_db s')) ct.
Proof. exact increase_delayed. Qed.

Lemma c53_increase_applied : forall now new s s' t s'' ct o n e,
  changeConfig now None new s = (s', None) -> NoDup (map fst new) -> k_pend s = [] ->
  dget (k_cf s) ct = Some o -> dget new ct = Some n ->
  (forall x p, dget (k_pend s') x = Some p -> now + pn_delta p * 1000 <= t) ->
  reconcileConfig t s' = (s'', e) ->
  e = None /\ exists c, dget (kctyp (k_db s'')) ct = Some c /\ c_d c = c_d o /\ c_sl c = c_sl n /\ c_ll c = c_ll n /\ c_xl c = c_xl n.
Proof. exact increase_applied. Qed.

Definition xKr (cf : list (bytes * ctyp)) (d : kdb) : kramer := mkKr cf [] (setCtyp d cf).


(** A message admitted and pruned under the configuration [old] is admitted again after the
    change to [new]. *)
Definition replayedAcross (env : kenv) (old : list (bytes * ctyp)) (m : kmsg) (v : kview) (a : katt)
           (t1 tp : N) (change : kramer -> kramer) (t2 : N) : Prop :=
  (forall e, In e old -> ctypOk (snd e) = true)
  /\ admits env v t1 m a (kdb0 old)
  /\ t1 <= tp /\ tp <= t2
  /\ (exists c, fetchCacheType (kdb0 old) (m_ilk m) (m_route m) = Some c /\ c_ll c <= c_psl c)
  /\ let d := kruns env [Deliver t1 v m a; Prune tp] (kdb0 old) in
     admits env v t2 m a (k_db (change (mkKr old [] d))).

Lemma c53_removed_type_refuted : exists env old new v m a t1 tp tc t2,
  replayedAcross env old m v a t1 tp (fun s => fst (changeConfig tc None new s)) t2 /\ tp <= tc /\ tc <= t2
  /\ (forall e, In e new -> dget old (fst e) = Some (snd e)) /\ snd (changeConfig tc None new (xKr old (kdb0 []))) = None.
Proof.
  exists xEnv, [(s2b "~", mkCt 0 1000 1000 1000 1000 1000 1000); (s2b "qry", mkCt 0 10 10 10 10 10 10)], (xCf (mkCt 0 1000 1000 1000 1000 1000 1000)),
    (xView xOne), xMsg, (xBare [xSig "AAs" 0 "k0"]), 1001000, 1011000, 1012000, 1013000.
  split. { split; [intros e J; unfold xCf in J; decIn; subst; reflexivity|]. split; [decAd|]. split; [lia|]. split; [lia|]. split; [exists (mkCt 0 10 10 10 10 10 10); split; [reflexivity|vm_compute; discriminate]|]. cbv zeta. decAd. }
  split; [lia|]. split; [lia|]. split; [intros e J; unfold xCf in J; decIn; subst; reflexivity|]. vm_compute. reflexivity.
Qed.

Lemma c53_mixed_change_refuted : exists env old new v m a t0 t1 tp t2 s c,
  (forall e, In e old -> ctypOk (snd e) = true) /\ changeConfig t0 None new (xKr old (kdb0 [])) = (s, None)
  /\ dget (kctyp (k_db s)) (s2b "~") = Some c /\ c_psl c < c_sl c
  /\ t0 <= t1 /\ t1 <= tp /\ tp <= t2
  /\ admits env v t1 m a (k_db s) /\ admits env v t2 m a (kruns env [Deliver t1 v m a; Prune tp] (k_db s)).
Proof.
  exists xEnv, (xCf (mkCt 0 1000 1000 1000 1000 1000 1000)), (xCf (mkCt 0 10 1000 2000 10 1000 2000)),
    (xView xOne), xMsg, (xBare [xSig "AAs" 0 "k0"]), 999000, 1001000, 1011000, 1013000.
  eexists. eexists. split; [intros e J; unfold xCf in J; decIn; subst; reflexivity|]. split; [vm_compute; reflexivity|]. split; [vm_compute; reflexivity|].
  split; [vm_compute; reflexivity|]. split; [lia|]. split; [lia|]. split; [lia|]. split; decAd.
Qed.

Lemma c53_removed_while_staged_refuted : exists s0 t1 n1 t2 n2 s1 s2,
  changeConfig t1 None n1 s0 = (s1, None) /\ changeConfig t2 None n2 s1 = (s2, None) /\ k_pend s0 = [] /\
  exists tr, forall t, tr <= t -> snd (reconcileConfig t s2) = Some AttributeErr.
Proof.
  exists (xKr (xCf (mkCt 0 10 10 10 10 10 10)) (kdb0 [])), 1000000, [(s2b "~", mkCt 0 10 10 10 10 10 10); (s2b "qry", mkCt 0 20 20 20 20 20 20)], 1001000, (xCf (mkCt 0 10 10 10 10 10 10)).
  eexists. eexists. split; [vm_compute; reflexivity|]. split; [vm_compute; reflexivity|]. split; [reflexivity|].
  exists 1100000. intros t Ht. unfold reconcileConfig. cbn [k_pend reconcileLoop pn_start pn_delta].
  match goal with |- context [?x <=? t] => replace (x <=? t) with true by (symmetry; apply N.leb_le; clear - Ht; lia) end. reflexivity.
Qed.

Lemma c53_stale_increase_refuted : exists s0 t1 n1 t2 n2 s1 s2 c,
  changeConfig t1 None n1 s0 = (s1, None) /\ changeConfig t2 None n2 s1 = (s2, None) /\ k_pend s0 = [] /\
  dget n2 (s2b "~") = Some c /\ exists c', dget (kctyp (k_db (fst (reconcileConfig 9000000 s2)))) (s2b "~") = Some c' /\ c_sl c < c_sl c'.
Proof.
  exists (xKr (xCf (mkCt 0 10 10 10 10 10 10)) (kdb0 [])), 1000000, (xCf (mkCt 0 500 500 500 500 500 500)), 1001000, (xCf (mkCt 0 10 10 10 10 10 10)).
  eexists. eexists. eexists. split; [vm_compute; reflexivity|]. split; [vm_compute; reflexivity|]. split; [reflexivity|]. split; [reflexivity|].
  eexists. split; [vm_compute; reflexivity|]. vm_compute. reflexivity.
Qed.

Lemma c53_restart_refuted : exists env old new v m a t1 tp t2,
  replayedAcross env old m v a t1 tp (fun s => match restart new (k_db s) with Some s' => s' | None => s end) t2.
Proof.
  exists xEnv, (xCf (mkCt 0 10 10 10 10 10 10)), (xCf (mkCt 0 1000 1000 1000 1000 1000 1000)), (xView xOne), xMsg, (xBare [xSig "AAs" 0 "k0"]), 1001000, 1011000, 1013000.
  split; [intros e J; unfold xCf in J; decIn; subst; reflexivity|]. split; [decAd|]. split; [lia|]. split; [lia|]. split; [exists (mkCt 0 10 10 10 10 10 10); split; [reflexivity|vm_compute; discriminate]|]. cbv zeta. decAd.
Qed.
