(** Request authentication. *)
From Verif Require Import Prelude B64Model SubsModel ThModel ThProofs JsonModel JsonProofs Lex SerProofs RpModel RpProofs RpLive KrModel KrSpec KrProofs KrHist KrInv KrConf KrThms.
Open Scope N_scope.

(** Whatever a receiver has gone through, a message that is handed on for processing is sealed by an
    event of the sender's log, or signed by the nontransferable sender, or signed by the sender's
    current key, or by enough of its current keys, with distinct signatures that all arrived with
    this message while those keys were current. *)
Theorem C54_authentic : forall env t0 l now v m a,
  let h := l ++ [Deliver now v m a] in
  clean h -> oneMessage h -> oneKeyState h ->
  admits env v now m a (kruns env l (kdb0 t0)) ->
  sealedBy v m a \/ signedAsSelf env m a \/ signedByKeys env h v m.
Proof. exact c54_authentic. Qed.
Print Assumptions C54_authentic.

(** Whatever a receiver has gone through, a message that is handed on was at one of its deliveries
    inside the window of its cache type around the receiver's clock. *)
Theorem C35_timely : forall env t0 l now v m a,
  let h := l ++ [Deliver now v m a] in
  clean h -> oneMessage h -> admits env v now m a (kruns env l (kdb0 t0)) ->
  exists l0 l1 t v' a' c mdt lag, h = l0 ++ Deliver t v' m a' :: l1 /\ m_dt m = Some mdt
    /\ fetchCacheType (kruns env l0 (kdb0 t0)) (m_ilk m) (m_route m) = Some c
    /\ inWindow (c_d c) lag mdt t /\ (lag = c_sl c \/ lag = c_ll c).
Proof. exact c35_timely. Qed.
Print Assumptions C35_timely.

(** A message that carries no signature, or whose sender has one key, is inside the short window at
    the very moment it is handed on. *)
Theorem C35_timely_now : forall env v now m a d, admits env v now m a d ->
  (forall k, kev v (m_pre m) = Some k -> len (kv_keys k) = 1) \/ hasSigs (m_pre m) a = false ->
  exists c mdt, m_dt m = Some mdt /\ fetchCacheType d (m_ilk m) (m_route m) = Some c /\ inWindow (c_d c) (c_sl c) mdt now.
Proof. exact c35_timely_now. Qed.
Print Assumptions C35_timely_now.

(** A message admitted at its first delivery is never admitted again, whatever is delivered and
    however often the cache is pruned, as long as the clock does not run backwards, the
    configuration stays and the pruning lags outlast every window: for messages outside exchanges
    the short pruning lag is at least the long lag; for messages of an exchange the date is not in
    the future and the exchange's pruning lag covers drift, long lag and exchange lag.
    The full property has none of these conditions; see the refutations. *)
Theorem C35_once_partial : forall env t0 l1 l2 t1 v1 m a1 t2 v2 a2 mdt c,
  clean (l1 ++ Deliver t1 v1 m a1 :: l2) -> oneMessage (l1 ++ Deliver t1 v1 m a1 :: l2) ->
  neverDelivered m l1 -> m_dt m = Some mdt ->
  fetchCacheType (kruns env l1 (kdb0 t0)) (m_ilk m) (m_route m) = Some c -> ctypOk c = true ->
  match exchangeId m with
  | None => c_ll c <= c_psl c
  | Some _ => mdt <= t1 /\ c_d c + c_ll c + (if beq (m_ilk m) (s2b "xip") then 0 else c_xl c) <= c_pxl c
  end ->
  noConfig l2 -> clockFrom t1 (l2 ++ [Deliver t2 v2 m a2]) ->
  admits env v1 t1 m a1 (kruns env l1 (kdb0 t0)) ->
  ~ admits env v2 t2 m a2 (kruns env (l1 ++ Deliver t1 v1 m a1 :: l2) (kdb0 t0)).
Proof. exact c35_once_partial. Qed.
Print Assumptions C35_once_partial.

Example C35_once_example :
  let s := xBare [xSig "AAs" 0 "k0"] in
  let v := xView xOne in
  let l2 := [Deliver 1002000 v xMsg s; Prune 1004000; Prune 1030000] in
  clean ([] ++ Deliver 1001000 v xMsg s :: l2) /\ oneMessage ([] ++ Deliver 1001000 v xMsg s :: l2)
  /\ ctypOk xCt = true /\ fetchCacheType (kdb0 (xCf xCt)) (m_ilk xMsg) (m_route xMsg) = Some xCt
  /\ exchangeId xMsg = None /\ c_ll xCt <= c_psl xCt
  /\ clockFrom 1001000 (l2 ++ [Deliver 1031000 v xMsg s]) /\ admits xEnv v 1001000 xMsg s (kdb0 (xCf xCt))
  /\ cacheOf xMsg (kruns xEnv [Deliver 1001000 v xMsg s; Prune 1004000] (kdb0 (xCf xCt))) <> None
  /\ cacheOf xMsg (kruns xEnv [Deliver 1001000 v xMsg s; Prune 1030000] (kdb0 (xCf xCt))) = None.
Proof.
  cbv zeta. split; [decClean|]. split; [decOne|]. split; [reflexivity|]. split; [reflexivity|]. split; [reflexivity|]. split; [vm_compute; discriminate|].
  split; [cbn; lia|]. split; [decAd|]. split; [vm_compute; discriminate|vm_compute; reflexivity].
Qed.

Example C54_authentic_example :
  let s0 := xBare [xSig "AAs" 0 "k0"] in let s1 := xBare [xSig "ABs" 1 "k1"] in
  let v := xView xTwo in let h := [Deliver 1001000 v xMsg s0; Deliver 1002000 v xMsg s1] in
  clean h /\ oneMessage h /\ oneKeyState h /\ admits xEnv v 1002000 xMsg s1 (kruns xEnv [Deliver 1001000 v xMsg s0] (kdb0 (xCf xCt)))
  /\ admits xEnv v 1001000 xMsg xSeal (kdb0 (xCf xCt)) /\ sealedBy v xMsg xSeal.
Proof.
  cbv zeta. split; [decClean|]. split; [decOne|]. split; [|split; [decAd|split; [decAd|]]].
  - intros t v m a t' v' m' a' k k' H H'. decIn; repeat match goal with H : Deliver _ _ _ _ = Deliver _ _ _ _ |- _ => injection H as <- <- <- <- end; intros; congruence.
  - exists 3, (s2b "Eseal"), [s2b "Emessage"; s2b "Exip"]. split; [left; left; reflexivity|]. split; [reflexivity|left; reflexivity].
Qed.

(** With the check switched on, the messages that pass without it are exactly those whose version,
    type and route, written with dots between them, begin with one of the configured exemptions; they
    leave no trace.  All others get the verdict of the check. *)
Theorem C54_scope : forall env denials v now m a d,
  let label := m_ver m ++ s2b "." ++ m_ilk m ++ s2b "." ++ match m_route m with Some r => r | None => s2b "None" end in
  let exempt := exists p t, In p denials /\ label = p ++ t in
  (exempt -> intake env true denials v now m a d = (d, Admit))
  /\ (~ exempt -> intake env true denials v now m a d = kramit env v now m a d).
Proof. exact c54_scope. Qed.
Print Assumptions C54_scope.

Example C54_scope_example :
  intake xEnv true [s2b "CAA.rpy"; s2b "CAA.qry.lo"] (xView xOne) 1001000 xMsg (xBare []) (kdb0 (xCf xCt)) = (kdb0 (xCf xCt), Admit)
  /\ ~ admits xEnv (xView xOne) 1001000 xMsg (xBare []) (kdb0 (xCf xCt))
  /\ snd (intake xEnv true [s2b "CAA.rpy"] (xView xOne) 1001000 xMsg (xBare []) (kdb0 (xCf xCt))) <> Admit.
Proof. split; [reflexivity|]. split; [unfold admits|]; vm_compute; discriminate. Qed.

(** A message not seen before, outside exchanges or starting one, inside its window and signed by
    its sender's current keys (all attached signatures good and distinct) is handed on at once. *)
Theorem C54_signed_admitted : forall env t0 l now v m sigs k c mdt,
  let h := l ++ [Deliver now v m (mkAtt sigs [] [] [] [] [])] in
  clean h -> oneMessage h -> neverDelivered m l ->
  exchangeId m = None \/ m_ilk m = s2b "xip" ->
  m_dt m = Some mdt -> kev v (m_pre m) = Some k ->
  fetchCacheType (kruns env l (kdb0 t0)) (m_ilk m) (m_route m) = Some c ->
  sigs <> [] -> NoDup (map sg_qb64 sigs) -> (forall s, In s sigs -> goodSig env k m s) ->
  (if len (kv_keys k) =? 1 then inWindow (c_d c) (c_sl c) mdt now
   else inWindow (c_d c) (c_ll c) mdt now /\ satisfy (kv_th k) (map sg_index sigs) = true) ->
  admits env v now m (mkAtt sigs [] [] [] [] []) (kruns env l (kdb0 t0)).
Proof. exact c54_signed_admitted. Qed.
Print Assumptions C54_signed_admitted.

(** Likewise for a message sealed by the referenced event of its sender's log. *)
Theorem C54_sealed_admitted : forall env t0 l now v m sn dig seals k c mdt,
  let h := l ++ [Deliver now v m (mkAtt [] [] [] [] [(sn, dig)] [])] in
  clean h -> oneMessage h -> neverDelivered m l ->
  exchangeId m = None \/ m_ilk m = s2b "xip" ->
  m_dt m = Some mdt -> kev v (m_pre m) = Some k ->
  fetchCacheType (kruns env l (kdb0 t0)) (m_ilk m) (m_route m) = Some c ->
  evt v (m_pre m) sn = Some (dig, Some seals) -> In (m_said m) seals ->
  inWindow (c_d c) (c_sl c) mdt now ->
  admits env v now m (mkAtt [] [] [] [] [(sn, dig)] []) (kruns env l (kdb0 t0)).
Proof. exact c54_sealed_admitted. Qed.
Print Assumptions C54_sealed_admitted.

Example C54_admitted_example :
  let v := xView xTwo in let sigs := [xSig "AAs" 0 "k0"; xSig "ABs" 1 "k1"] in
  let h := [] ++ [Deliver 1015000 v xMsg (mkAtt sigs [] [] [] [] [])] in
  clean h /\ oneMessage h /\ neverDelivered xMsg [] /\ NoDup (map sg_qb64 sigs)
  /\ (forall s, In s sigs -> goodSig xEnv xTwo xMsg s) /\ inWindow (c_d xCt) (c_ll xCt) 1000000 1015000
  /\ satisfy (kv_th xTwo) (map sg_index sigs) = true.
Proof.
  cbv zeta. split; [decClean|]. split; [decOne|]. split; [intros ? []|]. split.
  { cbn. repeat constructor; cbn; intuition discriminate. }
  split. { intros s J. decIn; subst; [exists (s2b "k0")|exists (s2b "k1")]; split; vm_compute; reflexivity. }
  split; [split; vm_compute; discriminate|reflexivity].
Qed.

(** A message of a sender with several keys whose signatures arrived in two deliveries is handed on
    again at every further delivery: the escrow that completes it is not cleared. *)
Theorem C35_multikey_replay_refuted : exists env t0 l1 t1 v m a1 t2,
  replayed env t0 l1 t1 v m a1 [] t2 v a1 /\ t1 < t2 /\ clockFrom 0 (l1 ++ [Deliver t1 v m a1; Deliver t2 v m a1]).
Proof. exact c35_multikey_replay_refuted. Qed.
Print Assumptions C35_multikey_replay_refuted.

(** Such a message is also handed on long after its window has closed. *)
Theorem C35_late_completion_refuted : exists env t0 l now v m a c mdt,
  clean (l ++ [Deliver now v m a]) /\ oneMessage (l ++ [Deliver now v m a]) /\ m_dt m = Some mdt
  /\ fetchCacheType (kruns env l (kdb0 t0)) (m_ilk m) (m_route m) = Some c /\ ctypOk c = true
  /\ admits env v now m a (kruns env l (kdb0 t0)) /\ ~ inWindow (c_d c) (c_pll c + 1000000) mdt now.
Proof. exact c35_late_completion_refuted. Qed.
Print Assumptions C35_late_completion_refuted.

(** A message admitted by its seal is forgotten after the short pruning lag and admitted again by
    signatures of several keys within the long lag. *)
Theorem C35_seal_then_sign_refuted : exists env t0 t1 v m a1 l2 t2 a2,
  replayed env t0 [] t1 v m a1 l2 t2 v a2 /\ exchangeId m = None /\ clockFrom t1 (l2 ++ [Deliver t2 v m a2]).
Proof. exact c35_seal_then_sign_refuted. Qed.
Print Assumptions C35_seal_then_sign_refuted.

(** A message that starts an exchange and is dated ahead of the receiver's clock, within the drift,
    is forgotten by the next pruning and admitted again. *)
Theorem C35_exchange_ahead_refuted : exists env t0 t1 v m a1 l2 t2,
  replayed env t0 [] t1 v m a1 l2 t2 v a1 /\ m_ilk m = s2b "xip" /\ clockFrom t1 (l2 ++ [Deliver t2 v m a1]).
Proof. exact c35_exchange_ahead_refuted. Qed.
Print Assumptions C35_exchange_ahead_refuted.

(** A message that starts an exchange is forgotten when the exchange's pruning lag has passed, and
    admitted again while drift and lag still let it in. *)
Theorem C35_exchange_lag_refuted : exists env t0 t1 v m a1 l2 t2,
  replayed env t0 [] t1 v m a1 l2 t2 v a1 /\ m_ilk m = s2b "xip" /\ m_dt m = Some t1 /\ clockFrom t1 (l2 ++ [Deliver t2 v m a1]).
Proof. exact c35_exchange_lag_refuted. Qed.
Print Assumptions C35_exchange_lag_refuted.

(** When the receiver's clock is set back, pruning forgets what was admitted; when the clock is right
    again the message is admitted again. *)
Theorem C35_clock_back_refuted : exists env t0 t1 v m a1 l2 t2,
  replayed env t0 [] t1 v m a1 l2 t2 v a1 /\ exchangeId m = None /\ t1 <= t2.
Proof. exact c35_clock_back_refuted. Qed.
Print Assumptions C35_clock_back_refuted.

(** Two signatures by one key, under two codes, satisfy a threshold of two keys. *)
Theorem C54_double_count_refuted : exists env t0 now v m a k,
  admits env v now m a (kdb0 t0) /\ kev v (m_pre m) = Some k /\ kv_th k = TNum 2
  /\ a_cigars a = [] /\ a_lsgs a = [] /\ a_tsgs a = [] /\ a_sscs a = [] /\ a_ssts a = []
  /\ forall s, In s (a_sigers a) -> sg_index s = 0.
Proof. exact c54_double_count_refuted. Qed.
Print Assumptions C54_double_count_refuted.

(** A message whose signature group names the establishment event of the sender's current keys is
    refused once the sender has issued an interaction event: groups are compared with the last event
    of any kind. *)
Theorem C54_group_after_interaction_refuted : exists env t0 now v m a g k mdt c,
  a = mkAtt [] [] [] [g] [] [] /\ g_pre g = m_pre m /\ evt v (m_pre m) (g_sn g) = Some (g_dig g, Some [])
  /\ kev v (m_pre m) = Some k /\ len (kv_keys k) = 1 /\ g_sn g < kv_sn k
  /\ g_sigs g <> [] /\ (forall s, In s (g_sigs g) -> goodSig env k m s)
  /\ m_dt m = Some mdt /\ fetchCacheType (kdb0 t0) (m_ilk m) (m_route m) = Some c /\ inWindow (c_d c) (c_sl c) mdt now
  /\ kramit env v now m a (kdb0 t0) = (kdb0 t0, Drop).
Proof. exact c54_group_after_interaction_refuted. Qed.
Print Assumptions C54_group_after_interaction_refuted.

Theorem C35_pruner_ended_refuted : exists env t0 l, clean l /\ oneMessage l /\
  forall now, snd (prune now (kruns env l (kdb0 t0))) = Some ValueErr.
Proof. exact c35_pruner_ended_refuted. Qed.
Print Assumptions C35_pruner_ended_refuted.

(** Changing the lags of a cache type never widens what it admits at once: drift and accept lags
    are at most the old ones until the change is completed. *)
Theorem C53_not_wider_at_once : forall now over new s s' ct o n,
  changeConfig now over new s = (s', None) -> NoDup (map fst new) ->
  dget (k_cf s) ct = Some o -> dget new ct = Some n ->
  exists c, dget (kctyp (k_db s')) ct = Some c /\ c_d c = c_d o
    /\ c_sl c <= c_sl o /\ c_ll c <= c_ll o /\ c_xl c <= c_xl o.
Proof. exact c53_not_wider_at_once. Qed.
Print Assumptions C53_not_wider_at_once.

(** Without an override of the delay, and when no other change is under way, a cache type keeps its
    entry until the time by which any of its lags grows has passed. *)
Theorem C53_increase_delayed : forall now new s s' t s'' ct o n e,
  changeConfig now None new s = (s', None) -> NoDup (map fst new) -> k_pend s = [] ->
  dget (k_cf s) ct = Some o -> dget new ct = Some n ->
  t < now + (c_sl n - c_sl o) * 1000 \/ t < now + (c_ll n - c_ll o) * 1000 \/ t < now + (c_xl n - c_xl o) * 1000 ->
  reconcileConfig t s' = (s'', e) -> e = None /\ dget (kctyp (k_db s'')) ct = dget (kctyp (k_db s')) ct.
Proof. exact c53_increase_delayed. Qed.
Print Assumptions C53_increase_delayed.

(** After the delay the new accept lags are in force. *)
Theorem C53_increase_applied : forall now new s s' t s'' ct o n e,
  changeConfig now None new s = (s', None) -> NoDup (map fst new) -> k_pend s = [] ->
  dget (k_cf s) ct = Some o -> dget new ct = Some n ->
  (forall x p, dget (k_pend s') x = Some p -> now + pn_delta p * 1000 <= t) ->
  reconcileConfig t s' = (s'', e) ->
  e = None /\ exists c, dget (kctyp (k_db s'')) ct = Some c /\ c_d c = c_d o /\ c_sl c = c_sl n /\ c_ll c = c_ll n /\ c_xl c = c_xl n.
Proof. exact c53_increase_applied. Qed.
Print Assumptions C53_increase_applied.

Example C53_delayed_example :
  let old := xCf (mkCt 0 10 10 10 10 10 10) in let new := xCf (mkCt 0 30 30 30 30 30 30) in
  let s := xKr old (kdb0 []) in
  let s' := fst (changeConfig 1000000 None new s) in
  changeConfig 1000000 None new s = (s', None)
  /\ option_map c_sl (dget (kctyp (k_db s')) (s2b "~")) = Some 10
  /\ option_map c_sl (dget (kctyp (k_db (fst (reconcileConfig 1019000 s')))) (s2b "~")) = Some 10
  /\ option_map c_sl (dget (kctyp (k_db (fst (reconcileConfig 1020000 s')))) (s2b "~")) = Some 30.
Proof. cbv zeta. split; [vm_compute; reflexivity|]. split; [reflexivity|]. split; vm_compute; reflexivity. Qed.

(** Removing the entry of a message type exposes its pruned messages to the default entry at once. *)
Theorem C53_removed_type_refuted : exists env old new v m a t1 tp tc t2,
  replayedAcross env old m v a t1 tp (fun s => fst (changeConfig tc None new s)) t2 /\ tp <= tc /\ tc <= t2
  /\ (forall e, In e new -> dget old (fst e) = Some (snd e)) /\ snd (changeConfig tc None new (xKr old (kdb0 []))) = None.
Proof. exact c53_removed_type_refuted. Qed.
Print Assumptions C53_removed_type_refuted.

(** A change that shortens one lag and lengthens another leaves the entry with a pruning lag below
    its accept lag: admitted messages are forgotten while still acceptable. *)
Theorem C53_mixed_change_refuted : exists env old new v m a t0 t1 tp t2 s c,
  (forall e, In e old -> ctypOk (snd e) = true) /\ changeConfig t0 None new (xKr old (kdb0 [])) = (s, None)
  /\ dget (kctyp (k_db s)) (s2b "~") = Some c /\ c_psl c < c_sl c
  /\ t0 <= t1 /\ t1 <= tp /\ tp <= t2
  /\ admits env v t1 m a (k_db s) /\ admits env v t2 m a (kruns env [Deliver t1 v m a; Prune tp] (k_db s)).
Proof. exact c53_mixed_change_refuted. Qed.
Print Assumptions C53_mixed_change_refuted.

(** A type added and removed again before its delay has passed makes every later reconciliation,
    and with it the processing of every message, raise. *)
Theorem C53_removed_while_staged_refuted : exists s0 t1 n1 t2 n2 s1 s2,
  changeConfig t1 None n1 s0 = (s1, None) /\ changeConfig t2 None n2 s1 = (s2, None) /\ k_pend s0 = [] /\
  exists tr, forall t, tr <= t -> snd (reconcileConfig t s2) = Some AttributeErr.
Proof. exact c53_removed_while_staged_refuted. Qed.
Print Assumptions C53_removed_while_staged_refuted.

(** A staged increase is applied although a later change has taken it back. *)
Theorem C53_stale_increase_refuted : exists s0 t1 n1 t2 n2 s1 s2 c,
  changeConfig t1 None n1 s0 = (s1, None) /\ changeConfig t2 None n2 s1 = (s2, None) /\ k_pend s0 = [] /\
  dget n2 (s2b "~") = Some c /\ exists c', dget (kctyp (k_db (fst (reconcileConfig 9000000 s2)))) (s2b "~") = Some c' /\ c_sl c < c_sl c'.
Proof. exact c53_stale_increase_refuted. Qed.
Print Assumptions C53_stale_increase_refuted.

(** A restart with a wider configuration applies it at once. *)
Theorem C53_restart_refuted : exists env old new v m a t1 tp t2,
  replayedAcross env old m v a t1 tp (fun s => match restart new (k_db s) with Some s' => s' | None => s end) t2.
Proof. exact c53_restart_refuted. Qed.
Print Assumptions C53_restart_refuted.
