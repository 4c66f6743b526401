(** adjudications of watchers' key states *)
From Verif Require Import Prelude SubsModel ThModel JsonModel JsonProofs RpModel RpSpec RpProofs RpThms WaModel WaSpec WaProofs WaProofs2 WaProofs3 WaThms.
From Coq Require Import Lia.
Open Scope N_scope.

(** Which of the five outcomes comes out is decided by the key states on record from the current watchers, compared with
    the own key state: duplicity if a watcher has another event at the own number, or two watchers that are ahead
    differ; an update if all that are ahead agree and are enough, nothing if they are too few; else lag if one is
    behind; else consistency. *)
Theorem C126_report : forall dec pick kv d cid oid toad o n dg, tidy d cid -> mystate kv oid = Some (n, dg) -> adjudicate dec pick kv d cid oid toad = Ok o ->
  ((exists w l, o = Some (Dup w l)) <->
     (exists a k, forks dec d cid oid n dg a k) \/ (exists a b k k', leads dec d cid oid n a k /\ leads dec d cid oid n b k' /\ ks_d k <> ks_d k')) /\
  ((exists w s l, o = Some (Update w s l)) <-> no_fork dec d cid oid n dg /\ (exists a k, leads dec d cid oid n a k) /\ agreed dec d cid oid n /\ enough dec d cid oid n toad) /\
  (o = None <-> no_fork dec d cid oid n dg /\ (exists a k, leads dec d cid oid n a k) /\ agreed dec d cid oid n /\ ~ enough dec d cid oid n toad) /\
  ((exists w l, o = Some (Lagging w l)) <-> no_fork dec d cid oid n dg /\ no_lead dec d cid oid n /\ exists a k, lags dec d cid oid n a k) /\
  ((exists w l, o = Some (Consistent w l)) <-> forall a k, voice dec d cid oid a k -> ks_s k = n /\ ks_d k = dg).
Proof. exact c126_report. Qed.
Print Assumptions C126_report.

(** A report lists the current watchers, each once, and exactly those it is about, with what they told. *)
Theorem C126_members : forall dec pick kv d cid oid toad c n dg, tidy d cid -> mystate kv oid = Some (n, dg) -> adjudicate dec pick kv d cid oid toad = Ok (Some c) ->
  NoDup (wids_of c) /\ (forall a, In a (wids_of c) <-> watches d cid a oid) /\
  match c with
  | Dup _ l => ((exists a k, forks dec d cid oid n dg a k) /\ tells dec d cid oid (forks dec d cid oid n dg) l) \/ (no_fork dec d cid oid n dg /\ tells dec d cid oid (leads dec d cid oid n) l)
  | Update _ s l => tells dec d cid oid (leads dec d cid oid n) l /\ exists a k, leads dec d cid oid n a k /\ s = ks_s k
  | Lagging _ l => tells dec d cid oid (lags dec d cid oid n) l
  | Consistent _ l => tells dec d cid oid (voice dec d cid oid) l
  end.
Proof. exact c126_members. Qed.
Print Assumptions C126_members.

(** Over histories of replies the conditions of these two theorems hold, and an adjudication does return. *)
Theorem C126_returns_partial : forall dec pick e l d kv cid oid toad, hist e l d -> plain_watchers e l cid -> sound_states dec e l ->
  mystate kv oid <> None -> feasible d cid oid toad -> tidy d cid /\ exists o, adjudicate dec pick kv d cid oid toad = Ok o.
Proof. exact c126_returns_partial. Qed.
Print Assumptions C126_returns_partial.

Example C126_example : hist wenv ahead3 (runs wenv ahead3) /\ plain_watchers wenv ahead3 (s2b "c") /\ sound_states wdec wenv ahead3 /\
  adj 2 ahead3 None = Ok (Some (Update [s2b "A"; s2b "B"] 3 [mkDs (s2b "A") Ahead 3 (dig 3); mkDs (s2b "B") Ahead 3 (dig 3)])) /\
  adj 3 ahead3 None = Ok (Some (Consistent [s2b "A"; s2b "B"] [mkDs (s2b "A") Even 3 (dig 3); mkDs (s2b "B") Even 3 (dig 3)])) /\
  adj 4 ahead3 None = Ok (Some (Lagging [s2b "A"; s2b "B"] [mkDs (s2b "A") Behind 3 (dig 3); mkDs (s2b "B") Behind 3 (dig 3)])) /\
  adj 2 split3 None = Ok (Some (Dup [s2b "A"; s2b "B"] [mkDs (s2b "A") Ahead 3 (dig 3); mkDs (s2b "B") Ahead 3 (s2b "F3")])) /\
  adj 3 split3 None = Ok (Some (Dup [s2b "A"; s2b "B"] [mkDs (s2b "B") Duplicitous 3 (s2b "F3")])) /\ adj 2 ahead3 (Some 3) = Err ValueError.
Proof.
  split; [apply runs_hist|]. split; [exact plain3|]. split; [exact sound3|]. split; [vm_compute; reflexivity|]. split; [vm_compute; reflexivity|]. split; [vm_compute; reflexivity|].
  split; [vm_compute; reflexivity|]. split; vm_compute; reflexivity.
Qed.

(** The property fails in four ways.  Two watchers that are ahead on the same log, one further than the other, are
    reported as duplicity. *)
Theorem C126_heights_refuted : exists l, (forall kv r cs gs k, In (Msg kv r cs gs) l -> q_ksr r = Some k -> ks_d k = dig (ks_s k)) /\
  exists w s, adj 2 l None = Ok (Some (Dup w s)) /\ map ds_sn s = [3; 4].
Proof. exact c126_heights_refuted. Qed.
Print Assumptions C126_heights_refuted.

(** A watcher with another event at a lower number than the own newest is only said to lag. *)
Theorem C126_fork_behind_refuted : exists w s, adj 4 split3 None = Ok (Some (Lagging w s)) /\ map ds_dig s = [dig 3; s2b "F3"] /\ option_map e_said (at_sn (wkv 4) (s2b "X") 3) = Some (dig 3).
Proof. exact c126_fork_behind_refuted. Qed.
Print Assumptions C126_fork_behind_refuted.

(** Without any key state from any watcher, or without any watcher, the own key state is reported consistent. *)
Theorem C126_silent_refuted : forall n, adj n two None = Ok (Some (Consistent [s2b "A"; s2b "B"] [])) /\ adj n [] None = Ok (Some (Consistent [] [])).
Proof. exact c126_silent_refuted. Qed.
Print Assumptions C126_silent_refuted.

(** Fewer watchers ahead than the threshold: no report at all, though one lags or the requester waits for one. *)
Theorem C126_few_refuted : exists l, adj 2 l None = Ok None /\ dget (ans (runs wenv l)) (key tagKsn [s2b "X"; s2b "A"]) = Some (dig 3).
Proof. exact c126_few_refuted. Qed.
Print Assumptions C126_few_refuted.

(** In every history, a watcher that counts was engaged by the controller, signed, and has sent, signed, a key state of
    the watched identifier with the number and digest that count. *)
Theorem C127_said_partial : forall dec e l d cid oid a k, hist e l d -> plain_watchers e l cid -> sound_states dec e l -> voice dec d cid oid a k ->
  has_engaged e l cid a oid /\ ks_i k = oid /\ exists k', has_sent e l a oid k' /\ ks_s k' = ks_s k /\ ks_d k' = ks_d k.
Proof. exact c127_said_partial. Qed.
Print Assumptions C127_said_partial.

(** An update is reported only if as many engaged watchers as the threshold says, or all, have sent one and the same
    event at the number reported, above the own one. *)
Theorem C127_update_partial : forall dec pick e l d kv cid oid toad n dg w s r, hist e l d -> plain_watchers e l cid -> sound_states dec e l ->
  mystate kv oid = Some (n, dg) -> adjudicate dec pick kv d cid oid toad = Ok (Some (Update w s r)) ->
  n < s /\ exists dx W, NoDup W /\ (forall a, In a W -> has_engaged e l cid a oid /\ exists k, has_sent e l a oid k /\ ks_s k = s /\ ks_d k = dx) /\
    match toad with Some (N.pos t) => N.pos t <= len W | _ => forall a, watches d cid a oid -> In a W end.
Proof. exact c127_update_partial. Qed.
Print Assumptions C127_update_partial.

(** Duplicity is reported only if an engaged watcher has sent another event than the own newest at its number, or two
    have sent different events above it. *)
Theorem C127_duplicity_partial : forall dec pick e l d kv cid oid toad n dg w r, hist e l d -> plain_watchers e l cid -> sound_states dec e l ->
  mystate kv oid = Some (n, dg) -> adjudicate dec pick kv d cid oid toad = Ok (Some (Dup w r)) ->
  (exists a k, has_engaged e l cid a oid /\ has_sent e l a oid k /\ ks_s k = n /\ ks_d k <> dg) \/
  exists a b k k', has_engaged e l cid a oid /\ has_engaged e l cid b oid /\ has_sent e l a oid k /\ has_sent e l b oid k' /\ n < ks_s k /\ n < ks_s k' /\ ks_d k <> ks_d k'.
Proof. exact c127_duplicity_partial. Qed.
Print Assumptions C127_duplicity_partial.

Example C127_example : sound_states wdec wenv split3 /\ hist wenv split3 (runs wenv split3) /\ plain_watchers wenv split3 (s2b "c") /\
  voice wdec (runs wenv split3) (s2b "c") (s2b "X") (s2b "B") (st 88 3 0 (s2b "F3")) /\
  (exists w r, adj 2 split3 None = Ok (Some (Dup w r))) /\ exists w r, adj 2 ahead3 (Some 2) = Ok (Some (Update w 3 r)).
Proof.
  split; [exact sound_split|]. split; [apply runs_hist|]. split; [plainh|]. split; [|split; [eexists; eexists; vm_compute; reflexivity|eexists; eexists; vm_compute; reflexivity]].
  split; [vm_compute; reflexivity|]. exists (s2b "F3"), (3 :: 88 :: 0 :: s2b "F3"). split; [vm_compute; reflexivity|]. split; vm_compute; reflexivity.
Qed.

(** Key states are kept by the digest of the event alone.  A stranger "Z", who is nobody's watcher and is let in as it
    names itself a witness in its own notice, overwrites what "A" and "B" have told: with another number the report
    is false, with another identifier every adjudication ends in an exception. *)
Theorem C127_shared_refuted : exists k1 k2, ~ In (s2b "Z") (wats wenv) /\
  let l1 := by_ "Z" (wkv 3) (nota "Z" "z1" k1) :: ahead3 in let l2 := by_ "Z" (wkv 3) (nota "Z" "z2" k2) :: ahead3 in
  ~ watches (runs wenv l1) (s2b "c") (s2b "Z") (s2b "X") /\
  (exists w s, adj 3 ahead3 None = Ok (Some (Consistent w s))) /\
  (exists w r, adj 3 l1 None = Ok (Some (Update w 9 r)) /\ map ds_wit r = [s2b "A"; s2b "B"] /\
     forall k, ks_s k = 9 -> ~ has_sent wenv l1 (s2b "A") (s2b "X") k /\ ~ has_sent wenv l1 (s2b "B") (s2b "X") k) /\
  adj 3 l2 None = Err ValueError.
Proof. exact c127_shared_refuted. Qed.
Print Assumptions C127_shared_refuted.

(** What a node refuses is not reported: a notice of another event at a number that the own log has already, or of an
    event below the own newest one, leaves no record, so an adjudication after it is as before it. *)
Theorem C127_late_fork_refuted : forall e kv r cs gs d d' x q ev dec pick cid toad oid kv',
  processReply e kv r cs gs d = (d', x) -> q_ksr r = Some q -> (exists a, findRoute (q_route r) = Some (HKsn a)) ->
  at_sn kv (ks_i q) (ks_s q) = Some ev -> ks_d q <> e_said ev ->
  x <> Ok tt /\ adjudicate dec pick kv' d' cid oid toad = adjudicate dec pick kv' d cid oid toad.
Proof. exact c127_late_fork_refuted. Qed.
Print Assumptions C127_late_fork_refuted.

Example C127_late_fork_example : exists q, let r := nota "B" "n2" q in let l := by_ "A" (wkv 2) (nota "A" "n1" (st 88 3 0 (dig 3))) :: two in
  at_sn (wkv 3) (ks_i q) (ks_s q) = Some (mkEst (dig 3) [s2b "K"] (TNum 1)) /\ ks_d q <> dig 3 /\
  snd (processReply wenv (wkv 3) r [mkCig (s2b "B") (s2b "B" ++ q_raw r)] [] (runs wenv l)) = Err ValidationError /\
  exists w s, adj 3 (by_ "B" (wkv 3) r :: l) None = Ok (Some (Consistent w s)).
Proof. exists (st 88 3 0 (s2b "F3")). cbv zeta. split; [vm_compute; reflexivity|]. split; [vm_compute; discriminate|]. split; [vm_compute; reflexivity|]. eexists. eexists. vm_compute. reflexivity. Qed.

(** If each adjudication asked for returns, all reports are made, in order, and nothing is left. *)
Theorem C128_all_partial : forall dec pick kv d cid reqs outs,
  Forall2 (fun rq o => adjudicate dec pick kv d cid (fst rq) (snd rq) = Ok o) reqs outs ->
  perform dec pick kv d cid reqs = (flat_map (fun o => match o with Some c => [c] | None => [] end) outs, None, []).
Proof. exact c128_all_partial. Qed.
Print Assumptions C128_all_partial.

(** In histories all requests about known identifiers with feasible thresholds are worked off. *)
Theorem C128_drained_partial : forall dec pick e l d kv cid reqs, hist e l d -> plain_watchers e l cid -> sound_states dec e l ->
  Forall (fun rq => mystate kv (fst rq) <> None /\ feasible d cid (fst rq) (snd rq)) reqs ->
  exists outs, Forall2 (fun rq o => adjudicate dec pick kv d cid (fst rq) (snd rq) = Ok o) reqs outs /\
    perform dec pick kv d cid reqs = (flat_map (fun o => match o with Some c => [c] | None => [] end) outs, None, []).
Proof. exact c128_drained_partial. Qed.
Print Assumptions C128_drained_partial.

Example C128_example : exists a b, perform wdec p0 (wkv 2) (runs wenv ahead3) (s2b "c") [(s2b "X", None); (s2b "X", Some 1)] = ([a; b], None, []) /\ mystate (wkv 2) (s2b "X") <> None /\
  feasible (runs wenv ahead3) (s2b "c") (s2b "X") (Some 1).
Proof.
  eexists. eexists. split; [vm_compute; reflexivity|]. split; [vm_compute; discriminate|]. exists [s2b "A"]. split; [constructor; [intros []|constructor]|]. split; [constructor; [vm_compute; reflexivity|constructor]|vm_compute; discriminate].
Qed.

(** A request that fails, for an identifier that is not known or a threshold that is too high, ends the pass: the later
    requests are not looked at. *)
Theorem C128_stop_refuted : exists c, adj 2 ahead3 None = Ok (Some c) /\
  perform wdec p0 (wkv 2) (runs wenv ahead3) (s2b "c") [(s2b "Y", None); (s2b "X", None)] = ([], Some KeyError, [(s2b "X", None)]) /\
  perform wdec p0 (wkv 2) (runs wenv ahead3) (s2b "c") [(s2b "X", Some 5); (s2b "X", None)] = ([], Some ValueError, [(s2b "X", None)]) /\
  forall dec pick kv d cid w t x reqs, adjudicate dec pick kv d cid w t = Err x -> perform dec pick kv d cid ((w, t) :: reqs) = ([], Some x, reqs).
Proof. exact c128_stop_refuted. Qed.
Print Assumptions C128_stop_refuted.
