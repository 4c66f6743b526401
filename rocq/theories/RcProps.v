(** Receipts of key events *)
From Verif Require Import Prelude B64Model MatterModel SubsModel ThModel ThSpec ThThms KelModel KelSpec KelProofs KelInv KelThms RcModel RcSpec RcProofs RcInv RcKeep RcThms.
Open Scope N_scope.

(** Every receipt of a non transferable receiptor on record for an event is a signature on
    that very event by that receiptor. *)
Theorem C58_receipts_are_genuine : forall E H rc s p d c, world H -> rreachable E H rc s -> In c (receiptsOf s p d) ->
  exists e, eventAt s p d = Some e /\ e_said e = d /\ e_pre e = p /\ endorses E e c.
Proof. exact c58_receipts_are_genuine. Qed.
Print Assumptions C58_receipts_are_genuine.

(** A receipt of a transferable receiptor on record is a signature by the keys of an accepted
    event of that receiptor on some event of the same prefix.  Missing: that it is the event
    the receipt is filed under. *)
Theorem C58_trans_signed_partial : forall E H rc s p d o g, world H -> rreachable E H rc s -> In (o, g) (transReceiptsOf s p d) ->
  exists d' e, eventAt s p d' = Some e /\ e_pre e = p /\ transEndorses E s e o g.
Proof. exact c58_trans_signed_partial. Qed.
Print Assumptions C58_trans_signed_partial.

(** The whole claim when every receipt message names the last event of its sn. *)
Theorem C58_trans_receipts_are_genuine_partial : forall E H rc s p d o g, world H -> creachable E H rc s -> In (o, g) (transReceiptsOf s p d) ->
  exists e, eventAt s p d = Some e /\ e_said e = d /\ e_pre e = p /\ transEndorses E s e o g.
Proof. exact c58_trans_receipts_are_genuine_partial. Qed.
Print Assumptions C58_trans_receipts_are_genuine_partial.

Example C58_example : rreachable E1 HB rc0 (rrun E1 rc0 opsR1 rdb0) /\
  receiptsOf (rrun E1 rc0 opsR1 rdb0) 7 30 = [cig B0 1070; cig B0 1071] /\
  transReceiptsOf (rrun E1 rc0 opsR1 rdb0) 7 30 = [((8, 0, 27), sign B0 5 0 None)] /\
  map sg_index (witnessSigsOf (rrun E1 rc0 opsR1 rdb0) 7 30) = [0; 1; 1].
Proof. split; [exists opsR1; split; [unfold opsR1; rreals|reflexivity]|vm_compute; repeat split; reflexivity]. Qed.

Example C58_example_current : creachable E1 HB rc0 (rrun E1 rc0 opsR2 rdb0) /\
  transReceiptsOf (rrun E1 rc0 opsR2 rdb0) 7 20 = [((8, 0, 27), sign A0 5 0 None); ((8, 0, 27), sign A0 5 0 (Some 0))].
Proof.
  split; [|vm_compute; reflexivity]. cbn [opsR2 rrun fold_left].
  apply cr_step; [apply cr_step; [apply cr_step; [apply cr_init|reflexivity|exact Logic.I]|reflexivity|exact Logic.I]|exact Logic.I|].
  right. intros d Q. vm_compute in Q. vm_compute. congruence.
Qed.

(** A receipt of a superseded event is filed under the event that superseded it: its
    signature does not verify there. *)
Theorem C58_misfiled_refuted : exists E H rc s o g e, world H /\ sane H /\ rreachable E H rc s /\
  In (o, g) (transReceiptsOf s 7 23) /\ eventAt s 7 23 = Some e /\ acceptedIn s 7 23 /\ ~ transEndorses E s e o g.
Proof. exact c58_misfiled_refuted. Qed.
Print Assumptions C58_misfiled_refuted.

(** Receipts are also recorded for an event that was never accepted. *)
Theorem C58_unaccepted_refuted : exists E H rc s c, world H /\ sane H /\ rreachable E H rc s /\
  In c (receiptsOf s 7 33) /\ ~ acceptedIn s 7 33.
Proof. exact c58_unaccepted_refuted. Qed.
Print Assumptions C58_unaccepted_refuted.

(** A witness receipt that waited for its event is recorded with the position of the witness in
    the current witness list, not in that of the event. *)
Theorem C58_witness_index_refuted : exists E H rc s e g, world H /\ sane H /\ rreachable E H rc s /\
  eventAt s 7 30 = Some e /\ isIncept (e_ilk e) = true /\ acceptedIn s 7 30 /\
  In g (witnessSigsOf s 7 30) /\ ~ verified E (e_wits e) (e_raw e) g.
Proof. exact c58_witness_index_refuted. Qed.
Print Assumptions C58_witness_index_refuted.

(** A receipt message changes no log, no key state and no stored event or controller signature. *)
Theorem C59_receipt_changes_no_log : forall E rc m s s', s' = rstep E rc s (RReceipt m) ->
  fst (fst s') = fst (fst s) /\
  (forall p, keyState (fst s') p = keyState (fst s) p) /\
  (forall p d, eventAt s' p d = eventAt s p d) /\
  (forall p d, getSigs (snd (fst s')) p d = getSigs (snd (fst s)) p d) /\
  (forall p d, incl (witnessSigsOf s p d) (witnessSigsOf s' p d)) /\
  (forall p d, incl (receiptsOf s p d) (receiptsOf s' p d)) /\
  (forall p d, incl (transReceiptsOf s p d) (transReceiptsOf s' p d)).
Proof. exact c59_receipt_changes_no_log. Qed.
Print Assumptions C59_receipt_changes_no_log.

Example C59_example : let s := rrun E1 rc0 opsR1 rdb0 in
  exists k, keyState (fst s) 7 = Some k /\ k_sn k = 0 /\ fels (fst (fst s)) 7 = [30].
Proof. vm_compute. eexists. repeat split; reflexivity. Qed.

(** In executions with receipts every accepted event is the head of a log of accepted events and
    is signed by the keys in force there. *)
Theorem C59_logs_signed_with_receipts : forall E H rc s p d, world H -> rreachable E H rc s -> acceptedIn s p d ->
  exists e c ee, eventAt s p d = Some e /\ e_said e = d /\ e_pre e = p /\ log H (e :: c) /\ Forall (fun a => acceptedIn s p (e_said a)) c /\
    est_of (e :: c) = Some ee /\ signedBy E (e_keys ee) (e_kt ee) (e_raw e) (getSigs (snd (fst s)) p d).
Proof. exact c59_logs_signed_with_receipts. Qed.
Print Assumptions C59_logs_signed_with_receipts.

(** Logs only grow, and stored events and receipts stay. *)
Theorem C59_append_only_with_receipts : forall E H rc s ops s', world H -> rreachable E H rc s -> Forall (rreal H) ops ->
  s' = rrun E rc ops s ->
  (forall p, exists l, fels (fst (fst s')) p = fels (fst (fst s)) p ++ l) /\
  (forall p d e, eventAt s p d = Some e -> eventAt s' p d = Some e).
Proof. exact c59_append_only_with_receipts. Qed.
Print Assumptions C59_append_only_with_receipts.

(** A node that checks its sources records a receipt in the name of one of its own identifiers,
    when it processes the message that carries it, only if the message comes from a local source and
    is not about an event of one of its own identifiers.  Missing: receipts that waited in escrow. *)
Theorem C60_own_receipts_partial : forall E rc s o s' local, rc_lax rc = false ->
  match o with REvent m => m_local (em_msg m) = local | RReceipt m => rm_local m = local | _ => False end ->
  s' = rstep E rc s o ->
  (forall p d c, In c (receiptsOf s' p d) -> In (cg_key c) (c_prefixes (rc_conf rc)) ->
     In c (receiptsOf s p d) \/ (local = true /\ ~ In p (c_prefixes (rc_conf rc)))) /\
  (forall p d sp ssn sd g, In ((sp, ssn, sd), g) (transReceiptsOf s' p d) -> In sp (c_prefixes (rc_conf rc)) ->
     In ((sp, ssn, sd), g) (transReceiptsOf s p d) \/ (local = true /\ ~ In p (c_prefixes (rc_conf rc)))).
Proof. exact c60_own_receipts_partial. Qed.
Print Assumptions C60_own_receipts_partial.

(** The same receipt that is not recorded from a remote source is recorded from a local one. *)
Example C60_example : let m l := mkRmsg 7 0 20 [cig A0 1060] [] [] [] l 10 in
  let s := rrun E1 rcOwn [ev A0 [sign A0 1 0 None] []] rdb0 in
  receiptsOf (rstep E1 rcOwn s (RReceipt (m false))) 7 20 = [] /\ receiptsOf (rstep E1 rcOwn s (RReceipt (m true))) 7 20 = [cig A0 1060].
Proof. vm_compute. split; reflexivity. Qed.

(** Receipts that arrive before their event escape the check: the node records, from a remote
    source, receipts in its own name. *)
Theorem C60_escrowed_refuted : exists E H rc ops c o g, world H /\ sane H /\ Forall (rreal H) ops /\ rc_lax rc = false /\
  Forall (fun op => match op with RReceipt m => rm_local m = false | _ => True end) ops /\
  (forall op m, In op ops -> op = REvent m -> em_cigars m = [] /\ em_rsgs m = []) /\
  In (cg_key c) (c_prefixes (rc_conf rc)) /\ In c (receiptsOf (rrun E rc ops rdb0) 7 20) /\
  In (fst (fst o)) (c_prefixes (rc_conf rc)) /\ In (o, g) (transReceiptsOf (rrun E rc ops rdb0) 7 20).
Proof. exact c60_escrowed_refuted. Qed.
Print Assumptions C60_escrowed_refuted.

(** A receipt by a non transferable receiptor that arrives before its event is on record after the
    first escrow processing that follows the acceptance of the event, if all of this happens within
    the hour.  Missing: rotations that change witnesses, competing events at the same place in the log,
    receipts with signatures indexed by witness, and receipts of receiptors given as seals. *)
Theorem C61_early_receipt_kept_partial : forall E H rc s m e c t ops s' now,
  world H -> sane H -> rreachable E H rc s ->
  real H e -> alone H e -> fewWits H (e_pre e) -> keepsWits s e ->
  klast (kels (fst (fst s)) (e_pre e)) (e_sn e) = None ->
  rm_pre m = e_pre e -> rm_sn m = e_sn e -> rm_said m = e_said e -> In c (rm_cigars m) -> endorses E e c ->
  t = since s e (rm_now m) ->
  Forall (rreal H) ops -> Forall (inHour t e) ops -> s' = rrun E rc ops (rstep E rc s (RReceipt m)) ->
  acceptedIn s' (e_pre e) (e_said e) -> t <= now <= t + 3600 ->
  recorded (rstep E rc s' (REscrows now)) e c.
Proof. exact c61_early_receipt_kept_partial. Qed.
Print Assumptions C61_early_receipt_kept_partial.

(** The same for a signature by a transferable receiptor whose own event may arrive later too.
    Missing: competing events at the same place in either log. *)
Theorem C61_early_trans_receipt_kept_partial : forall E H rc s m e se tg g t ops s' now,
  world H -> rreachable E H rc s -> real H e -> alone H e -> real H se -> alone H se ->
  klast (kels (fst (fst s)) (e_pre e)) (e_sn e) = None ->
  rm_pre m = e_pre e -> rm_sn m = e_sn e -> rm_said m = e_said e -> In tg (rm_tsgs m) ->
  t_pre tg = e_pre se -> t_sn tg = e_sn se -> t_dig tg = e_said se -> In g (t_sigs tg) -> verified E (e_keys se) (e_raw e) g ->
  t = since s e (rm_now m) ->
  Forall (rreal H) ops -> Forall (inHour t e) ops -> s' = rrun E rc ops (rstep E rc s (RReceipt m)) ->
  acceptedIn s' (e_pre e) (e_said e) -> acceptedIn s' (e_pre se) (e_said se) -> t <= now <= t + 3600 ->
  In ((e_pre se, e_sn se, e_said se), g) (transReceiptsOf (rstep E rc s' (REscrows now)) (e_pre e) (e_said e)).
Proof. exact c61_early_trans_receipt_kept_partial. Qed.
Print Assumptions C61_early_trans_receipt_kept_partial.

Example C61_example : rreachable E1 HC rc0 sC /\ real HC B1i /\ alone HC B1i /\ fewWits HC 7 /\ keepsWits sC B1i /\
  klast (kels (fst (fst sC)) 7) 1 = None /\ endorses E1 B1i (cig B1i 1051) /\
  Forall (rreal HC) opsC /\ Forall (inHour 10 B1i) opsC /\ since sC B1i 10 = 10 /\
  acceptedIn (rrun E1 rc0 opsC (rstep E1 rc0 sC (RReceipt mC))) 7 33 /\
  acceptedIn (rrun E1 rc0 opsC (rstep E1 rc0 sC (RReceipt mC))) 8 27 /\ verified E1 (e_keys C0) (e_raw B1i) (sign B1i 5 0 None).
Proof.
  split; [eexists; split; [|reflexivity]; rreals|]. split; [reflexivity|]. split; [apply aloneC; reflexivity|]. split; [exact fewC|].
  split; [right; split; [reflexivity|]; split; [vm_compute; discriminate|split; reflexivity]|]. split; [vm_compute; reflexivity|].
  split; [split; vm_compute; reflexivity|]. split; [unfold opsC; rreals|].
  split; [unfold opsC; repeat constructor; try (vm_compute; discriminate); intros; discriminate|]. split; [vm_compute; reflexivity|].
  split; [vm_compute; auto|]. split; [vm_compute; auto|]. exists 5. split; vm_compute; reflexivity.
Qed.

(** A rotation that adds a witness, delivered first with too few and then with enough witness
    signatures: a receipt that arrived before it is thrown away. *)
Theorem C61_rotation_refuted : exists E H rc s m e c ops now, world H /\ sane H /\ rreachable E H rc s /\ real H e /\
  fewWits H (e_pre e) /\ klast (kels (fst (fst s)) (e_pre e)) (e_sn e) = None /\
  rm_pre m = e_pre e /\ rm_sn m = e_sn e /\ rm_said m = e_said e /\ In c (rm_cigars m) /\ endorses E e c /\
  Forall (rreal H) ops /\ Forall (inHour (since s e (rm_now m)) e) ops /\ since s e (rm_now m) <= now <= since s e (rm_now m) + 3600 /\
  let s' := rrun E rc ops (rstep E rc s (RReceipt m)) in
  acceptedIn s' (e_pre e) (e_said e) /\ ~ recorded (rstep E rc s' (REscrows now)) e c /\ ~ waiting (rstep E rc s' (REscrows now)) e c.
Proof. exact c61_rotation_refuted. Qed.
Print Assumptions C61_rotation_refuted.

(** A receipt of an event that is then superseded at its sn is thrown away although its event is
    in the log. *)
Theorem C61_superseded_refuted : exists E H rc s m e c ops now, world H /\ sane H /\ rreachable E H rc s /\ real H e /\
  fewWits H (e_pre e) /\ keepsWits s e /\ klast (kels (fst (fst s)) (e_pre e)) (e_sn e) = None /\
  rm_pre m = e_pre e /\ rm_sn m = e_sn e /\ rm_said m = e_said e /\ In c (rm_cigars m) /\ endorses E e c /\
  Forall (rreal H) ops /\ Forall (inHour (since s e (rm_now m)) e) ops /\ since s e (rm_now m) <= now <= since s e (rm_now m) + 3600 /\
  let s' := rrun E rc ops (rstep E rc s (RReceipt m)) in
  acceptedIn s' (e_pre e) (e_said e) /\ ~ recorded (rstep E rc s' (REscrows now)) e c /\ ~ waiting (rstep E rc s' (REscrows now)) e c.
Proof. exact c61_superseded_refuted. Qed.
Print Assumptions C61_superseded_refuted.

(** A witness signature in a receipt that arrives before an event that comes with enough
    other witness signatures is never recorded: it waits until it is thrown away. *)
Theorem C61_witness_signature_refuted : exists E H rc m e g ops now, world H /\ sane H /\ real H e /\ alone H e /\ fewWits H (e_pre e) /\
  isIncept (e_ilk e) = true /\ rm_pre m = e_pre e /\ rm_sn m = e_sn e /\ rm_said m = e_said e /\ In g (rm_wigers m) /\
  verified E (e_wits e) (e_raw e) g /\ Forall (rreal H) ops /\ Forall (inHour (rm_now m) e) ops /\
  let s := rrun E rc ops (rstep E rc rdb0 (RReceipt m)) in
  In (REscrows 20) ops /\ acceptedIn s (e_pre e) (e_said e) /\ ~ In g (witnessSigsOf s (e_pre e) (e_said e)) /\
  let s' := rstep E rc s (REscrows now) in ~ In g (witnessSigsOf s' (e_pre e) (e_said e)) /\ uwes (snd s') = [].
Proof. exact c61_witness_signature_refuted. Qed.
Print Assumptions C61_witness_signature_refuted.

(** A receipt whose groups name the receiptor by its last event is not kept at all when its event
    is unknown. *)
Theorem C61_last_event_groups_refuted : exists E H rc s m e se tg g, world H /\ sane H /\ rreachable E H rc s /\ real H e /\ real H se /\
  alone H e /\ alone H se /\ acceptedIn s (e_pre se) (e_said se) /\ verified E (e_keys se) (e_raw e) g /\
  rm_pre m = e_pre e /\ rm_sn m = e_sn e /\ rm_said m = e_said e /\ In tg (rm_rsgs m) /\ In g (t_sigs tg) /\
  t_pre tg = e_pre se /\ t_sn tg = e_sn se /\ t_dig tg = e_said se /\ rstep E rc s (RReceipt m) = s.
Proof. exact c61_last_event_groups_refuted. Qed.
Print Assumptions C61_last_event_groups_refuted.
