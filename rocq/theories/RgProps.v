(** completion of transaction events *)
From Verif Require Import Prelude RgModel RgSpec RgProofs RgThms.
From Coq Require Import Lia.
Open Scope N_scope.

(** What is reported complete was asked for, its anchor is receipted by all witnesses or is a completed event
    of the group, it is in its log, and a message about the same registry or credential went out. *)
Theorem C129_complete_partial : forall l s k, hist l s -> complete s k = true ->
  exists pre n d, get (ctel s) k = Some d /\ backed l k pre n d /\ in_world l (fun w => w_tel w (fst k) (snd k) <> None) /\
  exists p sn n' d', In (p, fst k, sn) (pcues s) /\ backed l (fst k, sn) p n' d'.
Proof. exact c129_complete_partial. Qed.
Print Assumptions C129_complete_partial.

(** If the event is the only one ever asked for of its registry or credential, it is itself the one that went out. *)
Theorem C129_own_partial : forall l s v sn, hist l s -> complete s (v, sn) = true ->
  (forall w c sn' regd pre n d, In (w, Start (v, sn') regd pre n d, c) l -> sn' = sn) -> exists pre, In (pre, v, sn) (pcues s).
Proof. exact c129_own_partial. Qed.
Print Assumptions C129_own_partial.

(** A credential completed is one that was issued, is saved, and whose event is recorded as complete. *)
Theorem C129_credential : forall l s c, hist l s -> In c (ccrd s) ->
  exists sn w c', In (w, Cred (c, sn), c') l /\ in_world l (fun w => w_saved w c = true) /\ recorded s (c, sn).
Proof. exact c129_credential. Qed.
Print Assumptions C129_credential.

Example C129_case : complete (runl rg0 issued) (7, 0) = true /\ complete (runl rg0 group_issued) (8, 0) = true /\ ccrd (run w1 CredPass None (runl rg0 issued)) = [7].
Proof. vm_compute. auto. Qed.

Example C129_own_case : forall w c sn' regd pre n d, In (w, Start (7, sn') regd pre n d, c) issued -> sn' = 0.
Proof. intros w c sn' regd pre n d I. cbn [issued In] in I. repeat (destruct I as [I|I]; [first [discriminate I|injection I as _ <- _ _ _ _ _; reflexivity]|]). destruct I. Qed.

(** REFUTED that it is the event that went out: once the issuance is published, the revocation is reported complete
    while the message about it still waits. *)
Theorem C129_early_refuted : exists l s, hist l s /\ whole l /\ complete s (7, 1) = true /\ (forall p, ~ In (p, 7, 1) (pcues s)) /\ In (1, 7, 1) (pmsgs s).
Proof. exact c129_early_refuted. Qed.
Print Assumptions C129_early_refuted.

(** An event of a single identifier whose anchor has all receipts is recorded as complete by the next pass once it is in its
    log, and is reported complete after the messages before it and its own are published. *)
Theorem C130_progress_partial : forall w s k pre n d, waits_single s k pre n d ->
  w_wits w pre = [] \/ (len (w_wigs w pre d) = len (w_wits w pre) /\ In (pre, n) (rcues s)) ->
  w_tel w (fst k) (snd k) <> None ->
  recorded (run w Pass None s) k /\ In (pre, fst k, snd k) (pmsgs (run w Pass None s)) /\
  (w_hab w pre = true -> exists j, complete (publish j w (run w Pass None s)) k = true).
Proof. exact c130_progress_partial. Qed.
Print Assumptions C130_progress_partial.

Theorem C130_group_partial : forall w s k regd pre n d, waits_group s k regd pre n d -> w_cgms w pre n = Some d -> w_tel w (fst k) (snd k) <> None ->
  recorded (run w Pass None s) k /\ In (pre, fst k, snd k) (pmsgs (run w Pass None s)) /\
  (w_hab w pre = true -> exists j, complete (publish j w (run w Pass None s)) k = true).
Proof. exact c130_group_partial. Qed.
Print Assumptions C130_group_partial.

(** One that waits for its log, which may be long after. *)
Theorem C130_log_partial : forall w s k pre n d, waits_log s k pre n d -> w_tel w (fst k) (snd k) <> None ->
  recorded (run w Pass None s) k /\ In (pre, fst k, snd k) (pmsgs (run w Pass None s)) /\
  (w_hab w pre = true -> exists j, complete (publish j w (run w Pass None s)) k = true).
Proof. exact c130_log_partial. Qed.
Print Assumptions C130_log_partial.

(** In histories with crashes between calls only, an event of a single identifier asked for is not lost. *)
Theorem C130_kept_partial : forall s w k regd pre n d l s', w_group w pre = false -> later (run w (Start k regd pre n d) None s) l s' -> whole l ->
  (exists p i e, waits_single s' k p i e) \/ (exists p i e, waits_log s' k p i e) \/ recorded s' k.
Proof. exact c130_kept_partial. Qed.
Print Assumptions C130_kept_partial.

Example C130_case : waits_single (runl rg0 [(w0, Receipted, None); (w0, Start (7, 0) 70 1 4 40, None)]) (7, 0) 1 4 40 /\
  In (1, 4) (rcues (runl rg0 [(w0, Receipted, None); (w0, Start (7, 0) 70 1 4 40, None)])) /\ waits_group (runl rg0 [(w0, Pass, None); (w0, Start (8, 0) 80 2 6 60, None)]) (8, 0) 80 2 6 60.
Proof. unfold waits_single, waits_group. vm_compute. auto. Qed.

Example C130_log_case : waits_log (runl rg0 [(mkWorld (fun _ => true) (fun p => p =? 2) (fun _ => (4, 40)) (fun _ => [9]) (fun _ _ => [9]) (fun _ _ => None) (fun _ _ => None) (fun _ => false), Pass, None); (w0, Receipted, None); (w0, Start (7, 0) 70 1 4 40, None)]) (7, 0) 1 4 40.
Proof. unfold waits_log. vm_compute. auto. Qed.

(** REFUTED for crashes in a pass: after a crash between the removal from the one escrow and the entry in the next there
    is no trace of the event, and it is never reported complete unless asked for again. *)
Theorem C130_crash_refuted : (forall w s k pre n d, tpwe s = [(k, (pre, n, d))] -> unstarted_else s k -> ready w s (pre, n, d) = true ->
    unknown (run w Pass (Some 1%nat) s) k /\ forall l s', later (run w Pass (Some 1%nat) s) l s' -> not_started l k -> complete s' k = false) /\
  exists w s l, hist l s /\ whole l /\ tpwe s = [((7, 0), (1, 4, 40))] /\ unstarted_else s (7, 0) /\ ready w s (1, 4, 40) = true.
Proof. exact c130_crash_refuted. Qed.
Print Assumptions C130_crash_refuted.

(** REFUTED for a restart while waiting: that the receipts were asked for is known in memory only; with all receipts there, the
    event stays where it is as long as nothing else is anchored in the same key event. *)
Theorem C130_restart_refuted : (forall w o s k pre n d l s', waits_only s k pre n d -> later (run w o (Some 0%nat) s) l s' -> not_started l k -> moved_on l pre n ->
    (forall w' o' c', In (w', o', c') l -> w_wits w' pre <> []) -> complete s' k = false) /\
  exists s l, hist l s /\ waits_only s (7, 0) 1 4 40 /\ waits_single s (7, 0) 1 4 40 /\ ready w1 s (1, 4, 40) = true.
Proof. exact c130_restart_refuted. Qed.
Print Assumptions C130_restart_refuted.

(** REFUTED for one witness that does not answer, or a change of witnesses since: receipts of all current witnesses are
    waited for, no matter what threshold makes the anchor valid. *)
Theorem C130_down_refuted : (forall s k pre n d l s', waits_only s k pre n d -> later s l s' -> not_started l k ->
    (forall w o c, In (w, o, c) l -> w_wits w pre <> [] /\ len (w_wigs w pre d) <> len (w_wits w pre)) -> complete s' k = false) /\
  exists s l w, hist l s /\ waits_only s (7, 0) 1 4 40 /\ waits_single s (7, 0) 1 4 40 /\ In (1, 4) (rcues s) /\ len (w_wits w 1) = 3 /\ len (w_wigs w 1 40) = 2 /\ complete (run w Pass None s) (7, 0) = false.
Proof. exact c130_down_refuted. Qed.
Print Assumptions C130_down_refuted.

(** REFUTED that it stays complete: after a restart, events that were complete are reported incomplete as long as no further
    event is started. *)
Theorem C130_forgotten_refuted : (forall w o s l s' k, tpwe s = [] -> tmse s = [] -> tede s = [] -> later (run w o (Some 0%nat) s) l s' ->
    (forall w' c' k' regd pre n d, ~ In (w', Start k' regd pre n d, c') l) -> complete s' k = false) /\
  exists s l, hist l s /\ tpwe s = [] /\ tmse s = [] /\ tede s = [] /\ complete s (7, 0) = true.
Proof. exact c130_forgotten_refuted. Qed.
Print Assumptions C130_forgotten_refuted.

(** The anchor recorded for an event of a single identifier is the event it was said to be anchored in, if that is the newest
    one; it stays in all later histories. *)
Theorem C131_single_partial : forall w s k regd pre n d, w_group w pre = false -> w_last w pre = (n, d) -> get (ancs s) (fst k, regd) = None ->
  forall l s', later (run w (Start k regd pre n d) None s) l s' -> get (ancs s') (fst k, regd) = Some (n, d).
Proof. exact c131_single_partial. Qed.
Print Assumptions C131_single_partial.

(** For a group it is the one said, once the group has completed it, if no other was given for the same event. *)
Theorem C131_group_partial : forall w s k regd pre n d, waits_group s k regd pre n d -> w_cgms w pre n = Some d -> get (ancs s) (fst k, regd) = None ->
  (forall sn p i e, waits_group s (fst k, sn) regd p i e -> (i, e) = (n, d)) ->
  forall l s', later (run w Pass None s) l s' -> get (ancs s') (fst k, regd) = Some (n, d).
Proof. exact c131_group_partial. Qed.
Print Assumptions C131_group_partial.

(** Every anchor recorded was the newest event of a single identifier, or the completed one said of a group, when the
    event was asked for. *)
Theorem C131_origin : forall l s v regd n d, hist l s -> get (ancs s) (v, regd) = Some (n, d) ->
  exists sn pre n0 d0 w c, In (w, Start (v, sn) regd pre n0 d0, c) l /\
    ((w_group w pre = false /\ w_last w pre = (n, d)) \/ (w_group w pre = true /\ (n0, d0) = (n, d) /\ in_world l (fun w' => w_cgms w' pre n = Some d))).
Proof. exact c131_origin. Qed.
Print Assumptions C131_origin.

Example C131_case : get (ancs (runl rg0 issued)) (7, 70) = Some (4, 40) /\ get (ancs (runl rg0 group_issued)) (8, 80) = Some (6, 60) /\
  w_group w0 1 = false /\ w_last w0 1 = (4, 40) /\ get (ancs rg0) (7, 70) = None.
Proof. vm_compute. auto 6. Qed.

Example C131_group_case : let s := runl rg0 [(w0, Start (8, 0) 80 2 6 60, None)] in waits_group s (8, 0) 80 2 6 60 /\ w_cgms w1 2 6 = Some 60 /\
  forall sn p i e, waits_group s (8, sn) 80 p i e -> (i, e) = (6, 60).
Proof. split; [vm_compute; auto|]. split; [reflexivity|]. intros sn p i e I. unfold waits_group in I. vm_compute in I. destruct I as [I|[]]. injection I as _ _ <- <-. reflexivity. Qed.

(** REFUTED for a single identifier that makes another event between anchoring and the call: the anchor given is not looked at,
    the newest event is recorded instead, and no later call of the registrar corrects that. *)
Theorem C131_between_refuted : (forall w s k regd pre n d n' d', w_group w pre = false -> w_last w pre = (n', d') -> (n', d') <> (n, d) -> get (ancs s) (fst k, regd) = None ->
    forall l s', later (run w (Start k regd pre n d) None s) l s' -> get (ancs s') (fst k, regd) <> Some (n, d)) /\
  w_group w0 1 = false /\ w_last w0 1 = (4, 40) /\ get (ancs (run w0 (Start (7, 0) 70 1 3 30) None rg0)) (7, 70) = Some (4, 40).
Proof. exact c131_between_refuted. Qed.
Print Assumptions C131_between_refuted.
