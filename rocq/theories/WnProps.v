(** Properties of the receipts a witness signs and hands out. *)
From Verif Require Import Prelude B64Model MatterModel SubsModel ThModel ThSpec KelModel KelSpec KelProofs KelInv KelLaw KelThms WnModel WnSpec WnProofs WnThms.
From Coq Require Import Lia.
Open Scope N_scope.

(** C132.  In every history every receipt the witness signs is for an event it has accepted, or for an event that was
    posted to the receipt endpoint.  Partial: see C132_post_refuted for posted events. *)
Theorem C132_origin_partial : forall E H cf me aids ops p n d, world H -> Forall (real_wop H) ops ->
  In (p, n, d) (signed (wrun E cf me aids ops)) ->
  acceptedAt H (wdb (wrun E cf me aids ops)) p n d \/ posted ops p n d.
Proof. exact c132_origin_partial. Qed.
Print Assumptions C132_origin_partial.

(** C132.  Without posted events every receipt is for an accepted event, whatever messages arrive in whatever order,
    with escrows and restarts in between. *)
Theorem C132_cues_partial : forall E H cf me aids ops p n d, world H -> Forall (real_wop H) ops -> noPost ops ->
  In (p, n, d) (signed (wrun E cf me aids ops)) -> acceptedAt H (wdb (wrun E cf me aids ops)) p n d.
Proof. exact c132_cues_partial. Qed.
Print Assumptions C132_cues_partial.

Example C132_cues_example : world (Hof evsW) /\ Forall (real_wop (Hof evsW)) opsC /\ noPost opsC /\
  signed sC = [(7, 0, 20); (7, 1, 21); (7, 1, 24)] /\ fels (fst (wdb sC)) 7 = [20; 21; 24].
Proof. destruct realC as (A & _ & B & _). split; [exact A|]. split; [exact B|]. split; [apply noPostC|]. split; vm_compute; reflexivity. Qed.

(** C132.  What the endpoint answers to a posted event: a receipt of that event if the identifier is known and the
    witness is in its current list, accepted if the identifier is unknown, bad request otherwise; it signs nothing but the
    receipt it answers with, and the event itself is processed if and only if it carries signatures. *)
Theorem C132_answer : forall E cf me aids m s s' a, onPost E cf me aids m s = (s', a) ->
  let p := e_pre (m_evt m) in
  wcues s' = wcues s /\
  (allowed aids p -> wdb s' = match m_sigers m with [] => wdb s | _ => fst (processEvent E cf (asLocal m) (wdb s)) end) /\
  match a with
  | Receipted r => allowed aids p /\ r = (p, e_sn (m_evt m), e_said (m_evt m)) /\ signed s' = signed s ++ [r] /\
                   exists k, keyState (wdb s') p = Some k /\ In me (k_wits k)
  | Accepted202 => allowed aids p /\ signed s' = signed s /\ keyState (wdb s') p = None
  | BadRequest => signed s' = signed s /\
                  ((~ allowed aids p /\ s' = s) \/ (allowed aids p /\ exists k, keyState (wdb s') p = Some k /\ ~ In me (k_wits k)))
  end.
Proof. exact c132_answer. Qed.
Print Assumptions C132_answer.

Example C132_answer_example : snd (onPost E1 cfW 9 None mX w0) = Accepted202 /\ snd (onPost E1 cfW 9 None mI w0) = Receipted (7, 0, 20) /\
  snd (onPost E1 cfW 8 None mI w0) = BadRequest /\ snd (onPost E1 cfW 9 (Some [5]) mI w0) = BadRequest.
Proof. repeat (split; [vm_compute; reflexivity|]). vm_compute. reflexivity. Qed.

(** C132.  If the posted event passes the validation of the witness, it is in the accepted log when the receipt is
    signed.  Partial: the endpoint does not look at the outcome of the validation. *)
Theorem C132_accepted_partial : forall E H cf me aids ops m s' a dx', world H -> Forall (real_wop H) ops -> real H (m_evt m) ->
  allowed aids (e_pre (m_evt m)) -> m_sigers m <> [] ->
  processEvent E cf (asLocal m) (wdb (wrun E cf me aids ops)) = (dx', Ok tt) ->
  onPost E cf me aids m (wrun E cf me aids ops) = (s', a) ->
  acceptedAt H (wdb s') (e_pre (m_evt m)) (e_sn (m_evt m)) (e_said (m_evt m)).
Proof. exact c132_accepted_partial. Qed.
Print Assumptions C132_accepted_partial.

Example C132_accepted_example : world (Hof evsW) /\ Forall (real_wop (Hof evsW)) opsC /\ real (Hof evsW) (m_evt mI) /\
  snd (processEvent E1 cfW (asLocal mI) (wdb w0)) = Ok tt /\ snd (onPost E1 cfW 9 None mI w0) = Receipted (7, 0, 20).
Proof. destruct realC as (A & _ & B & _). split; [exact A|]. split; [exact B|]. split; [reflexivity|]. split; vm_compute; reflexivity. Qed.

(** C132.  The answer accepted (202) means that nothing of the identifier has been accepted. *)
Theorem C132_unknown : forall E H cf me aids ops m s', world H -> sane H -> Forall (real_wop H) ops -> real H (m_evt m) ->
  onPost E cf me aids m (wrun E cf me aids ops) = (s', Accepted202) -> fels (fst (wdb s')) (e_pre (m_evt m)) = [].
Proof. exact c132_unknown. Qed.
Print Assumptions C132_unknown.

Example C132_unknown_example : world (Hof evsW) /\ sane (Hof evsW) /\ snd (onPost E1 cfW 9 None mX (wrun E1 cfW 9 None [])) = Accepted202.
Proof. destruct realC as (A & B & _). split; [exact A|]. split; [exact B|]. vm_compute. reflexivity. Qed.

(** C132, refuted for posted events.  For an identifier it knows and witnesses, the endpoint signs a receipt of every event
    that names the identifier, even if it carries no signature at all, and its logs stay as they were.  In the example the
    witness signs an interaction that it has not accepted, beside the accepted one at the same number. *)
Theorem C132_post_refuted : (forall E cf me aids s m k, allowed aids (e_pre (m_evt m)) -> m_sigers m = [] ->
    keyState (wdb s) (e_pre (m_evt m)) = Some k -> In me (k_wits k) ->
    exists s', onPost E cf me aids m s = (s', Receipted (e_pre (m_evt m), e_sn (m_evt m), e_said (m_evt m))) /\
      wdb s' = wdb s /\ signed s' = signed s ++ [(e_pre (m_evt m), e_sn (m_evt m), e_said (m_evt m))]) /\
  world (Hof evsW) /\ Forall (real_wop (Hof evsW)) opsP /\ In (7, 1, 22) (signed sP) /\ ~ acceptedAt (Hof evsW) (wdb sP) 7 1 22.
Proof. exact c132_post_refuted. Qed.
Print Assumptions C132_post_refuted.

(** C133.  Without posted events a witness signs receipts of two different events at one number only after a rotation: of
    the two the one accepted first is followed in the accepted log by a rotation with that number or a smaller one, at the
    latest the second event itself, and an establishment event is only followed by a delegated rotation.  Partial: posted
    events, see C133_post_refuted. *)
Theorem C133_rotation_partial : forall E H cf me aids ops p n d1 d2, world H -> sane H -> Forall (real_wop H) ops -> noPost ops ->
  In (p, n, d1) (signed (wrun E cf me aids ops)) -> In (p, n, d2) (signed (wrun E cf me aids ops)) -> d1 <> d2 ->
  exists i j k a b r, let l := seen (wdb (wrun E cf me aids ops)) p in
    (i < k <= j)%nat /\ nth_error l i = Some (Some a) /\ nth_error l j = Some (Some b) /\ nth_error l k = Some (Some r) /\
    ((e_said a = d1 /\ e_said b = d2) \/ (e_said a = d2 /\ e_said b = d1)) /\ e_sn a = n /\ e_sn b = n /\
    isRot (e_ilk r) = true /\ e_sn r <= n /\ (isEst (e_ilk a) = true -> e_ilk b = Drt).
Proof. exact c133_rotation_partial. Qed.
Print Assumptions C133_rotation_partial.

Example C133_rotation_example : world (Hof evsW) /\ sane (Hof evsW) /\ Forall (real_wop (Hof evsW)) opsC /\ noPost opsC /\
  In (7, 1, 21) (signed sC) /\ In (7, 1, 24) (signed sC).
Proof. destruct realC as (A & B & C & _). split; [exact A|]. split; [exact B|]. split; [exact C|]. split; [apply noPostC|]. vm_compute. auto 6. Qed.

(** C133, refuted for posted events: a witness signs both of any two events of an identifier it witnesses, and in the
    example it has signed two different interactions at number 1 with no rotation in the log. *)
Theorem C133_post_refuted : (forall E cf me aids s m1 m2 k, e_pre (m_evt m1) = e_pre (m_evt m2) -> allowed aids (e_pre (m_evt m1)) ->
    m_sigers m1 = [] -> m_sigers m2 = [] -> keyState (wdb s) (e_pre (m_evt m1)) = Some k -> In me (k_wits k) ->
    let s' := wstep E cf me aids (wstep E cf me aids s (WPost m1)) (WPost m2) in
    In (rctOf (m_evt m1)) (signed s') /\ In (rctOf (m_evt m2)) (signed s')) /\
  world (Hof evsW) /\ sane (Hof evsW) /\ Forall (real_wop (Hof evsW)) opsP /\ In (7, 1, 21) (signed sP) /\ In (7, 1, 22) (signed sP) /\
  seen (wdb sP) 7 = [Some I0; Some X1].
Proof. exact c133_post_refuted. Qed.
Print Assumptions C133_post_refuted.

(** C134.  A query by number is answered with the newest accepted event at that number and the witness signatures stored for
    it.  Partial: queries by digest, see below. *)
Theorem C134_number_partial : forall E H cf me aids ops p n said r ws, world H -> Forall (real_wop H) ops ->
  let dx := wdb (wrun E cf me aids ops) in onGet me p (Some n) said dx = GotReceipts r ws ->
  exists d, r = (p, n, d) /\ acceptedAt H dx p n d /\ klast (kels (fst dx) p) n = Some d /\ ws = getWigs (snd dx) p d.
Proof. exact c134_number_partial. Qed.
Print Assumptions C134_number_partial.

(** C134.  If an event at that number has been accepted the answer is never not found. *)
Theorem C134_found : forall E H cf me aids ops p n d said, world H -> Forall (real_wop H) ops ->
  let dx := wdb (wrun E cf me aids ops) in acceptedAt H dx p n d -> onGet me p (Some n) said dx <> GetNotFound.
Proof. exact c134_found. Qed.
Print Assumptions C134_found.

Example C134_example : world (Hof evsW) /\ Forall (real_wop (Hof evsW)) opsC /\ onGet 9 7 (Some 1) None (wdb sC) = GotReceipts (7, 1, 24) [] /\
  onGet 9 7 (Some 2) None (wdb sC) = GetNotFound.
Proof. destruct realC as (A & _ & B & _). split; [exact A|]. split; [exact B|]. split; vm_compute; reflexivity. Qed.

(** C134, refuted for queries by digest: the receipt always names number zero. *)
Theorem C134_said_refuted : (forall me p said dx r ws, onGet me p None said dx = GotReceipts r ws -> snd (fst r) = 0) /\
  onGet 9 7 None (Some 21) (wdb sP) = GotReceipts (7, 0, 21) [] /\ acceptedAt (Hof evsW) (wdb sP) 7 1 21.
Proof. exact c134_said_refuted. Qed.
Print Assumptions C134_said_refuted.

(** C134, refuted for events in escrow: a query by digest is answered for an event that waits for its prior, with witness
    signatures that nobody has verified: the one in the answer was not made by the witness. *)
Theorem C134_escrow_refuted : world (Hof evsW) /\ Forall (real_wop (Hof evsW)) opsC /\ noPost opsC /\
  onGet 9 7 None (Some 23) (wdb sC) = GotReceipts (7, 0, 23) [sign Z3 66 0 None] /\
  ~ acceptedAt (Hof evsW) (wdb sC) 7 3 23 /\ e_said Z3 = 23 /\ e_sn Z3 = 3 /\
  vrfy E1 9 (sg_raw (sign Z3 66 0 None)) (e_raw Z3) = false.
Proof. exact c134_escrow_refuted. Qed.
Print Assumptions C134_escrow_refuted.

(** C134.  An answer is given only if the witness is in the list of the inception event (number 0) or in the list recorded with
    an accepted establishment event of the identifier at or before that number. *)
Theorem C134_witness : forall E H cf me aids ops p n said r ws, world H -> Forall (real_wop H) ops ->
  let dx := wdb (wrun E cf me aids ops) in onGet me p (Some n) said dx = GotReceipts r ws ->
  exists s e, In s (fels (fst dx) p) /\ H s = Some e /\ isEst (e_ilk e) = true /\ e_sn e <= n /\
    (In me (olist (kwits (fst dx) p s)) \/ (n = 0 /\ In me (e_wits e))).
Proof. exact c134_witness. Qed.
Print Assumptions C134_witness.

Example C134_witness_example : onGet 8 7 (Some 1) None (wdb sC) = GetBadRequest /\ onGet 8 7 (Some 0) None (wdb sC) = GetBadRequest /\
  onGet 9 7 (Some 0) None (wdb sC) = GotReceipts (7, 0, 20) [].
Proof. split; [vm_compute; reflexivity|]. split; vm_compute; reflexivity. Qed.

(** C135.  What is newly accepted, from a message or out of an escrow, waits for its receipt afterwards.  Partial: posted
    events are receipted in the answer or not at all. *)
Theorem C135_cued_partial : forall E H cf me aids ops o p d, world H -> sane H -> Forall (real_wop H) (ops ++ [o]) ->
  (forall m, o <> WPost m) -> newly (wdb (wrun E cf me aids ops)) (wdb (wrun E cf me aids (ops ++ [o]))) p d ->
  waiting (wrun E cf me aids (ops ++ [o])) p d.
Proof. exact c135_cued_partial. Qed.
Print Assumptions C135_cued_partial.

(** C135.  Without posted events and restarts every accepted event is receipted or waits for its receipt. *)
Theorem C135_receipted_partial : forall E H cf me aids ops p d, world H -> sane H -> Forall (real_wop H) ops -> noPost ops -> noRestart ops ->
  In d (fels (fst (wdb (wrun E cf me aids ops))) p) ->
  receipted (wrun E cf me aids ops) p d \/ waiting (wrun E cf me aids ops) p d.
Proof. exact c135_receipted_partial. Qed.
Print Assumptions C135_receipted_partial.

(** C135.  Handling the cues that are there receipts everything that waits. *)
Theorem C135_handled : forall E cf me aids s p d, waiting s p d ->
  let s' := fold_left (wstep E cf me aids) (repeat WCue (List.length (wcues s))) s in
  receipted s' p d /\ wcues s' = [] /\ wdb s' = wdb s.
Proof. exact c135_handled. Qed.
Print Assumptions C135_handled.

Example C135_example : world (Hof evsW) /\ sane (Hof evsW) /\
  let s := wrun E1 cfW 9 None [WDeliver mX; WDeliver mI; WEscrows 1] in
  fels (fst (wdb s)) 7 = [20; 21] /\ map e_said (wcues s) = [20; 21] /\ signed s = [].
Proof. destruct realC as (A & B & _). split; [exact A|]. split; [exact B|]. cbv zeta. split; [vm_compute; reflexivity|]. split; vm_compute; reflexivity. Qed.

(** C135, refuted for restarts: cues are in memory only; an accepted event whose cue is lost gets no receipt, also not when the
    controller sends it again, however many cues are handled. *)
Theorem C135_restart_refuted : let ops := [WDeliver mI; WRestart; WDeliver mI; WEscrows 1] in
  world (Hof evsW) /\ sane (Hof evsW) /\ Forall (real_wop (Hof evsW)) ops /\ In 20 (fels (fst (wdb (wrun E1 cfW 9 None ops))) 7) /\
  forall n, signed (fold_left (wstep E1 cfW 9 None) (repeat WCue n) (wrun E1 cfW 9 None ops)) = [].
Proof. exact c135_restart_refuted. Qed.
Print Assumptions C135_restart_refuted.
