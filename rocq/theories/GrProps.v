(** Properties of gathering and spreading witness receipts. *)
From Verif Require Import Prelude GrModel GrSpec GrProofs GrThms.
From Coq Require Import Lia.
Open Scope N_scope.

(** C136.  When gathering ends, every witness reported has been sent a signature of every other witness that the controller
    holds one of, and nothing else is sent: only held signatures of other witnesses, only to witnesses reported.  Partial:
    witnesses that did not answer 200, see C136_late_refuted. *)
Theorem C136_spread_partial : forall W st rs, outcome (receipt W st) = Done rs ->
  (forall w v g, In w rs -> In v (w_wits W) -> v <> w -> In g (held (receipt W st)) -> ofWit W g v -> sentOf W (acts (receipt W st)) w v) /\
  (forall w gs g, In (Spread w gs) (acts (receipt W st)) -> In g gs ->
     In w rs /\ In g (held (receipt W st)) /\ exists v, ofWit W g v /\ v <> w).
Proof. exact c136_spread_partial. Qed.
Print Assumptions C136_spread_partial.

Example C136_spread_example : outcome (receipt Wlate []) = Done [1; 3] /\ held (receipt Wlate []) = [(0%nat, 101); (2%nat, 103)] /\
  acts (receipt Wlate []) = [Post 1; Post 2; Post 3; Spread 1 [(2%nat, 103)]; Spread 3 [(0%nat, 101)]].
Proof. repeat (split; [reflexivity|]). reflexivity. Qed.

(** C138.  The witnesses reported are those with an endpoint that answered 200. *)
Theorem C138_report : forall W st rs, w_wits W <> [] -> outcome (receipt W st) = Done rs -> forall w, In w rs <-> answered W w.
Proof. exact c138_report. Qed.
Print Assumptions C138_report.

(** C138.  Signatures held afterwards were held before or came with an answer 200 and verify for the witness at their index;
    what was held stays; and when gathering ends, all verifying signatures of witnesses that came are held. *)
Theorem C138_held : forall W st,
  (forall g, In g (held (receipt W st)) -> In g st \/
     exists w v cs, answered W w /\ w_reply W w = Reply 200 cs /\ In (v, snd g) cs /\ ofWit W g v /\ w_valid W v (snd g) = true) /\
  (forall g, In g st -> In g (held (receipt W st))) /\
  (forall rs w cs v s, outcome (receipt W st) = Done rs -> answered W w -> w_reply W w = Reply 200 cs -> In (v, s) cs -> In v (w_wits W) -> w_valid W v s = true ->
     exists g, In g (held (receipt W st)) /\ ofWit W g v /\ snd g = s).
Proof. exact c138_held. Qed.
Print Assumptions C138_held.

Example C138_example : w_wits Wbad <> [] /\ outcome (receipt Wbad []) = Done [1; 2; 3] /\ held (receipt Wbad []) = [(0%nat, 101); (2%nat, 103)].
Proof. split; [discriminate|]. split; reflexivity. Qed.

(** C138, refuted: a witness is reported though no signature of it is held, if its answer 200 has no valid receipt of the
    event. *)
Theorem C138_reported_refuted : (forall W st rs w, w_wits W <> [] -> outcome (receipt W st) = Done rs -> answered W w ->
    (forall g, In g st -> ~ ofWit W g w) -> (forall u cs s, w_reply W u = Reply 200 cs -> In (w, s) cs -> w_valid W w s = false) ->
    In w rs /\ forall g, In g (held (receipt W st)) -> ~ ofWit W g w) /\
  outcome (receipt Wbad []) = Done [1; 2; 3] /\ answered Wbad 2 /\ forall g, In g (held (receipt Wbad [])) -> ~ ofWit Wbad g 2.
Proof. exact c138_reported_refuted. Qed.
Print Assumptions C138_reported_refuted.

(** C137.  Gathering ends, with a report, if every witness with an endpoint answers both times, and witnesses added by a
    rotation have endpoints and answer too.  Partial: see the refutations. *)
Theorem C137_through_partial : forall W st, tidy W st -> (w_kind W = Krot -> reachableAdds W) ->
  (forall w, In w (w_wits W) -> w_url W w = true -> w_reply W w <> Silent /\ w_ack W w = true) ->
  exists rs, outcome (receipt W st) = Done rs.
Proof. exact c137_through_partial. Qed.
Print Assumptions C137_through_partial.

Example C137_through_example : tidy (W3 Krot) [] /\ reachableAdds (W3 Krot) /\
  (forall w, In w (w_wits (W3 Krot)) -> w_url (W3 Krot) w = true -> w_reply (W3 Krot) w <> Silent /\ w_ack (W3 Krot) w = true).
Proof. split; [constructor|]. split; [constructor; [split; reflexivity|constructor]|]. intros w _ _. split; [discriminate|reflexivity]. Qed.

(** C136.  If all witnesses are honest and reachable, all are reported and each is sent a signature of every other. *)
Theorem C136_all : forall W st, tidy W st -> (w_kind W = Krot -> reachableAdds W) -> w_wits W <> [] -> Forall (honest W) (w_wits W) ->
  exists rs, outcome (receipt W st) = Done rs /\ (forall w, In w rs <-> In w (w_wits W)) /\
    forall w v, In w (w_wits W) -> In v (w_wits W) -> v <> w -> sentOf W (acts (receipt W st)) w v.
Proof. exact c136_all. Qed.
Print Assumptions C136_all.

Example C136_all_example : tidy (W3 Krot) [] /\ reachableAdds (W3 Krot) /\ w_wits (W3 Krot) <> [] /\ Forall (honest (W3 Krot)) (w_wits (W3 Krot)) /\
  acts (receipt (W3 Krot) []) = [Catch 3; Post 1; Post 2; Post 3; Spread 1 [(1%nat, 102); (2%nat, 103)]; Spread 2 [(0%nat, 101); (2%nat, 103)]; Spread 3 [(0%nat, 101); (1%nat, 102)]].
Proof.
  split; [constructor|]. split; [constructor; [split; reflexivity|constructor]|]. split; [discriminate|]. split; [|reflexivity].
  repeat (apply Forall_cons; [split; [reflexivity|]; split; [reflexivity|]; eexists; eexists; split; [reflexivity|]; split; [left; reflexivity|reflexivity]|]).
  apply Forall_nil.
Qed.

(** C136, refuted for witnesses that did not answer 200: they are sent no receipts at all, so a witness that had to escrow the
    event and answered 202 does not learn what the others signed. *)
Theorem C136_late_refuted : (forall W st w gs, ~ answered W w -> ~ In (Spread w gs) (acts (receipt W st))) /\
  In 2 (w_wits Wlate) /\ w_reply Wlate 2 = Reply 202 [] /\ outcome (receipt Wlate []) = Done [1; 3] /\
  (forall v, ~ sentOf Wlate (acts (receipt Wlate [])) 2 v).
Proof. exact c136_late_refuted. Qed.
Print Assumptions C136_late_refuted.

(** C136.  A rotation first sends the log to the witnesses it adds, then the event to all; if an added witness cannot be caught
    up nobody gets the event. *)
Theorem C136_catchup : forall W st, w_kind W = Krot -> w_wits W <> [] ->
  (reachableAdds W -> exists l, acts (receipt W st) = map Catch (w_adds W) ++ l /\ forall w, ~ In (Catch w) l) /\
  (~ reachableAdds W -> (forall w, ~ In (Post w) (acts (receipt W st))) /\ forall rs, outcome (receipt W st) <> Done rs).
Proof. exact c136_catchup. Qed.
Print Assumptions C136_catchup.

Example C136_catchup_example : w_kind (W3 Krot) = Krot /\ w_wits (W3 Krot) <> [] /\ reachableAdds (W3 Krot) /\ ~ reachableAdds Wurl.
Proof.
  split; [reflexivity|]. split; [discriminate|]. split; [constructor; [split; reflexivity|constructor]|].
  intros Z. inversion Z; subst. destruct H1 as [Z1 _]. discriminate Z1.
Qed.

(** C136, refuted for delegated identifiers: a delegated rotation sends the log to none of the witnesses it adds, no event but a
    plain rotation does. *)
Theorem C136_delegated_refuted : (forall W st w, w_kind W <> Krot -> ~ In (Catch w) (acts (receipt W st))) /\
  w_kind (W3 Kdrt) = Kdrt /\ In 3 (w_adds (W3 Kdrt)) /\ acts (receipt (W3 Krot) []) = Catch 3 :: acts (receipt (W3 Kdrt) []).
Proof. exact c136_delegated_refuted. Qed.
Print Assumptions C136_delegated_refuted.

(** C137, refuted for a witness that does not answer: gathering waits at it for ever; the witnesses after it are not asked and
    nobody is sent the receipts there are. *)
Theorem C137_silent_refuted : (forall W st l1 w l2, w_kind W <> Krot -> clients W = l1 ++ w :: l2 -> w_reply W w = Silent ->
    (forall v, In v l1 -> w_reply W v <> Silent) ->
    outcome (receipt W st) = Waits w /\ acts (receipt W st) = map Post (l1 ++ [w])) /\
  outcome (receipt Wdown []) = Waits 1 /\ acts (receipt Wdown []) = [Post 1] /\ honest Wdown 2 /\ honest Wdown 3.
Proof. exact c137_silent_refuted. Qed.
Print Assumptions C137_silent_refuted.

(** C137, refuted for added witnesses without endpoint: a witness without endpoint is left out otherwise, but if a rotation adds it
    an exception ends gathering before anybody gets the event. *)
Theorem C137_endpoint_refuted : (forall W st w l, w_kind W = Krot -> w_wits W <> [] -> w_adds W = w :: l -> w_url W w = false ->
    receipt W st = ([], st, Raises)) /\
  receipt Wurl [] = ([], [], Raises) /\ honest Wurl 1 /\ honest Wurl 2 /\
  outcome (receipt (mkWorld Kixn (w_wits Wurl) [] (w_url Wurl) good val0 (fun _ => true) (fun _ => true)) []) = Done [1; 2].
Proof. exact c137_endpoint_refuted. Qed.
Print Assumptions C137_endpoint_refuted.

(** C137.  Gathering can be done again: whatever failed in earlier rounds, what they brought is kept, and a round in which all
    witnesses are honest and reachable reports all and sends each the receipts of all others. *)
Theorem C137_again : forall Ws W st, Forall (fun V => w_wits V = w_wits W) Ws -> tidy W st ->
  (w_kind W = Krot -> reachableAdds W) -> w_wits W <> [] -> Forall (honest W) (w_wits W) ->
  (forall g, In g st -> In g (rounds Ws st)) /\ (forall g, In g (rounds Ws st) -> In g (held (receipt W (rounds Ws st)))) /\
  exists rs, outcome (receipt W (rounds Ws st)) = Done rs /\ (forall w, In w rs <-> In w (w_wits W)) /\
    forall w v, In w (w_wits W) -> In v (w_wits W) -> v <> w -> sentOf W (acts (receipt W (rounds Ws st))) w v.
Proof. exact c137_again. Qed.
Print Assumptions C137_again.

Example C137_again_example : Forall (fun V => w_wits V = w_wits (W3 Krot)) [Wdown; Wurl; Wlate] /\
  rounds [Wdown; Wurl; Wlate] [] = [(0%nat, 101); (2%nat, 103)] /\ outcome (receipt (W3 Krot) (rounds [Wdown; Wurl; Wlate] [])) = Done [1; 2; 3] /\
  held (receipt (W3 Krot) (rounds [Wdown; Wurl; Wlate] [])) = [(0%nat, 101); (2%nat, 103); (1%nat, 102)].
Proof. split; [repeat (apply Forall_cons; [reflexivity|]); apply Forall_nil|]. repeat (split; [reflexivity|]). reflexivity. Qed.
