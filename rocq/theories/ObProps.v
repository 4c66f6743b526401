(** Properties of the resolution of OOBIs and of well known authentication. *)
From Verif Require Import Prelude ThModel JsonModel DbModel Lex ObModel ObSpec ObProofs ObProofs2 ObThms.
From Coq Require Import Lia.
Open Scope N_scope.

(** After any history, crashes included, a schema is stored only under its own said, and only when a server has
    answered with it, with 200, to a URL that asks for this said. *)
Theorem C117_schema : forall E es said raw, dget (schema (D (run E es))) said = Some raw ->
  schemer E raw = Ok said /\ exists url r, answered es url r /\ body r = raw /\ asksFor E url said.
Proof. exact c117_schema. Qed.
Print Assumptions C117_schema.

(** An OOBI is recorded as resolved only after a good answer to it; and no record is without result. *)
Theorem C117_resolved : forall E es url, (says (D (run E es)) url true -> fine E es url) /\ (done (D (run E es)) url -> exists b, says (D (run E es)) url b).
Proof. exact c117_resolved. Qed.
Print Assumptions C117_resolved.

(** But a stream counts as such: one with nothing in it makes the OOBI resolved as well. *)
Theorem C117_empty_refuted : ~ (forall E es url, says (D (run E es)) url true -> exists r, answered es url r /\ body r <> []).
Proof. exact c117_empty_refuted. Qed.
Print Assumptions C117_empty_refuted.

(** And the alias that the user gave to the identifier in the URL goes to the one that the server names. *)
Theorem C117_alias_refuted : ~ (forall E es c a url p n c', In (c, a, url) (named (D (run E es))) -> urlp E url = Ok (p, n) -> pathKind p = TCid c' -> c = c').
Proof. exact c117_alias_refuted. Qed.
Print Assumptions C117_alias_refuted.

(** In any state, a pass that does not raise sends a request for every OOBI that was loaded and can be used,
    unless it is done. *)
Theorem C118_asks : forall E now s s' url, usable E url -> dget (oobis (D s)) url <> None -> flows E now s = (s', Ok tt) -> done (D s') url \/ asked s' url.
Proof. exact c118_asks. Qed.
Print Assumptions C118_asks.

(** A request that is open when the program starts again is sent again. *)
Theorem C118_restart : forall E now d s' url, clientOk E url = true -> dget (coobi d) url <> None -> flows E now (mkS d mem0 []) = (s', Ok tt) -> done (D s') url \/ asked s' url.
Proof. exact c118_restart. Qed.
Print Assumptions C118_restart.

(** Once there is an answer other than a 404 or a reply with URLs, a pass that does not raise ends the request.
    Missing for the whole: replies with URLs, answers without content type, and that passes do not raise, see
    below. *)
Theorem C118_ends_partial : forall E now s s' url r rs, clientOk E url = true -> dget (oobis (D s)) url = None -> dget (coobi (D s)) url <> None ->
  dget (clients (M s)) url = Some (r :: rs) -> final E r -> flows E now s = (s', Ok tt) -> done (D s') url.
Proof. exact c118_ends_partial. Qed.
Print Assumptions C118_ends_partial.

(** What is done stays so, for all histories. *)
Theorem C118_stays_done : forall E now s url, clientOk E url = true -> done (D s) url -> done (D (fst (flows E now s))) url.
Proof. exact c118_stays_done. Qed.
Print Assumptions C118_stays_done.

(** One that was answered with a 404 is loaded again after thirty seconds. *)
Theorem C118_retry : forall E now s s' url o, dget (oobis (D s)) url = None -> dget (coobi (D s)) url = None -> dget (eoobi (D s)) url = Some o ->
  o_date o + 30 < now -> flows E now s = (s', Ok tt) -> dget (oobis (D s')) url <> None.
Proof. exact c118_retry. Qed.
Print Assumptions C118_retry.

(** In all histories without a crash within a pass, an OOBI that was loaded is in one of the databases for
    ever.  Missing for the whole: crashes within a pass, for which it is false. *)
Theorem C118_kept_partial : forall E es url, clientOk E url = true -> badKey url = false -> (forall k now, ~ In (Crash k now) es) -> loaded es url -> kept (D (run E es)) url.
Proof. exact c118_kept_partial. Qed.
Print Assumptions C118_kept_partial.

(** But a crash between two transactions of a request loses it. *)
Theorem C118_lost_refuted : ~ (forall E es url, usable E url -> loaded es url -> kept (D (run E es)) url).
Proof. exact c118_lost_refuted. Qed.
Print Assumptions C118_lost_refuted.

(** A URL for which there is no client is dropped, without a record. *)
Theorem C118_dropped_refuted : exists E url, forall ts, ~ kept (D (run E (Load url None 0 :: map Pass (0 :: ts)))) url.
Proof. exact c118_dropped_refuted. Qed.
Print Assumptions C118_dropped_refuted.

(** The first result stays: after a failure, a good answer to the same URL leaves it recorded as failed. *)
Theorem C118_again_refuted : ~ (forall E es url r now s, asked (run E es) url -> stream r -> status r = 200 ->
  flows E now (run E (es ++ [Answer url r])) = (s, Ok tt) -> says (D s) url true).
Proof. exact c118_again_refuted. Qed.
Print Assumptions C118_again_refuted.

Theorem C118_silent_refuted : exists E url, usable E url /\ forall ts, ~ done (D (run E (Load url None 0 :: map Pass (0 :: ts)))) url.
Proof. exact c118_silent_refuted. Qed.
Print Assumptions C118_silent_refuted.

(** Nor is one that is answered with a reply for another identifier. *)
Theorem C118_mismatch_refuted : exists E url r, usable E url /\ forall ts, ~ done (D (run E ([Load url None 0; Pass 0; Answer url r] ++ map Pass (0 :: ts)))) url.
Proof. exact c118_mismatch_refuted. Qed.
Print Assumptions C118_mismatch_refuted.

(** Nor is one that matches no pattern. *)
Theorem C118_unmatched_refuted : exists E url, clientOk E url = true /\ forall ts, let d := D (run E (Load url None 0 :: map Pass ts)) in ~ done d url /\ dget (coobi d) url = None.
Proof. exact c118_unmatched_refuted. Qed.
Print Assumptions C118_unmatched_refuted.

(** Whoever gets a URL with the character ">" loaded stops the resolution of all OOBIs: from then on every
    pass raises, whatever happens, crashes and restarts included. *)
Theorem C118_separator_refuted : forall E es url a t es' now, In 62 url -> badKey url = false -> raises E (run E (es ++ Load url a t :: es')) now.
Proof. exact c118_separator_refuted. Qed.
Print Assumptions C118_separator_refuted.

(** And one answer with JSON that is neither schema nor message does: it is not recorded as failed, the pass
    raises, the OOBI is requested again after the restart, and so on in every round. *)
Theorem C118_poison_refuted : forall E now url r d n, clientOk E url = true -> poison E r -> dget (coobi d) url <> None -> dget (eoobi d) url = None -> dget (moobi d) url = None ->
  snd (round E now url r (rounds E now url r n d)) = true.
Proof. exact c118_poison_refuted. Qed.
Print Assumptions C118_poison_refuted.

(** A URL is noted as authentication of an identifier only if its path is the well known one of this very
    identifier, the identifier is known, and the server has answered with a status up to 200. *)
Theorem C119_confirmed : forall E es cid url, In (cid, url) (wkas (arun E es)) ->
  (exists p n ch, urlp E url = Ok (p, n) /\ p = 47 :: ch :: s2b "well-known/keri/oobi/" ++ cid /\ cid <> [] /\ ~ In 47 cid) /\ In (AKnown cid) es /\ exists stat, stat <= 200 /\ In (AAnswer url stat) es.
Proof. exact c119_confirmed. Qed.
Print Assumptions C119_confirmed.

(** But other answers of success count as failures. *)
Theorem C119_success_refuted : forall E es cid url, (forall stat, In (AAnswer url stat) es -> 200 < stat) -> ~ In (cid, url) (wkas (arun E es)).
Proof. exact c119_success_refuted. Qed.
Print Assumptions C119_success_refuted.

(** The character before the name need not be a dot; and what the server says is not looked at. *)
Theorem C119_dot_refuted : ~ (forall E es cid url p n, In (cid, url) (wkas (arun E es)) -> urlp E url = Ok (p, n) -> p = s2b "/.well-known/keri/oobi/" ++ cid).
Proof. exact c119_dot_refuted. Qed.
Print Assumptions C119_dot_refuted.

(** And one URL for which there is no client makes every other pass raise, for ever. *)
Theorem C119_client_refuted : exists E url cid, forall n, exists e, snd (aflows E (arun E ([ALoad url; AKnown cid] ++ repeat APass (n + n)))) = Err e.
Proof. exact c119_client_refuted. Qed.
Print Assumptions C119_client_refuted.
