(** Model of the completion of registry and credential events: vdr/credentialing.py Registrar (571-849)
    and Credentialer (946-993), with what they use of Receiptor and WitnessPublisher (app/agenting.py
    218-250, 621-676) and of Counselor.complete (app/grouping.py 89-107).

    Identifiers, digests and registries are numbers.  The rest of the agent (key event logs, receipts,
    transaction event logs, group events, saved credentials) is a world that may differ from call to call.
    What a call writes is a list of single writes, so that a crash is a beginning of that list.  The sets
    of the database keep their order of insertion; they are sorted by key in the code. *)
From Verif Require Import Prelude.
Open Scope N_scope.

(** an anchoring key event: identifier, number, digest *)
Definition anchor := (N * N * N)%type.
(** a transaction event: registry or credential, and number *)
Definition tkey := (N * N)%type.
Definition eq2 (a b : N * N) : bool := (fst a =? fst b) && (snd a =? snd b).
Definition eq3 (a b : N * N * N) : bool := eq2 (fst a) (fst b) && (snd a =? snd b).

(** What is read of the rest of the agent: hby.habs, isinstance GroupHab, number and digest of the newest
    own event (hab.kever), its witnesses, the receipts of an event (db.wigs), completed group events
    (db.cgms), transaction event logs (reger.tels), saved credentials (reger.saved). *)
Record world := mkWorld { w_hab : N -> bool; w_group : N -> bool; w_last : N -> N * N; w_wits : N -> list N;
  w_wigs : N -> N -> list N; w_cgms : N -> N -> option N; w_tel : N -> N -> option N; w_saved : N -> bool }.

(** vdr/eventing.py:2360-2377 the databases tpwe, tmse, tede (sets of anchors by key), ctel, ancs, cmse, ccrd; in
    memory, the messages and cues of the Receiptor (identifier, number) and of the WitnessPublisher (identifier,
    registry or credential, first number of the events sent) *)
Record rg := mkRg { tpwe : list (tkey * anchor); tmse : list (tkey * N * anchor); tede : list (tkey * anchor);
  ctel : list (tkey * N); ancs : list ((N * N) * (N * N)); cmse : list tkey; ccrd : list N;
  rmsgs : list (N * N); rcues : list (N * N); pmsgs : list (N * N * N); pcues : list (N * N * N) }.
Definition rg0 : rg := mkRg [] [] [] [] [] [] [] [] [] [] [].

Definition get {V} (l : list ((N * N) * V)) (k : N * N) : option V := option_map snd (find (fun x => eq2 (fst x) k) l).
(** Suber.put: an existing value stays (db/subing.py put) *)
Definition put {V} (l : list ((N * N) * V)) (k : N * N) (v : V) : list ((N * N) * V) := match get l k with Some _ => l | None => l ++ [(k, v)] end.
(** IoSetSuber.add, rem of a key with all its values *)
Definition adds (l : list (tkey * anchor)) (k : tkey) (a : anchor) : list (tkey * anchor) :=
  if existsb (fun x => eq2 (fst x) k && eq3 (snd x) a) l then l else l ++ [(k, a)].
Definition rems {V} (l : list (tkey * V)) (k : tkey) : list (tkey * V) := filter (fun x => negb (eq2 (fst x) k)) l.
Definition addm (l : list (tkey * N * anchor)) (k : tkey * N) (a : anchor) : list (tkey * N * anchor) :=
  if existsb (fun x => eq3 (fst x) k && eq3 (snd x) a) l then l else l ++ [(k, a)].
Definition remm (l : list (tkey * N * anchor)) (k : tkey * N) : list (tkey * N * anchor) := filter (fun x => negb (eq3 (fst x) k)) l.
Definition addk (l : list tkey) (k : tkey) : list tkey := if existsb (eq2 k) l then l else l ++ [k].

(** the single writes *)
Inductive write :=
| AddTpwe (k : tkey) (a : anchor) | RemTpwe (k : tkey) | AddTmse (k : tkey * N) (a : anchor) | RemTmse (k : tkey * N)
| AddTede (k : tkey) (a : anchor) | RemTede (k : tkey) | PutCtel (k : tkey) (d : N) | PutAncs (k : N * N) (v : N * N)
| PutCmse (k : tkey) | RemCmse (k : tkey) | PutCcrd (c : N)
| AddRmsg (m : N * N) | PopRmsg | AddPmsg (m : N * N * N) | PopPmsg (sent : bool).
Definition apply (s : rg) (x : write) : rg :=
  match x with
  | AddTpwe k a => mkRg (adds (tpwe s) k a) (tmse s) (tede s) (ctel s) (ancs s) (cmse s) (ccrd s) (rmsgs s) (rcues s) (pmsgs s) (pcues s)
  | RemTpwe k => mkRg (rems (tpwe s) k) (tmse s) (tede s) (ctel s) (ancs s) (cmse s) (ccrd s) (rmsgs s) (rcues s) (pmsgs s) (pcues s)
  | AddTmse k a => mkRg (tpwe s) (addm (tmse s) k a) (tede s) (ctel s) (ancs s) (cmse s) (ccrd s) (rmsgs s) (rcues s) (pmsgs s) (pcues s)
  | RemTmse k => mkRg (tpwe s) (remm (tmse s) k) (tede s) (ctel s) (ancs s) (cmse s) (ccrd s) (rmsgs s) (rcues s) (pmsgs s) (pcues s)
  | AddTede k a => mkRg (tpwe s) (tmse s) (adds (tede s) k a) (ctel s) (ancs s) (cmse s) (ccrd s) (rmsgs s) (rcues s) (pmsgs s) (pcues s)
  | RemTede k => mkRg (tpwe s) (tmse s) (rems (tede s) k) (ctel s) (ancs s) (cmse s) (ccrd s) (rmsgs s) (rcues s) (pmsgs s) (pcues s)
  | PutCtel k d => mkRg (tpwe s) (tmse s) (tede s) (put (ctel s) k d) (ancs s) (cmse s) (ccrd s) (rmsgs s) (rcues s) (pmsgs s) (pcues s)
  | PutAncs k v => mkRg (tpwe s) (tmse s) (tede s) (ctel s) (put (ancs s) k v) (cmse s) (ccrd s) (rmsgs s) (rcues s) (pmsgs s) (pcues s)
  | PutCmse k => mkRg (tpwe s) (tmse s) (tede s) (ctel s) (ancs s) (addk (cmse s) k) (ccrd s) (rmsgs s) (rcues s) (pmsgs s) (pcues s)
  | RemCmse k => mkRg (tpwe s) (tmse s) (tede s) (ctel s) (ancs s) (filter (fun x => negb (eq2 x k)) (cmse s)) (ccrd s) (rmsgs s) (rcues s) (pmsgs s) (pcues s)
  | PutCcrd c => mkRg (tpwe s) (tmse s) (tede s) (ctel s) (ancs s) (cmse s) (if existsb (N.eqb c) (ccrd s) then ccrd s else ccrd s ++ [c]) (rmsgs s) (rcues s) (pmsgs s) (pcues s)
  | AddRmsg m => mkRg (tpwe s) (tmse s) (tede s) (ctel s) (ancs s) (cmse s) (ccrd s) (rmsgs s ++ [m]) (rcues s) (pmsgs s) (pcues s)
  | PopRmsg => mkRg (tpwe s) (tmse s) (tede s) (ctel s) (ancs s) (cmse s) (ccrd s) (tl (rmsgs s)) (rcues s ++ firstn 1 (rmsgs s)) (pmsgs s) (pcues s)
  | AddPmsg m => mkRg (tpwe s) (tmse s) (tede s) (ctel s) (ancs s) (cmse s) (ccrd s) (rmsgs s) (rcues s) (pmsgs s ++ [m]) (pcues s)
  | PopPmsg sent => mkRg (tpwe s) (tmse s) (tede s) (ctel s) (ancs s) (cmse s) (ccrd s) (rmsgs s) (rcues s) (tl (pmsgs s)) (pcues s ++ (if sent then firstn 1 (pmsgs s) else []))
  end.

(** credentialing.py:571-696 incept, issue and revoke of event [k] with digest [regd], anchored in event
    [n], [d] of [pre]: the anchor given is used for groups only, else that of the newest own event *)
Definition startW (w : world) (k : tkey) (regd pre n d : N) : list write :=
  if w_group w pre then [AddTmse (k, regd) (pre, n, d)]
  else let '(n', d') := w_last w pre in
       [PutAncs (fst k, regd) (n', d'); AddRmsg (pre, n'); AddTpwe k (pre, n', d')].

(** credentialing.py:774-801 processWitnessEscrow *)
Definition ready (w : world) (s : rg) (a : anchor) : bool :=
  let '(pre, n, d) := a in
  match w_wits w pre with
  | [] => true
  | ws => (len (w_wigs w pre d) =? len ws) && existsb (eq2 (pre, n)) (rcues s)
  end.
Definition witnessW (w : world) (s : rg) : list write :=
  flat_map (fun x => if ready w s (snd x) then [RemTpwe (fst x); AddTede (fst x) (snd x)] else []) (tpwe s).

(** credentialing.py:803-825 processMultisigEscrow with Counselor.complete *)
Definition multisigW (w : world) (s : rg) : list write :=
  flat_map (fun x => let '(k, regd, (pre, n, d)) := x in
    match w_cgms w pre n with
    | None => []
    | Some d' => if d' =? d then [PutAncs (fst k, regd) (n, d); RemTmse (k, regd); AddTede k (pre, n, d)] else [RemTmse (k, regd)]
    end) (tmse s).

(** credentialing.py:827-849 processDisseminationEscrow *)
Definition dissemW (w : world) (s : rg) : list write :=
  flat_map (fun x => let '(k, (pre, n, d)) := x in
    match w_tel w (fst k) (snd k) with
    | None => []
    | Some _ => [RemTede k; AddPmsg (pre, fst k, snd k); PutCtel k d]
    end) (tede s).

(** credentialing.py:766-772 processEscrows *)
Definition passW (w : world) (s : rg) : list write :=
  let ws := witnessW w s ++ multisigW w s in ws ++ dissemW w (fold_left apply ws s).

(** credentialing.py:724-739 complete, agenting.py:663-676 sent *)
Definition complete (s : rg) (k : tkey) : bool :=
  match get (ctel s) k with Some _ => existsb (fun m => snd (fst m) =? fst k) (pcues s) | None => false end.

(** credentialing.py:968-987 processCredentialMissingSigEscrow *)
Definition credW (w : world) (s : rg) : list write :=
  flat_map (fun k => if complete s k && w_saved w (fst k) then [RemCmse k; PutCcrd (fst k)] else []) (cmse s).

(** The calls: start of a transaction event; Credentialer.issue (958-961; what the verifier does is part of the world);
    the Receiptor is through with its first message (agenting.py:240-247); the WitnessPublisher with its first
    (630-657); a pass of each escrow. *)
Inductive op := Start (k : tkey) (regd pre n d : N) | Cred (k : tkey) | Receipted | Publish | Pass | CredPass.
Definition writes (w : world) (o : op) (s : rg) : list write :=
  match o with
  | Start k regd pre n d => startW w k regd pre n d
  | Cred k => [PutCmse k]
  | Receipted => [PopRmsg]
  | Publish => match pmsgs s with [] => [] | (pre, _, _) :: _ => [PopPmsg (w_hab w pre)] end
  | Pass => passW w s
  | CredPass => credW w s
  end.

(** memory is lost *)
Definition restart (s : rg) : rg := mkRg (tpwe s) (tmse s) (tede s) (ctel s) (ancs s) (cmse s) (ccrd s) [] [] [] [].
(** one call in world [w]; with [Some j] the process ends after [j] writes and is started again *)
Definition run (w : world) (o : op) (cut : option nat) (s : rg) : rg :=
  match cut with
  | None => fold_left apply (writes w o s) s
  | Some j => restart (fold_left apply (firstn j (writes w o s)) s)
  end.
