(** Notices of transaction states: vdr/eventing.py:1642-1922 processReplyRegistryTxnState and
    processReplyCredentialTxnState, the last five calls of processEscrows (1974-1983), and their store,
    db/escrowing.py:23-238 Broker.  Revery.acceptReply, its stores and its escrow are those of RpModel.

    Simplifications, common to the whole file.
    - The simplifications of RpModel hold.  RegStateRecord and VcStateRecord, int and the other readings of the body
      are parameters, None when they raise; they come before all effects.
    - The receiver's key states and transaction logs are given by a view, which may be another one at each call: the
      key events ([kv]), who has a key state, its witnesses, the registries, and said and number of the event of a
      transaction log at a number.
    - The escrow table is a list in the order of insertion.  The entries of the Broker for one said are found by it.
    - Notices of one escrow type that are put while its loop runs are the ones that are in it already. *)
From Verif Require Import Prelude B64Model SubsModel ThModel JsonModel Lex RpModel.
Open Scope N_scope.

(** recording.py RegStateRecord: i, ii, s, d, b, NoBackers in c *)
Record regst := mkRs { r_i : bytes; r_ii : bytes; r_s : N; r_d : bytes; r_b : list bytes; r_nob : bool }.
(** recording.py VcStateRecord: i, ri, s, d, the number in ra (0 without one) *)
Record vcst := mkVs { v_i : bytes; v_ri : bytes; v_s : N; v_d : bytes; v_ra : N }.
(** a Tever: sn, pre, noBackers, baks *)
Record tever := mkTv { tv_sn : N; tv_pre : bytes; tv_nob : bool; tv_baks : list bytes }.
Record view := mkV { kv : kview; knows : bytes -> bool; wits : bytes -> list bytes; tevers : bytes -> option tever;
  telAt : bytes -> N -> option (bytes * N) }.
(** Revery; Tevery.lax; the watchers of all habs; the two readings of the body of a reply *)
Record tenv := mkTe { rv : renv; tlax : bool; twats : list bytes; asReg : reply -> option regst; asVc : reply -> option vcst }.

(** the exceptions, with those that are only used here *)
Inductive texn := X (e : exn) | OutOfOrderTxnState | Untrusted.
Inductive etyp := CredMre | CredMae | CredOoo | RegMae | RegOoo.
Definition etyp_eqb (a b : etyp) : bool :=
  match a, b with CredMre, CredMre | CredMae, CredMae | CredOoo, CredOoo | RegMae, RegMae | RegOoo, RegOoo => true | _, _ => false end.
(** an entry of the escrow: type, identifier, source and said *)
Definition entry := (etyp * bytes * bytes * bytes)%type.
Definition entry_eqb (a b : entry) : bool :=
  match a, b with (t, p, q, d), (t', p', q', d') => etyp_eqb t t' && beq p p' && beq q q' && beq d d' end.
(** escrowing.py:47-87: -dts, -sns, -sgs, -cgs, -nes, -nas *)
Record bro := mkB { dts : list (bytes * N); sns : list (bytes * reply); bsgs : list tsg; bcgs : list (bytes * list cigar);
  nes : list entry; nas : list (bytes * bytes * bytes) }.
Definition bro0 : bro := mkB [] [] [] [] [] [].
(** a query for a key event log or a transaction log; a state that was saved, i and d of its record *)
Inductive cue := AskKel (pre : bytes) | AskTel (ri : bytes) (vci : option bytes) | Saved (id d : bytes).
Record st := mkS { R : rdb; B : bro; cues : list cue }.
Definition st0 : st := mkS rdb0 bro0 [].
Definition out := (st * (unit + texn))%type.

(** escrowing.py:89-99 current *)
Fixpoint naget (l : list (bytes * bytes * bytes)) (pre aid : bytes) : option bytes :=
  match l with
  | [] => None
  | (p, q, d) :: l => if beq p pre && beq q aid then Some d else naget l pre aid
  end.
Definition current (b : bro) (pre aid : bytes) : option bytes := naget (nas b) pre aid.
(** pin *)
Definition naset (l : list (bytes * bytes * bytes)) (pre aid d : bytes) : list (bytes * bytes * bytes) :=
  (pre, aid, d) :: filter (fun x => negb (beq (fst (fst x)) pre && beq (snd (fst x)) aid)) l.

(** escrowing.py:202-206, the signatures *)
Definition putGrps (said : bytes) (gs : list group) (l : list tsg) : list tsg :=
  fold_left (fun l g => tput l (mkT said (g_pre g) (g_sn g) (g_dig g) (g_sigs g))) gs l.
Definition putCigs (said : bytes) (cs : list cigar) (l : list (bytes * list cigar)) : list (bytes * list cigar) :=
  fold_left (fun l cg => let old := match dget l said with Some x => x | None => [] end in
                         dset l said (if existsb (sameC cg) old then old else old ++ [cg])) cs l.
(** escrowing.py:175-208 escrowStateNotice; whether the entry is new *)
Definition escrow (t : etyp) (pre aid : bytes) (r : reply) (cs : list cigar) (gs : list group) (b : bro) : bro * bool :=
  let d := q_said r in
  let x := (t, pre, aid, d) in
  let old := existsb (entry_eqb x) (nes b) in
  (mkB (dput (dts b) d (q_dt r)) (dput (sns b) d r) (putGrps d gs (bsgs b)) (putCigs d cs (bcgs b))
       (if old then nes b else nes b ++ [x]) (nas b), negb old).
(** the escrow, the cue for a new entry, and raise *)
Definition park (t : etyp) (pre aid : bytes) (r : reply) (cs : list cigar) (gs : list group) (q : cue) (e : texn) (s : st) : out :=
  let (b, new) := escrow t pre aid r cs gs (B s) in
  (mkS (R s) b (if new : bool then cues s ++ [q] else cues s), inr e).
(** escrowing.py:210-228 updateReply, then the cue of 1779 and 1922 *)
Definition save (id aid : bytes) (r : reply) (tdig : bytes) (s : st) : st :=
  let b := B s in
  mkS (R s) (mkB (dput (dts b) tdig (q_dt r)) (dset (sns b) tdig r) (bsgs b) (bcgs b) (nes b) (naset (nas b) id aid tdig)) (cues s ++ [Saved id tdig]).

Section Ts.
Variable E : tenv.
(** eventing.py:1732-1739 and 1877-1884: the source is refused *)
Definition stranger (aid pre : bytes) (baks : list bytes) : bool :=
  negb (tlax E) && negb (beq aid pre) && negb (memB aid baks) && negb (memB aid (twats E)).

(** eventing.py:1642-1779 processReplyRegistryTxnState *)
Definition registry (v : view) (r : reply) (aid : bytes) (cs : list cigar) (gs : list group) (s : st) : out :=
  if negb (startswith (s2b "/tsn") (q_route r)) then (s, inr (X ValidationError)) else
  match asReg E r with
  | None => (s, inr (X ValueError))
  | Some n =>
      if negb (knows v (r_ii n)) then park RegMae (r_i n) aid r cs gs (AskKel (r_ii n)) (X MissingAnchorError) s else
      let baks := if r_nob n then wits v (r_ii n) else r_b n in
      if stranger aid (r_ii n) baks then (s, inr Untrusted) else
      if match tevers v (r_i n) with Some t => r_s n <? tv_sn t | None => false end then (s, inr (X ValidationError)) else
      match acceptReply (rv E) (kv v) r (q_route r) aid (current (B s) (r_i n) aid) cs gs (R s) with
      | (d, Err e) => (mkS d (B s) (cues s), inr (X e))
      | (d, Ok false) => (mkS d (B s) (cues s), inr (X UnverifiedReplyError))
      | (d, Ok true) =>
          let s := mkS d (B s) (cues s) in
          match telAt v (r_i n) (r_s n) with
          | None => park RegOoo (r_i n) aid r cs gs (AskTel (r_i n) None) OutOfOrderTxnState s
          | Some (said, _) => if negb (beq said (r_d n)) then (s, inr (X ValidationError)) else (save (r_i n) aid r (r_d n) s, inl tt)
          end
      end
  end.

(** eventing.py:1781-1922 processReplyCredentialTxnState *)
Definition credential (v : view) (r : reply) (aid : bytes) (cs : list cigar) (gs : list group) (s : st) : out :=
  if negb (startswith (s2b "/tsn") (q_route r)) then (s, inr (X ValidationError)) else
  match asVc E r with
  | None => (s, inr (X ValueError))
  | Some n =>
      match match tevers v (v_ri n) with Some t => if tv_sn t <? v_ra n then None else Some t | None => None end with
      | None => park CredMre (v_i n) aid r cs gs (AskTel (v_ri n) None) (X MissingRegistryError) s
      | Some t =>
          let pre := tv_pre t in
          if negb (knows v pre) then park CredMae (v_i n) aid r cs gs (AskKel aid) (X MissingAnchorError) s else
          let baks := if tv_nob t then wits v pre else tv_baks t in
          if stranger aid pre baks then (s, inr Untrusted) else
          match acceptReply (rv E) (kv v) r (q_route r) aid (current (B s) (v_i n) aid) cs gs (R s) with
          | (d, Err e) => (mkS d (B s) (cues s), inr (X e))
          | (d, Ok false) => (mkS d (B s) (cues s), inr (X UnverifiedReplyError))
          | (d, Ok true) =>
              let s := mkS d (B s) (cues s) in
              match telAt v (v_i n) (v_s n) with
              | None => park CredOoo (v_i n) aid r cs gs (AskTel (v_ri n) (Some (v_i n))) OutOfOrderTxnState s
              | Some (said, sn) =>
                  if v_s n <? sn then (s, inr (X ValidationError)) else
                  if negb (beq said (v_d n)) then (s, inr (X ValidationError)) else (save (v_i n) aid r (v_d n) s, inl tt)
              end
          end
      end
  end.

(** eventing.py:1634-1640 registerReplyRoutes with routing.py:52-95: the handler and the aid in the route *)
Definition route (r : reply) : option (bool * bytes) :=
  match splitb 47 (q_route r) with
  | [z; a; b; x] =>
      if nonempty z || negb (beq a (s2b "tsn")) || negb (nonempty x) then None
      else if beq b (s2b "registry") then Some (true, x) else if beq b (s2b "credential") then Some (false, x) else None
  | _ => None
  end.
Definition handle (reg : bool) := if reg then registry else credential.
(** routing.py:141-179 processReply *)
Definition deliver (v : view) (r : reply) (cs : list cigar) (gs : list group) (s : st) : out :=
  if negb (saidOk (rv E) r) then (s, inr (X ValidationError)) else
  match route r with
  | None => (s, inr (X ValidationError))
  | Some (reg, aid) => handle reg v r aid cs gs s
  end.

(** the exception for which a notice stays in the escrow *)
Definition waits (t : etyp) (e : texn) : bool :=
  match t, e with
  | CredMre, X MissingRegistryError | CredMae, X MissingAnchorError | RegMae, X MissingAnchorError
  | CredOoo, OutOfOrderTxnState | RegOoo, OutOfOrderTxnState => true
  | _, _ => false
  end.
Definition isReg (t : etyp) : bool := match t with RegMae | RegOoo => true | _ => false end.
Definition dropEntry (x : entry) (s : st) : st :=
  let b := B s in mkS (R s) (mkB (dts b) (sns b) (bsgs b) (bcgs b) (filter (fun y => negb (entry_eqb x y)) (nes b)) (nas b)) (cues s).
(** escrowing.py:28 timeout, in microseconds *)
Definition timeout : N := 3600 * 1000000.
(** escrowing.py:117-165, one round of the loop *)
Definition unpark (v : view) (now : N) (x : entry) (s : st) : st :=
  let '(t, pre, aid, said) := x in
  let ts := fetchTsgs (bsgs (B s)) said None in
  let cs := match dget (bcgs (B s)) said with Some l => l | None => [] end in
  match dget (dts (B s)) said, dget (sns (B s)) said with
  | Some dt, Some r =>
      if (match ts with [] => true | _ => false end) && (match cs with [] => true | _ => false end) then dropEntry x s else
      if timeout <? now - dt then dropEntry x s else
      match handle (isReg t) v r aid cs (map (fun t => mkG (t_pre t) (t_sn t) (t_dig t) (t_sigs t)) ts) s with
      | (s, inr e) => if waits t e then s else dropEntry x s
      | (s, inl _) => dropEntry x s
      end
  | _, _ => dropEntry x s
  end.
(** for (typ, pre, aid), diger: the key with a dot in one of its parts has more of them *)
Definition dotted (x : entry) : bool := let '(_, pre, aid, _) := x in existsb (N.eqb 46) pre || existsb (N.eqb 46) aid.
(** escrowing.py:116-173 processEscrowState; whether it went through *)
Fixpoint loop (v : view) (now : N) (l : list entry) (s : st) : st * bool :=
  match l with
  | [] => (s, true)
  | x :: l => if dotted x then (s, false) else loop v now l (unpark v now x s)
  end.
Definition processState (t : etyp) (v : view) (now : N) (s : st) : st * bool :=
  loop v now (filter (fun x : entry => etyp_eqb t (fst (fst (fst x)))) (nes (B s))) s.
(** eventing.py:1974-1988: an exception ends it, and is logged *)
Definition pass (v : view) (now : N) (s : st) : st * bool :=
  fold_left (fun o t => if snd o : bool then processState t v now (fst o) else o) [CredMre; CredMae; CredOoo; RegMae; RegOoo] (s, true).

(** routing.py:504-567 processEscrowReply for a notice, one round *)
Definition sweep (v : view) (now : N) (rt said : bytes) (s : st) : st :=
  let drop s := mkS (removeReply (Some said) (remRpe rt said (R s))) (B s) (cues s) in
  match dget (sdts (R s)) said, dget (rpys (R s)) said, fetchTsgs (tsgs (R s)) said None with
  | Some dt, Some r, (_ :: _) as ts =>
      if timeoutRPE <? now - dt then drop s
      else match deliver v r [] (map (fun t => mkG (t_pre t) (t_sn t) (t_dig t) (t_sigs t)) ts) s with
           | (s, inr (X UnverifiedReplyError)) => s
           | (s, inr _) => drop s
           | (s, inl _) => mkS (remRpe rt said (R s)) (B s) (cues s)
           end
  | _, _, _ => drop s
  end.

(** what happens *)
Inductive ev := Msg (v : view) (r : reply) (cs : list cigar) (gs : list group) | Pass (v : view) (now : N) | Sweep (v : view) (now : N) (rt said : bytes).
Definition step (s : st) (e : ev) : st :=
  match e with
  | Msg v r cs gs => fst (deliver v r cs gs s)
  | Pass v now => fst (pass v now s)
  | Sweep v now rt said => sweep v now rt said s
  end.
Definition run (es : list ev) : st := fold_left step es st0.
End Ts.
