(** Reply messages: core/routing.py Router.dispatch (52-77), Revery.processReply (141-179),
    acceptReply (181-429), updateReply (431-466), removeReply (468-479), escrowReply (481-502),
    processEscrowReply (504-567), compile_uri_template (596-651); core/eventing.py
    Kevery.registerReplyRoutes (5056-5064), processReplyEndRole (5067-5159),
    processReplyLocScheme (5162-5257), processReplyKeyStateNotice (5260-5384), updateEnd,
    updateLoc, updateKeyState (5387-5439), processReplyAddWatched (5450-5524), updateWatched
    (5526-5540); db/dbing.py fetchTsgs (69-107).

    Simplifications, common to the whole file.
    - Identifiers, digests, keys and signatures are texts.  Signature verification, the
      transferability of a key or prefix, the check of a reply's said, the check that a text is
      an identifier prefix and urlsplit are parameters ([renv]).
    - The receiver's key event logs are given by [kview]: the establishment data of the last
      event at a sequence number (db.kels.getLast followed by db.evts.get) and the sequence
      number of the current key state.  It may be different at each call.
    - Date times are numbers of microseconds; every date time of a message parses.
    - The attributes of a reply are texts, except the key state record of a key state notice.
    - Templates are matched without ignoring case: a route that differs by case from the
      template is refused by the handler instead of the router, with the same exception.  Routes
      registered by other resources (oobis, transaction states) are not modelled.
    - Logging and cues are dropped.  The .oobis record of a watched identifier is dropped.
    - Sub-databases are association lists.  The escrow table is one list of (route, said) in
      order of insertion. *)
From Verif Require Import Prelude B64Model SubsModel ThModel JsonModel Lex.
Open Scope N_scope.

(** basing.py KeyStateRecord, the fields used (None below for a malformed record);
    [ks_rec] is the whole record, serialized *)
Record ksr := mkKsr { ks_i : bytes; ks_s : N; ks_d : bytes; ks_b : list bytes; ks_rec : bytes }.

(** a reply message: serder.said, .raw, ['dt'], ['r'], ['a'] *)
Record reply := mkReply { q_said : bytes; q_raw : bytes; q_dt : N; q_route : bytes;
                          q_data : list (bytes * bytes); q_ksr : option ksr }.
(** an attached couple (verfer, cigar) and an attached group of indexed signatures *)
Record cigar := mkCig { c_key : bytes; c_raw : bytes }.
Record tsg := mkT { t_said : bytes; t_pre : bytes; t_sn : N; t_dig : bytes; t_sigs : list siger }.
Record group := mkG { g_pre : bytes; g_sn : N; g_dig : bytes; g_sigs : list siger }.

(** what acceptReply uses of the event found in the key event log: said, verfers, tholder *)
Record est := mkEst { e_said : bytes; e_keys : list bytes; e_th : tholder }.
Record kview := mkKv { at_sn : bytes -> N -> option est; cur_sn : bytes -> option N }.

(** external functions, see the head of the file *)
Record renv := mkEnv { trans : bytes -> bool; vrfy : bytes -> bytes -> bytes -> bool; saidOk : reply -> bool;
  pfxOk : bytes -> bool; urlScheme : bytes -> bytes; lax : bool; local : bool; owns : list bytes; wats : list bytes }.

(** The sub-databases sdts, rpys, scgs, tsgs, rpes; [ans] is eans, lans, wwas and knas (keys
    prefixed by a tag), [vals] is ends, locs, obvs and ksns. *)
Record rdb := mkR { sdts : list (bytes * N); rpys : list (bytes * reply); scgs : list (bytes * list cigar);
  tsgs : list tsg; rpes : list (bytes * bytes); ans : list (bytes * bytes); vals : list (bytes * bytes) }.
Definition rdb0 : rdb := mkR [] [] [] [] [] [] [].

(** finite map operations: pin and rem of a Suber *)
Definition dput {V} (d : list (bytes * V)) (k : bytes) (v : V) : list (bytes * V) :=
  match dget d k with Some _ => d | None => dset d k v end.
Definition drem {V} (d : list (bytes * V)) (k : bytes) : list (bytes * V) :=
  filter (fun kv => negb (beq (fst kv) k)) d.

(** IoSet put of signatures: those not yet present, in order *)
Fixpoint addSigs (old new : list siger) : list siger :=
  match new with
  | [] => old
  | s :: new' => if memB (sg_qb64 s) (map sg_qb64 old) then addSigs old new' else addSigs (old ++ [s]) new'
  end.

(** the key of a group in .tsgs: said.pre.sn.dig with sn in 32 hex digits *)
Definition tkey (t : tsg) : bytes := joinb 46 [t_said t; t_pre t; hexpad 32 (t_sn t); t_dig t].
Definition sameT (a b : tsg) : bool :=
  beq (t_said a) (t_said b) && beq (t_pre a) (t_pre b) && (t_sn a =? t_sn b) && beq (t_dig a) (t_dig b).
(** .tsgs.put, keeping the order of the keys.  Putting no signature changes nothing. *)
Fixpoint tput (l : list tsg) (t : tsg) : list tsg :=
  match t_sigs t with
  | [] => l
  | _ =>
    match l with
    | [] => [mkT (t_said t) (t_pre t) (t_sn t) (t_dig t) (addSigs [] (t_sigs t))]
    | x :: l' =>
        if sameT x t then mkT (t_said x) (t_pre x) (t_sn x) (t_dig x) (addSigs (t_sigs x) (t_sigs t)) :: l'
        else if bltb (tkey t) (tkey x) then mkT (t_said t) (t_pre t) (t_sn t) (t_dig t) (addSigs [] (t_sigs t)) :: x :: l'
        else x :: tput l' t
    end
  end.
(** .tsgs.get of the quadruple *)
Definition tget (l : list tsg) (said pre : bytes) (sn : N) (dig : bytes) : list siger :=
  match find (fun x => sameT x (mkT said pre sn dig [])) l with Some x => t_sigs x | None => [] end.

(** itertools.takewhile; helper *)
Fixpoint takeWhile {A} (f : A -> bool) (l : list A) : list A :=
  match l with [] => [] | x :: l' => if f x then x :: takeWhile f l' else [] end.

(** dbing.py:69-107 fetchTsgs: the groups stored for a said, in order of their keys, up to the
    first whose 32 digit sequence number is, as a text, above [snh]. *)
Definition fetchTsgs (l : list tsg) (said : bytes) (snh : option bytes) : list tsg :=
  let mine := filter (fun t => beq (t_said t) said) l in
  match snh with
  | None => mine
  | Some s => takeWhile (fun t => negb (bltb s (hexpad 32 (t_sn t)))) mine
  end.

(** Writes of an interrupted call stay: state and exception. *)
Definition M (A : Type) := rdb -> rdb * res A.
Definition ret {A} (a : A) : M A := fun d => (d, Ok a).
Definition throw {A} (e : exn) : M A := fun d => (d, Err e).
Definition bindM {A B} (m : M A) (f : A -> M B) : M B :=
  fun d => match m d with (d', Ok a) => f a d' | (d', Err e) => (d', Err e) end.
Definition upd (f : rdb -> rdb) : M unit := fun d => (f d, Ok tt).
Definition rd : M rdb := fun d => (d, Ok d).
Definition lift {A} (r : res A) : M A := fun d => (d, r).
Notation "x <~ e ;; f" := (bindM e (fun x => f)) (at level 61, e at next level, right associativity).

(** writes of one sub-database (basing.py:1078-1160) *)
Definition setSdts d x := mkR x (rpys d) (scgs d) (tsgs d) (rpes d) (ans d) (vals d).
Definition setRpys d x := mkR (sdts d) x (scgs d) (tsgs d) (rpes d) (ans d) (vals d).
Definition setScgs d x := mkR (sdts d) (rpys d) x (tsgs d) (rpes d) (ans d) (vals d).
Definition setTsgs d x := mkR (sdts d) (rpys d) (scgs d) x (rpes d) (ans d) (vals d).
Definition setRpes d x := mkR (sdts d) (rpys d) (scgs d) (tsgs d) x (ans d) (vals d).
Definition setAns d x := mkR (sdts d) (rpys d) (scgs d) (tsgs d) (rpes d) x (vals d).
Definition setVals d x := mkR (sdts d) (rpys d) (scgs d) (tsgs d) (rpes d) (ans d) x.

(** the first two writes of routing.py:459-461 and 497-499: first one idempotent *)
Definition putReply (r : reply) (d : rdb) : rdb :=
  setRpys (setSdts d (dput (sdts d) (q_said r) (q_dt r))) (dput (rpys d) (q_said r) r).

(** routing.py:431-466 updateReply with a cigar; [cigs] of a said is a set *)
Definition sameC (a b : cigar) : bool := beq (c_key a) (c_key b) && beq (c_raw a) (c_raw b).
Definition updateCig (r : reply) (cg : cigar) (d0 : rdb) : rdb :=
  let d := putReply r d0 in
  let old := match dget (scgs d) (q_said r) with Some l => l | None => [] end in
  setScgs d (dset (scgs d) (q_said r) (if existsb (sameC cg) old then old else old ++ [cg])).

(** routing.py:431-466 updateReply with a group *)
Definition updateGrp (r : reply) (g : group) (sigs : list siger) (d0 : rdb) : rdb :=
  let d := putReply r d0 in
  setTsgs d (tput (tsgs d) (mkT (q_said r) (g_pre g) (g_sn g) (g_dig g) sigs)).

(** routing.py:468-479 removeReply *)
Definition removeReply (o : option bytes) (d : rdb) : rdb :=
  match o with
  | None => d
  | Some s => mkR (drem (sdts d) s) (drem (rpys d) s) (drem (scgs d) s)
                  (filter (fun t => negb (beq (t_said t) s)) (tsgs d)) (rpes d) (ans d) (vals d)
  end.

(** routing.py:481-502 escrowReply *)
Definition hasRpe (l : list (bytes * bytes)) (route said : bytes) : bool :=
  existsb (fun x => beq (fst x) route && beq (snd x) said) l.
Definition escrowReply (r : reply) (route : bytes) (g : group) (sigs : list siger) (d : rdb) : rdb :=
  match sigs with
  | [] => d
  | _ =>
    let d1 := updateGrp r g sigs d in
    setRpes d1 (if hasRpe (rpes d1) route (q_said r) then rpes d1 else rpes d1 ++ [(route, q_said r)])
  end.

Section Rp.
  Variable e : renv.

  (** routing.py:248-258, 297-304: attachments by an own prefix from elsewhere are ignored *)
  Definition skipOwn (p : bytes) : bool := negb (lax e) && memB p (owns e) && negb (local e).

  (** routing.py:240-294, the loop over the couples.  [odt] is the date time of the obsoleted
      reply, read before the loop. *)
  Fixpoint cigLoop (r : reply) (aid : bytes) (o : option bytes) (odt : option N) (cs : list cigar) : M bool :=
    match cs with
    | [] => ret false
    | cg :: cs' =>
        if trans e (c_key cg) then cigLoop r aid o odt cs'
        else if skipOwn (c_key cg) then cigLoop r aid o odt cs'
        else if negb (beq aid (c_key cg)) then cigLoop r aid o odt cs'
        else if match odt with Some x => q_dt r <=? x | None => false end then cigLoop r aid o odt cs'
        else if negb (vrfy e (c_key cg) (c_raw cg) (q_raw r)) then cigLoop r aid o odt cs'
        else _ <~ upd (updateCig r cg) ;; _ <~ upd (removeReply o) ;; ret true
    end.

  (** routing.py:316-342: the group is stale with respect to the obsoleted reply *)
  Definition staleGrp (r : reply) (g : group) (o : option bytes) (odt : option N) (d : rdb) : bool :=
    match o with
    | None => false
    | Some s =>
        match fetchTsgs (tsgs d) s None with
        | [] => false
        | t0 :: _ => (g_sn g <? t_sn t0) ||
                     ((g_sn g =? t_sn t0) && match odt with Some x => q_dt r <=? x | None => false end)
        end
    end.

  (** routing.py:405-413: the format 032h is not a format of integers *)
  Definition trimLoop (r : reply) (g : group) : M unit :=
    d <~ rd ;;
    if existsb (fun t => (t_sn t <? g_sn g) || ((t_sn t =? g_sn g) && negb (beq (t_dig t) (g_dig g))))
               (fetchTsgs (tsgs d) (q_said r) (Some (hexstr (g_sn g))))
    then throw ValueError else ret tt.

  (** routing.py:296-427, the loop over the groups *)
  Fixpoint grpLoop (kv : kview) (r : reply) (route aid : bytes) (o : option bytes) (odt : option N)
    (acc : bool) (gs : list group) : M bool :=
    match gs with
    | [] => ret acc
    | g :: gs' =>
        d <~ rd ;;
        if skipOwn (g_pre g) then grpLoop kv r route aid o odt acc gs'
        else if negb (beq aid (g_pre g)) then grpLoop kv r route aid o odt acc gs'
        else if staleGrp r g o odt d then grpLoop kv r route aid o odt acc gs'
        else match at_sn kv (g_pre g) (g_sn g) with
        | None => _ <~ upd (escrowReply r route g (g_sigs g)) ;; grpLoop kv r route aid o odt acc gs'
        | Some ev =>
            if negb (beq (e_said ev) (g_dig g)) then throw ValidationError
            else match e_keys ev with
            | [] => throw ValidationError
            | _ =>
                vv <~ lift (validateSigs bytes (vrfy e) (q_raw r)
                              (g_sigs g ++ tget (tsgs d) (q_said r) (g_pre g) (g_sn g) (g_dig g))
                              (e_keys ev) (e_th ev)) ;;
                if snd vv : bool
                then _ <~ upd (updateGrp r g (fst vv)) ;;
                     _ <~ upd (removeReply o) ;;
                     _ <~ trimLoop r g ;;
                     grpLoop kv r route aid o odt true gs'
                else _ <~ upd (escrowReply r route g (fst vv)) ;; grpLoop kv r route aid o odt acc gs'
            end
        end
    end.

  (** routing.py:181-429 acceptReply *)
  Definition acceptReply (kv : kview) (r : reply) (route aid : bytes) (o : option bytes)
    (cs : list cigar) (gs : list group) : M bool :=
    d <~ rd ;;
    let odt := match o with Some s => dget (sdts d) s | None => None end in
    acc <~ cigLoop r aid o odt cs ;;
    grpLoop kv r route aid o odt acc gs.

  (** kering.py:374-380 *)
  Definition schemes : list bytes := map s2b ["tcp"; "http"; "https"]%string.
  Definition roles : list bytes := map s2b ["controller"; "witness"; "registrar"; "gateway"; "watcher"; "judge";
    "juror"; "peer"; "mailbox"; "agent"; "indexer"]%string.

  (** Python bytes.startswith *)
  Fixpoint startswith (p s : bytes) : bool :=
    match p, s with
    | [], _ => true
    | x :: p', y :: s' => (x =? y) && startswith p' s'
    | _, [] => false
    end.

  (** lookup of a field; the exception of a missing one *)
  Definition field (d : list (bytes * bytes)) (k : string) (x : exn) : res bytes :=
    match dget d (s2b k) with Some v => Ok v | None => Err x end.

  (** What a handler makes of the body of a reply before it is verified: table tag, authorizing
      identifier, key of the record, base route of the escrow, value recorded. *)
  Record preq := mkP { p_tag : N; p_aid : bytes; p_key : bytes; p_route : bytes; p_val : bytes }.
  Definition tagEnd : N := 0.
  Definition tagLoc : N := 1.
  Definition tagWat : N := 2.
  Definition tagKsn : N := 3.
  Definition key (tag : N) (parts : list bytes) : bytes := tag :: joinb 46 parts.
  Definition flag (b : bool) : bytes := s2b (if b then "true" else "false")%string.

  (** eventing.py:5121-5145 *)
  Definition parseEnd (r : reply) : res preq :=
    allowed <- (if startswith (s2b "/end/role/add") (q_route r) then Ok true
                else if startswith (s2b "/end/role/cut") (q_route r) then Ok false
                else Err ValidationError) ;;
    cid <- field (q_data r) "cid" ValidationError ;;
    role <- field (q_data r) "role" ValidationError ;;
    eid <- field (q_data r) "eid" ValidationError ;;
    raise_if (negb (pfxOk e cid)) InvalidCodeError (
    raise_if (negb (memB role roles)) ValidationError (
    raise_if (negb (pfxOk e eid)) InvalidCodeError (
    Ok (mkP tagEnd cid (key tagEnd [cid; role; eid]) (s2b "/end/role") (flag allowed))))).

  (** eventing.py:5221-5245 *)
  Definition parseLoc (r : reply) : res preq :=
    raise_if (negb (startswith (s2b "/loc/scheme") (q_route r))) ValidationError (
    eid <- field (q_data r) "eid" ValidationError ;;
    scheme <- field (q_data r) "scheme" ValidationError ;;
    url <- field (q_data r) "url" ValidationError ;;
    raise_if (negb (pfxOk e eid)) InvalidCodeError (
    raise_if (negb (memB scheme schemes)) ValidationError (
    raise_if (match urlScheme e url with [] => false | u => negb (beq u scheme) end) ValidationError (
    Ok (mkP tagLoc eid (key tagLoc [eid; scheme]) (s2b "/loc/scheme") url))))).

  (** eventing.py:5487-5511; [aid] and [action] are the fields of the route *)
  Definition parseWat (r : reply) (aid action : bytes) : res preq :=
    raise_if (negb (startswith (s2b "/watcher") (q_route r))) ValidationError (
    enabled <- (if beq action (s2b "add") then Ok true else if beq action (s2b "cut") then Ok false
                else Err ValidationError) ;;
    cid <- field (q_data r) "cid" KeyError ;;
    oid <- field (q_data r) "oid" KeyError ;;
    Ok (mkP tagWat cid (key tagWat [cid; aid; oid]) (s2b "/watcher/" ++ aid) (flag enabled))).

  (** eventing.py:5387-5419, 5526-5540 updateEnd, updateLoc, updateWatched *)
  Definition record (k said v : bytes) (d : rdb) : rdb :=
    setVals (setAns d (dset (ans d) k said)) (dset (vals d) k v).

  (** eventing.py:5145-5159, 5244-5257, 5511-5524: the common end of three handlers; only the
      handler of end roles forgets a recorded said that is the said of the reply (5147-5148) *)
  Definition finish (kv : kview) (r : reply) (p : preq) (cs : list cigar) (gs : list group) : M unit :=
    d <~ rd ;;
    let o := match dget (ans d) (p_key p) with
             | Some s => if (p_tag p =? tagEnd) && beq s (q_said r) then None else Some s
             | None => None
             end in
    accepted <~ acceptReply kv r (p_route p) (p_aid p) o cs gs ;;
    if accepted : bool then upd (record (p_key p) (q_said r) (p_val p)) else throw UnverifiedReplyError.

  (** eventing.py:5322-5384 processReplyKeyStateNotice.  The UntrustedKeyStateSource of 5351 is
      never raised: its message reads ksr.pre, which does not exist. *)
  Definition handleKsn (kv : kview) (r : reply) (aid : bytes) (cs : list cigar) (gs : list group) : M unit :=
    if negb (startswith (s2b "/ksn") (q_route r)) then throw ValidationError
    else match q_ksr r with
    | None => throw ValidationError
    | Some k =>
        if negb (lax e) && negb (beq aid (ks_i k)) && negb (memB aid (ks_b k)) && negb (memB aid (wats e))
        then throw AttributeError
        else if match cur_sn kv (ks_i k) with Some n => ks_s k <? n | None => false end then throw ValidationError
        else
          d <~ rd ;;
          accepted <~ acceptReply kv r (q_route r) aid (dget (ans d) (key tagKsn [ks_i k; aid])) cs gs ;;
          if negb accepted then throw UnverifiedReplyError
          else if match at_sn kv (ks_i k) (ks_s k) with Some ev => negb (beq (e_said ev) (ks_d k)) | None => false end
          then throw ValidationError
          else upd (fun d1 => setVals (setAns d1 (dset (ans d1) (key tagKsn [ks_i k; aid]) (ks_d k)))
                                      (dset (vals d1) (key tagKsn [ks_d k]) (ks_rec k)))
    end.

  (** The handler that a route leads to: eventing.py:5061-5064, routing.py:52-95 and 596-651.
      A field of a template matches a non empty text without '/'. *)
  Inductive handler := HEnd | HLoc | HKsn (aid : bytes) | HWat (aid action : bytes).
  Definition nonempty (b : bytes) : bool := match b with [] => false | _ => true end.
  Definition findRoute (route : bytes) : option handler :=
    match splitb 47 route with
    | [z; a; b; x] =>
        if nonempty z then None
        else if beq a (s2b "end") && beq b (s2b "role") && nonempty x then Some HEnd
        else if beq a (s2b "watcher") && nonempty b && nonempty x then Some (HWat b x)
        else None
    | [z; a; b] =>
        if nonempty z then None
        else if beq a (s2b "loc") && beq b (s2b "scheme") then Some HLoc
        else if beq a (s2b "ksn") && nonempty b then Some (HKsn b)
        else None
    | _ => None
    end.

  (** the body of a reply, for the three handlers that share [finish] *)
  Definition parse (r : reply) : res preq :=
    match findRoute (q_route r) with
    | Some HEnd => parseEnd r
    | Some HLoc => parseLoc r
    | Some (HWat aid action) => parseWat r aid action
    | _ => Err ValidationError
    end.

  (** routing.py:141-179 processReply and 52-77 dispatch *)
  Definition processReply (kv : kview) (r : reply) (cs : list cigar) (gs : list group) : M unit :=
    if negb (saidOk e r) then throw ValidationError
    else match findRoute (q_route r) with
    | None => throw ValidationError
    | Some (HKsn aid) => handleKsn kv r aid cs gs
    | Some _ => p <~ lift (parse r) ;; finish kv r p cs gs
    end.

  (** routing.py:119 TimeoutRPE, in microseconds *)
  Definition timeoutRPE : N := 3600 * 1000000.

  (** routing.py:556-566 removal from the escrow *)
  Definition remRpe (route said : bytes) (d : rdb) : rdb :=
    setRpes d (filter (fun x => negb (beq (fst x) route && beq (snd x) said)) (rpes d)).

  (** routing.py:511-567, one round of the loop *)
  Definition unescrow (kv : kview) (now : N) (route said : bytes) (d : rdb) : rdb :=
    let drop d := removeReply (Some said) (remRpe route said d) in
    match dget (sdts d) said, dget (rpys d) said, fetchTsgs (tsgs d) said None with
    | Some dt, Some r, (_ :: _) as ts =>
        if timeoutRPE <? now - dt then drop d
        else match processReply kv r [] (map (fun t => mkG (t_pre t) (t_sn t) (t_dig t) (t_sigs t)) ts) d with
             | (d', Err UnverifiedReplyError) => d'
             | (d', Err _) => drop d'
             | (d', Ok _) => remRpe route said d'
             end
    | _, _, _ => drop d
    end.

  (** routing.py:504-567 processEscrowReply: the loop runs over the table as it was at its start *)
  Definition processEscrowReply (kv : kview) (now : N) (d : rdb) : rdb :=
    fold_left (fun d x => unescrow kv now (fst x) (snd x) d) (rpes d) d.
End Rp.
