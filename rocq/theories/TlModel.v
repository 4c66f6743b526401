(** Transaction event logs of credential registries: vdr/eventing.py Tever (637-1422), the event
    part of Tevery (1425-1575, 1924-2104) and the read through cache of registries (2108-2167), with
    the sub-databases of Reger they use (2286-2309).

    Simplifications, common to the whole file.
    - Identifiers, saids and backers (named by their keys) are opaque numbers, as in KelModel.
    - An event is the record of its parsed fields; the field checks of Serder are not repeated.
      Hex texts are canonical, so they are compared as numbers.
    - The issuers' key event logs are given by a view: for a prefix and sequence number the said and
      seals of the last event there, if it is stored (kels.getLast, evts.get).
    - Cues, dates (tets) and log output are dropped.  Reply messages about registry state and queries
      (1577-1922) are not modelled. *)
From Verif Require Import Prelude B64Model MatterModel SubsModel ThModel KelModel.
Open Scope N_scope.

(** kering Ilks of TEL events *)
Inductive tilk := Vcp | Vrt | Iss | Rev | Bis | Brv | OtherT.
Definition tilk_eqb (a b : tilk) : bool :=
  match a, b with
  | Vcp, Vcp | Vrt, Vrt | Iss, Iss | Rev, Rev | Bis, Bis | Brv, Brv | OtherT, OtherT => true
  | _, _ => false
  end.

(** fields of registry and credential events (vdr/eventing.py:50-400): [t_pre] is i, [t_ri] is ri,
    [t_ra] is (ra.i, ra.d), [t_prior] is p, [t_nob] tells whether c contains NB *)
Record tev := mkTv {
  t_raw : bytes; t_said : N; t_pre : N; t_sn : N; t_ilk : tilk; t_ii : N; t_toad : N;
  t_baks : list N; t_cuts : list N; t_adds : list N; t_nob : bool; t_ri : N; t_ra : N * N;
  t_prior : N }.

(** attributes of Tever used here; [v_said] is .serder.said, [v_regk] is .regk = .prefixer.qb64 *)
Record tever := mkTever {
  v_ii : N; v_regk : N; v_sn : N; v_said : N; v_toad : N; v_baks : list N; v_nob : bool;
  v_local : bool }.

(** vdring.py RegStateRecord as written by state(), eventing.py:424-500 *)
Record rsr := mkRsr {
  r_ii : N; r_i : N; r_s : N; r_d : N; r_bt : N; r_b : list N; r_nob : bool }.

(** The stored part of Reger (2297-2309) and the registries in memory (2273).  [tels] holds for each
    prefix the entries (sn, said) in the order they were put. *)
Record tdb := mkTdb {
  tvts : amap tev;
  tels : N -> list (N * N);
  ancs : amap (N * N);
  baks : N -> N -> list N;
  tibs : N -> N -> list siger;
  oots : etab; twes : etab; taes : etab;
  tstates : N -> option rsr;
  tevers : N -> option tever }.
Definition tdb0 : tdb :=
  mkTdb (fun _ _ => None) (fun _ => []) (fun _ _ => None) (fun _ _ => []) (fun _ _ => []) [] [] []
        (fun _ => None) (fun _ => None).
Definition set_tvts v d := mkTdb v (tels d) (ancs d) (baks d) (tibs d) (oots d) (twes d) (taes d) (tstates d) (tevers d).
Definition set_tels v d := mkTdb (tvts d) v (ancs d) (baks d) (tibs d) (oots d) (twes d) (taes d) (tstates d) (tevers d).
Definition set_ancs v d := mkTdb (tvts d) (tels d) v (baks d) (tibs d) (oots d) (twes d) (taes d) (tstates d) (tevers d).
Definition set_baks v d := mkTdb (tvts d) (tels d) (ancs d) v (tibs d) (oots d) (twes d) (taes d) (tstates d) (tevers d).
Definition set_tibs v d := mkTdb (tvts d) (tels d) (ancs d) (baks d) v (oots d) (twes d) (taes d) (tstates d) (tevers d).
Definition set_oots v d := mkTdb (tvts d) (tels d) (ancs d) (baks d) (tibs d) v (twes d) (taes d) (tstates d) (tevers d).
Definition set_twes v d := mkTdb (tvts d) (tels d) (ancs d) (baks d) (tibs d) (oots d) v (taes d) (tstates d) (tevers d).
Definition set_taes v d := mkTdb (tvts d) (tels d) (ancs d) (baks d) (tibs d) (oots d) (twes d) v (tstates d) (tevers d).
Definition set_tstates v d := mkTdb (tvts d) (tels d) (ancs d) (baks d) (tibs d) (oots d) (twes d) (taes d) v (tevers d).
Definition set_tevers v d := mkTdb (tvts d) (tels d) (ancs d) (baks d) (tibs d) (oots d) (twes d) (taes d) (tstates d) v.
Definition set2 {A} (m : N -> N -> A) (a b : N) (v : A) : N -> N -> A :=
  fun a' b' => if (a' =? a) && (b' =? b) then v else m a' b'.

(** OnSuber.get and put (subing.py:501-610): put does not overwrite *)
Definition telAt (d : tdb) (p sn : N) : option N :=
  option_map snd (find (fun r => fst r =? sn) (tels d p)).
Definition telPut (p sn said : N) (d : tdb) : tdb :=
  match telAt d p sn with
  | Some _ => d
  | None => set_tels (fset (tels d) p (tels d p ++ [(sn, said)])) d
  end.
(** OnIoDupSuber.put of one value (subing.py:2572, dbing.py:2756-2803): the value is compared with
    those at ordinal 0, whatever the ordinal it is put at *)
Definition escPut (p sn said : N) (t : etab) : etab :=
  if etab_mem (p, 0, said) t then t else etab_ins (p, sn, said) t.
(** OnIoDupSuber.rem without value: all values at the ordinal (subing.py:2738-2765) *)
Definition escRem (p sn : N) (t : etab) : etab :=
  filter (fun r => let '(p', s', _) := r in negb ((p' =? p) && (s' =? sn))) t.

(** Tevery configuration (1442-1456): own registries, local and lax *)
Record tconf := mkTc { c_regs : list N; c_tlocal : bool; c_lax : bool }.
(** externals: Prefixer(qb64=..) succeeds, Verfer(qb64=..) succeeds, signature verification *)
Record tenv := mkTenv { goodPre : N -> bool; goodBak : N -> bool; tvrfy : N -> bytes -> bytes -> bool }.
(** last events of key event logs *)
Definition kelview := N -> N -> option (N * list seal).

Section Tel.
  Context (E : tenv) (cf : tconf).

  (** vdr/eventing.py:1299-1343 verifyAnchor: a seal without i, s or d raises KeyError *)
  Definition verifyAnchor (v : kelview) (ii : N) (anc : option (N * N)) (e : tev) : res bool :=
    match anc with
    | None => Ok false
    | Some (k, sd) =>
        match v ii k with
        | None => Ok false
        | Some (said, seals) =>
            if negb (said =? sd) then Ok false
            else match seals with
                 | [SealEvt i s g] => Ok ((i =? t_pre e) && (s =? t_sn e) && (g =? t_said e))
                 | [SealOther _] => Err KeyError
                 | _ => Ok false
                 end
        end
    end.

  (** reger.tibs.pin, baks.pin, tvts.put, ancs.put (vdr/eventing.py:1208-1239, 1345-1390) *)
  Definition pinTibs (e : tev) (bs : list siger) (d : tdb) : tdb :=
    match bs with [] => d | _ => set_tibs (set2 (tibs d) (t_pre e) (t_said e) bs) d end.
  Definition pinBaks (e : tev) (bk : list N) (d : tdb) : tdb :=
    match bk with [] => d | _ => set_baks (set2 (baks d) (t_pre e) (t_said e) bk) d end.
  Definition putTvt (e : tev) (d : tdb) : tdb := set_tvts (aput (tvts d) (t_pre e) (t_said e) e) d.
  Definition putAnc (e : tev) (a : N * N) (d : tdb) : tdb := set_ancs (aput (ancs d) (t_pre e) (t_said e) a) d.

  (** vdr/eventing.py:1345-1362 escrowPWEvent *)
  Definition escrowPW (e : tev) (a : N * N) (bs : list siger) (d : tdb) : tdb :=
    let d := putTvt e (pinTibs e bs (putAnc e a d)) in
    set_twes (escPut (t_pre e) (t_sn e) (t_said e) (twes d)) d.
  (** vdr/eventing.py:1364-1390 escrowALEvent *)
  Definition escrowAL (e : tev) (a : option (N * N)) (bs : list siger) (bk : list N) (d : tdb) : tdb :=
    let d := match a with Some a => putAnc e a d | None => d end in
    let d := putTvt e (pinBaks e bk (pinTibs e bs d)) in
    set_taes (escPut (t_pre e) (t_sn e) (t_said e) (taes d)) d.
  (** vdr/eventing.py:1945-1966 escrowOOEvent: without an anchor the event is stored and AttributeError raised *)
  Definition escrowOO (e : tev) (a : option (N * N)) (d : tdb) : tdb * exn :=
    let d := putTvt e d in
    match a with
    | None => (d, AttributeError)
    | Some a =>
        let d := putAnc e a d in
        (set_oots (escPut (t_pre e) (t_sn e) (t_said e) (oots d)) d, OutOfOrderError)
    end.

  (** vdr/eventing.py:1208-1239 logEvent *)
  Definition tlog (p sn : N) (e : tev) (a : N * N) (bs : list siger) (bk : list N) (d : tdb) : tdb :=
    telPut p sn (t_said e) (putTvt e (pinBaks e bk (pinTibs e bs (putAnc e a d)))).

  (** vdr/eventing.py:1241-1297 valAnchorBigs *)
  Definition valAnchorBigs (v : kelview) (tv : tever) (e : tev) (a : option (N * N)) (bs : list siger)
      (toad : N) (bk : list N) (d : tdb) : tdb * res (list siger) :=
    if negb (forallb (goodBak E) bk) then (d, Err ValidationError)
    else
      let '(vs, is) := verifySigs N (tvrfy E) (t_raw e) bs bk in
      match verifyAnchor v (v_ii tv) a e with
      | Err x => (d, Err x)
      | Ok false => (escrowAL e a vs bk d, Err MissingAnchorError)
      | Ok true =>
          if negb (isnil bk) && negb (v_local tv) && negb (memN (v_regk tv) bk) then
            if len bk <? toad then (d, Err ValidationError)
            else if len is <? toad then
              (match a with Some a => escrowPW e a vs d | None => d end, Err MissingWitnessSignatureError)
            else (d, Ok vs)
          else (d, Ok vs)
      end.

  (** vdr/eventing.py:793-830 incept, 832-855 config: validity of a registry inception and the state it starts *)
  Definition tincept (e : tev) (regk : N) (local : bool) : res tever :=
    raise_if (negb (t_sn e =? 0)) ValidationError (
    raise_if (negb (len (oset (t_baks e)) =? len (t_baks e))) ValidationError (
    raise_if (if isnil (t_baks e) then negb (t_toad e =? 0)
              else (t_toad e <? 1) || (len (t_baks e) <? t_toad e)) ValidationError (
    Ok (mkTever (t_ii e) regk 0 (t_said e) (t_toad e) (t_baks e) (t_nob e) local)))).

  (** vdr/eventing.py:921-1004 rotate *)
  Definition trotate (tv : tever) (e : tev) : res (N * list N) :=
    raise_if (negb (t_pre e =? v_regk tv)) ValidationError (
    raise_if (negb (t_sn e =? v_sn tv + 1)) ValidationError (
    raise_if (negb (t_prior e =? v_said tv)) ValidationError (
    let witset := oset (v_baks tv) in
    let cutset := oset (t_cuts e) in
    raise_if (negb (len cutset =? len (t_cuts e))) ValidationError (
    raise_if (negb (leqb (inter witset cutset) cutset)) ValidationError (
    let addset := oset (t_adds e) in
    raise_if (negb (len addset =? len (t_adds e))) ValidationError (
    raise_if (negb (isnil (inter cutset addset))) ValidationError (
    raise_if (negb (isnil (inter witset addset))) ValidationError (
    let bk := addNs (diff witset cutset) addset in
    raise_if (negb (len bk + len (t_cuts e) =? len (v_baks tv) + len (t_adds e))) ValidationError (
    raise_if (if isnil bk then negb (t_toad e =? 0)
              else (t_toad e <? 1) || (len bk <? t_toad e)) ValidationError (
    Ok (t_toad e, bk))))))))))).

  (** vdr/eventing.py:1392-1422 getBackerState: any stored registry event serves, accepted or not; one without a bt
      field raises KeyError *)
  Definition getBackerState (tv : tever) (e : tev) (d : tdb) : res (N * list N) :=
    raise_if (negb (fst (t_ra e) =? v_regk tv)) ValidationError (
    match tvts d (fst (t_ra e)) (snd (t_ra e)) with
    | None => Err ValidationError
    | Some r => match t_ilk r with
                | Vcp | Vrt => Ok (t_toad r, baks d (fst (t_ra e)) (snd (t_ra e)))
                | _ => Err KeyError
                end
    end).

  (** vdr/eventing.py:1032-1051, 1111-1122: simple issue and revoke *)
  Definition simple (v : kelview) (tv : tever) (e : tev) (a : option (N * N)) (d : tdb) : tdb * res unit :=
    match verifyAnchor v (v_ii tv) a e with
    | Err x => (d, Err x)
    | Ok false => (escrowAL e a [] [] d, Err MissingAnchorError)
    | Ok true => (match a with Some a => tlog (t_pre e) (t_sn e) e a [] [] d | None => d end, Ok tt)
    end.
  (** vdr/eventing.py:1058-1066, 1130-1138: backer issue and revoke *)
  Definition backed (v : kelview) (tv : tever) (e : tev) (a : option (N * N)) (bs : list siger) (d : tdb)
    : tdb * res unit :=
    match getBackerState tv e d with
    | Err x => (d, Err x)
    | Ok (toad, bk) =>
        match valAnchorBigs v tv e a bs toad bk d with
        | (d, Err x) => (d, Err x)
        | (d, Ok vs) => (match a with Some a => tlog (t_pre e) (t_sn e) e a vs [] d | None => d end, Ok tt)
        end
    end.

  (** vdr/eventing.py:1006-1069 issue *)
  Definition tissue (v : kelview) (tv : tever) (e : tev) (a : option (N * N)) (bs : list siger) (d : tdb)
    : tdb * res unit :=
    match t_ilk e with
    | Iss => if negb (v_nob tv) then (d, Err ValidationError)
             else if negb (t_ri e =? v_regk tv) then (d, Err ValidationError)
             else simple v tv e a d
    | _ => if v_nob tv then (d, Err ValidationError) else backed v tv e a bs d
    end.

  (** vdr/eventing.py:1071-1142 revoke: the event before is looked up by the credential alone *)
  Definition trevoke (v : kelview) (tv : tever) (e : tev) (a : option (N * N)) (bs : list siger) (d : tdb)
    : tdb * res unit :=
    match telAt d (t_pre e) (t_sn e - 1) with
    | None => (d, Err ValidationError)
    | Some dig =>
        match tvts d (t_pre e) dig with
        | None => (d, Err ValidationError)
        | Some ie =>
            if negb (t_said ie =? t_prior e) then (d, Err ValidationError)
            else match t_ilk e with
                 | Rev => if negb (v_nob tv) then (d, Err ValidationError) else simple v tv e a d
                 | _ => if v_nob tv then (d, Err ValidationError) else backed v tv e a bs d
                 end
        end
    end.

  (** vdr/eventing.py:857-918 update.  The caller has validated the sequence number the same way (879, 1501). *)
  Definition tupdate (v : kelview) (tv : tever) (e : tev) (a : option (N * N)) (bs : list siger) (d : tdb)
    : tdb * res unit :=
    match t_ilk e with
    | Vrt =>
        if v_nob tv then (d, Err ValidationError)
        else match trotate tv e with
             | Err x => (d, Err x)
             | Ok (toad, bk) =>
                 match valAnchorBigs v tv e a bs toad bk d with
                 | (d, Err x) => (d, Err x)
                 | (d, Ok vs) =>
                     let tv' := mkTever (v_ii tv) (v_regk tv) (t_sn e) (t_said e) toad bk (v_nob tv) (v_local tv) in
                     let d := set_tevers (fset (tevers d) (v_regk tv) (Some tv')) d in
                     (match a with Some a => tlog (v_regk tv) (t_sn e) e a vs bk d | None => d end, Ok tt)
                 end
             end
    | Iss | Bis => tissue v tv e a bs d
    | Rev | Brv => trevoke v tv e a bs d
    | _ => (d, Err ValidationError)
    end.

  (** vdr/eventing.py:1924-1943 registryKey *)
  Definition registryKey (e : tev) : res N :=
    match t_ilk e with
    | Vcp | Vrt => Ok (t_pre e)
    | Iss | Rev => Ok (t_ri e)
    | Bis | Brv => Ok (fst (t_ra e))
    | OtherT => Err ValidationError
    end.

  (** vdr/eventing.py:735-760 reload, 2121-2153 rbdict: a registry is read from memory, else from its stored state.
      Reading again instead of caching the reloaded object makes no difference until it is updated,
      when [tupdate] puts it into memory. *)
  Definition tget (d : tdb) (regk : N) : option tever :=
    match tevers d regk with
    | Some tv => Some tv
    | None =>
        match tstates d regk with
        | None => None
        | Some s => match tvts d (r_i s) (r_d s) with
                    | None => None
                    | Some e => Some (mkTever (r_ii s) (r_i s) (r_s s) (t_said e) (r_bt s) (r_b s) (r_nob s) false)
                    end
        end
    end.
  (** vdr/eventing.py:762-791 state, 2137-2139 rbdict.__setitem__ *)
  Definition stateOf (tv : tever) : rsr :=
    mkRsr (v_ii tv) (v_regk tv) (v_sn tv) (v_said tv) (v_toad tv) (v_baks tv) (v_nob tv).
  Definition tset (regk : N) (tv : tever) (d : tdb) : tdb :=
    set_tstates (fset (tstates d) regk (Some (stateOf tv))) (set_tevers (fset (tevers d) regk (Some tv)) d).

  (** kering.py MaxON *)
  Definition MaxON : N := 340282366920938463463374607431768211455.
  (** coring.py:1771-1803 Number.validate *)
  Definition snOk (e : tev) : bool :=
    (t_sn e <=? MaxON) &&
    match t_ilk e with Vcp | Iss | Bis => t_sn e =? 0 | _ => 1 <=? t_sn e end.

  (** vdr/eventing.py:1194-1206 vcSn, 1550-1554: next sequence number *)
  Definition nextSn (d : tdb) (tv : tever) (e : tev) : N :=
    match t_ilk e with
    | Vrt => v_sn tv + 1
    | _ => len (tels d (t_pre e))
    end.

  (** vdr/eventing.py:1476-1575 processEvent, 667-733 Tever.__init__ *)
  Definition tprocess (v : kelview) (e : tev) (a : option (N * N)) (bs : list siger) (d : tdb)
    : tdb * res unit :=
    if negb (goodPre E (t_pre e)) then (d, Err ValidationError)
    else match registryKey e with
    | Err x => (d, Err x)
    | Ok regk =>
        if negb (snOk e) then (d, Err ValidationError)
        else if negb (c_lax cf) && (if c_tlocal cf then negb (memN regk (c_regs cf)) else memN regk (c_regs cf))
        then (d, Err ValueError)
        else match tget d regk with
        | None =>
            match t_ilk e with
            | Vcp =>
                match tincept e regk (c_tlocal cf) with
                | Err x => (d, Err x)
                | Ok tv =>
                    match valAnchorBigs v tv e a bs (v_toad tv) (v_baks tv) d with
                    | (d, Err x) => (d, Err x)
                    | (d, Ok vs) =>
                        (tset regk tv (match a with Some a => tlog (t_pre e) 0 e a vs (v_baks tv) d | None => d end), Ok tt)
                    end
                end
            | _ => let '(d, x) := escrowOO e a d in (d, Err x)
            end
        | Some tv =>
            match t_ilk e with
            | Vcp => (d, Err LikelyDuplicitousError)
            | _ =>
                let sno := nextSn d tv e in
                if sno <? t_sn e then let '(d, x) := escrowOO e a d in (d, Err x)
                else if t_sn e =? sno then tupdate v tv e a bs d
                else (d, Err LikelyDuplicitousError)
            end
        end
    end.

  (** vdr/eventing.py:1991-2045 processEscrowOutOfOrders, one entry *)
  Definition sweepOO1 (v : kelview) (r : N * N * N) (d : tdb) : tdb :=
    let '(p, s, g) := r in
    let rem d := set_oots (escRem p s (oots d)) d in
    match tvts d p g with
    | None => rem d
    | Some e =>
        match ancs d p g with
        | None => rem d
        | Some a => match tprocess v e (Some a) (tibs d p g) d with
                    | (d', Err OutOfOrderError) => d'
                    | (d', _) => rem d'
                    end
        end
    end.
  (** vdr/eventing.py:2048-2104 processEscrowAnchorless, one entry *)
  Definition sweepAL1 (v : kelview) (r : N * N * N) (d : tdb) : tdb :=
    let '(p, s, g) := r in
    let rem d := set_taes (escRem p s (taes d)) d in
    match tvts d p g with
    | None => rem d
    | Some e =>
        match ancs d p g with
        | None => d
        | Some a => match tprocess v e (Some a) (tibs d p g) d with
                    | (d', Err MissingAnchorError) => d'
                    | (d', _) => rem d'
                    end
        end
    end.
  (** vdr/eventing.py:1968-1989 processEscrows: the entries are those present when the loop starts (a read
      transaction); entries of partially witnessed events (twes) are not visited *)
  Definition sweepAL (v : kelview) (d : tdb) : tdb := fold_left (fun d r => sweepAL1 v r d) (taes d) d.
  Definition sweepOO (v : kelview) (d : tdb) : tdb := fold_left (fun d r => sweepOO1 v r d) (oots d) d.
  Definition tsweep (v : kelview) (d : tdb) : tdb := sweepOO v (sweepAL v d).

  (** process ends and starts again: registries in memory are gone *)
  Definition trestart (d : tdb) : tdb := set_tevers (fun _ => None) d.

  (** vdr/eventing.py:1144-1192 vcState: issued with one entry, revoked with more, whatever the entries are *)
  Inductive vcst := NeverIssued | Issued | Revoked.
  Definition vcState (d : tdb) (vci : N) : vcst :=
    match tels d vci with [] => NeverIssued | [_] => Issued | _ => Revoked end.
End Tel.
