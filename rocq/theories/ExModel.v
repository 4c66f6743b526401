(** Exchange messages: peer/exchanging.py Exchanger (28-362), cloneMessage (609-633), verify (712-774);
    vc/protocoling.py IpexHandler (41-120); db/basing.py resolveVerifiers (2085-2123).

    Simplifications, common to the whole file.
    - Identifiers, digests, keys and signatures are texts.  Signature verification, the transferability of
      a prefix, the comparison of an ESSR attachment with its digest and the reading of a path in front of
      an attachment are parameters ([xenv]).
    - The receiver's key event logs are given by [xview]: what resolveVerifiers reads of the last event at a
      sequence number (said, keys and threshold, both missing in interaction events), and the sequence
      number of the current key state.  It may be different at each call.
    - Nested substreams are kept in serialized form, which always succeeds and reads back.
    - Date times are numbers of seconds.  Logging is dropped.  Cues are lists.
    - Sub-databases are association lists; sets of values are lists without repetition. *)
From Verif Require Import Prelude B64Model SubsModel ThModel JsonModel Lex RpModel.
Open Scope N_scope.

(** an exchange message: serder.said, .raw, ['i'], ['r'], ['p'], and ['a'] when that is a text *)
Record xmsg := mkX { x_said : bytes; x_raw : bytes; x_sender : bytes; x_route : bytes; x_prior : bytes; x_essr : option bytes }.

(** what is read of a key event: said, verfers, tholder *)
Record xest := mkXest { xe_said : bytes; xe_keys : option (list bytes); xe_th : option tholder }.
Record xview := mkXv { xat : bytes -> N -> option xest; xcur : bytes -> option N }.

(** answer of behavior.verify and behavior.handle; [BNone]: AttributeError, raised inside or because the
    behavior has no such method *)
Inductive bres := BTrue | BFalse | BNone | BRaise (e : exn).
(** what is passed to a behavior: attachments under e, nests, essr *)
Record xkwa := mkKwa { kw_atc : list (bytes * bytes); kw_nests : option (list bytes); kw_essr : option bytes }.
(** a registered behavior: an IpexHandler or any other *)
Inductive behavior := Ipex | Other (verify handle : xmsg -> xkwa -> bres).

Record xenv := mkXenv { xtrans : bytes -> bool; xvrfy : bytes -> bytes -> bytes -> bool;
  (** Diger(qb64=dig).verify(ser); raises for texts that are no digests *)
  xdig : bytes -> bytes -> res bool;
  (** Pather(qb64b=p, strip=True): None when the path does not start with e, else the path below e and
      the rest *)
  xpath : bytes -> res (option (bytes * bytes));
  (** IpexHandler.handle: BNone and BRaise for a message without attributes *)
  xnotify : xmsg -> bres }.

(** the sub-databases epse, epsd, esigs, ecigs, epath, enst, essrs, erpy, exns; cues of kind query and
    saved; the calls of behavior.handle, last first *)
Record xdb := mkXdb { epse : list (bytes * xmsg); epsd : list (bytes * N); esigs : list tsg;
  ecigs : list (bytes * list cigar); epath : list (bytes * list bytes); enst : list (bytes * list bytes);
  essrs : list (bytes * list bytes); erpy : list (bytes * bytes); exns : list (bytes * xmsg);
  qcues : list (bytes * N); scues : list bytes; calls : list (xmsg * xkwa) }.
Definition xdb0 : xdb := mkXdb [] [] [] [] [] [] [] [] [] [] [] [].

Definition setEpse d x := mkXdb x (epsd d) (esigs d) (ecigs d) (epath d) (enst d) (essrs d) (erpy d) (exns d) (qcues d) (scues d) (calls d).
Definition setEpsd d x := mkXdb (epse d) x (esigs d) (ecigs d) (epath d) (enst d) (essrs d) (erpy d) (exns d) (qcues d) (scues d) (calls d).
Definition setEsigs d x := mkXdb (epse d) (epsd d) x (ecigs d) (epath d) (enst d) (essrs d) (erpy d) (exns d) (qcues d) (scues d) (calls d).
Definition setEcigs d x := mkXdb (epse d) (epsd d) (esigs d) x (epath d) (enst d) (essrs d) (erpy d) (exns d) (qcues d) (scues d) (calls d).
Definition setEpath d x := mkXdb (epse d) (epsd d) (esigs d) (ecigs d) x (enst d) (essrs d) (erpy d) (exns d) (qcues d) (scues d) (calls d).
Definition setEnst d x := mkXdb (epse d) (epsd d) (esigs d) (ecigs d) (epath d) x (essrs d) (erpy d) (exns d) (qcues d) (scues d) (calls d).
Definition setEssrs d x := mkXdb (epse d) (epsd d) (esigs d) (ecigs d) (epath d) (enst d) x (erpy d) (exns d) (qcues d) (scues d) (calls d).
Definition setErpy d x := mkXdb (epse d) (epsd d) (esigs d) (ecigs d) (epath d) (enst d) (essrs d) x (exns d) (qcues d) (scues d) (calls d).
Definition setExns d x := mkXdb (epse d) (epsd d) (esigs d) (ecigs d) (epath d) (enst d) (essrs d) (erpy d) x (qcues d) (scues d) (calls d).
Definition setQcues d x := mkXdb (epse d) (epsd d) (esigs d) (ecigs d) (epath d) (enst d) (essrs d) (erpy d) (exns d) x (scues d) (calls d).
Definition setScues d x := mkXdb (epse d) (epsd d) (esigs d) (ecigs d) (epath d) (enst d) (essrs d) (erpy d) (exns d) (qcues d) x (calls d).
Definition setCalls d x := mkXdb (epse d) (epsd d) (esigs d) (ecigs d) (epath d) (enst d) (essrs d) (erpy d) (exns d) (qcues d) (scues d) x.

(** oset and get of a set of values *)
Fixpoint osetB (l : list bytes) : list bytes :=
  match l with [] => [] | x :: r => x :: filter (fun y => negb (beq x y)) (osetB r) end.
Definition vget {V} (d : list (bytes * list V)) (k : bytes) : list V := match dget d k with Some l => l | None => [] end.
(** db/dbing.py:1144-1173 pinIoSetVals: no values change nothing *)
Definition vpin (d : list (bytes * list bytes)) (k : bytes) (v : list bytes) : list (bytes * list bytes) :=
  match v with [] => d | _ => dset d k (osetB v) end.
Definition vadd (d : list (bytes * list bytes)) (k : bytes) (v : bytes) : list (bytes * list bytes) :=
  if memB v (vget d k) then d else dset d k (vget d k ++ [v]).
Definition cadd (d : list (bytes * list cigar)) (k : bytes) (v : cigar) : list (bytes * list cigar) :=
  if existsb (sameC v) (vget d k) then d else dset d k (vget d k ++ [v]).
(** peer/exchanging.py:209-212, 301-304 the signatures of the groups *)
Definition addGroups (said : bytes) (gs : list group) (l : list tsg) : list tsg :=
  fold_left (fun l g => tput l (mkT said (g_pre g) (g_sn g) (g_dig g) (g_sigs g))) gs l.
(** peer/exchanging.py:242-255, 721-738: the stored groups of a message *)
Definition storedGroups (said : bytes) (d : xdb) : list group :=
  map (fun t => mkG (t_pre t) (t_sn t) (t_dig t) (t_sigs t)) (fetchTsgs (esigs d) said None).

(** last part of os.path.normpath(route), which is its os.path.basename: "." for an empty relative path,
    "" for the root *)
Fixpoint splitB (sep : N) (s : bytes) : list bytes :=
  match s with
  | [] => [[]]
  | x :: s => if x =? sep then [] :: splitB sep s
              else match splitB sep s with a :: r => (x :: a) :: r | [] => [[x]] end
  end.
Definition normParts (absolute : bool) (parts : list bytes) : list bytes :=
  fold_left (fun acc p =>
    if beq p [] || beq p (s2b ".") then acc
    else if negb (beq p (s2b "..")) then p :: acc
    else match acc with
         | [] => if absolute then acc else p :: acc
         | a :: r => if beq a (s2b "..") then p :: acc else r
         end) parts [].
Definition baseVerb (route : bytes) : bytes :=
  let absolute := match route with 47 :: _ => true | _ => false end in
  match normParts absolute (splitB 47 route) with
  | a :: _ => a
  | [] => if absolute then [] else s2b "."
  end.
(** vc/protocoling.py:16-22 PreviousRoutes *)
Definition PreviousRoutes (verb : bytes) : list bytes :=
  if beq verb (s2b "offer") then [s2b "apply"]
  else if beq verb (s2b "agree") then [s2b "offer"]
  else if beq verb (s2b "grant") then [s2b "agree"]
  else if beq verb (s2b "admit") then [s2b "grant"]
  else if beq verb (s2b "spurn") then map s2b ["apply"; "offer"; "agree"; "grant"]%string
  else [].

Section Exchanger.
Variable e : xenv.
Variable routes : bytes -> option behavior.
(** exchanging.py:32 TimeoutPSE *)
Definition TimeoutPSE : N := 10.

(** db/basing.py:2085-2123 resolveVerifiers *)
Definition resolve (kv : xview) (g : group) : res (option (list bytes) * option tholder) :=
  if xtrans e (g_pre g) then
    match xat kv (g_pre g) (g_sn g) with
    | None => Err ValidationError
    | Some ev => raise_if (negb (beq (xe_said ev) (g_dig g))) ValidationError (Ok (xe_keys ev, xe_th ev))
    end
  else Ok (Some [g_pre g], Some (TNum 1)).
(** exchanging.py:107-110, 749-752: do the signatures of the group satisfy the threshold; without keys
    (an interaction event) verifySigs fails for signatures and the threshold for no signatures *)
Definition satisfied (kv : xview) (raw : bytes) (g : group) : res bool :=
  '(ks, th) <- resolve kv g ;;
  match ks, th with
  | Some ks, Some th => Ok (satisfy th (snd (verifySigs bytes (xvrfy e) raw (g_sigs g) ks)))
  | None, _ => Err (match g_sigs g with [] => AttributeError | _ => TypeError end)
  | _, None => Err AttributeError
  end.
(** exchanging.py:97, 742: the key state of the group is not yet known *)
Definition ahead (kv : xview) (g : group) : bool :=
  match xcur kv (g_pre g) with None => true | Some n => n <? g_sn g end.

(** exchanging.py:712-774 verify, and cloneMessage (609-633): the stored message when its stored
    signatures verify.  The unindexed signatures are read back as pairs (verfer, cigar), of which the
    attribute verfer is then asked: that fails as soon as there is one. *)
Fixpoint verifyGroups (kv : xview) (raw : bytes) (gs : list group) : res unit :=
  match gs with
  | [] => Ok tt
  | g :: gs =>
      raise_if (ahead kv g) MissingSignatureError (
      b <- satisfied kv raw g ;;
      raise_if (negb b) MissingSignatureError (verifyGroups kv raw gs))
  end.
Definition verifyStored (kv : xview) (x : xmsg) (d : xdb) : res unit :=
  let gs := storedGroups (x_said x) d in
  let cs := vget (ecigs d) (x_said x) in
  _ <- verifyGroups kv (x_raw x) gs ;;
  match cs, gs with
  | _ :: _, _ => Err AttributeError
  | [], [] => Err MissingSignatureError
  | [], _ :: _ => Ok tt
  end.
Fixpoint paths (l : list bytes) : res (list (bytes * bytes)) :=
  match l with
  | [] => Ok []
  | p :: l => o <- xpath e p ;; r <- paths l ;; Ok (match o with Some a => a :: r | None => r end)
  end.
Definition clone (kv : xview) (said : bytes) (d : xdb) : res (option (xmsg * list (bytes * bytes))) :=
  match dget (exns d) said with
  | None => Ok None
  | Some x => _ <- verifyStored kv x d ;; ps <- paths (vget (epath d) (x_said x)) ;; Ok (Some (x, ps))
  end.
(** exchanging.py:347-362 complete *)
Definition complete (said : bytes) (d : xdb) : res bool :=
  match dget (exns d) said with
  | None => Ok false
  | Some x => raise_if (negb (beq (x_said x) said)) ValidationError (Ok true)
  end.

(** vc/protocoling.py:107-120 IpexHandler.response: is there a response *)
Definition responded (kv : xview) (said : bytes) (d : xdb) : res bool :=
  match dget (erpy d) said with
  | None => Ok false
  | Some r => o <- clone kv r d ;; Ok (match o with Some _ => true | None => false end)
  end.
Definition chained (kv : xview) (verb : bytes) (x : xmsg) (d : xdb) : res bool :=
  o <- clone kv (x_prior x) d ;;
  match o with
  | None => Ok false
  | Some (p, _) => if negb (memB (baseVerb (x_route p)) (PreviousRoutes verb)) then Ok false
                   else b <- responded kv (x_said p) d ;; Ok (negb b)
  end.
(** vc/protocoling.py:55-105 IpexHandler.verify; it knows no argument nests or essr *)
Definition ipexVerify (kv : xview) (x : xmsg) (kw : xkwa) (d : xdb) : bres :=
  match kw_nests kw, kw_essr kw with
  | None, None =>
      match splitB 47 (x_route x) with
      | [a; b; verb] =>
          if negb (beq a [] && beq b (s2b "ipex")) then BFalse
          else if beq verb (s2b "apply") then match x_prior x with [] => BTrue | _ => BFalse end
          else
            let opening := memB verb (map s2b ["offer"; "grant"]%string) in
            let replying := memB verb (map s2b ["admit"; "agree"; "spurn"]%string) in
            match x_prior x with
            | [] => if opening then BTrue else BFalse
            | _ => if opening || replying then
                     match chained kv verb x d with
                     | Ok true => BTrue | Ok false => BFalse
                     | Err AttributeError => BNone
                     | Err ex => BRaise ex
                     end
                   else BFalse
            end
      | _ => BFalse
      end
  | _, _ => BRaise TypeError
  end.

(** exchanging.py:198-219 escrowPSEvent: the state, and whether the message is new in escrow *)
Definition escrowPS (now : N) (x : xmsg) (gs : list group) (ptds nests : list bytes) (d : xdb) : xdb * bool :=
  let s := x_said x in
  let d := setEsigs d (addGroups s gs (esigs d)) in
  let d := setEpsd d (dput (epsd d) s now) in
  let d := setEpath d (vpin (epath d) s ptds) in
  let d := setEnst d (vpin (enst d) s nests) in
  (setEpse d (dput (epse d) s x), match dget (epse d) s with Some _ => false | None => true end).

(** exchanging.py:293-318 logEvent *)
Definition logEvent (x : xmsg) (ptds : list bytes) (gs : list group) (cs : list cigar) (es nests : list bytes) (d : xdb) : xdb :=
  let s := x_said x in
  let d := setEsigs d (addGroups s gs (esigs d)) in
  let d := setEcigs d (fold_left (fun l c => cadd l s c) cs (ecigs d)) in
  let d := setEpath d (vpin (epath d) s ptds) in
  let d := setEnst d (vpin (enst d) s nests) in
  let d := setEssrs d (fold_left (fun l t => vadd l s t) es (essrs d)) in
  let d := match x_prior x with [] => d | p => setErpy d (dset (erpy d) p s) end in
  setExns d (dput (exns d) s x).

(** exchanging.py:88-118 the groups *)
Inductive gres := GOk | GErr (ex : exn) | GWait (pre : bytes) (sn : N).
Fixpoint checkGroups (kv : xview) (x : xmsg) (gs : list group) : gres :=
  match gs with
  | [] => GOk
  | g :: gs =>
      if negb (beq (x_sender x) (g_pre g)) then GErr MissingSignatureError
      else if ahead kv g then GWait (g_pre g) (g_sn g)
      else match satisfied kv (x_raw x) g with
           | Err ex => GErr ex
           | Ok false => GWait (g_pre g) (g_sn g)
           | Ok true => checkGroups kv x gs
           end
  end.
(** exchanging.py:120-134 the couples *)
Definition cigOk (x : xmsg) (c : cigar) : bool := beq (x_sender x) (c_key c) && xvrfy e (c_key c) (c_raw c) (x_raw x).

(** route.startswith *)
Definition starts (a b : bytes) : bool := beq (firstn (List.length a) b) a.
(** exchanging.py:145-170 what is passed on, and the ESSR check *)
Definition kwargs (x : xmsg) (ptds es nests : list bytes) : res xkwa :=
  atc <- paths ptds ;;
  let ns := match nests with
            | [] => None
            | _ => if starts (s2b "/multisig") (x_route x) || starts (s2b "/ipex") (x_route x) then Some nests else None
            end in
  let essr := match es with [] => None | _ => Some (List.concat es) end in
  match x_essr x with
  | None => Ok (mkKwa atc ns essr)
  | Some dig => match essr with
                | None => Err ValidationError
                | Some ser => b <- xdig e dig ser ;; raise_if (negb b) ValidationError (Ok (mkKwa atc ns essr))
                end
  end.

(** exchanging.py:174-192 behavior specific verification, persistence and handling *)
Definition conclude (kv : xview) (x : xmsg) (gs : list group) (cs : list cigar) (ptds es nests : list bytes) (kw : xkwa) (d : xdb) : xdb * res unit :=
  let v := match routes (x_route x) with
           | None => BNone
           | Some Ipex => ipexVerify kv x kw d
           | Some (Other f _) => f x kw
           end in
  match v with
  | BFalse => (d, Ok tt)
  | BRaise ex => (d, Err ex)
  | BTrue | BNone =>
      let d := logEvent x ptds gs cs es nests d in
      let d := setScues d (x_said x :: scues d) in
      match routes (x_route x) with
      | None => (d, Ok tt)
      | Some b =>
          let d := setCalls d ((x, kw) :: calls d) in
          match (match b with Ipex => match kw_nests kw, kw_essr kw with None, None => xnotify e x | _, _ => BRaise TypeError end
                            | Other _ h => h x kw end) with
          | BRaise ex => (d, Err ex)
          | _ => (d, Ok tt)
          end
      end
  end.

(** exchanging.py:63-192 processEvent *)
Definition processEvent (kv : xview) (now : N) (x : xmsg) (gs : list group) (cs : list cigar) (ptds es nests : list bytes) (d : xdb) : xdb * res unit :=
  let go d := match kwargs x ptds es nests with
              | Err ex => (d, Err ex)
              | Ok kw => conclude kv x gs cs ptds es nests kw d
              end in
  match gs with
  | _ :: _ =>
      match checkGroups kv x gs with
      | GErr ex => (d, Err ex)
      | GWait pre sn => let '(d, new) := escrowPS now x gs ptds nests d in
                        (if new then setQcues d ((pre, sn) :: qcues d) else d, Err MissingSignatureError)
      | GOk => go d
      end
  | [] =>
      match cs with
      | _ :: _ => if forallb (cigOk x) cs then go d else (d, Err MissingSignatureError)
      | [] => (fst (escrowPS now x [] ptds nests d), Err MissingSignatureError)
      end
  end.

(** exchanging.py:269-291 the entry is removed; esigs.rem(dig) names no key of a group and removes nothing *)
Definition unescrow (said : bytes) (d : xdb) : xdb :=
  let saved := match dget (exns d) said with Some _ => true | None => false end in
  let d := setEpsd (setEpse d (drem (epse d) said)) (drem (epsd d) said) in
  if saved then d else setEnst (setEpath d (drem (epath d) said)) (drem (enst d) said).
(** exchanging.py:223-291 one entry of the escrow *)
Definition sweep1 (kv : xview) (now : N) (said : bytes) (d : xdb) : xdb :=
  match dget (epse d) said with
  | None => d
  | Some x =>
      match dget (epsd d) said with
      | None => unescrow said d
      | Some dt =>
          if TimeoutPSE <? now - dt then unescrow said d
          else match processEvent kv now x (storedGroups said d) [] (vget (epath d) said) (vget (essrs d) said) (vget (enst d) said) d with
               | (d, Err MissingSignatureError) => d
               | (d, _) => unescrow said d
               end
      end
  end.
(** exchanging.py:221-291 processEscrowPartialSigned: the entries that are there at its start *)
Definition sweep (kv : xview) (now : N) (d : xdb) : xdb := fold_left (fun d said => sweep1 kv now said d) (map fst (epse d)) d.
End Exchanger.
