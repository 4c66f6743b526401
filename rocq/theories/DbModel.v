(** Sub-databases of db/dbing.py: ordinal numbered entries (On), insertion ordered sets
    under hidden key suffixes (IoSet, OnIoSet) and insertion ordered duplicates under hidden
    value proems (IoDup, OnIoDup).

    LMDB itself is modelled as a sorted list of entries: keys ascend in byte order, and in a
    dupsort database entries ascend by key and then by value.  A transaction is atomic, a
    cursor walk reads the list.  Not modelled: the LMDB limit on key and value sizes
    (lmdb.BadValsizeError), memory views, str keys (all keys are bytes). *)
From Verif Require Import Prelude Lex SubsModel.
Open Scope N_scope.

(** ** LMDB *)
Definition store := list (bytes * bytes).

(** itertools.dropwhile; helper *)
Fixpoint dropwhile {A} (f : A -> bool) (l : list A) : list A :=
  match l with [] => [] | x :: l' => if f x then dropwhile f l' else l end.
(** itertools.takewhile; helper *)
Fixpoint takewhile {A} (f : A -> bool) (l : list A) : list A :=
  match l with [] => [] | x :: l' => if f x then x :: takewhile f l' else [] end.
(** last element; helper *)
Definition olast {A} (l : list A) : option A := match rev l with [] => None | x :: _ => Some x end.

(** cursor.set_range(key): the entries from the first key >= key on, and those before *)
Definition setRange (key : bytes) (st : store) : store := dropwhile (fun e => bltb (fst e) key) st.
Definition before (key : bytes) (st : store) : store := takewhile (fun e => bltb (fst e) key) st.

(** txn.get(key) *)
Fixpoint get (key : bytes) (st : store) : option bytes :=
  match st with [] => None | (k, v) :: st' => if beq k key then Some v else get key st' end.
(** txn.put(key, val, overwrite=ow): new store, and whether it was written *)
Fixpoint put (ow : bool) (key val : bytes) (st : store) : store * bool :=
  match st with
  | [] => ([(key, val)], true)
  | (k, v) :: st' =>
      if beq k key then (if ow then ((key, val) :: st', true) else (st, false))
      else if bltb k key then let '(r, b) := put ow key val st' in ((k, v) :: r, b)
      else ((key, val) :: st, true)
  end.
(** txn.delete(key) *)
Fixpoint del (key : bytes) (st : store) : store * bool :=
  match st with
  | [] => ([], false)
  | (k, v) :: st' => if beq k key then (st', true) else let '(r, b) := del key st' in ((k, v) :: r, b)
  end.

(** [not l]; helper *)
Definition isnil {A} (l : list A) : bool := match l with [] => true | _ => false end.
(** Python [in] for a list of values *)
Definition memV (x : bytes) (l : list bytes) : bool := existsb (beq x) l.

(** ** Keys *)
(** bytes.rsplit(sep, 1) with a one byte separator: None when sep does not occur *)
Fixpoint rsplit1 (sep : N) (s : bytes) : option (bytes * bytes) :=
  match s with
  | [] => None
  | x :: s' =>
      match rsplit1 sep s' with
      | Some (a, b) => Some (x :: a, b)
      | None => if x =? sep then Some ([], s') else None
      end
  end.
(** dbing.py:110-122 onKey *)
Definition onKey (sep : N) (top : bytes) (on : N) : bytes := top ++ sep :: hexpad 32 on.
(** dbing.py:178-211 splitKey, splitOnKey *)
Definition splitOnKey (sep : N) (key : bytes) : res (bytes * N) :=
  match rsplit1 sep key with
  | None => Err ValueError
  | Some (top, on) => n <- hexint on ;; Ok (top, n)
  end.
(** dbing.py:237-254 suffix, 257-276 unsuffix: the same text form *)
Definition suffix (sep : N) (key : bytes) (ion : N) : bytes := onKey sep key ion.
Definition unsuffix (sep : N) (iokey : bytes) : res (bytes * N) := splitOnKey sep iokey.

(** ** Branches by key prefix *)
Fixpoint startswith (s p : bytes) : bool :=
  match p, s with
  | [], _ => true
  | y :: p', x :: s' => (x =? y) && startswith s' p'
  | _ :: _, [] => false
  end.
(** dbing.py:610-645 getTopItemIter *)
Definition getTop (top : bytes) (st : store) : store :=
  takewhile (fun e => startswith (fst e) top) (setRange top st).
(** dbing.py:568-594 cntTop *)
Definition cntTop (top : bytes) (st : store) : N := len (getTop top st).
(** dbing.py:533-563 remTop *)
Definition remTop (top : bytes) (st : store) : store * bool :=
  (before top st ++ dropwhile (fun e => startswith (fst e) top) (setRange top st), negb (isnil (getTop top st))).

Section Sep.
Variable sep : N.

(** Entries of [key] at the front of [l], as (number, value): the shape of every forward walk
    that stops at the first entry whose split key differs. *)
Fixpoint scan (key : bytes) (l : store) : res (list (N * bytes)) :=
  match l with
  | [] => Ok []
  | (ck, v) :: l' =>
      '(k, n) <- splitOnKey sep ck ;;
      if beq k key then (r <- scan key l' ;; Ok ((n, v) :: r)) else Ok []
  end.
(** The same walk deleting entries: what is left of [l]. *)
Fixpoint scanDel (key : bytes) (l : store) : res (store * bool) :=
  match l with
  | [] => Ok ([], false)
  | (ck, v) :: l' =>
      '(k, n) <- splitOnKey sep ck ;;
      if beq k key then ('(r, _) <- scanDel key l' ;; Ok (r, true)) else Ok (l, false)
  end.

(** ** Ordinal numbered entries *)
(** dbing.py:739-765 putOnVal *)
Definition putOnVal (key : bytes) (on : N) (val : bytes) (st : store) : store * bool :=
  if isnil key then (st, false) else put false (onKey sep key on) val st.
(** dbing.py:768-793 pinOnVal *)
Definition pinOnVal (key : bytes) (on : N) (val : bytes) (st : store) : store * bool :=
  if isnil key then (st, false) else put true (onKey sep key on) val st.
(** dbing.py:797-853 appendOnVal *)
Definition appendOnVal (key val : bytes) (st : store) : res (store * N) :=
  raise_if (isnil key) ValueError (
  let mx := onKey sep key MaxON in
  on <- (match setRange mx st with
         | [] =>
             match olast st with
             | None => Ok 0
             | Some (ck, _) => '(k, cn) <- splitOnKey sep ck ;; Ok (if beq k key then cn + 1 else 0)
             end
         | (ck, _) :: _ =>
             '(k, cn) <- splitOnKey sep ck ;;
             raise_if (beq k key) ValueError (
             match olast (before mx st) with
             | None => Ok 0
             | Some (ck, _) => '(k, cn) <- splitOnKey sep ck ;; Ok (if beq k key then cn + 1 else 0)
             end)
         end) ;;
  let '(st', b) := put false (onKey sep key on) val st in
  raise_if (negb b) ValueError (Ok (st', on))).
(** dbing.py:857-882 getOnItem: an empty value reads as absent *)
Definition getOnItem (key : bytes) (on : N) (st : store) : option (bytes * N * bytes) :=
  if isnil key then None else
  match get (onKey sep key on) st with
  | Some v => if isnil v then None else Some (key, on, v)
  | None => None
  end.
(** dbing.py:886-908 getOnVal *)
Definition getOnVal (key : bytes) (on : N) (st : store) : option bytes :=
  if isnil key then None else get (onKey sep key on) st.
(** dbing.py:912-933 remOn *)
Definition remOn (key : bytes) (on : N) (st : store) : store * bool :=
  if isnil key then (st, false) else del (onKey sep key on) st.
(** dbing.py:936-974 remOnAll *)
Definition remOnAll (key : bytes) (on : N) (st : store) : res (store * bool) :=
  if isnil key then Ok (remTop [] st) else
  '(r, b) <- scanDel key (setRange (onKey sep key on) st) ;;
  Ok (before (onKey sep key on) st ++ r, b).
(** dbing.py:978-1018 cntOnAll, for a non empty key; an entry that does not split ends the count *)
Definition cntOnAll (key : bytes) (on : N) (st : store) : N :=
  len (takewhile (fun e => match splitOnKey sep (fst e) with Ok (k, _) => beq k key | Err _ => false end)
        (setRange (onKey sep key on) st)).
(** dbing.py:1042-1082 getOnAllItemIter, for a non empty key *)
Definition getOnAll (key : bytes) (on : N) (st : store) : res (list (N * bytes)) :=
  scan key (setRange (onKey sep key on) st).

(** ** Insertion ordered sets *)
Fixpoint osetV (seen l : list bytes) : list bytes :=
  match l with
  | [] => []
  | x :: l' => if memV x seen then osetV seen l' else x :: osetV (x :: seen) l'
  end.
Fixpoint putFrom (ow : bool) (key : bytes) (ion : N) (vals : list bytes) (st : store) (res0 : bool) : store * bool :=
  match vals with
  | [] => (st, res0)
  | v :: vals' => let '(st, b) := put ow (suffix sep key ion) v st in putFrom ow key (ion + 1) vals' st (b || res0)
  end.
Definition nextIon (r : list (N * bytes)) : N := match olast r with Some (n, _) => n + 1 | None => 0 end.

(** dbing.py:1099-1141 putIoSetVals *)
Definition putIoSetVals (key : bytes) (vals : list bytes) (st : store) : res (store * bool) :=
  if isnil key || isnil vals then Ok (st, false) else
  r <- scan key (setRange (suffix sep key 0) st) ;;
  let vals := filter (fun v => negb (memV v (map snd r))) (osetV [] vals) in
  Ok (putFrom false key (nextIon r) vals st false).
(** dbing.py:1284-1314 remIoSet *)
Definition remIoSet (key : bytes) (st : store) : res (store * bool) :=
  if isnil key then Ok (st, false) else
  '(r, b) <- scanDel key (setRange (suffix sep key 0) st) ;;
  Ok (before (suffix sep key 0) st ++ r, b).
(** dbing.py:1144-1173 pinIoSetVals: two transactions *)
Definition pinIoSetVals (key : bytes) (vals : list bytes) (st : store) : res (store * bool) :=
  if isnil key || isnil vals then Ok (st, false) else
  '(st, _) <- remIoSet key st ;;
  Ok (putFrom true key 0 (osetV [] vals) st false).
(** dbing.py:1176-1214 addIoSetVal *)
Definition addIoSetVal (key val : bytes) (st : store) : res (store * bool) :=
  if isnil key then Ok (st, false) else
  r <- scan key (setRange (suffix sep key 0) st) ;;
  if memV val (map snd r) then Ok (st, false) else Ok (put false (suffix sep key (nextIon r)) val st).
(** dbing.py:1217-1248 getIoSetItemIter, values *)
Definition getIoSet (key : bytes) (ion : N) (st : store) : res (list bytes) :=
  if isnil key then Ok [] else
  r <- scan key (setRange (suffix sep key ion) st) ;; Ok (map snd r).
(** dbing.py:1251-1281 getIoSetLastItem *)
Definition getIoSetLast (key : bytes) (st : store) : res (option bytes) :=
  if isnil key then Ok None else
  r <- scan key (setRange (suffix sep key 0) st) ;; Ok (olast (map snd r)).
(** dbing.py:1317-1366 remIoSetVal with a value *)
Definition remIoSetVal (key val : bytes) (st : store) : res (store * bool) :=
  if isnil key then Ok (st, false) else
  r <- scan key (setRange (suffix sep key 0) st) ;;
  match find (fun e => beq val (snd e)) r with
  | Some (n, _) => Ok (del (suffix sep key n) st)
  | None => Ok (st, false)
  end.
(** dbing.py:1369-1397 cntIoSet *)
Definition cntIoSet (key : bytes) (ion : N) (st : store) : res N :=
  if isnil key then Ok 0 else
  r <- scan key (setRange (suffix sep key ion) st) ;; Ok (len r).

(** ** Ordinal numbered insertion ordered sets *)
(** Split a full key into key, ordinal and insertion number. *)
Definition split2 (iokey : bytes) : res (bytes * N * N) :=
  '(conkey, cion) <- unsuffix sep iokey ;; '(ckey, con) <- splitOnKey sep conkey ;; Ok (ckey, con, cion).
Fixpoint scan2 (key : bytes) (l : store) : res (list (N * N * bytes)) :=
  match l with
  | [] => Ok []
  | (ck, v) :: l' =>
      '(k, on, ion) <- split2 ck ;;
      if beq k key then (r <- scan2 key l' ;; Ok ((on, ion, v) :: r)) else Ok []
  end.
Fixpoint scanDel2 (key : bytes) (l : store) : res (store * bool) :=
  match l with
  | [] => Ok ([], false)
  | (ck, v) :: l' =>
      '(k, on, ion) <- split2 ck ;;
      if beq k key then ('(r, _) <- scanDel2 key l' ;; Ok (r, true)) else Ok (l, false)
  end.
(** dbing.py:1502-1540, 1543-1579, 1656-1681, 1684-1714, 1717-1742, 1745-1784, 1830-1848.  add and
    rem do not test for an empty key. *)
Definition putOnIoSetVals key on vals st := if isnil key then Ok (st, false) else putIoSetVals (onKey sep key on) vals st.
Definition pinOnIoSetVals key on vals st := if isnil key then Ok (st, false) else pinIoSetVals (onKey sep key on) vals st.
Definition addOnIoSetVal key on val st := addIoSetVal (onKey sep key on) val st.
Definition getOnIoSet key on st := getIoSet (onKey sep key on) 0 st.
Definition getOnIoSetLast key on st := getIoSetLast (onKey sep key on) st.
Definition remOnIoSetVal key on val st := remIoSetVal (onKey sep key on) val st.
Definition remOnIoSet key on st := remIoSet (onKey sep key on) st.
Definition cntOnIoSet key on st := cntIoSet (onKey sep key on) 0 st.

(** dbing.py:1644-1648: the put loop of append, which raises when an entry is there already *)
Fixpoint appendFrom (onkey : bytes) (ion : N) (vals : list bytes) (st : store) : res store :=
  match vals with
  | [] => Ok st
  | v :: vals' =>
      let '(st, b) := put false (suffix sep onkey ion) v st in
      raise_if (negb b) ValueError (appendFrom onkey (ion + 1) vals' st)
  end.
(** dbing.py:1582-1653 appendOnIoSetVals *)
Definition appendOnIoSetVals (key : bytes) (vals : list bytes) (st : store) : res (store * N) :=
  raise_if (isnil key || isnil vals) ValueError (
  let mx := suffix sep (onKey sep key MaxON) MaxON in
  on <- (match setRange mx st with
         | [] =>
             match olast st with
             | None => Ok 0
             | Some (ck, _) => '(k, con, _) <- split2 ck ;; Ok (if beq k key then con + 1 else 0)
             end
         | (ck, _) :: _ =>
             '(k, _, _) <- split2 ck ;;
             raise_if (beq k key) ValueError (
             match olast (before mx st) with
             | None => Ok 0
             | Some (ck, _) => '(k, con, _) <- split2 ck ;; Ok (if beq k key then con + 1 else 0)
             end)
         end) ;;
  st' <- appendFrom (onKey sep key on) 0 vals st ;; Ok (st', on)).
(** dbing.py:1787-1827 remOnAllIoSet *)
Definition remOnAllIoSet (key : bytes) (on : N) (st : store) : res (store * bool) :=
  if isnil key then Ok (remTop [] st) else
  '(r, b) <- scanDel2 key (setRange (onKey sep key on) st) ;;
  Ok (before (onKey sep key on) st ++ r, b).
(** dbing.py:1851-1887 cntOnAllIoSet *)
Definition cntOnAllIoSet (key : bytes) (on : N) (st : store) : res N :=
  if isnil key then Ok (len st) else
  r <- scan2 key (setRange (onKey sep key on) st) ;; Ok (len r).
(** dbing.py:1924-1971 getOnAllIoSetItemIter, for a non empty key *)
Definition getOnAllIoSet (key : bytes) (on : N) (st : store) : res (list (N * bytes)) :=
  r <- scan2 key (setRange (suffix sep (onKey sep key on) 0) st) ;;
  Ok (map (fun '(o, _, v) => (o, v)) r).
(** dbing.py:1974-2042 getOnAllIoSetLastItemIter, for a non empty key: yields the pending entry when
    the ordinal changes *)
Fixpoint lastPer (on : N) (pend : option (N * bytes)) (l : list (N * N * bytes)) : list (N * bytes) :=
  match l with
  | [] => match pend with Some p => [p] | None => [] end
  | (o, _, v) :: l' =>
      if o =? on then lastPer on (Some (o, v)) l'
      else match pend with Some p => p :: lastPer o (Some (o, v)) l' | None => lastPer o (Some (o, v)) l' end
  end.
Definition getOnAllIoSetLast (key : bytes) (on : N) (st : store) : res (list (N * bytes)) :=
  r <- scan2 key (setRange (suffix sep (onKey sep key on) 0) st) ;; Ok (lastPer on None r).
(** dbing.py:2045-2106 getOnAllIoSetItemBackIter, for a non empty key, from ordinal [on] (MaxON when
    none is given).  cursor.prev() at the first entry leaves the cursor without position:
    its key is empty and does not split. *)
Definition backStart (key : bytes) (on : N) (st : store) : res store :=
  (* the entries at and before the cursor, nearest first *)
  let mx := suffix sep (onKey sep key on) MaxON in
  match setRange mx st with
  | [] =>
      match rev st with
      | [] => Ok []
      | (ck, v) :: l =>
          '(k, con, _) <- split2 ck ;;
          if negb (beq k key) || negb (con <=? on) then
            match l with [] => Err ValueError | (ck', _) :: _ => '(k', _, _) <- split2 ck' ;; Ok (if beq k' key then l else []) end
          else Ok ((ck, v) :: l)
      end
  | (ck, v) :: _ =>
      '(k, con, _) <- split2 ck ;;
      let l := rev (before mx st) in
      if negb (beq k key) || negb (con <=? on) then
        match l with [] => Err ValueError | (ck', _) :: _ => '(k', _, _) <- split2 ck' ;; Ok (if beq k' key then l else []) end
      else Ok ((ck, v) :: l)
  end.
Definition getOnAllIoSetBack (key : bytes) (on : N) (st : store) : res (list (N * bytes)) :=
  l <- backStart key on st ;; r <- scan2 key l ;; Ok (map (fun '(o, _, v) => (o, v)) r).
(** dbing.py:2109-2193 getOnAllIoSetLastItemBackIter, for a non empty key.  In an empty database the
    cursor has no position: its key is empty and does not split. *)
Fixpoint firstPer (on : option N) (l : list (N * N * bytes)) : list (N * bytes) :=
  match l with
  | [] => []
  | (o, _, v) :: l' =>
      if (match on with Some p => p =? o | None => false end) then firstPer on l' else (o, v) :: firstPer (Some o) l'
  end.
Definition getOnAllIoSetLastBack (key : bytes) (on : N) (st : store) : res (list (N * bytes)) :=
  raise_if (isnil st) ValueError (
  l <- backStart key on st ;; r <- scan2 key l ;; Ok (firstPer None r)).

End Sep.

(** ** Insertion ordered duplicates: a dupsort database *)
(** txn.put(key, val, dupdata=True): entries ascend by key, then value; an equal entry is kept *)
Definition pltb (a b : bytes * bytes) : bool := bltb (fst a) (fst b) || (beq (fst a) (fst b) && bltb (snd a) (snd b)).
Definition peq (a b : bytes * bytes) : bool := beq (fst a) (fst b) && beq (snd a) (snd b).
Fixpoint dput (e : bytes * bytes) (st : store) : store :=
  match st with
  | [] => [e]
  | x :: st' => if peq x e then st else if pltb x e then x :: dput e st' else e :: st
  end.
(** cursor.set_key(key), iternext_dup *)
Definition dvals (key : bytes) (st : store) : list bytes := map snd (filter (fun e => beq (fst e) key) st).
(** the 33 characters in front of a value *)
Definition proem (idx : N) (val : bytes) : bytes := hexpad 32 idx ++ 46 :: val.
Definition unproem (pv : bytes) : bytes := skipn 33 pv.
(** int(bytes(value[:32]), 16) *)
Definition proemIdx (pv : bytes) : res N := hexint (firstn 32 pv).

(** dbing.py:2459-2494 getIoDupVals *)
Definition getIoDupVals (key : bytes) (st : store) : list bytes :=
  if isnil key then [] else map unproem (dvals key st).
(** dbing.py:2415-2418 the next index at a key *)
Definition nextIdx (key : bytes) (st : store) : res N :=
  match olast (dvals key st) with None => Ok 0 | Some pv => n <- proemIdx pv ;; Ok (n + 1) end.
Fixpoint dputFrom (key : bytes) (idx : N) (dups vals : list bytes) (st : store) (r : bool) : store * bool :=
  match vals with
  | [] => (st, r)
  | v :: vals' => if memV v dups then dputFrom key idx dups vals' st r
                  else dputFrom key (idx + 1) dups vals' (dput (key, proem idx v) st) true
  end.
(** dbing.py:2382-2429 putIoDupVals: [dups] is not extended by the values put *)
Definition putIoDupVals (key : bytes) (vals : list bytes) (st : store) : res (store * bool) :=
  if isnil key || isnil vals || (match key with 46 :: _ => true | _ => false end) then Ok (st, false) else
  idx <- nextIdx key st ;;
  Ok (dputFrom key idx (getIoDupVals key st) vals st false).
(** dbing.py:2432-2456 addIoDupVal *)
Definition addIoDupVal (key val : bytes) (st : store) : res (store * bool) := putIoDupVals key [val] st.
(** dbing.py:2545-2583 getIoDupValLast *)
Definition getIoDupValLast (key : bytes) (st : store) : option bytes :=
  if isnil key then None else match olast (dvals key st) with Some pv => Some (unproem pv) | None => None end.
(** dbing.py:2586-2618 delIoDupVals *)
Definition delIoDupVals (key : bytes) (st : store) : store * bool :=
  if isnil key then (st, false) else (filter (fun e => negb (beq (fst e) key)) st, negb (isnil (dvals key st))).
(** dbing.py:2621-2663 delIoDupVal: the first duplicate with this value *)
Fixpoint ddel (key val : bytes) (st : store) : store * bool :=
  match st with
  | [] => ([], false)
  | (k, pv) :: st' => if beq k key && beq val (unproem pv) then (st', true)
                      else let '(r, b) := ddel key val st' in ((k, pv) :: r, b)
  end.
Definition delIoDupVal (key val : bytes) (st : store) : store * bool := if isnil key then (st, false) else ddel key val st.
(** dbing.py:2666-2701 cntIoDups *)
Definition cntIoDups (key : bytes) (st : store) : N := if isnil key then 0 else len (dvals key st).

(** dbing.py:2756-2804 putOnIoDupVals: the values present are read with the default ordinal 0 *)
Definition putOnIoDupVals (sep : N) (key : bytes) (on : N) (vals : list bytes) (st : store) : res (store * bool) :=
  idx <- nextIdx (onKey sep key on) st ;;
  Ok (dputFrom (onKey sep key on) idx (getIoDupVals (onKey sep key 0) st) vals st false).
(** dbing.py:2807-2832 addOnIoDupVal, 2863-2913 getOnIoDupVals *)
Definition addOnIoDupVal (sep : N) (key : bytes) (on : N) (val : bytes) (st : store) : res (store * bool) :=
  addIoDupVal (onKey sep key on) val st.
Definition getOnIoDupVals (sep : N) (key : bytes) (on : N) (st : store) : list bytes := getIoDupVals (onKey sep key on) st.
(** subing.py 2306-2327 IoDupSuber.pin: two transactions, without a test for empty values *)
Definition pinIoDup (key : bytes) (vals : list bytes) (st : store) : res (store * bool) :=
  putIoDupVals key vals (fst (delIoDupVals key st)).
(** dbing.py:3176-3224 getOnIoDupItemBackIter, for a non empty key: set_range moves to the next key in
    use when there is none at [on]; a cursor without position starts at the last entry. *)
Definition getOnIoDupBack (sep : N) (key : bytes) (on : N) (st : store) : res (list (N * bytes)) :=
  let ok := onKey sep key on in
  l <- (match setRange ok st with
        | [] => Ok st
        | (ck, v) :: r =>
            '(k, _) <- splitOnKey sep ck ;;
            Ok (if beq k key then before ok st ++ takewhile (fun e => beq (fst e) ck) ((ck, v) :: r) else before ok st)
        end) ;;
  r <- scan sep key (rev l) ;; Ok (map (fun e => (fst e, unproem (snd e))) r).
