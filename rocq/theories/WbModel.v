(** The browser back end of the database, db/webdbing.py WebDBer: the same methods as
    db/dbing.py LMDBer over one sorted dict per sub-database, and its persistence through
    pyscript.storage.

    A SortedDict is modelled as the list of its items in key order, like an LMDB
    sub-database in DbModel.v.  Not modelled: str and memoryview arguments (all keys and
    values are bytes), values of None, laziness of the iterators (an iterator that raises
    after some items is an error), the version number of the database. *)
From Verif Require Import Prelude Lex SubsModel DbModel DbSpec.
Open Scope N_scope.

(** ** What LMDBer does where DbModel.v has no definition *)
(** an answer that is True or False where a value is expected *)
Inductive answer := AFalse | ANone | AVal (v : bytes).
(** dbing.py:648-667 putVal, 670-690 setVal, 693-708 getVal, 711-731 remVal.  getVal answers False
    for an empty key. *)
Definition putVal (k v : bytes) (st : store) : store * bool := if isnil k then (st, false) else put false k v st.
Definition setVal (k v : bytes) (st : store) : store * bool := if isnil k then (st, false) else put true k v st.
Definition getVal (k : bytes) (st : store) : answer :=
  if isnil k then AFalse else match get k st with Some v => AVal v | None => ANone end.
Definition remVal (k : bytes) (st : store) : store * bool := if isnil k then (st, false) else del k st.
(** the items of a walk with their keys split; helper *)
Fixpoint splitAll {X} (sp : bytes -> res X) (l : store) : res (list (X * bytes)) :=
  match l with [] => Ok [] | (ck, v) :: l' => x <- sp ck ;; r <- splitAll sp l' ;; Ok ((x, v) :: r) end.

Section Lmdb.
Variable sep : N.
(** dbing.py:978-1018 cntOnAll, 1042-1082 getOnAllItemIter for an empty key *)
Definition cntOnDb (st : store) : N :=
  len (takewhile (fun e => match splitOnKey sep (fst e) with Ok _ => true | Err _ => false end) (setRange [] st)).
Definition getOnDb (st : store) : res (list (bytes * N * bytes)) := splitAll (splitOnKey sep) (setRange [] st).
(** dbing.py:1021-1039 getOnTopItemIter *)
Definition getOnTop (top : bytes) (st : store) : res (list (bytes * N * bytes)) := splitAll (splitOnKey sep) (getTop top st).
(** dbing.py:1400-1425 getTopIoSetItemIter *)
Definition getTopIoSet (top : bytes) (st : store) : res (list (bytes * bytes)) :=
  r <- splitAll (unsuffix sep) (getTop top st) ;; Ok (map (fun e => (fst (fst e), snd e)) r).
(** dbing.py:1890-1921 getOnTopIoSetItemIter, 1924-1958 getOnAllIoSetItemIter for an empty key *)
Definition getOnTopIoSet (top : bytes) (st : store) : res (list (bytes * N * bytes)) :=
  r <- getTopIoSet top st ;; splitAll (splitOnKey sep) r.
(** list of an optional element; helper *)
Definition olist {A} (o : option A) : list A := match o with Some x => [x] | None => [] end.
(** dbing.py:1460-1468: the loop of getIoSetLastItemIterAll *)
Fixpoint lastAll (key : bytes) (last : option (bytes * bytes)) (l : store) : res (list (bytes * bytes)) :=
  match l with
  | [] => Ok (olist last)
  | (ck, v) :: l' =>
      '(k, _) <- unsuffix sep ck ;;
      r <- lastAll k (Some (k, v)) l' ;;
      Ok (if beq k key then r else olist last ++ r)
  end.
(** dbing.py:1428-1469 getIoSetLastItemIterAll *)
Definition getIoSetLastAll (key : bytes) (st : store) : res (list (bytes * bytes)) :=
  if isnil key then
    match st with
    | [] => Ok []
    | (ck, _) :: _ => '(k, _) <- unsuffix sep ck ;; lastAll k None (setRange ck st)
    end
  else lastAll key None (setRange (suffix sep key 0) st).
(** dbing.py:1974-2009 getOnAllIoSetLastItemIter for an empty key *)
Definition getOnDbIoSetLast (st : store) : res (list (bytes * N * bytes)) :=
  r <- getIoSetLastAll [] st ;; splitAll (splitOnKey sep) r.
(** dbing.py:2045-2106 getOnAllIoSetItemBackIter for an empty key *)
Definition getOnDbIoSetBack (st : store) : res (list (bytes * N * N * bytes)) := splitAll (split2 sep) (rev st).
(** dbing.py:2185-2193: the last entry of each ordinal of each key, backwards *)
Fixpoint firstOf (p : option (bytes * N)) (l : list (bytes * N * N * bytes)) : list (bytes * N * bytes) :=
  match l with
  | [] => []
  | (k, on, _, v) :: l' =>
      if (match p with Some (k', on') => beq k k' && (on =? on') | None => false end) then firstOf p l'
      else (k, on, v) :: firstOf (Some (k, on)) l'
  end.
(** dbing.py:2109-2193 getOnAllIoSetLastItemBackIter for an empty key *)
Definition getOnDbIoSetLastBack (st : store) : res (list (bytes * N * bytes)) :=
  r <- splitAll (split2 sep) (rev st) ;; Ok (firstOf None r).
End Lmdb.

(** ** WebDBer: the sorted dict *)
(** items.irange(minimum=k) *)
Definition irangeMin (k : bytes) (st : store) : store := filter (fun e => negb (bltb (fst e) k)) st.
(** items.irange(maximum=k, reverse=True) *)
Definition irangeMaxRev (k : bytes) (st : store) : store := rev (filter (fun e => negb (bltb k (fst e))) st).
(** items[k] = v; k in items; del items[k] *)
Definition dictSet (k v : bytes) (st : store) : store := fst (put true k v st).
Definition dictHas (k : bytes) (st : store) : bool := match get k st with Some _ => true | None => false end.
Definition dictDel (k : bytes) (st : store) : store := fst (del k st).
Definition dictDels (ks : list bytes) (st : store) : store := fold_left (fun s k => dictDel k s) ks st.

(** What a method that changes a sub-database leaves: its items, whether the method marked it
    dirty, and what it returned or raised. *)
Definition wres (A : Type) : Type := store * bool * res A.
Definition same {A} (st : store) (r : res A) : wres A := (st, false, r).
Definition marked {A} (st : store) (r : res A) : wres A := (st, true, r).

(** webdbing.py:387-413 putVal, 415-438 setVal, 440-460 getVal, 462-482 remVal *)
Definition wputVal (k v : bytes) (st : store) : wres bool :=
  if isnil k then same st (Err KeyError) else if dictHas k st then same st (Ok false) else marked (dictSet k v st) (Ok true).
Definition wsetVal (k v : bytes) (st : store) : wres bool :=
  if isnil k then same st (Err KeyError) else marked (dictSet k v st) (Ok true).
Definition wgetVal (k : bytes) (st : store) : res (option bytes) :=
  if isnil k then Err KeyError else Ok (get k st).
Definition wremVal (k : bytes) (st : store) : wres bool :=
  if isnil k then same st (Ok false) else if dictHas k st then marked (dictDel k st) (Ok true) else same st (Ok false).

(** webdbing.py:848-870 getTopItemIter, 905-925 cntTop, 927-937 cntAll *)
Definition wgetTop (top : bytes) (st : store) : store :=
  if isnil top then st else takewhile (fun e => startswith (fst e) top) (irangeMin top st).
Definition wcntTop (top : bytes) (st : store) : N :=
  if isnil top then len st else len (takewhile (fun e => startswith (fst e) top) (irangeMin top st)).
Definition wcntAll (st : store) : N := len st.
(** webdbing.py:872-901 remTop *)
Definition wremTop (top : bytes) (st : store) : wres bool :=
  if isnil top then (if isnil st then same st (Ok false) else marked [] (Ok true))
  else let doomed := map fst (wgetTop top st) in
    if isnil doomed then same st (Ok false) else marked (dictDels doomed st) (Ok true).

(** The loops over irange that stop at the first entry whose key part differs: the entries they
    visit, as they stand in the dict, with what was split off their keys. *)
Fixpoint walk {X} (sp : bytes -> res (bytes * X)) (key : bytes) (l : store) : res (list (bytes * X * bytes)) :=
  match l with
  | [] => Ok []
  | (ck, v) :: l' =>
      '(k, x) <- sp ck ;;
      if beq k key then (r <- walk sp key l' ;; Ok ((ck, x, v) :: r)) else Ok []
  end.
Definition wkey {X} (e : bytes * X * bytes) : bytes := fst (fst e).
Definition wval {X} (e : bytes * X * bytes) : bytes := snd e.
Definition wnum {X} (e : bytes * X * bytes) : X := snd (fst e).

Section Web.
Variable sep : N.

(** ** Ordinal numbered entries *)
(** webdbing.py:486-517 putOnVal: there is no test for an empty key *)
Definition wputOnVal (key : bytes) (on : N) (val : bytes) (st : store) : wres bool := wputVal (onKey sep key on) val st.
(** webdbing.py:519-550 pinOnVal *)
Definition wpinOnVal (key : bytes) (on : N) (val : bytes) (st : store) : wres bool :=
  if isnil key then same st (Ok false) else wsetVal (onKey sep key on) val st.
(** webdbing.py:552-603 appendOnVal: bisect_right finds the last entry not after the greatest
    ordinal *)
Definition wappendOnVal (key val : bytes) (st : store) : wres N :=
  if isnil key then same st (Err ValueError) else
  let on := match olast (filter (fun e => negb (bltb (onKey sep key MaxON) (fst e))) st) with
            | None => Ok 0
            | Some (ck, _) =>
                '(k, cn) <- splitOnKey sep ck ;;
                if beq k key then raise_if (MaxON <=? cn) ValueError (Ok (cn + 1)) else Ok 0
            end in
  match on with
  | Err e => same st (Err e)
  | Ok on =>
      match wputVal (onKey sep key on) val st with
      | (st', d, Ok true) => (st', d, Ok on)
      | (st', d, Ok false) => (st', d, Err ValueError)
      | (st', d, Err e) => (st', d, Err e)
      end
  end.
(** webdbing.py:605-634 getOnItem, 636-663 getOnVal *)
Definition wgetOnItem (key : bytes) (on : N) (st : store) : res (option (bytes * N * bytes)) :=
  if isnil key then Ok None else
  v <- wgetVal (onKey sep key on) st ;; Ok (match v with Some v => Some (key, on, v) | None => None end).
Definition wgetOnVal (key : bytes) (on : N) (st : store) : res (option bytes) :=
  if isnil key then Ok None else wgetVal (onKey sep key on) st.
(** webdbing.py:665-692 remOn *)
Definition wremOn (key : bytes) (on : N) (st : store) : wres bool :=
  if isnil key then same st (Ok false) else wremVal (onKey sep key on) st.
(** webdbing.py:694-740 remOnAll *)
Definition wremOnAll (key : bytes) (on : N) (st : store) : wres bool :=
  if isnil key then wremTop [] st else
  match walk (splitOnKey sep) key (irangeMin (onKey sep key on) st) with
  | Err e => same st (Err e)
  | Ok r => if isnil r then same st (Ok false) else marked (dictDels (map wkey r) st) (Ok true)
  end.
(** webdbing.py:742-781 cntOnAll *)
Definition wcntOnAll (key : bytes) (on : N) (st : store) : N :=
  len (takewhile (fun e => match splitOnKey sep (fst e) with Ok (k, _) => isnil key || beq k key | Err _ => false end)
        (irangeMin (if isnil key then [] else onKey sep key on) st)).
(** webdbing.py:783-813 getOnTopItemIter *)
Definition wgetOnTop (top : bytes) (st : store) : res (list (bytes * N * bytes)) := splitAll (splitOnKey sep) (wgetTop top st).
(** webdbing.py:815-846 getOnAllItemIter, 2232-2272 _iterOnItems: for an empty key, and for others *)
Definition wgetOnDb (st : store) : res (list (bytes * N * bytes)) := splitAll (splitOnKey sep) (irangeMin [] st).
Definition wgetOnAll (key : bytes) (on : N) (st : store) : res (list (N * bytes)) :=
  r <- walk (splitOnKey sep) key (irangeMin (onKey sep key on) st) ;; Ok (map (fun e => (wnum e, wval e)) r).

(** ** Insertion ordered sets *)
(** the entries of a set *)
Definition wset (key : bytes) (ion : N) (st : store) : res (list (bytes * N * bytes)) :=
  walk (unsuffix sep) key (irangeMin (suffix sep key ion) st).
(** webdbing.py:971-983: maxIon + 1, where maxIon is -1 without entries *)
Definition afterMax (l : list (bytes * N * bytes)) : N := fold_left (fun m e => N.max m (wnum e + 1)) l 0.
(** webdbing.py:995-998: values at consecutive numbers *)
Fixpoint setFrom (key : bytes) (ion : N) (vals : list bytes) (st : store) : store :=
  match vals with [] => st | v :: vals' => setFrom key (ion + 1) vals' (dictSet (suffix sep key ion) v st) end.
(** webdbing.py:940-1001 putIoSetVals *)
Definition wputIoSetVals (key : bytes) (vals : list bytes) (st : store) : wres bool :=
  if isnil key || isnil vals then same st (Ok false) else
  match wset key 0 st with
  | Err e => same st (Err e)
  | Ok r =>
      let new := filter (fun v => negb (memV v (map wval r))) (osetV [] vals) in
      if isnil new then same st (Ok false) else marked (setFrom key (afterMax r) new st) (Ok true)
  end.
(** webdbing.py:1176-1220 remIoSet *)
Definition wremIoSet (key : bytes) (st : store) : wres bool :=
  if isnil key then same st (Ok false) else
  match wset key 0 st with
  | Err e => same st (Err e)
  | Ok r => if isnil r then same st (Ok false) else marked (dictDels (map wkey r) st) (Ok true)
  end.
(** webdbing.py:1004-1043 pinIoSetVals *)
Definition wpinIoSetVals (key : bytes) (vals : list bytes) (st : store) : wres bool :=
  if isnil key || isnil vals then same st (Ok false) else
  match wremIoSet key st with
  | (st', d, Err e) => (st', d, Err e)
  | (st', d, Ok _) => marked (setFrom key 0 (osetV [] vals) st') (Ok true)
  end.
(** webdbing.py:1046-1098 addIoSetVal *)
Definition waddIoSetVal (key val : bytes) (st : store) : wres bool :=
  if isnil key then same st (Ok false) else
  match wset key 0 st with
  | Err e => same st (Err e)
  | Ok r =>
      if memV val (map wval r) then same st (Ok false)
      else marked (dictSet (suffix sep key (afterMax r)) val st) (Ok true)
  end.
(** webdbing.py:1101-1136 getIoSetItemIter, 1139-1173 getIoSetLastItem, 1284-1320 cntIoSet: values *)
Definition wgetIoSet (key : bytes) (ion : N) (st : store) : res (list bytes) :=
  if isnil key then Ok [] else r <- wset key ion st ;; Ok (map wval r).
Definition wgetIoSetLast (key : bytes) (st : store) : res (option bytes) :=
  if isnil key then Ok None else
  r <- wset key 0 st ;; Ok (fold_left (fun _ e => Some (wval e)) r None).
Definition wcntIoSet (key : bytes) (ion : N) (st : store) : res N :=
  if isnil key then Ok 0 else r <- wset key ion st ;; Ok (len r).
(** webdbing.py:1268-1281: the loop of remIoSetVal; it stops at the first entry with the value *)
Fixpoint findVal (key val : bytes) (l : store) : res (option bytes) :=
  match l with
  | [] => Ok None
  | (ck, v) :: l' =>
      '(k, _) <- unsuffix sep ck ;;
      if beq k key then (if beq v val then Ok (Some ck) else findVal key val l') else Ok None
  end.
(** webdbing.py:1223-1281 remIoSetVal with a value *)
Definition wremIoSetVal (key val : bytes) (st : store) : wres bool :=
  if isnil key then same st (Ok false) else
  match findVal key val (irangeMin (suffix sep key 0) st) with
  | Err e => same st (Err e)
  | Ok (Some ck) => marked (dictDel ck st) (Ok true)
  | Ok None => same st (Ok false)
  end.
(** webdbing.py:1323-1349 getTopIoSetItemIter *)
Definition wgetTopIoSet (top : bytes) (st : store) : res (list (bytes * bytes)) :=
  r <- splitAll (unsuffix sep) (wgetTop top st) ;; Ok (map (fun e => (fst (fst e), snd e)) r).
(** webdbing.py:1388-1408: the loop of getIoSetLastItemIterAll *)
Fixpoint wlastAll (cur : option bytes) (last : option (bytes * bytes)) (l : store) : res (list (bytes * bytes)) :=
  match l with
  | [] => Ok (olist last)
  | (ck, v) :: l' =>
      '(k, _) <- unsuffix sep ck ;;
      r <- wlastAll (Some k) (Some (k, v)) l' ;;
      Ok (match cur with Some c => if beq k c then r else olist last ++ r | None => r end)
  end.
(** webdbing.py:1352-1408 getIoSetLastItemIterAll *)
Definition wgetIoSetLastAll (key : bytes) (st : store) : res (list (bytes * bytes)) :=
  if isnil key then
    match st with [] => Ok [] | (ck, _) :: _ => wlastAll None None (irangeMin ck st) end
  else wlastAll None None (irangeMin (suffix sep key 0) st).

(** ** Ordinal numbered insertion ordered sets *)
(** webdbing.py:1442-1481, 1484-1521, 1598-1624, 1627-1658, 1661-1687, 1690-1730, 1788-1807 *)
Definition wputOnIoSetVals key on vals st : wres bool := if isnil key then same st (Ok false) else wputIoSetVals (onKey sep key on) vals st.
Definition wpinOnIoSetVals key on vals st : wres bool := if isnil key then same st (Ok false) else wpinIoSetVals (onKey sep key on) vals st.
Definition waddOnIoSetVal key on val st : wres bool := waddIoSetVal (onKey sep key on) val st.
Definition wremOnIoSetVal key on val st : wres bool := wremIoSetVal (onKey sep key on) val st.
Definition wremOnIoSet key on st : wres bool := wremIoSet (onKey sep key on) st.
Definition wgetOnIoSet key on st := wgetIoSet (onKey sep key on) 0 st.
Definition wgetOnIoSetLast key on st := wgetIoSetLast (onKey sep key on) st.
Definition wcntOnIoSet key on st := wcntIoSet (onKey sep key on) 0 st.
(** unsuffix, then splitOnKey; as a key and a pair of numbers *)
Definition wsplit2 (iokey : bytes) : res (bytes * (N * N)) :=
  '(conkey, cion) <- unsuffix sep iokey ;; '(ckey, con) <- splitOnKey sep conkey ;; Ok (ckey, (con, cion)).
(** webdbing.py:1587-1593: the put loop of append.  It does not mark the database dirty, and what it
    put before an error stays. *)
Fixpoint wappendFrom (onkey : bytes) (ion : N) (vals : list bytes) (st : store) : store * res unit :=
  match vals with
  | [] => (st, Ok tt)
  | v :: vals' =>
      if dictHas (suffix sep onkey ion) st then (st, Err ValueError)
      else wappendFrom onkey (ion + 1) vals' (dictSet (suffix sep onkey ion) v st)
  end.
(** webdbing.py:1524-1595 appendOnIoSetVals *)
Definition wappendOnIoSetVals (key : bytes) (vals : list bytes) (st : store) : wres N :=
  if isnil key || isnil vals then same st (Err ValueError) else
  let on := match irangeMaxRev (suffix sep (onKey sep key MaxON) MaxON) st with
            | [] => Ok 0
            | (ck, _) :: _ =>
                '(k, (con, _)) <- wsplit2 ck ;;
                if beq k key then raise_if (con =? MaxON) ValueError (Ok (con + 1)) else Ok 0
            end in
  match on with
  | Err e => same st (Err e)
  | Ok on =>
      match wappendFrom (onKey sep key on) 0 vals st with
      | (st', Ok _) => same st' (Ok on)
      | (st', Err e) => same st' (Err e)
      end
  end.
(** webdbing.py:1733-1785 remOnAllIoSet.  For a non empty key it does not mark the database dirty. *)
Definition wremOnAllIoSet (key : bytes) (on : N) (st : store) : wres bool :=
  if isnil key then wremTop [] st else
  match walk wsplit2 key (irangeMin (onKey sep key on) st) with
  | Err e => same st (Err e)
  | Ok r => same (dictDels (map wkey r) st) (Ok (negb (isnil r)))
  end.
(** webdbing.py:1810-1854 cntOnAllIoSet *)
Definition wcntOnAllIoSet (key : bytes) (on : N) (st : store) : res N :=
  if isnil key then Ok (wcntAll st) else
  r <- walk wsplit2 key (irangeMin (onKey sep key on) st) ;; Ok (len r).
(** webdbing.py:1857-1889 getOnTopIoSetItemIter, 1892-1930 getOnAllIoSetItemIter for an empty key *)
Definition wgetOnTopIoSet (top : bytes) (st : store) : res (list (bytes * N * bytes)) :=
  r <- wgetTopIoSet top st ;; splitAll (splitOnKey sep) r.
(** webdbing.py:1932-1948 getOnAllIoSetItemIter for a non empty key *)
Definition wgetOnAllIoSet (key : bytes) (on : N) (st : store) : res (list (N * bytes)) :=
  r <- walk wsplit2 key (irangeMin (suffix sep (onKey sep key on) 0) st) ;;
  Ok (map (fun e => (fst (wnum e), wval e)) r).
(** webdbing.py:1993-2018: the loop of getOnAllIoSetLastItemIter *)
Fixpoint wlastPer (cur : option N) (last : option (N * bytes)) (l : list (bytes * (N * N) * bytes)) : list (N * bytes) :=
  match l with
  | [] => olist last
  | (_, (con, _), v) :: l' =>
      let r := wlastPer (Some con) (Some (con, v)) l' in
      match cur with Some c => if con =? c then r else olist last ++ r | None => r end
  end.
(** webdbing.py:1951-2018 getOnAllIoSetLastItemIter, for an empty key and for others *)
Definition wgetOnDbIoSetLast (st : store) : res (list (bytes * N * bytes)) :=
  r <- wgetIoSetLastAll [] st ;; splitAll (splitOnKey sep) r.
Definition wgetOnAllIoSetLast (key : bytes) (on : N) (st : store) : res (list (N * bytes)) :=
  r <- walk wsplit2 key (irangeMin (suffix sep (onKey sep key on) 0) st) ;; Ok (wlastPer None None r).
(** webdbing.py:2021-2061 getOnAllIoSetItemBackIter for an empty key *)
Definition wgetOnDbIoSetBack (st : store) : res (list (bytes * N * N * bytes)) :=
  if isnil st then Ok [] else splitAll (split2 sep) (rev st).
(** webdbing.py:2075-2085: entries of other keys and later ordinals are skipped *)
Definition matching (key : bytes) (on : N) (l : list (bytes * N * N * bytes)) : list (N * bytes) :=
  map (fun '(_, con, _, v) => (con, v)) (filter (fun '(k, con, _, _) => beq k key && negb (on <? con)) l).
(** webdbing.py:2063-2087 getOnAllIoSetItemBackIter for a non empty key; MaxON when no ordinal is given *)
Definition wgetOnAllIoSetBack (key : bytes) (on : N) (st : store) : res (list (N * bytes)) :=
  if isnil st then Ok [] else
  r <- splitAll (split2 sep) (irangeMaxRev (suffix sep (onKey sep key on) MaxON) st) ;; Ok (matching key on r).
(** webdbing.py:2131-2167: the loop for an empty key, [last] is the entry to yield next *)
Fixpoint wfirstOf (last : option (bytes * N * bytes)) (l : list (bytes * N * N * bytes)) : list (bytes * N * bytes) :=
  match l with
  | [] => olist last
  | (k, con, _, v) :: l' =>
      match last with
      | None => wfirstOf (Some (k, con, v)) l'
      | Some (lk, lon, lv) =>
          if beq k lk && (con =? lon) then wfirstOf last l' else (lk, lon, lv) :: wfirstOf (Some (k, con, v)) l'
      end
  end.
Definition wgetOnDbIoSetLastBack (st : store) : res (list (bytes * N * bytes)) :=
  if isnil st then Ok [] else r <- splitAll (split2 sep) (rev st) ;; Ok (wfirstOf None r).
(** webdbing.py:2182-2212: the loop for a non empty key *)
Fixpoint wfirstPer (last : option (N * bytes)) (l : list (N * bytes)) : list (N * bytes) :=
  match l with
  | [] => olist last
  | (con, v) :: l' =>
      match last with
      | None => wfirstPer (Some (con, v)) l'
      | Some (lcon, lval) => if con =? lcon then wfirstPer last l' else (lcon, lval) :: wfirstPer (Some (con, v)) l'
      end
  end.
(** webdbing.py:2090-2212 getOnAllIoSetLastItemBackIter for a non empty key *)
Definition wgetOnAllIoSetLastBack (key : bytes) (on : N) (st : store) : res (list (N * bytes)) :=
  if isnil st then Ok [] else
  r <- splitAll (split2 sep) (irangeMaxRev (suffix sep (onKey sep key on) MaxON) st) ;; Ok (wfirstPer None (matching key on r)).

(** ** Dispatch of the operations of DbSpec.v *)
Definition wdo_sop (o : sop) (st : store) : wres bool :=
  match o with
  | SPut k vals => wputIoSetVals k vals st
  | SPin k vals => wpinIoSetVals k vals st
  | SAdd k v => waddIoSetVal k v st
  | SRem k => wremIoSet k st
  | SRemVal k v => wremIoSetVal k v st
  end.
Definition wout {A} (f : A -> out) (r : wres A) : wres out :=
  let '(st, d, x) := r in (st, d, Ok (match x with Ok a => f a | Err e => OutE e end)).
Definition wdo_oop (o : oop) (st : store) : wres out :=
  match o with
  | OPut k n v => wout OutB (wputOnVal k n v st)
  | OPin k n v => wout OutB (wpinOnVal k n v st)
  | OApp k v => wout OutN (wappendOnVal k v st)
  | ORem k n => wout OutB (wremOn k n st)
  | ORemAll k n => wout OutB (wremOnAll k n st)
  end.
Definition wmap {A B} (f : A -> B) (r : wres A) : wres B :=
  let '(st, d, x) := r in (st, d, y <- x ;; Ok (f y)).
Definition wdo_nop (o : nop) (st : store) : wres (bool + N) :=
  match o with
  | NSet k on (SPut _ vals) => wmap inl (wputOnIoSetVals k on vals st)
  | NSet k on (SPin _ vals) => wmap inl (wpinOnIoSetVals k on vals st)
  | NSet k on (SAdd _ v) => wmap inl (waddOnIoSetVal k on v st)
  | NSet k on (SRem _) => wmap inl (wremOnIoSet k on st)
  | NSet k on (SRemVal _ v) => wmap inl (wremOnIoSetVal k on v st)
  | NApp k vals => wmap inr (wappendOnIoSetVals k vals st)
  | NRemAll k on => wmap inl (wremOnAllIoSet k on st)
  end.
End Web.

(** ** Persistence *)
(** bytes.hex() *)
Definition hexof (s : bytes) : bytes := flat_map (fun b => [hexchr (b / 16); hexchr (b mod 16)]) s.
(** bytes.fromhex().  Simplification: white space between bytes is not accepted. *)
Fixpoint fromhex (s : bytes) : option bytes :=
  match s with
  | [] => Some []
  | a :: b :: s' =>
      match hexval a, hexval b, fromhex s' with Some x, Some y, Some r => Some (x * 16 + y :: r) | _, _, _ => None end
  | _ => None
  end.
(** json.dumps of a dict of hexadecimal strings, with its default separators *)
Definition jitem (e : bytes * bytes) : bytes := 34 :: hexof (fst e) ++ 34 :: 58 :: 32 :: 34 :: hexof (snd e) ++ [34].
Fixpoint jitems (l : store) : bytes :=
  match l with [] => [] | [e] => jitem e | e :: l' => jitem e ++ 44 :: 32 :: jitems l' end.
(** webdbing.py:2218-2225 _serialize_records.  sort_keys leaves the order of the items. *)
Definition serialize (l : store) : bytes := 123 :: jitems l ++ [125].
(** json.loads of such a text: a string, read up to the next quote *)
Fixpoint upto (q : N) (s : bytes) : option (bytes * bytes) :=
  match s with
  | [] => None
  | x :: s' => if x =? q then Some ([], s') else match upto q s' with Some (a, r) => Some (x :: a, r) | None => None end
  end.
Definition readItem (s : bytes) : option (bytes * bytes * bytes) :=
  match s with
  | 34 :: s => match upto 34 s with
               | Some (k, 58 :: 32 :: 34 :: s) => match upto 34 s with Some (v, s) => Some (k, v, s) | None => None end
               | _ => None
               end
  | _ => None
  end.
Fixpoint readItems (fuel : nat) (s : bytes) : option (list (bytes * bytes)) :=
  match fuel with
  | O => None
  | S fuel =>
      match readItem s with
      | Some (k, v, [125]) => Some [(k, v)]
      | Some (k, v, 44 :: 32 :: s) => match readItems fuel s with Some r => Some ((k, v) :: r) | None => None end
      | _ => None
      end
  end.
(** Simplification: only the form that json.dumps writes is read *)
Definition loads (s : bytes) : option (list (bytes * bytes)) :=
  match s with 123 :: [125] => Some [] | 123 :: s => readItems (List.length s) s | _ => None end.
Fixpoint unhex (l : list (bytes * bytes)) : option store :=
  match l with
  | [] => Some []
  | (k, v) :: l' => match fromhex k, fromhex v, unhex l' with Some k, Some v, Some r => Some ((k, v) :: r) | _, _, _ => None end
  end.
(** webdbing.py:278, 2275-2290: SortedDict(_deserialize_records(raw)) *)
Definition deserialize (raw : option bytes) : res store :=
  match raw with
  | None | Some [] => Ok []
  | Some s => match loads s with
              | Some l => match unhex l with
                          | Some l => Ok (fold_left (fun d e => dictSet (fst e) (snd e) d) l [])
                          | None => Err ValueError
                          end
              | None => Err ValueError
              end
  end.

(** webdbing.py:148-176 SubDb, and the storage behind its handle.  The metadata are the optional
    dupsort flag.  What is in the storage is what sync() has written. *)
Record cell := mkCell {
  c_items : store; c_dup : bool; c_flags : bool; c_dirty : bool; c_open : bool;
  h_recs : option bytes; h_meta : option (option bool) }.
(** a store nobody has used *)
Definition blank : cell := mkCell [] false false false false None None.

(** webdbing.py:271-293: one round of the loop of open, without and with clear *)
Definition load (clear : bool) (c : cell) : res cell :=
  let recs := if clear then Some [123; 125] else h_recs c in
  let meta := if clear then Some None else h_meta c in
  items <- deserialize recs ;;
  let flags := match meta with Some (Some _) => true | _ => false end in
  raise_if (negb (isnil items) && negb flags) ValueError (
  Ok (mkCell items (match meta with Some (Some b) => b | _ => false end) flags false false recs meta)).
(** webdbing.py:236-295 open *)
Fixpoint reopen (clear : bool) (s : list cell) : res (list cell) :=
  match s with [] => Ok [] | c :: s' => c <- load clear c ;; r <- reopen clear s' ;; Ok (c :: r) end.
(** webdbing.py:185-210 open_db *)
Definition openDb (dup : bool) (c : cell) : cell :=
  if c_open c then c else
  if c_flags c then mkCell (c_items c) (c_dup c) true (c_dirty c) true (h_recs c) (h_meta c)
  else mkCell (c_items c) dup true true true (h_recs c) (h_meta c).
(** webdbing.py:320-327: one round of the loop of flush *)
Definition flush1 (c : cell) : cell :=
  if c_dirty c then mkCell (c_items c) (c_dup c) (c_flags c) false (c_open c) (Some (serialize (c_items c))) (Some (Some (c_dup c)))
  else c.
(** webdbing.py:305-328 flush, stopped after [n] stores *)
Fixpoint flush (n : nat) (s : list cell) : list cell :=
  match n, s with S n, c :: s' => flush1 c :: flush n s' | _, _ => s end.
(** webdbing.py:374-385 close: with clear the items go, but nothing is written to the storage *)
Definition close (clear : bool) (s : list cell) : list cell :=
  map (fun c => if clear then mkCell [] (c_dup c) (c_flags c) true (c_open c) (h_recs c) (h_meta c) else c) s.

(** the calls that change a sub-database *)
Inductive mcall :=
| MPut (k v : bytes) | MSet (k v : bytes) | MRem (k : bytes) | MRemTop (top : bytes)
| MS (o : sop) | MO (o : oop) | MN (o : nop).
Definition mdo (o : mcall) (st : store) : store * bool :=
  match o with
  | MPut k v => fst (wputVal k v st)
  | MSet k v => fst (wsetVal k v st)
  | MRem k => fst (wremVal k st)
  | MRemTop t => fst (wremTop t st)
  | MS o => fst (wdo_sop 46 o st)
  | MO o => fst (wdo_oop 46 o st)
  | MN o => fst (wdo_nop 46 o st)
  end.
Definition change (o : mcall) (c : cell) : cell :=
  let '(items, d) := mdo o (c_items c) in
  mkCell items (c_dup c) (c_flags c) (c_dirty c || d) (c_open c) (h_recs c) (h_meta c).
(** apply a function to the [i]th element; helper *)
Fixpoint upd {A} (i : nat) (f : A -> A) (l : list A) : list A :=
  match l, i with [] , _ => [] | x :: l', O => f x :: l' | x :: l', S i => x :: upd i f l' end.

(** A life of the stores of a WebDBer: calls on one of them, flushes that may end before all stores
    are written, and ends of the process with the next start: closed or not, the memory is gone. *)
Inductive wevent := WOpenDb (i : nat) (dup : bool) | WCall (i : nat) (o : mcall) | WFlush (n : nat) | WRestart.
Definition wstep (s : list cell) (e : wevent) : res (list cell) :=
  match e with
  | WOpenDb i dup => Ok (upd i (openDb dup) s)
  | WCall i o => Ok (upd i (change o) s)
  | WFlush n => Ok (flush n s)
  | WRestart => reopen false s
  end.
Fixpoint wrun (s : list cell) (es : list wevent) : res (list cell) :=
  match es with [] => Ok s | e :: es' => s <- wstep s e ;; wrun s es' end.
