(** Self addressing field maps with graduated and selective disclosure: Mapper, Compactor and Aggor
    (core/mapping.py) and the SAIDs of ACDC messages (core/serdering.py SerderACDC).

    Simplifications: values are those of JsonModel (no floating point numbers); the kind of
    serialization is given by two functions, for field maps and for lists of elements; the counts and
    the binary domain of native serializations are left out. *)
From Verif Require Import Prelude B64Model MatterModel SubsModel VerModel ThModel JsonModel SerModel.
Open Scope N_scope.

(** label, derivation code (core/mapping.py:154 Mapper.Saids) *)
Definition saidmap := list (bytes * bytes).
Definition SaidsD : saidmap := [(s2b "d", s2b "E")].
(** core/serdering.py:3016 the said field of a schema *)
Definition SaidsS : saidmap := [(s2b "$id", s2b "E")].

(** Matter.Sizes[code].fs *)
Definition fullSize (code : bytes) : N :=
  match dget Sizes code with Some sz => match fs sz with Some n => n | None => 0 end | None => 0 end.
Definition hasKey (m : sad) (l : bytes) : bool := memB l (keysOf m).

(** core/mapping.py:591-606, 619-638: the said fields that are there are replaced by dummies; their
    codes are taken from the value if it reads as a primitive.  Simplification: one exception for a
    code that is not digestive (the non-native branch refers to a name that is not bound there). *)
Fixpoint dummyMad (saids : saidmap) (m : sad) : res (sad * saidmap) :=
  match saids with
  | [] => Ok (m, [])
  | (l, cd) :: rest =>
      match dget m l with
      | None => '(m', s') <- dummyMad rest m ;; Ok (m', (l, cd) :: s')
      | Some v =>
          let cd := match codeOf (Some v) with Ok x => x | Err _ => cd end in
          raise_if (negb (memB cd DigDex)) SerializeError (
          '(m', s') <- dummyMad rest (dset m l (dummy (fullSize cd))) ;; Ok (m', (l, cd) :: s'))
      end
  end.

(** "part in v" of Python; texts are searched for a part of them *)
Fixpoint startsB (a b : bytes) : bool :=
  match a, b with
  | [], _ => true
  | x :: a, y :: b => (x =? y) && startsB a b
  | _, [] => false
  end.
Fixpoint subB (a b : bytes) : bool :=
  startsB a b || match b with [] => false | _ :: b => subB a b end.
Definition pyin (p : bytes) (v : val) : res bool :=
  match v with
  | VMap m => Ok (hasKey m p)
  | VStr s => Ok (subB p s)
  | VList l => Ok (existsb (fun x => match x with VStr s => beq s p | _ => false end) l)
  | _ => Err TypeError
  end.
(** path.split(".") *)
Fixpoint splitDot (s : bytes) : list bytes :=
  match s with
  | [] => [[]]
  | x :: s => if x =? 46 then [] :: splitDot s
              else match splitDot s with a :: r => (x :: a) :: r | [] => [[x]] end
  end.
(** core/mapping.py:1068-1071 the loop of getMad: None when a part is missing *)
Fixpoint descend (parts : list bytes) (v : val) : res (option val) :=
  match parts with
  | [] => Ok (Some v)
  | p :: r =>
      b <- pyin p v ;;
      if b then match v with
                | VMap m => match dget m p with Some x => descend r x | None => Ok None end
                | _ => Err TypeError
                end
      else Ok None
  end.
(** the map with mad[tail] = x done in the map that [parts] leads to *)
Fixpoint setAt (parts : list bytes) (tail : bytes) (x : val) (v : val) : val :=
  match v with
  | VMap m =>
      match parts with
      | [] => VMap (dset m tail x)
      | p :: r => match dget m p with Some y => VMap (dset m p (setAt r tail x y)) | None => v end
      end
  | _ => v
  end.
(** core/mapping.py:1044-1074 getMad and 1092-1094 the assignment *)
Definition assignAt (path : bytes) (x : val) (m : val) : res val :=
  match rev (splitDot path) with
  | [] => Ok m
  | tail :: rparts =>
      match rev rparts with
      | [] => Ok m
      | _ :: parts =>
          o <- descend parts m ;;
          match o with
          | None => Ok m
          | Some e => b <- pyin tail e ;;
                      if b then match e with VMap _ => Ok (setAt parts tail x m) | _ => Err TypeError end
                      else Ok m
          end
      end
  end.

Section Externals.
Variable digest : bytes -> bytes -> bytes.
(** the serialization of a field map (core/mapping.py:567-653 _exhale): strict labels or not, the labels
    whose values are dummies (native serializations write them as they are), the map *)
Variable dumpm : bool -> list bytes -> sad -> res bytes.
(** the serialization of a list of elements (core/mapping.py:1706-1761 Aggor._exhale) *)
Variable dumpl : list val -> res bytes.

(** core/mapping.py:219-222 *)
Fixpoint fillMad (saids : saidmap) (raw : bytes) (m : sad) : res sad :=
  match saids with
  | [] => Ok m
  | (l, cd) :: rest =>
      m1 <- (if hasKey m l then q <- digerOf digest cd raw ;; Ok (dset m l (VStr q)) else Ok m) ;;
      fillMad rest raw m1
  end.
(** core/mapping.py:202-227 Mapper(mad=m, makify=True, saidive=True): the map with its saids, and the
    codes used *)
Definition mapperMake (strict : bool) (saids : saidmap) (m : sad) : res (sad * saidmap) :=
  '(d, s') <- dummyMad saids m ;;
  raw <- dumpm strict (filter (hasKey m) (keysOf saids)) d ;;
  m' <- fillMad s' raw m ;;
  _ <- dumpm strict [] m' ;;
  Ok (m', s').
(** core/mapping.py:224-227, 263-273 Mapper(mad=m, saidive=True, verify=True) *)
Definition mapperVerify (strict : bool) (saids : saidmap) (m : sad) : res unit :=
  _ <- dumpm strict [] m ;;
  '(d, s') <- dummyMad saids m ;;
  raw <- dumpm strict (filter (hasKey m) (keysOf saids)) d ;;
  m' <- fillMad s' raw m ;;
  raise_if (negb (forallb (fun l => match dget m l, dget m' l with
                                    | Some (VStr a), Some (VStr b) => beq a b
                                    | None, None => true
                                    | _, _ => false end) (keysOf saids))) InvalidValueError (Ok tt).
(** core/mapping.py:368-378 said: the value of the first said label *)
Definition saidOf (saids : saidmap) (m : sad) : val :=
  match saids with (l, _) :: _ => match dget m l with Some v => v | None => VNull end | [] => VNull end.

Section Compact.
Variable saids : saidmap.
Definition isSaid (l : bytes) : bool := memB l (keysOf saids).
(** core/mapping.py:995-1020 _hassaid *)
Fixpoint hassaid (v : val) : bool :=
  match v with
  | VMap m => existsb (fun kv => isSaid (fst kv) || hassaid (snd kv)) m
  | _ => false
  end.
(** core/mapping.py:966-968: has a said at top level *)
Definition ownSaid (m : sad) : bool := existsb (hasKey m) (keysOf saids).

(** core/mapping.py:944-992 _trace with saidify: the map with the saids of its leaves, and the leaves by
    path.  The leafer's map is the map itself with its saids. *)
Fixpoint trace (path : bytes) (v : val) : res (val * list (bytes * sad)) :=
  match v with
  | VMap m =>
      '(m', ls) <-
        (fix go (m : sad) : res (sad * list (bytes * sad)) :=
           match m with
           | [] => Ok ([], [])
           | (l, x) :: r =>
               '(x', ls) <- (match x with
                             | VMap _ => raise_if (isSaid l) InvalidValueError (
                                         if hassaid x then trace (path ++ 46 :: l) x else Ok (x, []))
                             | _ => Ok (x, [])
                             end) ;;
               '(r', ls') <- go r ;;
               Ok ((l, x') :: r', ls ++ ls')
           end) m ;;
      if ownSaid m && negb (existsb (fun kv => hassaid (snd kv)) m)
      then '(f, _) <- mapperMake true saids m' ;; Ok (VMap f, ls ++ [(path, f)])
      else Ok (VMap m', ls)
  | _ => Ok (v, [])
  end.

Fixpoint assignAll (leaves : list (bytes * sad)) (paths : list bytes) (m : val) : res val :=
  match paths with
  | [] => Ok m
  | p :: r =>
      m1 <- (match dget leaves p with Some f => assignAt p (saidOf saids f) m | None => Err KeyError end) ;;
      assignAll leaves r m1
  end.
(** core/mapping.py:904-925 iscompact *)
Definition isCompact (leaves : list (bytes * sad)) (m : val) : bool :=
  match m with
  | VMap m => truthy (Some (saidOf saids m)) && memB [] (keysOf leaves)
  | _ => false
  end.
(** core/mapping.py:1077-1098 compact; None when the loop does not end within [n] rounds *)
Fixpoint compactF (n : nat) (m : val) (leaves : list (bytes * sad)) : option (res (val * list (bytes * sad))) :=
  match n with
  | O => None
  | S n =>
      match trace [] m with
      | Err e => Some (Err e)
      | Ok (m1, ls) =>
          let leaves := fold_left (fun d kv => dset d (fst kv) (snd kv)) ls leaves in
          match assignAll leaves (map fst ls) m1 with
          | Err e => Some (Err e)
          | Ok m2 => if isCompact leaves m2 || match ls with [] => true | _ => false end
                     then Some (Ok (m2, leaves))
                     else compactF n m2 leaves
          end
      end
  end.
End Compact.

(** core/mapping.py:875-880 Compactor(mad=m, makify=True) followed by compact(): the compacted map *)
Definition compactor (n : nat) (strict : bool) (saids : saidmap) (m : sad) : option (res (sad * saidmap)) :=
  match mapperMake strict saids m with
  | Err e => Some (Err e)
  | Ok (m1, s1) =>
      match compactF s1 n (VMap m1) [] with
      | None => None
      | Some (Err e) => Some (Err e)
      | Some (Ok (VMap m2, _)) => Some (Ok (m2, s1))
      | Some (Ok _) => Some (Err TypeError)
      end
  end.

(** ** Aggregates *)
(** Diger(qb64=element).qb64 *)
Definition digText (s : bytes) : res bytes :=
  m <- exfil s ;; raise_if (negb (memB (m_code m) DigDex)) InvalidCodeError (infil m).
(** core/mapping.py:1325-1358 Aggor with makify: the elements after the zeroth with their saids, and the
    saids alone *)
Fixpoint aggMake (saids : saidmap) (l : list val) : res (list val * list val) :=
  match l with
  | [] => Ok ([], [])
  | e :: r =>
      '(e', s) <- (match e with
                   | VMap m => match mapperMake true saids m with
                               | Ok (m', _) => Ok (VMap m', saidOf saids m')
                               | Err _ => Err InvalidValueError end
                   | VStr t => match digText t with
                               | Ok q => Ok (VStr q, VStr q)
                               | Err _ => Err InvalidValueError end
                   | _ => Err InvalidValueError
                   end) ;;
      '(r', ss) <- aggMake saids r ;;
      Ok (e' :: r', s :: ss)
  end.
(** core/mapping.py:1316-1371 Aggor(ael=l, makify=True): the list with its saids *)
Definition aggorMake (code : bytes) (saids : saidmap) (l : list val) : res (list val) :=
  match l with
  | [] => _ <- dumpl [] ;; _ <- dumpl [] ;; Ok []
  | VStr _ :: r =>
      '(r', ss) <- aggMake saids r ;;
      raw <- dumpl (dummy (fullSize code) :: ss) ;;
      q <- digerOf digest code raw ;;
      _ <- dumpl (VStr q :: r') ;;
      Ok (VStr q :: r')
  | _ => Err InvalidValueError
  end.
(** core/mapping.py:1419-1440 the elements of an Aggor that is verified *)
Fixpoint aggCheck (saids : saidmap) (l : list val) : res (list val) :=
  match l with
  | [] => Ok []
  | e :: r =>
      s <- (match e with
            | VMap m => match mapperVerify true saids m with
                        | Ok _ => Ok (saidOf saids m)
                        | Err _ => Err InvalidValueError end
            | VStr t => match digText t with Ok q => Ok (VStr q) | Err _ => Err InvalidValueError end
            | _ => Err InvalidValueError
            end) ;;
      ss <- aggCheck saids r ;; Ok (s :: ss)
  end.
(** core/mapping.py:1369-1371, 1409-1448 Aggor(ael=l, verify=True) *)
Definition aggorVerify (code : bytes) (saids : saidmap) (l : list val) : res unit :=
  _ <- dumpl l ;;
  match l with
  | [] => _ <- dumpl [] ;; Ok tt
  | VStr a :: r =>
      ss <- aggCheck saids r ;;
      raw <- dumpl (dummy (fullSize code) :: ss) ;;
      q <- digerOf digest code raw ;;
      raise_if (negb (beq a q)) InvalidValueError (Ok tt)
  | _ => Err InvalidValueError
  end.
(** core/mapping.py:1229-1261 verifyDisclosure *)
Definition verifyDisclosure (code : bytes) (saids : saidmap) (l : list val) : res bool :=
  match aggorVerify code saids l with
  | Err _ => Ok false
  | Ok _ => match l with [] => Err IndexError | _ => Ok true end
  end.
(** core/mapping.py:1764-1802 disclose: the elements at the indices in full, the others by their said *)
Fixpoint atoms (saids : saidmap) (l : list val) : res (list (val * val)) :=
  match l with
  | [] => Ok []
  | e :: r =>
      a <- (match e with
            | VMap m => match mapperVerify true saids m with Ok _ => Ok (saidOf saids m, e) | Err _ => Err ValueError end
            | VStr t => match digText t with Ok q => Ok (VStr q, VStr q) | Err _ => Err ValueError end
            | _ => Err ValueError
            end) ;;
      rs <- atoms saids r ;; Ok (a :: rs)
  end.
Definition disclose (saids : saidmap) (l : list val) (indices : list Z) : res (list val) :=
  a <- atoms saids l ;;
  Ok (map (fun ia => if existsb (fun i => (i =? Z.of_nat (fst ia))%Z) indices then snd (snd ia) else fst (snd ia))
          (combine (seq 0 (List.length a)) a)).
End Externals.
