(** Native CESR serialization of KERI messages: Serder._dumps and Serder._loads for the KERI protocol, the CESR
    branch of Serder._inhale (core/serdering.py), with the primitives that are only used there: Verser, Ilker,
    Traitor, Dater, Pather, Diger, Prefixer, Noncer (core/coring.py) and the seals of an event (core/structing.py
    Sealer).

    Simplifications: values of a type that a field does not expect raise TypeError; a text that stands for a list is
    not split into its characters; a seal with labels that are no Python names is treated as one of unknown type,
    where namedtuple raises ValueError for some; the native serialization of ACDC messages is a parameter. *)
From Verif Require Import Prelude B64Model MatterModel SubsModel CtrModel ThModel VerModel JsonModel SerModel NmModel.
Open Scope N_scope.
Notation versionage := VerModel.versionage.
Notation val := JsonModel.val.

(** Versionage of the counters of a message: version=self.gvrsn, Vrsn_2_0 by default (counting.py:816) *)
Definition ctrV (g : option versionage) : CtrModel.versionage := match g with Some (a, b) => mkV a b | None => V20 end.

(** ** Primitives *)
(** Matter(qb64b=, strip=True) of a code of [dex], .qb64: coring.py:3573-3574 Diger, 3656-3657 Prefixer,
    3714-3715 Noncer *)
Definition stripDex (dex : list bytes) (s : bytes) : res (bytes * bytes) :=
  '(m, r) <- matter_strip s ;;
  raise_if (negb (memB (m_code m) dex)) InvalidCodeError (q <- infil m ;; Ok (q, r)).
(** coring.py:470-487 NonceDex *)
Definition NonceDex : list bytes := [Empty; s2b "0A"; s2b "a"] ++ DigDex.
(** Tagger(qb64b=, strip=True): coring.py:2217-2220 *)
Definition stripTag (s : bytes) : res (matter * bytes) :=
  '(m, r) <- matter_strip s ;;
  raise_if (negb (special (m_code m)) || negb (memB (m_code m) TagDex)) InvalidCodeError (Ok (m, r)).
(** coring.py:2559-2592 verToB64 *)
Definition verToB64 (v : versionage) : res bytes :=
  raise_if ((63 <? fst v) || (4095 <? snd v)) ValueError (Ok (intToB64 (fst v) 1 ++ intToB64 (snd v) 2)).
(** coring.py:2596-2617 b64ToVer *)
Definition b64ToVer (s : bytes) : res versionage :=
  raise_if (negb (Reb64 s)) ValueError (a <- b64ToInt (ntake 1 s) ;; b <- b64ToInt (ntake 2 (ndrop 1 s)) ;; Ok (a, b)).
(** coring.py:2542-2544 *)
Definition isVerser (m : matter) : res matter :=
  raise_if (negb (memB (m_code m) [s2b "Y"; s2b "0O"])) InvalidCodeError (Ok m).
(** coring.py:2531-2544 Verser(proto=, pvrsn=, gvrsn=).qb64b *)
Definition verserText (proto : bytes) (p : versionage) (g : option versionage) : res bytes :=
  a <- verToB64 p ;;
  b <- (match g with Some g => verToB64 g | None => Ok [] end) ;;
  m <- tagger_of_tag (proto ++ a ++ b) ;; m <- isVerser m ;; infil m.
(** Verser(qb64b=, strip=True) *)
Definition verserStrip (s : bytes) : res (matter * bytes) :=
  '(m, r) <- stripTag s ;; m <- isVerser m ;; Ok (m, r).
(** coring.py:2548-2555 versage *)
Definition versage (m : matter) : res (bytes * versionage * option versionage) :=
  p <- b64ToVer (ntake 3 (ndrop 4 (tag m))) ;;
  g <- (if len (tag m) =? 10 then g <- b64ToVer (ntake 3 (ndrop 7 (tag m))) ;; Ok (Some g) else Ok None) ;;
  Ok (ntake 4 (tag m), p, g).
(** kering.py:353-362 Ilks *)
Definition Ilks : list bytes := map s2b
  ["icp"; "rot"; "ixn"; "dip"; "drt"; "rct"; "qry"; "rpy"; "xip"; "exn"; "pro"; "bar"; "vcp"; "vrt"; "iss"; "rev"; "bis"; "brv";
   "rip"; "bup"; "upd"; "acm"; "act"; "acg"; "ace"; "sch"; "att"; "agg"; "edg"; "rul"]%string.
(** coring.py:2330-2334 *)
Definition isIlker (m : matter) : res matter :=
  raise_if (negb (beq (m_code m) (s2b "X"))) InvalidCodeError (
  raise_if (negb (memB (tag m) Ilks)) InvalidSoftError (Ok m)).
(** coring.py:2323-2334 Ilker(ilk=).qb64b *)
Definition ilkerText (ilk : bytes) : res bytes := m <- tagger_of_tag ilk ;; m <- isIlker m ;; infil m.
(** Ilker(qb64b=, strip=True).ilk *)
Definition ilkerStrip (s : bytes) : res (bytes * bytes) := '(m, r) <- stripTag s ;; m <- isIlker m ;; Ok (tag m, r).
(** kering.py:391-397 TraitDex *)
Definition TraitDex : list bytes := map s2b ["EO"; "DND"; "RB"; "NB"; "NRB"; "DID"]%string.
(** coring.py:2422-2431 Traitor(trait=).qb64b and Traitor(qb64b=, strip=True).trait *)
Definition traitorText (t : bytes) : res bytes :=
  m <- tagger_of_tag t ;; raise_if (negb (memB (tag m) TraitDex)) InvalidSoftError (infil m).
Definition traitorStrip (s : bytes) : res (bytes * bytes) :=
  '(m, r) <- stripTag s ;; raise_if (negb (memB (tag m) TraitDex)) InvalidSoftError (Ok (tag m, r)).
(** Number(qb64b=, strip=True).numh: coring.py:1776-1781, 1826-1831 *)
Definition numberStrip (s : bytes) : res (bytes * bytes) :=
  '(m, r) <- matter_strip s ;; raise_if (negb (memB (m_code m) NumDex)) ValidationError (Ok (numh m, r)).

(** ** Dater: coring.py:2082-2117 *)
Definition DateTime := s2b "1AAG".
Definition dtTo (x : N) : N := if x =? 58 then 99 else if x =? 46 then 100 else if x =? 43 then 112 else x.
Definition dtFrom (x : N) : N := if x =? 99 then 58 else if x =? 100 then 46 else if x =? 112 then 43 else x.
Definition daterText (dts : bytes) : res bytes :=
  m <- exfil (DateTime ++ map dtTo dts) ;; raise_if (negb (beq (m_code m) DateTime)) ValidationError (infil m).
Definition daterStrip (s : bytes) : res (bytes * bytes) :=
  '(m, r) <- matter_strip s ;;
  raise_if (negb (beq (m_code m) DateTime)) ValidationError (q <- infil m ;; Ok (map dtFrom (ndrop 4 q), r)).

(** ** Pather: coring.py:2887-3018 *)
(** [x + x in path] *)
Fixpoint dbl (x : N) (s : bytes) : bool :=
  match s with a :: (b :: _) as r => ((a =? x) && (b =? x)) || dbl x r | _ => false end.
(** coring.py:2946-2998 Pather(path=, relative=True, pathive=False); Repath (help/helping.py:437-440) is
    [a-zA-Z0-9_]*$, where $ also matches before a last newline *)
Definition pather_of_path (path : bytes) : res matter :=
  let parts := if existsb (N.eqb 47) path then splitb 47 path else splitb 45 path in
  if forallb attTail parts then
    let p := joinb 45 parts in
    raise_if (dbl 45 p) InvalidValueError (
    let p := match p with x :: _ => if (x =? 65) && (wadSize p <=? 1) then 45 :: 45 :: p else p | [] => p end in
    raw <- rawify p false ;; matter_of_raw raw StrB64_L0 [] None)
  else
    let p := joinb 47 parts in
    raise_if (dbl 47 p) InvalidValueError (matter_of_raw p (s2b "4B") [] None).
Definition patherText (path : bytes) : res bytes := m <- pather_of_path path ;; infil m.
(** coring.py:3002-3018 path *)
Definition pathOf (m : matter) : res bytes :=
  if memB (m_code m) BexDex then
    p <- derawify (m_raw m) (m_code m) false ;;
    let p := match p with 45 :: 45 :: r => r | _ => p end in
    Ok (joinb 47 (splitb 45 p))
  else decode (m_raw m).
Definition patherStrip (s : bytes) : res (bytes * bytes) := '(m, r) <- matter_strip s ;; p <- pathOf m ;; Ok (p, r).

(** ** Thresholds as values of fields *)
Fixpoint texts (l : list val) : res (list bytes) :=
  match l with [] => Ok [] | VStr s :: r => t <- texts r ;; Ok (s :: t) | _ => Err TypeError end.
Definition valElem (v : val) : res selem :=
  match v with
  | VStr s => Ok (SW s)
  | VMap [(k, VList l)] => vs <- texts l ;; Ok (SN k vs)
  | _ => Err ValueError
  end.
Definition valItem (v : val) : res item :=
  match v with
  | VList l => es <- mapr valElem l ;; Ok (IClause es)
  | _ => e <- valElem v ;; Ok (IElem e)
  end.
Definition valSith (v : val) : res sith :=
  match v with
  | VStr s => Ok (SHex s)
  | VInt z => raise_if (z <? 0)%Z ValueError (Ok (SInt (Z.to_N z)))
  | VList l => is <- mapr valItem l ;; Ok (SList is)
  | _ => Err TypeError
  end.
Definition elemVal (e : selem) : val := match e with SW s => VStr s | SN k vs => VMap [(k, VList (map VStr vs))] end.
Definition itemVal (i : item) : val := match i with IElem e => elemVal e | IClause es => VList (map elemVal es) end.
Definition sithVal (s : sith) : val :=
  match s with SInt n => VInt (Z.of_N n) | SHex h => VStr h | SList is => VList (map itemVal is) end.
(** Tholder(sith=v).limen *)
Definition tholderText (v : val) : res bytes := s <- valSith v ;; t <- processSith s ;; limenOf t.
(** Tholder(limen=, strip=True).sith: coring.py:4435-4467, 4378-4406 *)
Definition tholderStrip (s : bytes) : res (val * bytes) :=
  '(m, r) <- matter_strip s ;; t <- processLimen s ;; Ok (sithVal (sithOf t), r).

(** ** Lists of primitives *)
(** while frame: elements.append(f(frame)).  The first argument bounds the number of elements; OverflowError when
    it is used up *)
Fixpoint readAll {A} (f : bytes -> res (A * bytes)) (n : nat) (s : bytes) : res (list A) :=
  match s with
  | [] => Ok []
  | _ => match n with
         | O => Err OverflowError
         | S n => '(a, r) <- f s ;; l <- readAll f n r ;; Ok (a :: l)
         end
  end.
Definition readFrame {A} (f : bytes -> res (A * bytes)) (s : bytes) : res (list A) := readAll f (List.length s) s.
(** Counter(Codens.GenericListGroup, count=len(frame) // 4).qb64b + frame *)
Definition counted (v : CtrModel.versionage) (code frame : bytes) : res bytes :=
  c <- counter_of v code (len frame / 4) ;; h <- cinfil c ;; Ok (h ++ frame).
Fixpoint concatr {A} (f : A -> res bytes) (l : list A) : res bytes :=
  match l with [] => Ok [] | x :: r => a <- f x ;; b <- concatr f r ;; Ok (a ++ b) end.
Definition textVal (v : val) : res bytes := match v with VStr s => Ok s | _ => Err TypeError end.
(** serdering.py:1387-1396, 1405-1414: the counted frame, and what follows it *)
Definition listFrame (v : CtrModel.versionage) (s : bytes) : res (bytes * bytes) :=
  '(ctr, r) <- counter_strip v s ;;
  raise_if (negb (isList (c_name ctr))) DeserializeError (Ok (ntake (c_count ctr * 4) r, ndrop (c_count ctr * 4) r)).

(** ** Seals: structing.py:33-71 and 219-245, serdering.py:341-351 *)
Inductive ptype := PDig | PNum | PPre | PVer.
(** counter code, labels with the class of the primitive *)
Definition Seals : list (bytes * list (bytes * ptype)) := [
  (s2b "-Q", [(s2b "d", PDig)]);
  (s2b "-R", [(s2b "rd", PDig)]);
  (s2b "-S", [(s2b "s", PNum); (s2b "d", PDig)]);
  (s2b "-T", [(s2b "i", PPre); (s2b "s", PNum); (s2b "d", PDig)]);
  (s2b "-U", [(s2b "i", PPre)]);
  (s2b "-V", [(s2b "bi", PPre); (s2b "d", PDig)]);
  (s2b "-W", [(s2b "t", PVer); (s2b "d", PDig)])].
Definition sealByMark (mark : list bytes) : option (bytes * list (bytes * ptype)) :=
  find (fun s => if list_eq_dec list_N_dec (keysOf (snd s)) mark then true else false) Seals.
(** kls(qb64=val), Number(numh=val) *)
Definition castText (t : ptype) (v : val) : res bytes :=
  s <- textVal v ;;
  match t with
  | PNum => m <- number_of_numh s ;; infil m
  | PDig => m <- exfil s ;; raise_if (negb (memB (m_code m) DigDex)) InvalidCodeError (infil m)
  | PPre => m <- exfil s ;; raise_if (negb (memB (m_code m) PreDex)) InvalidCodeError (infil m)
  | PVer => m <- tagger_of_qb64 s ;; m <- isVerser m ;; infil m
  end.
Definition castStrip (t : ptype) (s : bytes) : res (bytes * bytes) :=
  match t with
  | PNum => numberStrip s
  | PDig => stripDex DigDex s
  | PPre => stripDex PreDex s
  | PVer => '(m, r) <- verserStrip s ;; q <- infil m ;; Ok (q, r)
  end.
Fixpoint castTexts (cast : list (bytes * ptype)) (m : sad) : res bytes :=
  match cast, m with
  | (_, t) :: cast, (_, v) :: m => a <- castText t v ;; b <- castTexts cast m ;; Ok (a ++ b)
  | _, _ => Ok []
  end.
(** Sealer(crew=e): code of its counter and .qb64b *)
Definition sealText (e : val) : res (bytes * bytes) :=
  match e with
  | VMap m => match sealByMark (keysOf m) with
              | Some (code, cast) => q <- castTexts cast m ;; Ok (code, q)
              | None => Err InvalidValueError
              end
  | _ => Err InvalidValueError
  end.
(** Sealer(cast=cast, qb64b=, strip=True).asdict *)
Fixpoint sealStrip (cast : list (bytes * ptype)) (s : bytes) : res (sad * bytes) :=
  match cast with
  | [] => Ok ([], s)
  | (l, t) :: cast => '(q, r) <- castStrip t s ;; '(m, r') <- sealStrip cast r ;; Ok ((l, VStr q) :: m, r')
  end.
(** serdering.py:1763-1804 the loop over the seals, with the group that is open; seals that raise InvalidValueError
    are left out *)
Definition closeGroup (v : CtrModel.versionage) (gcode : option bytes) (gframe : bytes) : res bytes :=
  match gframe, gcode with
  | [], _ => Ok []
  | _, Some c => counted v c gframe
  | _, None => Err ValueError
  end.
Fixpoint sealFrames (v : CtrModel.versionage) (l : list val) (gcode : option bytes) (gframe : bytes) : res bytes :=
  match l with
  | [] => closeGroup v gcode gframe
  | e :: l =>
      match sealText e with
      | Ok (code, q) =>
          if match gcode with Some g => beq g code | None => false end then sealFrames v l gcode (gframe ++ q)
          else a <- closeGroup v gcode gframe ;; b <- sealFrames v l (Some code) q ;; Ok (a ++ b)
      | Err InvalidValueError =>
          a <- closeGroup v gcode gframe ;;
          b <- sealFrames v l (match gframe with [] => gcode | _ => None end) [] ;; Ok (a ++ b)
      | Err x => Err x
      end
  end.
(** serdering.py:1431-1442 one group of seals *)
Definition groupStrip (v : CtrModel.versionage) (s : bytes) : res (list val * bytes) :=
  '(ctr, r) <- counter_strip v s ;;
  match dget Seals (c_code ctr) with
  | None => Err DeserializeError
  | Some cast =>
      l <- readFrame (sealStrip cast) (ntake (c_count ctr * 4) r) ;;
      Ok (map VMap l, ndrop (c_count ctr * 4) r)
  end.

(** ** Messages *)
Definition estIlks : list bytes := map s2b ["icp"; "ixn"; "rot"; "dip"; "drt"]%string.
(** serdering.py:1346-1348, 1698-1700 *)
Definition keriIlks : list bytes :=
  map s2b ["icp"; "rot"; "ixn"; "dip"; "drt"; "rct"; "qry"; "rpy"; "pro"; "bar"; "xip"; "exn"]%string.
(** Mapper(raw=, strip=True).mad; nothing is an empty map *)
Definition mapperStrip (s : bytes) : res (sad * bytes) :=
  match s with
  | [] => Ok ([], [])
  | _ => ctr <- cexfil V20 s ;; sz <- CtrModel.csize ctr ;; m <- mapperRead true s ;; Ok (m, ndrop (byteCount_txt ctr + cfs sz) s)
  end.
(** kinds of fields of KERI messages: serdering.py:1362-1455, 1711-1816 *)
Inductive fkind := FVer | FIlk | FDig | FNonce | FPre | FNum | FThold | FPrims | FDate | FPath | FTraits | FAttr | FMap.
Definition fkinds : list (bytes * fkind) := [
  (s2b "v", FVer); (s2b "t", FIlk); (s2b "d", FDig); (s2b "p", FDig); (s2b "x", FDig); (s2b "u", FNonce);
  (s2b "i", FPre); (s2b "di", FPre); (s2b "ri", FPre); (s2b "s", FNum); (s2b "bt", FNum); (s2b "kt", FThold); (s2b "nt", FThold);
  (s2b "k", FPrims); (s2b "n", FPrims); (s2b "b", FPrims); (s2b "ba", FPrims); (s2b "br", FPrims); (s2b "dt", FDate);
  (s2b "r", FPath); (s2b "rr", FPath); (s2b "c", FTraits); (s2b "a", FAttr); (s2b "q", FMap)].
(** serdering.py:1711-1816 *)
Definition dumpField (p : versionage) (g : option versionage) (ilk l : bytes) (v : val) : res bytes :=
  match dget fkinds l with
  | None => Err SerializeError
  | Some FVer => verserText (s2b "KERI") p g
  | Some FIlk => s <- textVal v ;; ilkerText s
  | Some (FDig | FNonce | FPre) => textVal v
  | Some FNum => s <- textVal v ;; m <- number_of_numh s ;; infil m
  | Some FThold => tholderText v
  | Some FPrims => match v with VList es => f <- concatr textVal es ;; counted (ctrV g) (s2b "GenericListGroup") f | _ => Err TypeError end
  | Some FDate => s <- textVal v ;; daterText s
  | Some FPath => s <- textVal v ;; patherText s
  | Some FTraits => match v with
                    | VList es => f <- concatr (fun e => s <- textVal e ;; traitorText s) es ;; counted (ctrV g) (s2b "GenericListGroup") f
                    | _ => Err TypeError end
  | Some FAttr => match v with
                  | VMap m => exhale true [] m
                  | VList es => raise_if (negb (memB ilk estIlks)) SerializeError (
                                f <- sealFrames (ctrV g) es None [] ;; counted V20 (s2b "GenericListGroup") f)
                  | _ => Err TypeError end
  | Some FMap => match v with VMap m => exhale true [] m | _ => Err TypeError end
  end.
(** serdering.py:1362-1455 *)
Definition loadField (p : versionage) (g : option versionage) (size : N) (ilk l s : bytes) : res (val * bytes) :=
  let text (r : res (bytes * bytes)) := '(q, r) <- r ;; Ok (VStr q, r) in
  match dget fkinds l with
  | None => Err DeserializeError
  | Some FVer => vs <- versify (s2b "KERI") p KindCesr size g ;; Ok (VStr vs, s)
  | Some FIlk => Ok (VStr ilk, s)
  | Some FDig => text (stripDex DigDex s)
  | Some FNonce => text (stripDex NonceDex s)
  | Some FPre => text (stripDex PreDex s)
  | Some FNum => text (numberStrip s)
  | Some FThold => tholderStrip s
  | Some FPrims => '(f, r) <- listFrame (ctrV g) s ;;
                   es <- readFrame (fun s => '(m, r) <- matter_strip s ;; q <- infil m ;; Ok (VStr q, r)) f ;; Ok (VList es, r)
  | Some FDate => text (daterStrip s)
  | Some FPath => text (patherStrip s)
  | Some FTraits => '(f, r) <- listFrame (ctrV g) s ;; es <- readFrame (fun s => text (traitorStrip s)) f ;; Ok (VList es, r)
  | Some FAttr =>
      ctr <- cexfil (ctrV g) s ;;
      if isMapName (c_name ctr) then '(m, r) <- mapperStrip s ;; Ok (VMap m, r)
      else if isList (c_name ctr) then
        raise_if (negb (memB ilk estIlks)) SerializeError (
        '(f, r) <- listFrame (ctrV g) s ;; gs <- readFrame (groupStrip (ctrV g)) f ;; Ok (VList (List.concat gs), r))
      else Err DeserializeError
  | Some FMap => '(m, r) <- mapperStrip s ;; Ok (VMap m, r)
  end.
Fixpoint loadFields (p : versionage) (g : option versionage) (size : N) (ilk : bytes) (ls : list bytes) (s : bytes) : res sad :=
  match ls with
  | [] => Ok []
  | l :: ls => '(v, r) <- loadField p g size ilk l s ;; m <- loadFields p g size ilk ls r ;; Ok ((l, v) :: m)
  end.
(** serdering.py:1352, 1357-1358, 1703-1706: the fields of a message type *)
Definition fixedFields (p : versionage) (ilk : bytes) : res fielddom :=
  match Fields (s2b "KERI") p with
  | None => Err KeyError
  | Some tbl => match ilkget tbl (Some ilk) with
                | None => Err KeyError
                | Some fd => raise_if (negb (len (f_opts fd) =? 0) || negb (f_strict fd)) SerializeError (Ok fd)
                end
  end.
(** serdering.py:1691-1706 *)
Definition dumpsIlk (p : versionage) (sd : sad) : res bytes :=
  match dget sd (s2b "t") with
  | Some (VStr ilk) => raise_if (negb (memB ilk keriIlks)) SerializeError (_ <- fixedFields p ilk ;; Ok ilk)
  | _ => Err SerializeError
  end.
(** serdering.py:1659-1820 _dumps of a KERI message *)
Definition nativeDumps (p : versionage) (g : option versionage) (sd : sad) : res bytes :=
  ilk <- dumpsIlk p sd ;;
  bdy <- concatr (fun kv => dumpField p g ilk (fst kv) (snd kv)) sd ;;
  enclose (ctrV g) (s2b "FixBodyGroup") bdy.
(** serdering.py:1300-1455 _loads of a KERI message: the message is all of [raw].  A message that is a field map
    raises in both places. *)
Definition nativeLoads (p : versionage) (g : option versionage) (raw : bytes) : res sad :=
  '(ctr, r) <- counter_strip (ctrV g) raw ;;
  raise_if (match g with None => true | Some _ => false end) TypeError (
  raise_if (negb (memB (c_code ctr) [s2b "-F"; s2b "--F"])) DeserializeError (
  '(vm, r) <- verserStrip r ;; _ <- versage vm ;;
  '(ilk, r) <- ilkerStrip r ;;
  raise_if (negb (memB ilk keriIlks)) DeserializeError (
  fd <- fixedFields p ilk ;;
  loadFields p g (len raw) ilk (keysOf (f_alls fd)) r))).

Section Externals.
Variable digest : bytes -> bytes -> bytes.
Variable odumps : bytes -> sad -> res bytes.
(** native serialization of ACDC messages *)
Variable adumps : versionage -> option versionage -> sad -> res bytes.
Variable aloads : versionage -> option versionage -> bytes -> res sad.
Definition cdumps (proto : bytes) (p : versionage) (g : option versionage) (sd : sad) : res bytes :=
  if beq proto (s2b "KERI") then nativeDumps p g sd else adumps p g sd.
(** serdering.py:1266-1271: any exception is raised as DeserializeError *)
Definition cloads (proto : bytes) (p : versionage) (g : option versionage) (raw : bytes) : res sad :=
  match (if beq proto (s2b "KERI") then nativeLoads p g raw else aloads p g raw) with
  | Ok sd => Ok sd
  | Err _ => Err DeserializeError
  end.
(** serdering.py:1206-1240: [sraw] in the text domain, with the counter [ctr] that was peeked at *)
Definition inhaleText (ctr : counter) (sraw : bytes) : res serder :=
  sz <- CtrModel.csize ctr ;;
  off <- (if memB (c_code ctr) [s2b "-F"; s2b "--F"] then Ok (cfs sz)
          else if memB (c_code ctr) [s2b "-G"; s2b "--G"] then
            '(m, r) <- matter_strip (ndrop (cfs sz) sraw) ;; m <- inLabelDex m ;; Ok (len sraw - len r)
          else Err ValueError) ;;
  '(vm, _) <- verserStrip (ndrop off sraw) ;;
  '(proto, p, g) <- versage vm ;;
  sd <- cloads proto p g sraw ;;
  raise_if (negb (memB (s2b "v") (keysOf sd))) FieldError (Ok (mkSerder sraw sd proto p g KindCesr (len sraw))).
(** serdering.py:1175-1240 _inhale of a native message without a given smellage, and what is left of the stream
    when stripping.  In the binary domain the stream that is left, or all of it when it is not stripped, is
    converted to text, not the message (1192-1194). *)
Definition inhaleNative (strip : bool) (raw : bytes) : res (serder * bytes) :=
  cold <- sniff raw ;;
  match cold with
  | Ctxt =>
      ctr <- cexfil V20 raw ;; sz <- CtrModel.csize ctr ;;
      let n := byteCount_txt ctr + cfs sz in
      raise_if (len raw <? n) ShortageError (
      s <- inhaleText ctr (ntake n raw) ;; Ok (s, if strip then ndrop n raw else raw))
  | Cbny =>
      ctr <- cbexfil V20 raw ;; sz <- CtrModel.csize ctr ;;
      let n := byteCount_bny ctr + cfs sz * 3 / 4 in
      raise_if (len raw <? n) ShortageError (
      let left := if strip then ndrop n raw else raw in
      s <- inhaleText ctr (encodeB64 left) ;; Ok (s, left))
  | _ => Err ValueError
  end.
(** serdering.py:609-632 Serder(raw=raw, strip=strip) of a native message *)
Definition nativeOfRaw (k : klass) (strip : bool) (raw : bytes) : res (serder * bytes) :=
  '(s, r) <- inhaleNative strip raw ;;
  match verify digest odumps cdumps k s with Ok _ => Ok (s, r) | Err _ => Err ValidationError end.
End Externals.
