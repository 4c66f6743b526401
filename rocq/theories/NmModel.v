(** Native CESR serialization of field maps (core/mapping.py Mapper) with the primitives it is made of:
    labels and texts (core/coring.py Labeler) and decimal numbers (core/coring.py Decimer).

    Simplifications: values are those of JsonModel, that is no bytes and, in field maps, no floating point
    numbers (those are treated by [decimer_of_dec] alone); a text with characters outside ASCII is read as a
    primitive from its octets, not from its characters, so that a special code followed by such characters
    is a text here where the code raises InvalidCodeSizeError; the limit of 4300 digits of int() and str()
    and the recursion limit of Python are left out. *)
From Verif Require Import Prelude B64Model MatterModel SubsModel CtrModel ThModel JsonModel.
Open Scope N_scope.

Definition V20 := mkV 2 0.
(** coring.py:288-293 *)
Definition Null := s2b "1AAK".
Definition No := s2b "1AAL".
Definition Yes := s2b "1AAM".
Definition Escape := s2b "1AAO".
Definition Empty := s2b "1AAP".
(** coring.py:426-441 DecDex *)
Definition DecDex : list bytes := [s2b "4H"; s2b "5H"; s2b "6H"; s2b "7AAH"; s2b "8AAH"; s2b "9AAH"].
(** coring.py:407-421 TexDex *)
Definition TexDex : list bytes := [s2b "4B"; s2b "5B"; s2b "6B"; s2b "7AAB"; s2b "8AAB"; s2b "9AAB"].
(** coring.py:545-581 LabelDex *)
Definition LabelDex : list bytes := Empty :: TagDex ++ BexDex ++ [s2b "V"; s2b "W"] ++ TexDex.
(** core/mapping.py:31-79 EscapeDex *)
Definition EscapeDex : list bytes := [Escape; Null; No; Yes] ++ DecDex ++ LabelDex.

(** bytes.decode(): the octets are a well formed UTF-8 text *)
Definition cont (x : N) : bool := (128 <=? x) && (x <=? 191).
Fixpoint utf8 (s : bytes) : bool :=
  match s with
  | [] => true
  | a :: r =>
      if a <? 128 then utf8 r
      else if (194 <=? a) && (a <=? 223) then
        match r with b :: r => cont b && utf8 r | _ => false end
      else if (224 <=? a) && (a <=? 239) then
        match r with
        | b :: d :: r => cont b && cont d && negb ((a =? 224) && (b <? 160)) && negb ((a =? 237) && (159 <? b)) && utf8 r
        | _ => false end
      else if (240 <=? a) && (a <=? 244) then
        match r with
        | b :: d :: e :: r => cont b && cont d && cont e && negb ((a =? 240) && (b <? 144)) && negb ((a =? 244) && (143 <? b)) && utf8 r
        | _ => false end
      else false
  end.
Definition decode (s : bytes) : res bytes := if utf8 s then Ok s else Err UnicodeError.

(** help/helping.py:431-433 Reatt: [a-zA-Z_][a-zA-Z0-9_]*$, where $ also matches before a last newline *)
Definition attFirst (x : N) : bool := ((65 <=? x) && (x <=? 90)) || ((97 <=? x) && (x <=? 122)) || (x =? 95).
Definition attNext (x : N) : bool := attFirst x || ((48 <=? x) && (x <=? 57)).
Fixpoint attTail (s : bytes) : bool :=
  match s with
  | [] => true
  | x :: r => (attNext x && attTail r) || ((x =? 10) && (len r =? 0))
  end.
Definition Reatt (s : bytes) : bool := match s with [] => false | x :: s => attFirst x && attTail s end.

(** ** Labeler *)
(** coring.py:3246-3254, 3272-3280: the code for the lead size of the text given *)
Definition strCode (s : bytes) : bytes :=
  let l := (3 - len s mod 4) mod 3 in
  if l =? 0 then s2b "4A" else if l =? 1 then s2b "5A" else s2b "6A".
(** coring.py:3239-3254, 3265-3280: as tag if short enough, otherwise converted with escaping *)
Definition compact (s : bytes) : res matter :=
  match tag_codify s with
  | Ok code => matter_of_soft code s
  | Err _ => raw <- rawify s true ;; matter_of_raw raw (strCode s) [] None
  end.
(** coring.py:3298-3299 *)
Definition inLabelDex (m : matter) : res matter :=
  raise_if (negb (memB (m_code m) LabelDex)) InvalidCodeError (Ok m).
(** coring.py:3232-3254 Labeler(label=) *)
Definition labeler_label (s : bytes) : res matter :=
  match s with
  | [] => Err EmptyMaterialError
  | _ => raise_if (negb (Reatt s)) InvalidValueError (m <- compact s ;; inLabelDex m)
  end.
(** coring.py:3256-3294 Labeler(text=) *)
Definition labeler_text (s : bytes) : res matter :=
  m <- (if Reb64 s then match s with [] => matter_of_raw [] Empty [] None | _ => compact s end
        else matter_of_raw s (if len s =? 1 then s2b "V" else if len s =? 2 then s2b "W" else s2b "4B") [] None) ;;
  inLabelDex m.
(** coring.py:3325-3338 text *)
Definition textOf (m : matter) : res bytes :=
  if memB (m_code m) TagDex then Ok (m_soft m)
  else if memB (m_code m) BexDex then derawify (m_raw m) (m_code m) true
  else decode (m_raw m).
(** coring.py:3303-3322 label *)
Definition labelOf (m : matter) : res bytes :=
  s <- textOf m ;; raise_if (negb (Reatt s)) InvalidValueError (Ok s).

(** ** Decimer *)
(** coring.py:1929-1930 ToB64, FromB64 *)
Definition toB64 (x : N) : N := if x =? 46 then 112 else x.
Definition fromB64 (x : N) : N := if x =? 112 then 46 else x.
(** coring.py:1966-1979 _rawify *)
Definition decRaw (dns : bytes) : res bytes :=
  let s := map toB64 dns in
  let ts := len s mod 4 in
  raw <- decodeB64 (repeat 65 (N.to_nat ((4 - ts) mod 4)) ++ s) ;; Ok (ndrop ((3 - ts) mod 3) raw).
(** coring.py:1982-1997 dns *)
Definition dnsOf (m : matter) : res bytes := s <- derawify (m_raw m) (m_code m) false ;; Ok (map fromB64 s).
(** the int of a text: a sign, digits, single underscores between digits.  Not modelled: surrounding
    white space, digits outside ASCII *)
Fixpoint digitsU (s : bytes) (prev : bool) : option (list N) :=
  match s with
  | [] => if prev then Some [] else None
  | x :: s =>
      if x =? 95 then if prev then digitsU s false else None
      else match decval x, digitsU s true with Some d, Some l => Some (d :: l) | _, _ => None end
  end.
Definition pynat (s : bytes) : option N :=
  match digitsU s false with Some l => Some (of_digits 10 l) | None => None end.
Definition pyint (s : bytes) : option Z :=
  match s with
  | 45 :: r => option_map (fun n => (- Z.of_N n)%Z) (pynat r)
  | 43 :: r => option_map Z.of_N (pynat r)
  | _ => option_map Z.of_N (pynat s)
  end.
(** an int or a float; a float is given by its repr, which determines it *)
Inductive dec := DInt (z : Z) | DFloat (r : bytes).
(** f"{decimal}" *)
Definition decText (d : dec) : bytes := match d with DInt z => jint z | DFloat r => r end.
Section Float.
(** repr(float(s)), None when float(s) raises ValueError *)
Variable pyfloat : bytes -> option bytes.
(** coring.py:1952-1957, 2003-2009: int(dns), float(dns) if that fails *)
Definition decParse (s : bytes) : res dec :=
  match pyint s with
  | Some z => Ok (DInt z)
  | None => match pyfloat s with Some r => Ok (DFloat r) | None => Err ValueError end
  end.
(** coring.py:1939-1964 Decimer(decimal=), Decimer(dns=) *)
Definition decimer_of_dns (dns : bytes) : res matter :=
  d <- decParse dns ;;
  raw <- decRaw (decText d) ;;
  m <- matter_of_raw raw (s2b "4H") [] None ;;
  raise_if (negb (memB (m_code m) DecDex)) ValidationError (Ok m).
Definition decimer_of_dec (d : dec) : res matter := decimer_of_dns (decText d).
(** coring.py:2000-2009 decimal *)
Definition decimal (m : matter) : res dec := s <- dnsOf m ;; decParse s.
End Float.

(** ** Mapper *)
(** Matter(raw=b'', code=code).qb64b *)
Definition bare (code : bytes) : res bytes := m <- matter_of_raw [] code [] None ;; infil m.
(** no floats in field maps *)
Definition noFloat (s : bytes) : option bytes := None.
Definition txt (s : bytes) : res bytes := m <- labeler_text s ;; infil m.
(** core/mapping.py:674-688: a text that is one primitive is written as it is, after an escape code if it
    would be read as something else *)
Definition serText (s : bytes) : res bytes :=
  match exfil s with
  | Err _ => txt s
  | Ok p =>
      q <- infil p ;;
      if negb (len q =? len s) then txt s
      else e <- (if memB (m_code p) EscapeDex then bare Escape else Ok []) ;; Ok (e ++ q)
  end.
Definition serLabel (strict : bool) (l : bytes) : res bytes :=
  m <- (if strict then labeler_label l else labeler_text l) ;; infil m.
(** core/mapping.py:657-708 _serialize *)
Fixpoint serialize (strict : bool) (v : val) : res bytes :=
  match v with
  | VNull => bare Null
  | VBool b => bare (if b then Yes else No)
  | VInt z => m <- decimer_of_dec noFloat (DInt z) ;; infil m
  | VStr s => serText s
  | VList l =>
      bdy <- (fix go (l : list val) : res bytes :=
                match l with
                | [] => Ok []
                | v :: r => a <- serialize strict v ;; b <- go r ;; Ok (a ++ b)
                end) l ;;
      enclose V20 (s2b "GenericListGroup") bdy
  | VMap m =>
      bdy <- (fix go (m : sad) : res bytes :=
                match m with
                | [] => Ok []
                | (l, v) :: r => k <- serLabel strict l ;; a <- serialize strict v ;; b <- go r ;; Ok (k ++ a ++ b)
                end) m ;;
      enclose V20 (s2b "GenericMapGroup") bdy
  end.
(** "except InvalidValueError: raise" another one *)
Definition catchIV {A} (e : exn) (r : res A) : res A :=
  match r with Err InvalidValueError => Err e | _ => r end.
(** core/mapping.py:581-612 the fields of the map, those with a label in [dl] as they are *)
Fixpoint exhaleFields (strict : bool) (dl : list bytes) (m : sad) : res bytes :=
  match m with
  | [] => Ok []
  | (l, v) :: r =>
      a <- catchIV SerializeError (
             k <- serLabel strict l ;;
             x <- (if memB l dl then match v with VStr s => Ok s | _ => Err TypeError end else serialize strict v) ;;
             Ok (k ++ x)) ;;
      b <- exhaleFields strict dl r ;; Ok (a ++ b)
  end.
(** core/mapping.py:579-616 _exhale, native *)
Definition exhale (strict : bool) (dl : list bytes) (m : sad) : res bytes :=
  bdy <- exhaleFields strict dl m ;; enclose V20 (s2b "GenericMapGroup") bdy.

(** core/mapping.py:546-558: the value a primitive other than an escape stands for *)
Definition primValue (m : matter) : res val :=
  if beq (m_code m) Null then Ok VNull
  else if beq (m_code m) Yes then Ok (VBool true)
  else if beq (m_code m) No then Ok (VBool false)
  else
    q <- infil m ;;
    if memB (m_code m) DecDex then
      m' <- exfil q ;; d <- decimal noFloat m' ;; match d with DInt z => Ok (VInt z) | DFloat _ => Err ValueError end
    else if memB (m_code m) LabelDex then m' <- exfil q ;; s <- textOf m' ;; Ok (VStr s)
    else Ok (VStr q).
(** Labeler(qb64b=, strip=True).label or .text *)
Definition readLabel (strict : bool) (s : bytes) : res (bytes * bytes) :=
  '(m, r) <- matter_strip s ;; m <- inLabelDex m ;;
  l <- (if strict then labelOf m else textOf m) ;; Ok (l, r).
Definition isList (name : bytes) : bool := memB name [s2b "GenericListGroup"; s2b "BigGenericListGroup"].
Definition isMapName (name : bytes) : bool := memB name [s2b "GenericMapGroup"; s2b "BigGenericMapGroup"].
(** core/mapping.py:507-560 _deserialize: the value and the rest of the stream.  The first argument bounds
    the number of calls; OverflowError when it is used up *)
Fixpoint deserialize (n : nat) (strict : bool) (s : bytes) : res (val * bytes) :=
  match n with
  | O => Err OverflowError
  | S n =>
      match s with
      | [] => Err IndexError
      | x :: _ =>
          if x =? 45 then
            '(ctr, r) <- counter_strip V20 s ;;
            let k := byteCount_txt ctr in
            if isList (c_name ctr) then l <- desElems n strict (ntake k r) ;; Ok (VList l, ndrop k r)
            else if isMapName (c_name ctr) then m <- desFields n strict (ntake k r) [] ;; Ok (VMap m, ndrop k r)
            else Err DeserializeError
          else
            '(m, r) <- matter_strip s ;;
            if beq (m_code m) Escape then
              '(p, r') <- matter_strip r ;; q <- infil p ;; Ok (VStr q, r')
            else v <- primValue m ;; Ok (v, r)
      end
  end
with desElems (n : nat) (strict : bool) (s : bytes) : res (list val) :=
  match n with
  | O => Err OverflowError
  | S n => match s with
           | [] => Ok []
           | _ => '(v, r) <- deserialize n strict s ;; l <- desElems n strict r ;; Ok (v :: l)
           end
  end
with desFields (n : nat) (strict : bool) (s : bytes) (d : sad) : res sad :=
  match n with
  | O => Err OverflowError
  | S n => match s with
           | [] => Ok d
           | _ => '(l, r) <- readLabel strict s ;;
                  '(v, r') <- deserialize n strict r ;;
                  desFields n strict r' (dset d l v)
           end
  end.
(** core/mapping.py:456-479 _inhale, native *)
Definition inhale (strict : bool) (s : bytes) : res sad :=
  '(ctr, r) <- counter_strip V20 s ;;
  raise_if (negb (isMapName (c_name ctr))) DeserializeError (
  raise_if (negb (len r =? byteCount_txt ctr)) DeserializeError (
  catchIV DeserializeError (desFields (2 * List.length r + 1) strict r []))).
(** core/mapping.py:235-242, 255 Mapper(raw=s), native: what the counter counts is taken from the front *)
Definition mapperRead (strict : bool) (s : bytes) : res sad :=
  ctr <- cexfil V20 s ;; sz <- CtrModel.csize ctr ;; inhale strict (ntake (byteCount_txt ctr + cfs sz) s).
(** core/mapping.py:246-251, 255 Mapper(qb2=s), native *)
Definition mapperReadB (strict : bool) (s : bytes) : res sad :=
  ctr <- cbexfil V20 s ;; sz <- CtrModel.csize ctr ;; inhale strict (encodeB64 (ntake (byteCount_bny ctr + cfs sz * 3 / 4) s)).
(** core/mapping.py:312-322 qb2 *)
Definition qb2 (raw : bytes) : res bytes := decodeB64 raw.
(** core/mapping.py:1706-1734 Aggor._exhale, native *)
Fixpoint aggFields (l : list val) : res bytes :=
  match l with
  | [] => Ok []
  | v :: r =>
      a <- (match v with
            | VMap m => match exhale true [] m with Ok q => Ok q | Err _ => Err SerializeError end
            | VStr s => Ok s
            | _ => Err SerializeError
            end) ;;
      b <- aggFields r ;; Ok (a ++ b)
  end.
Definition exhaleList (l : list val) : res bytes :=
  bdy <- aggFields l ;; enclose V20 (s2b "GenericListGroup") bdy.
