(** Subclasses of Matter with a computed value: Seqner, Number, Tagger, Bexter
    (core/coring.py), and Python's hexadecimal integer formatting. *)
From Verif Require Import Prelude B64Model MatterModel.

(** ** Hexadecimal text *)

(** Digit characters of Python's '%x' format: 0-9 a-f. *)
Definition hexchr (d : N) : N := if d <? 10 then 48 + d else 87 + d.

(** Value of a character accepted by int(s, 16). *)
Definition hexval (ch : N) : option N :=
  if (48 <=? ch) && (ch <=? 57) then Some (ch - 48)
  else if (97 <=? ch) && (ch <=? 102) then Some (ch - 87)
  else if (65 <=? ch) && (ch <=? 70) then Some (ch - 55)
  else None.

(** Number of base [b] digits of v, at least one. *)
Fixpoint ndigits (fuel : nat) (b v : N) : nat :=
  match fuel with
  | O => 1
  | S f => if v <? b then 1 else S (ndigits f b (v / b))
  end.

(** f"{v:x}" *)
Definition hexstr (v : N) : bytes :=
  map hexchr (to_digits 16 (ndigits (N.size_nat v) 16 v) v).

(** '%0<w>x' % v: zero padded to at least w characters. *)
Definition hexpad (w : nat) (v : N) : bytes :=
  map hexchr (to_digits 16 (Nat.max w (ndigits (N.size_nat v) 16 v)) v).

(** int(s, 16).  Simplification: Python additionally accepts surrounding white
    space, a sign, a 0x prefix and underscores between digits; here these are
    rejected. *)
Fixpoint hexdigits (s : bytes) : option (list N) :=
  match s with
  | [] => Some []
  | ch :: s' => match hexval ch, hexdigits s' with
                | Some d, Some l => Some (d :: l)
                | _, _ => None
                end
  end.
Definition hexint (s : bytes) : res N :=
  match s with
  | [] => Err ValueError
  | _ => match hexdigits s with Some l => Ok (of_digits 16 l) | None => Err ValueError end
  end.

(** kering.py MaxON: 256 ** 16 - 1 *)
Definition MaxON : N := 256 ^ 16 - 1.

(** ** Number *)

(** coring.py:496-515 NumDex *)
Definition NumShort := s2b "M".
Definition NumLong := s2b "0H".
Definition NumTall := s2b "R".
Definition NumBig := s2b "N".
Definition NumLarge := s2b "S".
Definition NumGreat := s2b "T".
Definition NumHuge := s2b "0A".
Definition NumVast := s2b "U".
Definition NumDex : list bytes :=
  [NumShort; NumLong; NumTall; NumBig; NumLarge; NumGreat; NumHuge; NumVast].
Definition memB (x : bytes) (l : list bytes) : bool := existsb (beq x) l.

(** coring.py:1739-1762: choice of the code from the value. *)
Definition numCode (num : N) : res bytes :=
  if num <=? 256 ^ 2 - 1 then Ok NumShort
  else if num <=? 256 ^ 5 - 1 then Ok NumTall
  else if num <=? 256 ^ 8 - 1 then Ok NumBig
  else if num <=? 256 ^ 11 - 1 then Ok NumLarge
  else if num <=? 256 ^ 14 - 1 then Ok NumGreat
  else if num <=? 256 ^ 17 - 1 then Ok NumVast
  else Err InvalidValueError.

(** coring.py:1715-1781 Number(num=, code=); Matter._rawSize on an unknown code is
    a KeyError, inside the try at 1766, hence InvalidValueError.  Negative numbers
    (rejected at 1733) and non-integers are not representable here. *)
Definition number_of_num (num : N) (code : option bytes) : res matter :=
  code' <- (match code with Some c => Ok c | None => numCode num end) ;;
  raw <- (match dget Sizes code' with
          | None => Err InvalidValueError
          | Some sz => match rawSize sz with
                       | Ok n => match int_to_bytes n num with Ok r => Ok r | Err _ => Err InvalidValueError end
                       | Err _ => Err InvalidValueError
                       end
          end) ;;
  m <- matter_of_raw raw code' [] None ;;
  raise_if (negb (memB (m_code m) NumDex)) ValidationError (Ok m).

(** Number(numh=) of a non empty str: coring.py:1722-1727 *)
Definition number_of_numh (numh : bytes) : res matter :=
  n <- (match numh with [] => Ok 0 | _ => match hexint numh with Ok n => Ok n | Err _ => Err InvalidValueError end end) ;;
  number_of_num n None.

(** Number(qb64b=) and Number(qb2=): coring.py:1776-1781 *)
Definition number_of_qb64 (q : bytes) : res matter :=
  m <- exfil q ;; raise_if (negb (memB (m_code m) NumDex)) ValidationError (Ok m).
Definition number_of_qb2 (q : bytes) : res matter :=
  m <- bexfil q ;; raise_if (negb (memB (m_code m) NumDex)) ValidationError (Ok m).

(** coring.py:1818-1831 .num .numh *)
Definition num (m : matter) : N := int_from_bytes (m_raw m).
Definition numh (m : matter) : bytes := hexstr (num m).

(** coring.py:1851-1861 .onkey *)
Definition onkey (m : matter) : res bytes :=
  raise_if (MaxON <? num m) InvalidValueError (Ok (hexpad 32 (num m))).

(** coring.py:1864-1875 .huge *)
Definition huge (m : matter) : res bytes :=
  raise_if (MaxON <? num m) InvalidValueError
    (h <- number_of_num (num m) (Some NumHuge) ;; infil h).

(** coring.py:1784-1815 validate(inceptive) *)
Definition number_validate (m : matter) (inceptive : option bool) : res matter :=
  raise_if (MaxON <? num m) ValidationError
  (match inceptive with
   | Some true => raise_if (negb (num m =? 0)) ValidationError (Ok m)
   | Some false => raise_if (num m <? 1) ValidationError (Ok m)
   | None => Ok m
   end).

(** ** Seqner: coring.py:1556-1614 Seqner(sn=) and Seqner(qb64b=) *)
Definition seqner_of_sn (sn : N) : res matter :=
  raise_if (MaxON <? sn) ValidationError
    (raw <- int_to_bytes 16 sn ;; matter_of_raw raw NumHuge [] None).
Definition seqner_of_qb64 (q : bytes) : res matter :=
  m <- exfil q ;; raise_if (negb (beq (m_code m) NumHuge)) ValidationError (Ok m).

(** ** Tagger *)

(** coring.py:519-541 TagDex, in order of tag size *)
Definition TagDex : list bytes :=
  [s2b "0J"; s2b "0K"; s2b "X"; s2b "1AAF"; s2b "0L"; s2b "0M"; s2b "Y"; s2b "1AAN"; s2b "0N"; s2b "0O"; s2b "Z"].

(** coring.py:909-918 _special: soft part present and fixed size. *)
Definition special (code : bytes) : bool :=
  match dget Sizes code with
  | Some sz => match fs sz with Some _ => 0 <? ss sz | None => false end
  | None => false
  end.

(** coring.py:2221-2236 _codify *)
Definition tag_codify (tag : bytes) : res bytes :=
  let l := len tag in
  raise_if ((l <? 1) || (len TagDex <? l)) InvalidSoftError
    (Ok (nth (N.to_nat (l - 1)) TagDex [])).

(** coring.py:2186-2217 Tagger(tag=); an empty tag leaves code None, which Matter
    without other input rejects. *)
Definition tagger_of_tag (tag : bytes) : res matter :=
  match tag with
  | [] => Err EmptyMaterialError
  | _ =>
    raise_if (negb (Reb64 tag)) InvalidSoftError (
    code <- tag_codify tag ;;
    m <- matter_of_soft code tag ;;
    raise_if (negb (special (m_code m)) || negb (memB (m_code m) TagDex)) InvalidCodeError (Ok m))
  end.
Definition tagger_of_qb64 (q : bytes) : res matter :=
  m <- exfil q ;;
  raise_if (negb (special (m_code m)) || negb (memB (m_code m) TagDex)) InvalidCodeError (Ok m).
Definition tag (m : matter) : bytes := m_soft m.

(** ** Bexter *)

(** coring.py:388-403 BexDex *)
Definition StrB64_L0 := s2b "4A".
Definition BexDex : list bytes := [StrB64_L0; s2b "5A"; s2b "6A"; s2b "7AAA"; s2b "8AAA"; s2b "9AAA"].

(** coring.py:2817-2869 _rawify *)
Definition wadSize (bext : bytes) : N := (4 - len bext mod 4) mod 4.
Definition bext_escape (bext : bytes) (escapive : bool) : bytes :=
  match bext with
  | [] => bext
  | x :: _ => if escapive && (((x =? 65) && (wadSize bext <=? 1)) || (x =? 45)) then 45 :: bext else bext
  end.
Definition rawify (bext : bytes) (escapive : bool) : res bytes :=
  let bext := bext_escape bext escapive in
  let ws := wadSize bext in
  let l := (3 - len bext mod 4) mod 3 in
  raw <- decodeB64 (repeat 65 (N.to_nat ws) ++ bext) ;; Ok (ndrop l raw).

(** coring.py:2736-2786 _derawify *)
Definition derawify (raw code : bytes) (escapive : bool) : res bytes :=
  match dget Sizes code with
  | None => Err KeyError
  | Some sz =>
      let bext := encodeB64 (zeros (N.to_nat (ls sz)) ++ raw) in
      let ws := match bext with
                | x :: _ => if ls sz =? 0 then (if x =? 65 then 1 else 0) else (ls sz + 1) mod 4
                | [] => (ls sz + 1) mod 4
                end in
      let bext := ndrop ws bext in
      Ok (if escapive then match bext with 45 :: r => r | _ => bext end else bext)
  end.

(** coring.py:2788-2815 Bexter(bext=) *)
Definition bexter_of_bext (bext : bytes) (escapive : bool) : res matter :=
  raise_if (negb (Reb64 bext)) ValueError (
  raw <- rawify bext escapive ;;
  m <- matter_of_raw raw StrB64_L0 [] None ;;
  raise_if (negb (memB (m_code m) BexDex)) ValidationError (Ok m)).
Definition bexter_of_qb64 (q : bytes) : res matter :=
  m <- exfil q ;; raise_if (negb (memB (m_code m) BexDex)) ValidationError (Ok m).
(** coring.py:2872-2876 .bext *)
Definition bext (m : matter) (escapive : bool) : res bytes := derawify (m_raw m) (m_code m) escapive.
