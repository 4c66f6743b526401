(** Signing thresholds: core/coring.py Tholder, core/eventing.py ample, verifySigs,
    validateSigs. *)
From Coq Require Export QArith.
From Verif Require Import Prelude B64Model MatterModel SubsModel.
Open Scope N_scope.

(** ** ample: eventing.py:71-108.  ceil(x/2) and ceil(x/3) are exact (Python goes
    through floats, exact below 2^53).  n and f are non negative here; the code
    clamps negative ones to 0. *)
Definition cdiv (a b : N) : N := (a + (b - 1)) / b.
Definition ample (n : N) (f : option N) (weak : bool) : res N :=
  match f with
  | None =>
      let f1 := N.max 1 ((n - 1) / 3) in
      let f2 := N.max 1 (cdiv (n - 1) 3) in
      if weak then Ok (N.min n (N.min (cdiv (n + f1 + 1) 2) (cdiv (n + f2 + 1) 2)))
      else Ok (N.min n (N.max (n - f1) (cdiv (n + f1 + 1) 2)))
  | Some f =>
      let m1 := cdiv (n + f + 1) 2 in
      let m2 := n - f in
      raise_if ((m2 <? m1) && (0 <? n)) ValueError
        (if weak then Ok (N.min n (N.min m1 m2)) else Ok (N.min n (N.max m1 m2)))
  end.

(** ** Weights *)

(** str(n) for a non negative int, and int(s) for a string of decimal digits. *)
Definition decstr (v : N) : bytes :=
  map (fun d => 48 + d) (to_digits 10 (ndigits (N.size_nat v) 10 v) v).
Definition decval (ch : N) : option N := if (48 <=? ch) && (ch <=? 57) then Some (ch - 48) else None.
Fixpoint decdigits (s : bytes) : option (list N) :=
  match s with
  | [] => Some []
  | ch :: s' => match decval ch, decdigits s' with
                | Some d, Some l => Some (d :: l)
                | _, _ => None
                end
  end.
Definition decint (s : bytes) : option N :=
  match s with [] => None | _ => match decdigits s with Some l => Some (of_digits 10 l) | None => None end end.

(** str.split(sep) for a one character separator. *)
Fixpoint splitb (sep : N) (s : bytes) : list bytes :=
  match s with
  | [] => [[]]
  | ch :: s' =>
      if ch =? sep then [] :: splitb sep s'
      else match splitb sep s' with
           | [] => [[ch]]
           | p :: ps => (ch :: p) :: ps
           end
  end.
(** sep.join(l) *)
Fixpoint joinb (sep : N) (l : list bytes) : bytes :=
  match l with
  | [] => []
  | [x] => x
  | x :: r => x ++ sep :: joinb sep r
  end.
(** str.partition(sep): text before, whether the separator occurs, text after. *)
Fixpoint partitionb (sep : N) (s : bytes) : bytes * bool * bytes :=
  match s with
  | [] => ([], false, [])
  | ch :: s' => if ch =? sep then ([], true, s')
                else let '(a, b, r) := partitionb sep s' in (ch :: a, b, r)
  end.

(** fractions.Fraction; helper *)
Definition mkQ (n : N) (d : positive) : Q := Qmake (Z.of_N n) d.

(** coring.py:4617-4642 weight.  Accepted syntax here: decimal digits, or digits/digits.
    Simplification: signs, white space, underscores and decimal notation such as
    "1.0" (which Fraction also accepts) are rejected. *)
Definition weight (w : bytes) : res Q :=
  q <- (match decint w with
        | Some n => Ok (mkQ n 1)
        | None =>
            match splitb 47 w with
            | [a; b] =>
                match decint a, decint b with
                | Some n, Some (Npos d) => Ok (Qred (mkQ n d))
                | Some _, Some 0 => Err ZeroDivisionError
                | _, _ => Err ValueError
                end
            | _ => Err ValueError
            end
        end) ;;
  raise_if (negb (Qle_bool 0 q && Qle_bool q 1)) ValueError (Ok q).

(** ** Threshold expressions *)

(** Element of a clause: a weight, or a tuple (weight, list of weights). *)
Inductive elem := EW (w : Q) | EN (k : Q) (vs : list Q).

(** ._thold: int or list of clauses *)
Inductive tholder := TNum (n : N) | TWt (th : list (list elem)).

(** sum of fractions, [w < 1]; helpers of coring.py:4560-4614 *)
Definition qsum (l : list Q) : Q := fold_left Qplus l 0%Q.
Definition topw (e : elem) : Q := match e with EW w => w | EN k _ => k end.
Definition lt1 (q : Q) : bool := negb (Qle_bool 1 q).

(** the format expression of coring.py:4389,4395,4603,4608; int(f) of a non negative
    fraction is its floor.  sep is '/' or 's'. *)
Definition wstr (sep : N) (w : Q) : bytes :=
  if negb (Qle_bool w 0) && negb (Qle_bool 1 w)
  then decstr (Z.to_N (Qnum w)) ++ sep :: decstr (Npos (Qden w))
  else decstr (Z.to_N (Qnum w / Zpos (Qden w))).

(** coring.py:4597-4612: the Base64 text of the thresholds *)
Definition estr (e : elem) : bytes :=
  match e with
  | EW w => wstr 115 w
  | EN k vs => joinb 107 [wstr 115 k; joinb 118 (map (wstr 115) vs)]
  end.
Definition bextOf (th : list (list elem)) : bytes :=
  joinb 97 (map (fun cl => joinb 99 (map estr cl)) th).

(** coring.py:4567-4582: weights that do not sum to at least one *)
Definition badElem (e : elem) : bool := match e with EW _ => false | EN _ vs => lt1 (qsum vs) end.
Definition badClause (cl : list elem) : bool := existsb badElem cl || lt1 (qsum (map topw cl)).

(** coring.py:4560-4614 _processWeighted *)
Definition processWeighted (th : list (list elem)) : res tholder :=
  raise_if (existsb badClause th) ValueError (
  _ <- bexter_of_bext (bextOf th) true ;;
  Ok (TWt th)).

(** coring.py:4544-4557 _processUnweighted *)
Definition processUnweighted (n : N) : res tholder :=
  _ <- number_of_num n None ;; Ok (TNum n).

(** list comprehension that may raise *)
Fixpoint mapr {A B} (f : A -> res B) (l : list A) : res (list B) :=
  match l with
  | [] => Ok []
  | x :: l' => y <- f x ;; r <- mapr f l' ;; Ok (y :: r)
  end.

(** coring.py:4423-4432 _processThold *)
Definition processThold (t : tholder) : res tholder :=
  match t with TNum n => processUnweighted n | TWt th => processWeighted th end.

(** coring.py:4454-4460 one element of a limen clause *)
Definition limenElem (e : bytes) : res elem :=
  let '(k, s, v) := partitionb 107 e in
  if (s : bool) then k' <- weight k ;; vs <- mapr weight (splitb 118 v) ;; Ok (EN k' vs)
  else k' <- weight k ;; Ok (EW k').

(** coring.py:4435-4467 _processLimen *)
Definition processLimen (limen : bytes) : res tholder :=
  m <- exfil limen ;;
  if memB (m_code m) NumDex then
    n <- matter_of_raw (m_raw m) (m_code m) [] None ;;
    processUnweighted (num n)
  else if memB (m_code m) BexDex then
    b <- matter_of_raw (m_raw m) (m_code m) [] None ;;
    t <- bext b true ;;
    let t := map (fun ch => if ch =? 115 then 47 else ch) t in
    th <- mapr (fun cl => mapr limenElem (splitb 99 cl)) (splitb 97 t) ;;
    processWeighted th
  else Err InvalidCodeError.

(** sith values: int, hex str, or list of items; an item is a list (clause), a str
    weight or a single key map.  A JSON str of a list is not modelled, nor maps
    with other than one key (rejected at 4529). *)
Inductive selem := SW (w : bytes) | SN (k : bytes) (vs : list bytes).
Inductive item := IElem (e : selem) | IClause (cl : list selem).
Inductive sith := SInt (n : N) | SHex (s : bytes) | SList (l : list item).

(** coring.py:4520-4539 weights of a clause element *)
Definition selemWeight (e : selem) : res elem :=
  match e with
  | SW w => q <- weight w ;; Ok (EW q)
  | SN k vs => q <- weight k ;; qs <- mapr weight vs ;; Ok (EN q qs)
  end.
Definition asElem (i : item) : res selem := match i with IElem e => Ok e | IClause _ => Err ValueError end.
Definition isClause (i : item) : bool := match i with IClause _ => true | IElem _ => false end.
Definition clauseOf (i : item) : list selem := match i with IClause cl => cl | IElem _ => [] end.

(** coring.py:4470-4541 _processSith, and 4348-4352 *)
Definition processSith (s : sith) : res tholder :=
  match s with
  | SInt n => processUnweighted n
  | SHex [] => Err EmptyMaterialError
  | SHex h => n <- hexint h ;; processUnweighted n
  | SList [] => Err ValueError
  | SList l =>
      cls <- (if forallb isClause l then Ok (map clauseOf l)
              else cl <- mapr asElem l ;; Ok [cl]) ;;
      th <- mapr (mapr selemWeight) cls ;;
      processWeighted th
  end.

(** coring.py:4373-4376 limen *)
Definition limenOf (t : tholder) : res bytes :=
  match t with
  | TNum n => m <- number_of_num n None ;; infil m
  | TWt th => m <- bexter_of_bext (bextOf th) true ;; infil m
  end.

(** coring.py:4378-4406 sith *)
Definition selemOf (e : elem) : selem :=
  match e with EW w => SW (wstr 47 w) | EN k vs => SN (wstr 47 k) (map (wstr 47) vs) end.
Definition sithOf (t : tholder) : sith :=
  match t with
  | TNum n => SHex (hexstr n)
  | TWt [cl] => SList (map (fun e => IElem (selemOf e)) cl)
  | TWt th => SList (map (fun cl => IClause (map selemOf cl)) th)
  end.

(** coring.py:4586-4593 size *)
Definition esize (e : elem) : N := match e with EW _ => 1 | EN _ vs => len vs end.
Definition csize (cl : list elem) : N := fold_left (fun s e => s + esize e) cl 0.
Definition thsize (t : tholder) : N :=
  match t with
  | TNum n => n
  | TWt th => fold_left (fun s cl => s + csize cl) th 0
  end.

(** coring.py:4657-4670 _satisfy_numeric *)
Definition satisfy_numeric (thold : N) (indices : list N) : bool :=
  (0 <? thold) && (thold <=? len indices).

(** coring.py:4673-4717 _satisfy_weighted.  sats is the list of flags, read at the
    running offset wio; an index beyond the flags is an IndexError, caught as False. *)
Definition sat (sats : list bool) (wio : N) : bool := nth (N.to_nat wio) sats false.
Fixpoint nestedSum (sats : list bool) (vs : list Q) (wio : N) (vw : Q) : Q * N :=
  match vs with
  | [] => (vw, wio)
  | w :: vs' => nestedSum sats vs' (wio + 1) (if sat sats wio then vw + w else vw)%Q
  end.
Fixpoint clauseSum (sats : list bool) (cl : list elem) (wio : N) (cw : Q) : Q * N :=
  match cl with
  | [] => (cw, wio)
  | EN k vs :: cl' =>
      let '(vw, wio') := nestedSum sats vs wio 0%Q in
      clauseSum sats cl' wio' (if Qle_bool 1 vw then cw + k else cw)%Q
  | EW w :: cl' => clauseSum sats cl' (wio + 1) (if sat sats wio then cw + w else cw)%Q
  end.
Fixpoint allClauses (sats : list bool) (th : list (list elem)) (wio : N) : bool :=
  match th with
  | [] => true
  | cl :: th' =>
      let '(cw, wio') := clauseSum sats cl wio 0%Q in
      if lt1 cw then false else allClauses sats th' wio'
  end.
Definition satisfy_weighted (th : list (list elem)) (indices : list N) : bool :=
  match indices with
  | [] => false
  | _ =>
      let size := thsize (TWt th) in
      if existsb (fun i => size <=? i) indices then false
      else
        let sats := map (fun i => memN (N.of_nat i) indices) (seq 0 (N.to_nat size)) in
        allClauses sats th 0
  end.
Definition satisfy (t : tholder) (indices : list N) : bool :=
  match t with TNum n => satisfy_numeric n indices | TWt th => satisfy_weighted th indices end.

(** ** Indexed signatures *)

(** An attached indexed signature: its text (.qb64), its .index, its .raw and its .ondex
    (None for signatures that only index the current key list). *)
Record siger := mkSigerO { sg_qb64 : bytes; sg_index : N; sg_raw : bytes; sg_ondex : option N }.
Definition mkSiger (q : bytes) (i : N) (r : bytes) : siger := mkSigerO q i r None.

(** oset([...qb64...]): first occurrences, in order. *)
Fixpoint dedupB (seen : list bytes) (l : list siger) : list siger :=
  match l with
  | [] => []
  | s :: l' => if memB (sg_qb64 s) seen then dedupB seen l'
               else s :: dedupB (sg_qb64 s :: seen) l'
  end.

Section Verify.
  (** Verfer.verify of key [k] on signature bytes and signed data. *)
  Variable key : Type.
  Variable vrfy : key -> bytes -> bytes -> bool.

  (** eventing.py:316-359 verifySigs.  usigers are re-parsed from their text, so a
      siger's index and raw are functions of its qb64. *)
  Definition verifySigs (raw : bytes) (sigers : list siger) (verfers : list key) : list siger * list N :=
    let us := dedupB [] sigers in
    let vs := filter (fun s => match nth_error verfers (N.to_nat (sg_index s)) with
                               | Some k => vrfy k (sg_raw s) raw
                               | None => false
                               end) us in
    (vs, map sg_index vs).

  (** eventing.py:362-403 validateSigs *)
  Definition validateSigs (raw : bytes) (sigers : list siger) (verfers : list key) (t : tholder)
    : res (list siger * bool) :=
    raise_if (len verfers <? thsize t) ValidationError (
    let '(vs, is) := verifySigs raw sigers verfers in
    match is with
    | [] => Err ValidationError
    | _ => Ok (vs, satisfy t is)
    end).
End Verify.
