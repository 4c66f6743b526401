(** Messages: class Serder and class SerderKERI of serdering.py, class Saider of coring.py.

    Modelled: construction from raw bytes (_inhale of JSON, CBOR and MGPK messages, followed by
    _verify) and from a field map (makify and _exhale, followed by _verify).  The digest
    algorithms, json.loads and the cbor and msgpack libraries are parameters.
    Not modelled: CESR native serialization (_loads, _dumps and the CESR branch of _inhale), which
    is a parameter of [dumps] or raises; the compaction of version 2 ACDC sections. *)
From Verif Require Import Prelude B64Model MatterModel SubsModel ThModel VerModel JsonModel.
Open Scope N_scope.

(** serdering.py:40-122 FieldDom; alls with the default values of makify, opts, alts, saids, strict *)
Record fielddom := mkFieldDom { f_alls : list (bytes * val); f_opts : list bytes; f_alts : list (bytes * bytes);
                                f_saids : list (bytes * bytes); f_strict : bool }.

(** serdering.py:372-429 Serder.Fields[KERI][(1, 0)] *)
Definition Fields_KERI_1 : list (option bytes * fielddom) := [
  (Some (s2b "icp"), mkFieldDom [(s2b "v", VStr []); (s2b "t", VStr []); (s2b "d", VStr []); (s2b "i", VStr []); (s2b "s", VStr (s2b "0")); (s2b "kt", VStr (s2b "0")); (s2b "k", VList []); (s2b "nt", VStr (s2b "0")); (s2b "n", VList []); (s2b "bt", VStr (s2b "0")); (s2b "b", VList []); (s2b "c", VList []); (s2b "a", VList [])]
     [] [] [(s2b "d", s2b "E"); (s2b "i", s2b "E")] true);
  (Some (s2b "rot"), mkFieldDom [(s2b "v", VStr []); (s2b "t", VStr []); (s2b "d", VStr []); (s2b "i", VStr []); (s2b "s", VStr (s2b "0")); (s2b "p", VStr []); (s2b "kt", VStr (s2b "0")); (s2b "k", VList []); (s2b "nt", VStr (s2b "0")); (s2b "n", VList []); (s2b "bt", VStr (s2b "0")); (s2b "br", VList []); (s2b "ba", VList []); (s2b "a", VList [])]
     [] [] [(s2b "d", s2b "E")] true);
  (Some (s2b "ixn"), mkFieldDom [(s2b "v", VStr []); (s2b "t", VStr []); (s2b "d", VStr []); (s2b "i", VStr []); (s2b "s", VStr (s2b "0")); (s2b "p", VStr []); (s2b "a", VList [])]
     [] [] [(s2b "d", s2b "E")] true);
  (Some (s2b "dip"), mkFieldDom [(s2b "v", VStr []); (s2b "t", VStr []); (s2b "d", VStr []); (s2b "i", VStr []); (s2b "s", VStr (s2b "0")); (s2b "kt", VStr (s2b "0")); (s2b "k", VList []); (s2b "nt", VStr (s2b "0")); (s2b "n", VList []); (s2b "bt", VStr (s2b "0")); (s2b "b", VList []); (s2b "c", VList []); (s2b "a", VList []); (s2b "di", VStr [])]
     [] [] [(s2b "d", s2b "E"); (s2b "i", s2b "E")] true);
  (Some (s2b "drt"), mkFieldDom [(s2b "v", VStr []); (s2b "t", VStr []); (s2b "d", VStr []); (s2b "i", VStr []); (s2b "s", VStr (s2b "0")); (s2b "p", VStr []); (s2b "kt", VStr (s2b "0")); (s2b "k", VList []); (s2b "nt", VStr (s2b "0")); (s2b "n", VList []); (s2b "bt", VStr (s2b "0")); (s2b "br", VList []); (s2b "ba", VList []); (s2b "a", VList [])]
     [] [] [(s2b "d", s2b "E")] true);
  (Some (s2b "rct"), mkFieldDom [(s2b "v", VStr []); (s2b "t", VStr []); (s2b "d", VStr []); (s2b "i", VStr []); (s2b "s", VStr (s2b "0"))]
     [] [] [] true);
  (Some (s2b "qry"), mkFieldDom [(s2b "v", VStr []); (s2b "t", VStr []); (s2b "d", VStr []); (s2b "dt", VStr []); (s2b "r", VStr []); (s2b "rr", VStr []); (s2b "q", VMap [])]
     [] [] [(s2b "d", s2b "E")] true);
  (Some (s2b "rpy"), mkFieldDom [(s2b "v", VStr []); (s2b "t", VStr []); (s2b "d", VStr []); (s2b "dt", VStr []); (s2b "r", VStr []); (s2b "a", VList [])]
     [] [] [(s2b "d", s2b "E")] true);
  (Some (s2b "pro"), mkFieldDom [(s2b "v", VStr []); (s2b "t", VStr []); (s2b "d", VStr []); (s2b "dt", VStr []); (s2b "r", VStr []); (s2b "rr", VStr []); (s2b "q", VMap [])]
     [] [] [(s2b "d", s2b "E")] true);
  (Some (s2b "bar"), mkFieldDom [(s2b "v", VStr []); (s2b "t", VStr []); (s2b "d", VStr []); (s2b "dt", VStr []); (s2b "r", VStr []); (s2b "a", VList [])]
     [] [] [(s2b "d", s2b "E")] true);
  (Some (s2b "exn"), mkFieldDom [(s2b "v", VStr []); (s2b "t", VStr []); (s2b "d", VStr []); (s2b "i", VStr []); (s2b "rp", VStr []); (s2b "p", VStr []); (s2b "dt", VStr []); (s2b "r", VStr []); (s2b "q", VMap []); (s2b "a", VList []); (s2b "e", VMap [])]
     [] [] [(s2b "d", s2b "E")] true);
  (Some (s2b "vcp"), mkFieldDom [(s2b "v", VStr []); (s2b "t", VStr []); (s2b "d", VStr []); (s2b "i", VStr []); (s2b "ii", VStr []); (s2b "s", VStr (s2b "0")); (s2b "c", VList []); (s2b "bt", VStr (s2b "0")); (s2b "b", VList []); (s2b "n", VStr [])]
     [] [] [(s2b "d", s2b "E"); (s2b "i", s2b "E")] true);
  (Some (s2b "vrt"), mkFieldDom [(s2b "v", VStr []); (s2b "t", VStr []); (s2b "d", VStr []); (s2b "i", VStr []); (s2b "p", VStr []); (s2b "s", VStr (s2b "0")); (s2b "bt", VStr (s2b "0")); (s2b "br", VList []); (s2b "ba", VList [])]
     [] [] [(s2b "d", s2b "E")] true);
  (Some (s2b "iss"), mkFieldDom [(s2b "v", VStr []); (s2b "t", VStr []); (s2b "d", VStr []); (s2b "i", VStr []); (s2b "s", VStr (s2b "0")); (s2b "ri", VStr []); (s2b "dt", VStr [])]
     [] [] [(s2b "d", s2b "E")] true);
  (Some (s2b "rev"), mkFieldDom [(s2b "v", VStr []); (s2b "t", VStr []); (s2b "d", VStr []); (s2b "i", VStr []); (s2b "s", VStr (s2b "0")); (s2b "ri", VStr []); (s2b "p", VStr []); (s2b "dt", VStr [])]
     [] [] [(s2b "d", s2b "E")] true);
  (Some (s2b "bis"), mkFieldDom [(s2b "v", VStr []); (s2b "t", VStr []); (s2b "d", VStr []); (s2b "i", VStr []); (s2b "ii", VStr []); (s2b "s", VStr (s2b "0")); (s2b "ra", VMap []); (s2b "dt", VStr [])]
     [] [] [(s2b "d", s2b "E")] true);
  (Some (s2b "brv"), mkFieldDom [(s2b "v", VStr []); (s2b "t", VStr []); (s2b "d", VStr []); (s2b "i", VStr []); (s2b "s", VStr (s2b "0")); (s2b "p", VStr []); (s2b "ra", VMap []); (s2b "dt", VStr [])]
     [] [] [(s2b "d", s2b "E")] true)].
(** serdering.py:431-472 Serder.Fields[KERI][(2, 0)] *)
Definition Fields_KERI_2 : list (option bytes * fielddom) := [
  (Some (s2b "icp"), mkFieldDom [(s2b "v", VStr []); (s2b "t", VStr []); (s2b "d", VStr []); (s2b "i", VStr []); (s2b "s", VStr (s2b "0")); (s2b "kt", VStr (s2b "0")); (s2b "k", VList []); (s2b "nt", VStr (s2b "0")); (s2b "n", VList []); (s2b "bt", VStr (s2b "0")); (s2b "b", VList []); (s2b "c", VList []); (s2b "a", VList [])]
     [] [] [(s2b "d", s2b "E"); (s2b "i", s2b "E")] true);
  (Some (s2b "rot"), mkFieldDom [(s2b "v", VStr []); (s2b "t", VStr []); (s2b "d", VStr []); (s2b "i", VStr []); (s2b "s", VStr (s2b "0")); (s2b "p", VStr []); (s2b "kt", VStr (s2b "0")); (s2b "k", VList []); (s2b "nt", VStr (s2b "0")); (s2b "n", VList []); (s2b "bt", VStr (s2b "0")); (s2b "br", VList []); (s2b "ba", VList []); (s2b "c", VList []); (s2b "a", VList [])]
     [] [] [(s2b "d", s2b "E")] true);
  (Some (s2b "ixn"), mkFieldDom [(s2b "v", VStr []); (s2b "t", VStr []); (s2b "d", VStr []); (s2b "i", VStr []); (s2b "s", VStr (s2b "0")); (s2b "p", VStr []); (s2b "a", VList [])]
     [] [] [(s2b "d", s2b "E")] true);
  (Some (s2b "dip"), mkFieldDom [(s2b "v", VStr []); (s2b "t", VStr []); (s2b "d", VStr []); (s2b "i", VStr []); (s2b "s", VStr (s2b "0")); (s2b "kt", VStr (s2b "0")); (s2b "k", VList []); (s2b "nt", VStr (s2b "0")); (s2b "n", VList []); (s2b "bt", VStr (s2b "0")); (s2b "b", VList []); (s2b "c", VList []); (s2b "a", VList []); (s2b "di", VStr [])]
     [] [] [(s2b "d", s2b "E"); (s2b "i", s2b "E")] true);
  (Some (s2b "drt"), mkFieldDom [(s2b "v", VStr []); (s2b "t", VStr []); (s2b "d", VStr []); (s2b "i", VStr []); (s2b "s", VStr (s2b "0")); (s2b "p", VStr []); (s2b "kt", VStr (s2b "0")); (s2b "k", VList []); (s2b "nt", VStr (s2b "0")); (s2b "n", VList []); (s2b "bt", VStr (s2b "0")); (s2b "br", VList []); (s2b "ba", VList []); (s2b "c", VList []); (s2b "a", VList [])]
     [] [] [(s2b "d", s2b "E")] true);
  (Some (s2b "rct"), mkFieldDom [(s2b "v", VStr []); (s2b "t", VStr []); (s2b "d", VStr []); (s2b "i", VStr []); (s2b "s", VStr (s2b "0"))]
     [] [] [] true);
  (Some (s2b "qry"), mkFieldDom [(s2b "v", VStr []); (s2b "t", VStr []); (s2b "d", VStr []); (s2b "i", VStr []); (s2b "dt", VStr []); (s2b "r", VStr []); (s2b "rr", VStr []); (s2b "q", VMap [])]
     [] [] [(s2b "d", s2b "E")] true);
  (Some (s2b "rpy"), mkFieldDom [(s2b "v", VStr []); (s2b "t", VStr []); (s2b "d", VStr []); (s2b "i", VStr []); (s2b "dt", VStr []); (s2b "r", VStr []); (s2b "a", VMap [])]
     [] [] [(s2b "d", s2b "E")] true);
  (Some (s2b "pro"), mkFieldDom [(s2b "v", VStr []); (s2b "t", VStr []); (s2b "d", VStr []); (s2b "i", VStr []); (s2b "dt", VStr []); (s2b "r", VStr []); (s2b "rr", VStr []); (s2b "q", VMap [])]
     [] [] [(s2b "d", s2b "E")] true);
  (Some (s2b "bar"), mkFieldDom [(s2b "v", VStr []); (s2b "t", VStr []); (s2b "d", VStr []); (s2b "i", VStr []); (s2b "dt", VStr []); (s2b "r", VStr []); (s2b "a", VMap [])]
     [] [] [(s2b "d", s2b "E")] true);
  (Some (s2b "xip"), mkFieldDom [(s2b "v", VStr []); (s2b "t", VStr []); (s2b "d", VStr []); (s2b "u", VStr []); (s2b "i", VStr []); (s2b "ri", VStr []); (s2b "dt", VStr []); (s2b "r", VStr []); (s2b "q", VMap []); (s2b "a", VMap [])]
     [] [] [(s2b "d", s2b "E")] true);
  (Some (s2b "exn"), mkFieldDom [(s2b "v", VStr []); (s2b "t", VStr []); (s2b "d", VStr []); (s2b "i", VStr []); (s2b "ri", VStr []); (s2b "x", VStr []); (s2b "p", VStr []); (s2b "dt", VStr []); (s2b "r", VStr []); (s2b "q", VMap []); (s2b "a", VMap [])]
     [] [] [(s2b "d", s2b "E")] true)].
(** serdering.py:477-490 Serder.Fields[ACDC][(1, 0)] *)
Definition Fields_ACDC_1 : list (option bytes * fielddom) := [
  (None, mkFieldDom [(s2b "v", VStr []); (s2b "d", VStr []); (s2b "u", VStr []); (s2b "i", VStr []); (s2b "ri", VStr []); (s2b "s", VStr []); (s2b "a", VStr []); (s2b "A", VStr []); (s2b "e", VStr []); (s2b "r", VStr [])]
     [s2b "u"; s2b "ri"; s2b "a"; s2b "A"; s2b "e"; s2b "r"] [(s2b "a", s2b "A"); (s2b "A", s2b "a")] [(s2b "d", s2b "E")] true);
  (Some (s2b "ace"), mkFieldDom [(s2b "v", VStr []); (s2b "t", VStr []); (s2b "d", VStr []); (s2b "u", VStr []); (s2b "i", VStr []); (s2b "ri", VStr []); (s2b "s", VStr []); (s2b "a", VStr []); (s2b "A", VStr []); (s2b "e", VStr []); (s2b "r", VStr [])]
     [s2b "u"; s2b "ri"; s2b "a"; s2b "A"; s2b "e"; s2b "r"] [(s2b "a", s2b "A"); (s2b "A", s2b "a")] [(s2b "d", s2b "E")] false)].
(** serdering.py:492-534 Serder.Fields[ACDC][(2, 0)] *)
Definition Fields_ACDC_2 : list (option bytes * fielddom) := [
  (None, mkFieldDom [(s2b "v", VStr []); (s2b "d", VStr []); (s2b "u", VStr []); (s2b "i", VStr []); (s2b "rd", VStr []); (s2b "s", VStr []); (s2b "a", VStr []); (s2b "A", VStr []); (s2b "e", VStr []); (s2b "r", VStr [])]
     [s2b "u"; s2b "rd"; s2b "a"; s2b "A"; s2b "e"; s2b "r"] [(s2b "a", s2b "A"); (s2b "A", s2b "a")] [(s2b "d", s2b "E")] true);
  (Some (s2b "acm"), mkFieldDom [(s2b "v", VStr []); (s2b "t", VStr []); (s2b "d", VStr []); (s2b "u", VStr []); (s2b "i", VStr []); (s2b "rd", VStr []); (s2b "s", VStr []); (s2b "a", VStr []); (s2b "A", VStr []); (s2b "e", VStr []); (s2b "r", VStr [])]
     [s2b "t"; s2b "u"; s2b "rd"; s2b "a"; s2b "A"; s2b "e"; s2b "r"] [(s2b "a", s2b "A"); (s2b "A", s2b "a")] [(s2b "d", s2b "E")] true);
  (Some (s2b "ace"), mkFieldDom [(s2b "v", VStr []); (s2b "t", VStr []); (s2b "d", VStr []); (s2b "u", VStr []); (s2b "i", VStr []); (s2b "ri", VStr []); (s2b "s", VStr []); (s2b "a", VStr []); (s2b "A", VStr []); (s2b "e", VStr []); (s2b "r", VStr [])]
     [s2b "u"; s2b "ri"; s2b "a"; s2b "A"; s2b "e"; s2b "r"] [(s2b "a", s2b "A"); (s2b "A", s2b "a")] [(s2b "d", s2b "E")] false);
  (Some (s2b "act"), mkFieldDom [(s2b "v", VStr []); (s2b "t", VStr []); (s2b "d", VStr []); (s2b "u", VStr []); (s2b "i", VStr []); (s2b "rd", VStr []); (s2b "s", VStr []); (s2b "a", VStr []); (s2b "e", VStr []); (s2b "r", VStr [])]
     [] [] [(s2b "d", s2b "E")] true);
  (Some (s2b "acg"), mkFieldDom [(s2b "v", VStr []); (s2b "t", VStr []); (s2b "d", VStr []); (s2b "u", VStr []); (s2b "i", VStr []); (s2b "rd", VStr []); (s2b "s", VStr []); (s2b "A", VStr []); (s2b "e", VStr []); (s2b "r", VStr [])]
     [] [] [(s2b "d", s2b "E")] true);
  (Some (s2b "sch"), mkFieldDom [(s2b "v", VStr []); (s2b "t", VStr []); (s2b "d", VStr []); (s2b "s", VStr [])]
     [] [] [(s2b "d", s2b "E")] true);
  (Some (s2b "att"), mkFieldDom [(s2b "v", VStr []); (s2b "t", VStr []); (s2b "d", VStr []); (s2b "a", VStr [])]
     [] [] [(s2b "d", s2b "E")] true);
  (Some (s2b "agg"), mkFieldDom [(s2b "v", VStr []); (s2b "t", VStr []); (s2b "d", VStr []); (s2b "A", VStr [])]
     [] [] [(s2b "d", s2b "E")] true);
  (Some (s2b "edg"), mkFieldDom [(s2b "v", VStr []); (s2b "t", VStr []); (s2b "d", VStr []); (s2b "e", VStr [])]
     [] [] [(s2b "d", s2b "E")] true);
  (Some (s2b "rul"), mkFieldDom [(s2b "v", VStr []); (s2b "t", VStr []); (s2b "d", VStr []); (s2b "r", VStr [])]
     [] [] [(s2b "d", s2b "E")] true);
  (Some (s2b "rip"), mkFieldDom [(s2b "v", VStr []); (s2b "t", VStr []); (s2b "d", VStr []); (s2b "u", VStr []); (s2b "i", VStr []); (s2b "n", VStr []); (s2b "dt", VStr [])]
     [] [] [(s2b "d", s2b "E")] true);
  (Some (s2b "bup"), mkFieldDom [(s2b "v", VStr []); (s2b "t", VStr []); (s2b "d", VStr []); (s2b "rd", VStr []); (s2b "n", VStr []); (s2b "p", VStr []); (s2b "dt", VStr []); (s2b "b", VStr [])]
     [] [] [(s2b "d", s2b "E")] true);
  (Some (s2b "upd"), mkFieldDom [(s2b "v", VStr []); (s2b "t", VStr []); (s2b "d", VStr []); (s2b "rd", VStr []); (s2b "n", VStr []); (s2b "p", VStr []); (s2b "dt", VStr []); (s2b "td", VStr []); (s2b "ts", VStr [])]
     [] [] [(s2b "d", s2b "E")] true)].

(** serdering.py:367-536 Serder.Fields *)
Definition Fields (proto : bytes) (vrsn : versionage) : option (list (option bytes * fielddom)) :=
  let v1 := (fst vrsn =? 1) && (snd vrsn =? 0) in
  let v2 := (fst vrsn =? 2) && (snd vrsn =? 0) in
  if beq proto (s2b "KERI") then (if v1 then Some Fields_KERI_1 else if v2 then Some Fields_KERI_2 else None)
  else if beq proto (s2b "ACDC") then (if v1 then Some Fields_ACDC_1 else if v2 then Some Fields_ACDC_2 else None)
  else None.
(** Fields[proto][pvrsn].get(ilk) *)
Fixpoint ilkget (l : list (option bytes * fielddom)) (ilk : option bytes) : option fielddom :=
  match l with
  | [] => None
  | (k, f) :: l' => match k, ilk with
                    | None, None => Some f
                    | Some a, Some b => if beq a b then Some f else ilkget l' ilk
                    | _, _ => ilkget l' ilk
                    end
  end.

(** coring.py:445-466, 584-613, 616-630, 633-651 *)
Definition DigDex : list bytes := map s2b ["E"; "F"; "G"; "H"; "I"; "0D"; "0E"; "0F"; "0G"]%string.
Definition PreDex : list bytes := map s2b ["B"; "D"; "E"; "F"; "G"; "H"; "I"; "0D"; "0E"; "0F"; "0G"; "1AAA"; "1AAB"; "1AAC"; "1AAD"; "1AAE"; "1AAI"; "1AAJ"]%string.
Definition NonTransDex : list bytes := map s2b ["B"; "1AAA"; "1AAC"; "1AAI"]%string.
Definition PreNonDigDex : list bytes := map s2b ["B"; "D"; "1AAA"; "1AAB"; "1AAC"; "1AAD"; "1AAI"; "1AAJ"]%string.

(** serdering.py:334 Serder.Dummy *)
Definition dummy (n : N) : val := VStr (repeat 35 (N.to_nat n)).
(** serdering.py:337, kering.py:36, 53 Serder.Spans *)
Definition Spans (vrsn : versionage) : N := if fst vrsn =? 1 then 17 else 19.

(** ordered sets of labels *)
Definition osub (a b : list bytes) : list bytes := filter (fun x => negb (memB x b)) a.
(** for i, label in enumerate(osalls): if oskeys[i] != label: raise *)
Fixpoint prefixB (a b : list bytes) : bool :=
  match a, b with
  | [], _ => true
  | x :: a', y :: b' => beq x y && prefixB a' b'
  | _ :: _, [] => false
  end.

(** Matter(qb64=v).code.  Simplification: values that are not texts raise; the length of a text is
    taken in UTF-8 bytes. *)
Definition codeOf (v : option val) : res bytes :=
  match v with Some (VStr s) => m <- exfil s ;; Ok (m_code m) | _ => Err TypeError end.
(** len(sad[label]) of a text *)
Definition textLen (v : option val) : N := match v with Some (VStr s) => len s | _ => 0 end.

(** attributes of a Serder *)
Record serder := mkSerder { d_raw : bytes; d_sad : sad; d_proto : bytes; d_pvrsn : versionage; d_gvrsn : option versionage;
                            d_kind : bytes; d_size : N }.

(** serdering.py:2110-2115 ilk; None when 't' is missing.  A 't' that is not a text is never a key of Fields. *)
Definition ilkOf (sd : sad) : res (option bytes) :=
  match dget sd (s2b "t") with None => Ok None | Some (VStr s) => Ok (Some s) | Some VNull => Ok None | Some _ => Err TypeError end.

(** field presence and order: serdering.py:775-806 of _validate and 1017-1044 of _makify *)
Definition checkFields (fd : fielddom) (keys : list bytes) : res unit :=
  let oalls := keysOf (f_alls fd) in
  let oopts := f_opts fd in
  let oreqs := osub oalls oopts in
  let osexts := osub keys oalls in
  raise_if ((0 <? len osexts) && f_strict fd) ExtraFieldError (
  let osopts := osub (osub keys oreqs) osexts in
  let osalls := osub oalls (osub oopts osopts) in
  raise_if (existsb (fun kv => memB (fst kv) osopts && memB (snd kv) osopts) (f_alts fd)) AlternateFieldError (
  raise_if (negb (prefixB osalls keys)) MissingFieldError (
  raise_if (negb (forallb (fun kv => memB (fst kv) oalls) (f_saids fd))) MissingFieldError (
  raise_if (negb (memB (s2b "v") keys)) ValidationError (Ok tt))))).

(** serdering.py:815-828: codes of the said fields, digests replaced by dummies.
    The loop reads the field from the copy that it changes; the labels differ. *)
Fixpoint dummySaids (saids : list (bytes * bytes)) (sd : sad) : res (sad * list (bytes * bytes)) :=
  match saids with
  | [] => Ok (sd, [])
  | (label, dflt) :: rest =>
      let code := match codeOf (dget sd label) with
                  | Ok cd => Ok cd
                  | Err _ => if memB dflt DigDex then Err ValidationError else Ok dflt
                  end in
      cd <- code ;;
      let sd1 := if memB cd DigDex then dset sd label (dummy (textLen (dget sd label))) else sd in
      '(sd2, cds) <- dummySaids rest sd1 ;;
      Ok (sd2, (label, cd) :: cds)
  end.

(** serdering.py:734-830 _validate; [req] is the protocol required by the class (None for Serder, KERI
    for SerderKERI).  The genus is the default one, which fits both protocols. *)
Definition validate (req : option bytes) (s : serder) : res (sad * list (bytes * bytes)) :=
  raise_if (match req with Some p => negb (beq (d_proto s) p) | None => false end) ValidationError (
  raise_if (negb (memB (d_proto s) Protocols)) ValidationError (
  raise_if (match d_gvrsn s with Some g => fst g <? 2 | None => false end) ValidationError (
  raise_if (beq (d_kind s) KindCesr && (fst (d_pvrsn s) <? 2)) ValidationError (
  match Fields (d_proto s) (d_pvrsn s) with
  | None => Err ValidationError
  | Some tbl =>
      ilk <- ilkOf (d_sad s) ;;
      match ilkget tbl ilk with
      | None => Err ValidationError
      | Some fd => _ <- checkFields fd (keysOf (d_sad s)) ;; dummySaids (f_saids fd) (d_sad s)
      end
  end)))).

Section Externals.
(** Diger._digest: digest of a serialization for each code of DigDex (coring.py:3536-3552) *)
Variable digest : bytes -> bytes -> bytes.
(** cbor.dumps and msgpack.dumps, by kind *)
Variable odumps : bytes -> sad -> res bytes.
(** Serder._dumps: CESR native serialization, depends on protocol and versions *)
Variable cdumps : bytes -> versionage -> option versionage -> sad -> res bytes.
(** json.loads, cbor.loads, msgpack.loads: serdering.py:1244-1298 *)
Variable loads : bytes -> bytes -> res sad.

(** coring.py:3555-3583 Diger(ser=ser, code=code).qb64 *)
Definition digerOf (code ser : bytes) : res bytes :=
  raise_if (len ser =? 0) EmptyMaterialError (
  raise_if (negb (memB code DigDex)) InvalidCodeError (
  m <- matter_of_raw (digest code ser) code [] None ;; infil m)).

(** serdering.py:1618-1656 dumps *)
Definition dumps (s : serder) (sd : sad) : res bytes :=
  if beq (d_kind s) (s2b "JSON") then Ok (json (VMap sd))
  else if beq (d_kind s) KindCesr then cdumps (d_proto s) (d_pvrsn s) (d_gvrsn s) sd
  else odumps (d_kind s) sd.

(** serdering.py:1118-1120: said fields from the serialization *)
Fixpoint fillSaids (saids : list (bytes * bytes)) (raw : bytes) (sd : sad) : res sad :=
  match saids with
  | [] => Ok sd
  | (label, code) :: rest =>
      sd1 <- (if memB code DigDex then q <- digerOf code raw ;; Ok (dset sd label (VStr q)) else Ok sd) ;;
      fillSaids rest raw sd1
  end.

(** serdering.py:1084-1132 _compute *)
Definition compute (s : serder) (sd : sad) (saids : list (bytes * bytes)) : res (sad * bytes * N) :=
  if negb (beq (d_kind s) KindCesr) then
    raw0 <- dumps s sd ;;
    let size := len raw0 in
    vs <- versify (d_proto s) (d_pvrsn s) (d_kind s) size (d_gvrsn s) ;;
    let sd1 := dset sd (s2b "v") (VStr vs) in
    raw1 <- dumps s sd1 ;;
    sd2 <- fillSaids saids raw1 sd1 ;;
    raw <- dumps s sd2 ;;
    Ok (sd2, raw, size)
  else
    raw1 <- dumps s sd ;;
    sd2 <- fillSaids saids raw1 sd ;;
    raw <- dumps s sd2 ;;
    vs <- versify (d_proto s) (d_pvrsn s) (d_kind s) (len raw) (d_gvrsn s) ;;
    Ok (dset sd2 (s2b "v") (VStr vs), raw, len raw).

(** equality of Versionage tuples *)
Definition veq (a b : versionage) : bool := (fst a =? fst b) && (snd a =? snd b).
Definition oveq (a b : option versionage) : bool :=
  match a, b with Some x, Some y => veq x y | None, None => true | _, _ => false end.

(** serdering.py:688-731 _verify *)
Definition verifyBase (req : option bytes) (s : serder) : res unit :=
  '(sd, saids) <- validate req s ;;
  '(sd', raw, _) <- compute s sd saids ;;
  raise_if (negb (beq raw (d_raw s))) ValidationError (
  match dget sd' (s2b "v") with
  | Some (VStr vs) =>
      sm <- deversify vs ;;
      raise_if (negb (beq (d_proto s) (s_proto sm))) ValidationError (
      raise_if (negb (veq (d_pvrsn s) (s_pvrsn sm))) ValidationError (
      raise_if (negb (beq (d_kind s) (s_kind sm))) ValidationError (
      raise_if (if negb (beq (d_kind s) KindCesr)
                then negb (s_size sm =? d_size s) && negb (d_size s =? len raw)   (* size != self.size != len(raw) *)
                else negb (d_size s =? len raw)) ValidationError (
      raise_if (negb (oveq (d_gvrsn s) (s_gvrsn sm))) ValidationError (Ok tt)))))
  | _ => Err TypeError
  end).

(** Python truth of a value *)
Definition truthy (v : option val) : bool :=
  match v with
  | None | Some VNull => false
  | Some (VBool b) => b
  | Some (VInt z) => negb (z =? 0)%Z
  | Some (VStr s) => 0 <? len s
  | Some (VList l) => 0 <? len l
  | Some (VMap m) => 0 <? len m
  end.
(** self.tholder.sith == '1' (coring.py Tholder) *)
Definition ktIsOne (v : option val) : bool :=
  match v with
  | Some (VInt z) => (z =? 1)%Z
  | Some (VStr s) => match hexint s with Ok n => n =? 1 | Err _ => false end
  | _ => false
  end.
Definition ilkIn (ilk : option bytes) (l : list string) : bool :=
  match ilk with Some t => memB t (map s2b l) | None => false end.

(** serdering.py:2217-2293 SerderKERI._verify *)
Definition verifyKERI (s : serder) : res unit :=
  _ <- verifyBase (Some (s2b "KERI")) s ;;
  ilk <- ilkOf (d_sad s) ;;
  match Fields (d_proto s) (d_pvrsn s) with
  | None => Err KeyError
  | Some tbl => match ilkget tbl ilk with
    | None => Err KeyError
    | Some fd =>
      raise_if (negb (if list_eq_dec list_N_dec (keysOf (f_alls fd)) (keysOf (d_sad s)) then true else false)) ValidationError (
      let pre := dget (d_sad s) (s2b "i") in
      _ <- (if (fst (d_pvrsn s) <? 2) && (snd (d_pvrsn s) <? 1) && ilkIn ilk ["qry"; "rpy"; "pro"; "bar"; "exn"]%string then Ok tt
            else
              match codeOf pre with
              | Err _ => Err ValidationError
              | Ok code =>
                  raise_if (negb (memB code (if ilkIn ilk ["dip"; "drt"]%string then DigDex else PreDex))) ValidationError (
                  if ilkIn ilk ["icp"; "dip"; "rot"; "drt"]%string then
                    _ <- (if ilkIn ilk ["icp"; "dip"]%string && memB code PreNonDigDex then
                            match dget (d_sad s) (s2b "k"), pre with
                            | Some (VList [VStr k0]), Some (VStr p) =>
                                raise_if (negb (ktIsOne (dget (d_sad s) (s2b "kt")))) ValidationError (
                                raise_if (negb (beq p k0)) ValidationError (Ok tt))
                            | _, _ => Err ValidationError
                            end
                          else Ok tt) ;;
                    if memB code NonTransDex then
                      raise_if (truthy (dget (d_sad s) (s2b "n"))) ValidationError (
                      raise_if (truthy (dget (d_sad s) (s2b "b"))) ValidationError (
                      raise_if (truthy (dget (d_sad s) (s2b "a"))) ValidationError (Ok tt)))
                    else Ok tt
                  else Ok tt)
              end) ;;
      if ilkIn ilk ["dip"]%string then
        match codeOf (dget (d_sad s) (s2b "di")) with
        | Err _ => Err ValidationError
        | Ok code => raise_if (negb (memB code PreDex)) ValidationError (Ok tt)
        end
      else Ok tt)
    end
  end.

(** Serder or SerderKERI *)
Inductive klass := Base | KERI.
Definition verify (k : klass) (s : serder) : res unit := match k with Base => verifyBase None s | KERI => verifyKERI s end.

(** serdering.py:1135-1241 _inhale without a given smellage: messages only, see the head of this file *)
Definition inhale (raw : bytes) : res serder :=
  cold <- sniff raw ;;
  match cold with
  | Cmsg =>
      sm <- smell raw ;;
      raise_if (len raw <? s_size sm) ShortageError (
      let sraw := ntake (s_size sm) raw in
      sd <- loads (s_kind sm) sraw ;;
      raise_if (negb (memB (s2b "v") (keysOf sd))) FieldError (
      Ok (mkSerder sraw sd (s_proto sm) (s_pvrsn sm) (s_gvrsn sm) (s_kind sm) (s_size sm))))
  | _ => Err ValueError
  end.
(** serdering.py:609-632 Serder(raw=raw) *)
Definition serderOfRaw (k : klass) (raw : bytes) : res serder :=
  s <- inhale raw ;;
  match verify k s with Ok _ => Ok s | Err _ => Err ValidationError end.

(** serdering.py:1584-1614 _exhale *)
Definition exhale (sd : sad) : res serder :=
  match dget sd (s2b "v") with
  | None => Err SerializeError
  | Some (VStr v) =>
      sm <- deversify v ;;
      let s := mkSerder [] sd (s_proto sm) (s_pvrsn sm) (s_gvrsn sm) (s_kind sm) (s_size sm) in
      raw <- dumps s sd ;;
      if beq (s_kind sm) KindCesr then
        vs <- versify (s_proto sm) (s_pvrsn sm) (s_kind sm) (len raw) (s_gvrsn sm) ;;
        Ok (mkSerder raw (dset sd (s2b "v") (VStr vs)) (s_proto sm) (s_pvrsn sm) (s_gvrsn sm) (s_kind sm) (len raw))
      else Ok (mkSerder raw sd (s_proto sm) (s_pvrsn sm) (s_gvrsn sm) (s_kind sm) (s_size sm))
  | Some _ => Err TypeError
  end.
(** serdering.py:634-665 Serder(sad=sad) *)
Definition serderOfSad (k : klass) (sd : sad) : res serder :=
  s <- exhale sd ;;
  match verify k s with Ok _ => Ok s | Err _ => Err ValidationError end.

(** parameters of makify *)
Record mkargs := mkArgs { a_proto : option bytes; a_pvrsn : option versionage; a_gvrsn : option versionage;
                          a_kind : option bytes; a_ilk : option bytes; a_saids : list (bytes * bytes) }.

(** Python [a if a is not None else b] *)
Definition orElse {A} (a b : option A) : option A := match a with Some _ => a | None => b end.

(** serdering.py:1053-1065: codes and dummies of the said fields *)
Fixpoint overSaids (over : list (bytes * bytes)) (saids : list (bytes * bytes)) (sd : sad) : res (sad * list (bytes * bytes)) :=
  match saids with
  | [] => Ok (sd, [])
  | (label, dflt) :: rest =>
      let cd := match dget over label with
                | Some cd => cd
                | None => match codeOf (dget sd label) with Ok cd => cd | Err _ => dflt end
                end in
      sd1 <- (if memB cd DigDex then
                match dget Sizes cd with Some sz => match fs sz with Some f => Ok (dset sd label (dummy f)) | None => Err TypeError end
                                    | None => Err KeyError end
              else Ok sd) ;;
      '(sd2, cds) <- overSaids over rest sd1 ;;
      Ok (sd2, (label, cd) :: cds)
  end.

(** serdering.py:1000-1015: defaults for missing required fields, order of the fields *)
Definition arrange (fd : fielddom) (sd : sad) : sad :=
  let oalls := keysOf (f_alls fd) in
  let oreqs := osub oalls (f_opts fd) in
  let full := fold_left (fun d kv => if memB (fst kv) oreqs && negb (memB (fst kv) (keysOf d)) then dset d (fst kv) (snd kv) else d) (f_alls fd) sd in
  let front := flat_map (fun kv => match dget full (fst kv) with Some v => [(fst kv, v)] | None => [] end) (f_alls fd) in
  front ++ filter (fun kv => negb (memB (fst kv) (keysOf front))) full.

(** serdering.py:883-1081 _makify; [req] and [proto0] are the class attributes Protocol and Proto.
    The result is a serder whose raw and size are still unset. *)
Definition makifyPre (req : option bytes) (args : mkargs) (sd : sad) : res (serder * list (bytes * bytes)) :=
  '(sproto, spvrsn, skind, sgvrsn, silk) <-
     (match dget sd (s2b "v") with
      | None => Ok (None, None, None, None, None)
      | Some (VStr v) => match deversify v with
                         | Ok sm => ilk <- ilkOf sd ;; Ok (Some (s_proto sm), Some (s_pvrsn sm), Some (s_kind sm), s_gvrsn sm, ilk)
                         | Err VersionError => Ok (None, None, None, None, None)
                         | Err e => Err e
                         end
      | Some _ => Err TypeError
      end) ;;
  let proto := match orElse (a_proto args) sproto with Some p => p | None => s2b "KERI" end in
  raise_if (negb (memB proto Protocols)) SerializeError (
  raise_if (match req with Some p => negb (beq proto p) | None => false end) SerializeError (
  let pvrsn := match orElse (a_pvrsn args) spvrsn with Some p => p | None => (2, 0) end in
  match Fields proto pvrsn with
  | None => Err SerializeError
  | Some tbl =>
      let gvrsn := match orElse (a_gvrsn args) sgvrsn with Some g => Some g | None => if 2 <=? fst pvrsn then Some (2, 0) else None end in
      raise_if (match gvrsn with Some g => fst g <? 2 | None => false end) SerializeError (
      let kind := match orElse (a_kind args) skind with Some p => p | None => KindCesr end in
      let ilk := match orElse (a_ilk args) silk with Some i => Some i | None => match tbl with (k, _) :: _ => k | [] => None end end in
      raise_if (negb (memB kind Kinds)) SerializeError (
      match ilkget tbl ilk with
      | None => Err SerializeError
      | Some fd =>
          let sd1 := arrange fd sd in
          let sd2 := if memB (s2b "t") (keysOf sd1) then dset sd1 (s2b "t") (match ilk with Some i => VStr i | None => VNull end) else sd1 in
          _ <- (match checkFields fd (keysOf sd2) with Ok u => Ok u | Err _ => Err SerializeError end) ;;
          '(sd3, cds) <- overSaids (a_saids args) (f_saids fd) sd2 ;;
          let sd4 := if negb (beq kind KindCesr) then dset sd3 (s2b "v") (dummy (Spans pvrsn)) else sd3 in
          Ok (mkSerder [] sd4 proto pvrsn gvrsn kind 0, cds)
      end))
  end)).
(** serdering.py:833-880 makify *)
Definition makify (req : option bytes) (args : mkargs) (sd : sad) : res serder :=
  '(s, cds) <- makifyPre req args sd ;;
  '(sd', raw, size) <- compute s (d_sad s) cds ;;
  Ok (mkSerder raw sd' (d_proto s) (d_pvrsn s) (d_gvrsn s) (d_kind s) size).
(** serdering.py:634-665 Serder(sad=sad, makify=True, ...) *)
Definition serderMake (k : klass) (args : mkargs) (sd : sad) : res serder :=
  s <- makify (match k with Base => None | KERI => Some (s2b "KERI") end) args sd ;;
  match verify k s with Ok _ => Ok s | Err _ => Err ValidationError end.

(** ** class Saider for field maps without a version string (coring.py:3744-3972) *)
(** Saider._serialize of a map without 'v' *)
Definition saiderSer (kind : bytes) (sd : sad) : res bytes := dumps (mkSerder [] [] [] (1, 0) None kind 0) sd.
(** Saider._derive; [ignore] are labels left out of the digest *)
Definition saiderDerive (code kind label : bytes) (ignore : list bytes) (sd : sad) : res bytes :=
  raise_if (negb (memB code DigDex)) ValueError (
  raise_if (memB (s2b "v") (keysOf sd)) VersionError (
  match dget Sizes code with
  | Some sz => match fs sz with
     | Some f =>
        let sd1 := dset sd label (dummy f) in
        raise_if (negb (forallb (fun g => memB g (keysOf sd1)) ignore)) KeyError (
        ser <- saiderSer kind (filter (fun kv => negb (memB (fst kv) ignore)) sd1) ;;
        Ok (digest code ser))
     | None => Err TypeError
     end
  | None => Err KeyError
  end)).
(** Saider.saidify *)
Definition saidify (code kind label : bytes) (ignore : list bytes) (sd : sad) : res (matter * sad) :=
  raise_if (negb (memB label (keysOf sd))) KeyError (
  raw <- saiderDerive code kind label ignore sd ;;
  m <- matter_of_raw raw code [] None ;;
  q <- infil m ;;
  Ok (m, dset sd label (VStr q))).
(** Saider.verify *)
Definition saiderVerify (m : matter) (sd : sad) (prefixed : bool) (kind label : bytes) (ignore : list bytes) : bool :=
  match (raw <- saiderDerive (m_code m) kind label ignore sd ;;
         m' <- matter_of_raw raw (m_code m) [] None ;;
         q' <- infil m' ;; q <- infil m ;;
         raise_if (negb (beq q q')) ValidationError (
         if prefixed then
           match dget sd label with Some (VStr t) => raise_if (negb (beq t q)) ValidationError (Ok tt) | _ => Err ValidationError end
         else Ok tt)) with Ok _ => true | Err _ => false end.

(** coring.py:3585-3596 Diger.verify and 3599-3633 Diger.compare (with diger=) *)
Definition digerVerify (m : matter) (ser : bytes) : bool := beq (digest (m_code m) ser) (m_raw m).
Definition digerCompare (m : matter) (ser : bytes) (m2 : matter) : res bool :=
  q <- infil m ;; q2 <- infil m2 ;;
  if beq q2 q then Ok true
  else if beq (m_code m2) (m_code m) then Ok false
  else Ok (digerVerify m2 ser && digerVerify m ser).
End Externals.
