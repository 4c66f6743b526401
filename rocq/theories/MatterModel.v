(** Model of class Matter, src/keri/core/coring.py:663-1514: code tables,
    constructor and the four codec methods. *)
From Verif Require Import Prelude B64Model.

(** coring.py:1106ff namedtuple Sizage (hs ss xs fs ls); fs None = variable. *)
Record sizage := mkSizage { hs : N; ss : N; xs : N; fs : option N; ls : N }.

(** coring.py:728-731 Hards: size of hard part by first character. *)
Definition Hards : list (bytes * N) :=
  map (fun i => ([65 + N.of_nat i], 1)) (seq 0 26)
  ++ map (fun i => ([97 + N.of_nat i], 1)) (seq 0 26)
  ++ [(s2b "0", 2); (s2b "1", 4); (s2b "2", 4); (s2b "3", 4); (s2b "4", 2);
      (s2b "5", 2); (s2b "6", 2); (s2b "7", 4); (s2b "8", 4); (s2b "9", 4)].

(** coring.py:736 Bards: Hards keyed by codeB64ToB2 of the character. *)
Definition Bards : list (bytes * N) :=
  map (fun p => (match codeB64ToB2 (fst p) with Ok b => b | Err _ => [] end, snd p)) Hards.

(** coring.py:741-849 Sizes, transcribed mechanically line by line. *)
Definition Sizes : list (bytes * sizage) := [
  (s2b "A", mkSizage 1 0 0 (Some 44) 0);
  (s2b "B", mkSizage 1 0 0 (Some 44) 0);
  (s2b "C", mkSizage 1 0 0 (Some 44) 0);
  (s2b "D", mkSizage 1 0 0 (Some 44) 0);
  (s2b "E", mkSizage 1 0 0 (Some 44) 0);
  (s2b "F", mkSizage 1 0 0 (Some 44) 0);
  (s2b "G", mkSizage 1 0 0 (Some 44) 0);
  (s2b "H", mkSizage 1 0 0 (Some 44) 0);
  (s2b "I", mkSizage 1 0 0 (Some 44) 0);
  (s2b "J", mkSizage 1 0 0 (Some 44) 0);
  (s2b "K", mkSizage 1 0 0 (Some 76) 0);
  (s2b "L", mkSizage 1 0 0 (Some 76) 0);
  (s2b "M", mkSizage 1 0 0 (Some 4) 0);
  (s2b "N", mkSizage 1 0 0 (Some 12) 0);
  (s2b "O", mkSizage 1 0 0 (Some 44) 0);
  (s2b "P", mkSizage 1 0 0 (Some 124) 0);
  (s2b "Q", mkSizage 1 0 0 (Some 44) 0);
  (s2b "R", mkSizage 1 0 0 (Some 8) 0);
  (s2b "S", mkSizage 1 0 0 (Some 16) 0);
  (s2b "T", mkSizage 1 0 0 (Some 20) 0);
  (s2b "U", mkSizage 1 0 0 (Some 24) 0);
  (s2b "V", mkSizage 1 0 0 (Some 4) 1);
  (s2b "W", mkSizage 1 0 0 (Some 4) 0);
  (s2b "X", mkSizage 1 3 0 (Some 4) 0);
  (s2b "Y", mkSizage 1 7 0 (Some 8) 0);
  (s2b "Z", mkSizage 1 11 0 (Some 12) 0);
  (s2b "a", mkSizage 1 0 0 (Some 44) 0);
  (s2b "b", mkSizage 1 3 0 (Some 8) 0);
  (s2b "0A", mkSizage 2 0 0 (Some 24) 0);
  (s2b "0B", mkSizage 2 0 0 (Some 88) 0);
  (s2b "0C", mkSizage 2 0 0 (Some 88) 0);
  (s2b "0D", mkSizage 2 0 0 (Some 88) 0);
  (s2b "0E", mkSizage 2 0 0 (Some 88) 0);
  (s2b "0F", mkSizage 2 0 0 (Some 88) 0);
  (s2b "0G", mkSizage 2 0 0 (Some 88) 0);
  (s2b "0H", mkSizage 2 0 0 (Some 8) 0);
  (s2b "0I", mkSizage 2 0 0 (Some 88) 0);
  (s2b "0J", mkSizage 2 2 1 (Some 4) 0);
  (s2b "0K", mkSizage 2 2 0 (Some 4) 0);
  (s2b "0L", mkSizage 2 6 1 (Some 8) 0);
  (s2b "0M", mkSizage 2 6 0 (Some 8) 0);
  (s2b "0N", mkSizage 2 10 1 (Some 12) 0);
  (s2b "0O", mkSizage 2 10 0 (Some 12) 0);
  (s2b "1AAA", mkSizage 4 0 0 (Some 48) 0);
  (s2b "1AAB", mkSizage 4 0 0 (Some 48) 0);
  (s2b "1AAC", mkSizage 4 0 0 (Some 80) 0);
  (s2b "1AAD", mkSizage 4 0 0 (Some 80) 0);
  (s2b "1AAE", mkSizage 4 0 0 (Some 156) 0);
  (s2b "1AAF", mkSizage 4 4 0 (Some 8) 0);
  (s2b "1AAG", mkSizage 4 0 0 (Some 36) 0);
  (s2b "1AAH", mkSizage 4 0 0 (Some 100) 0);
  (s2b "1AAI", mkSizage 4 0 0 (Some 48) 0);
  (s2b "1AAJ", mkSizage 4 0 0 (Some 48) 0);
  (s2b "1AAK", mkSizage 4 0 0 (Some 4) 0);
  (s2b "1AAL", mkSizage 4 0 0 (Some 4) 0);
  (s2b "1AAM", mkSizage 4 0 0 (Some 4) 0);
  (s2b "1AAN", mkSizage 4 8 0 (Some 12) 0);
  (s2b "1AAO", mkSizage 4 0 0 (Some 4) 0);
  (s2b "1AAP", mkSizage 4 0 0 (Some 4) 0);
  (s2b "1__-", mkSizage 4 2 0 (Some 12) 0);
  (s2b "1___", mkSizage 4 0 0 (Some 8) 0);
  (s2b "2__-", mkSizage 4 2 1 (Some 12) 1);
  (s2b "2___", mkSizage 4 0 0 (Some 8) 1);
  (s2b "3__-", mkSizage 4 2 0 (Some 12) 2);
  (s2b "3___", mkSizage 4 0 0 (Some 8) 2);
  (s2b "4A", mkSizage 2 2 0 None 0);
  (s2b "5A", mkSizage 2 2 0 None 1);
  (s2b "6A", mkSizage 2 2 0 None 2);
  (s2b "7AAA", mkSizage 4 4 0 None 0);
  (s2b "8AAA", mkSizage 4 4 0 None 1);
  (s2b "9AAA", mkSizage 4 4 0 None 2);
  (s2b "4B", mkSizage 2 2 0 None 0);
  (s2b "5B", mkSizage 2 2 0 None 1);
  (s2b "6B", mkSizage 2 2 0 None 2);
  (s2b "7AAB", mkSizage 4 4 0 None 0);
  (s2b "8AAB", mkSizage 4 4 0 None 1);
  (s2b "9AAB", mkSizage 4 4 0 None 2);
  (s2b "4C", mkSizage 2 2 0 None 0);
  (s2b "5C", mkSizage 2 2 0 None 1);
  (s2b "6C", mkSizage 2 2 0 None 2);
  (s2b "7AAC", mkSizage 4 4 0 None 0);
  (s2b "8AAC", mkSizage 4 4 0 None 1);
  (s2b "9AAC", mkSizage 4 4 0 None 2);
  (s2b "4D", mkSizage 2 2 0 None 0);
  (s2b "5D", mkSizage 2 2 0 None 1);
  (s2b "6D", mkSizage 2 2 0 None 2);
  (s2b "7AAD", mkSizage 4 4 0 None 0);
  (s2b "8AAD", mkSizage 4 4 0 None 1);
  (s2b "9AAD", mkSizage 4 4 0 None 2);
  (s2b "4E", mkSizage 2 2 0 None 0);
  (s2b "5E", mkSizage 2 2 0 None 1);
  (s2b "6E", mkSizage 2 2 0 None 2);
  (s2b "7AAE", mkSizage 4 4 0 None 0);
  (s2b "8AAE", mkSizage 4 4 0 None 1);
  (s2b "9AAE", mkSizage 4 4 0 None 2);
  (s2b "4F", mkSizage 2 2 0 None 0);
  (s2b "5F", mkSizage 2 2 0 None 1);
  (s2b "6F", mkSizage 2 2 0 None 2);
  (s2b "7AAF", mkSizage 4 4 0 None 0);
  (s2b "8AAF", mkSizage 4 4 0 None 1);
  (s2b "9AAF", mkSizage 4 4 0 None 2);
  (s2b "4H", mkSizage 2 2 0 None 0);
  (s2b "5H", mkSizage 2 2 0 None 1);
  (s2b "6H", mkSizage 2 2 0 None 2);
  (s2b "7AAH", mkSizage 4 4 0 None 0);
  (s2b "8AAH", mkSizage 4 4 0 None 1);
  (s2b "9AAH", mkSizage 4 4 0 None 2)
].

(** coring.py:350-384 selector characters of the variable size tables, by lead size. *)
Definition SmallVrzDex : list N := s2b "456".
Definition LargeVrzDex : list N := s2b "789".
Definition memN (x : N) (l : list N) : bool := existsb (N.eqb x) l.

(** State of a Matter instance: ._code ._soft ._raw *)
Record matter := mkMatter { m_code : bytes; m_soft : bytes; m_raw : bytes }.

(** coring.py:856-867 _rawSize *)
Definition rawSize (sz : sizage) : res N :=
  match fs sz with
  | None => Err InvalidCodeSizeError
  | Some f => Ok ((f - (hs sz + ss sz)) * 3 / 4 - ls sz)
  end.

(** coring.py:983-1010: code and soft of a variable size primitive of [size]
    triplets with actual lead size [l].  The Small test precedes the Large one. *)
Definition varCode (code : bytes) (size l : N) : res (bytes * bytes) :=
  let c0 := nth 0 code 0 in
  if memN c0 SmallVrzDex then
    if size <=? 64 ^ 2 - 1 then
      Ok ([nth (N.to_nat l) SmallVrzDex 0] ++ ntake 1 (ndrop 1 code), intToB64 size 2)
    else if size <=? 64 ^ 4 - 1 then
      Ok ([nth (N.to_nat l) LargeVrzDex 0] ++ repeat 65 2 ++ [nth 1 code 0], intToB64 size 4)
    else Err InvalidVarRawSizeError
  else if memN c0 LargeVrzDex then
    if size <=? 64 ^ 4 - 1 then
      Ok ([nth (N.to_nat l) LargeVrzDex 0] ++ ntake 3 (ndrop 1 code), intToB64 size 4)
    else Err InvalidVarRawSizeError
  else Err InvalidVarRawSizeError.

(** coring.py:955-1035 Matter(raw=, code=, soft=, rize=).  rize None and rize 0 are
    both falsy.  Not modelled: type check of raw, negative rize. *)
Definition matter_of_raw (raw code soft : bytes) (rize : option N) : res matter :=
  match code with
  | [] => Err EmptyMaterialError
  | _ =>
    match dget Sizes code with
    | None => Err InvalidCodeError
    | Some sz =>
      match fs sz with
      | None =>
          let rz := match rize with Some r => if r =? 0 then len raw else r | None => len raw end in
          let l := (3 - rz mod 3) mod 3 in
          let size := (rz + l) / 3 in
          '(code', soft') <- varCode code size l ;;
          let raw' := ntake rz raw in
          raise_if (negb (len raw' =? rz)) RawMaterialError
            (Ok (mkMatter code' soft' raw'))
      | Some _ =>
          rz <- rawSize sz ;;
          soft' <- (if 0 <? ss sz then
                      let s' := ntake (ss sz - xs sz) soft in
                      raise_if (negb (len s' =? ss sz - xs sz)) SoftMaterialError
                        (raise_if (negb (Reb64 s')) InvalidSoftError (Ok s'))
                    else Ok []) ;;
          let raw' := ntake rz raw in
          raise_if (negb (len raw' =? rz)) RawMaterialError
            (Ok (mkMatter code soft' raw'))
      end
    end
  end.

(** coring.py:1037-1057 Matter(code=, soft=) without raw: special soft codes. *)
Definition matter_of_soft (code soft : bytes) : res matter :=
  match dget Sizes code with
  | None => Err KeyError
  | Some sz =>
    match fs sz with
    | None => Err InvalidSoftError
    | Some f =>
        raise_if (negb (0 <? ss sz) || ((f =? hs sz + ss sz) && negb (ls sz =? 0))) InvalidSoftError (
        let s' := ntake (ss sz - xs sz) soft in
        raise_if (negb (len s' =? ss sz - xs sz)) SoftMaterialError (
        raise_if (negb (Reb64 s')) InvalidSoftError (
        Ok (mkMatter code s' []))))
    end
  end.

(** coring.py:1136-1149 both = code + Pad * xs + soft, Pad = '_' (95) *)
Definition both (m : matter) (sz : sizage) : bytes :=
  m_code m ++ repeat 95 (N.to_nat (xs sz)) ++ m_soft m.

(** coring.py:1153-1165 fullSize (property) with .size of 1132 *)
Definition fullSize (m : matter) : res N :=
  match dget Sizes (m_code m) with
  | None => Err KeyError
  | Some sz =>
      match fs sz with
      | Some f => Ok f
      | None => match m_soft m with
                | [] => Err TypeError  (* None * 4 *)
                | _ => s <- b64ToInt (m_soft m) ;; Ok (hs sz + ss sz + s * 4)
                end
      end
  end.

(** coring.py:1250-1308 _infil.  The test at 1263 constructs but does not raise
    its exception, so it has no effect and is not modelled. *)
Definition infil (m : matter) : res bytes :=
  match dget Sizes (m_code m) with
  | None => Err KeyError
  | Some sz =>
      let rs := len (m_raw m) in
      let cs := hs sz + ss sz in
      full <-
        (match fs sz with
         | None =>
             raise_if (negb ((ls sz + rs) mod 3 =? 0) || negb (cs mod 4 =? 0)) InvalidCodeSizeError
               (Ok (both m sz ++ encodeB64 (zeros (N.to_nat (ls sz)) ++ m_raw m)))
         | Some _ =>
             let ps := (3 - (rs + ls sz) mod 3) mod 3 in
             raise_if (negb (ps =? cs mod 4)) InvalidCodeSizeError
               (Ok (both m sz ++ ndrop ps (encodeB64 (zeros (N.to_nat (ps + ls sz)) ++ m_raw m))))
         end) ;;
      raise_if (negb (len full mod 4 =? 0)
                || match fs sz with Some f => negb (len full =? f) | None => false end)
        InvalidCodeSizeError (Ok full)
  end.

(** coring.py:1311-1336 _binfil *)
Definition binfil (m : matter) : res bytes :=
  match dget Sizes (m_code m) with
  | None => Err KeyError
  | Some sz =>
      let cs := hs sz + ss sz in
      let n := sceil34 cs in
      i <- b64ToInt (both m sz) ;;
      bcode <- int_to_bytes n (N.shiftl i (2 * (cs mod 4))) ;;
      let full := bcode ++ zeros (N.to_nat (ls sz)) ++ m_raw m in
      let bfs := len full in
      let f := match fs sz with
               | None => hs sz + ss sz + (len (m_raw m) + ls sz) * 4 / 3
               | Some f => f end in
      raise_if (negb (bfs mod 3 =? 0) || negb (bfs * 4 / 3 =? f)) InvalidCodeSizeError (Ok full)
  end.

(** bytes.decode().  Simplification: any octet above 127 is an error (a valid
    multi byte UTF-8 sequence is not modelled). *)
Definition decode_ascii (s : bytes) : res bytes :=
  if forallb (fun x => x <? 128) s then Ok s else Err UnicodeError.

(** coring.py:1339-1428 _exfil on a bytes stream. *)
Definition exfil (qb64b : bytes) : res matter :=
  match qb64b with
  | [] => Err ShortageError
  | x :: _ =>
      first <- decode_ascii [x] ;;
      match dget Hards first with
      | None => if x =? 45 then Err UnexpectedCountCodeError
                else if x =? 95 then Err UnexpectedOpCodeError
                else Err UnexpectedCodeError
      | Some h =>
          raise_if (len qb64b <? h) ShortageError (
          hard <- decode_ascii (ntake h qb64b) ;;
          match dget Sizes hard with
          | None => Err UnexpectedCodeError
          | Some sz =>
              let cs := hs sz + ss sz in
              soft0 <- decode_ascii (ntake (ss sz) (ndrop (hs sz) qb64b)) ;;
              let xtra := ntake (xs sz) soft0 in
              let soft := ndrop (xs sz) soft0 in
              raise_if (negb (beq xtra (repeat 95 (N.to_nat (xs sz))))) UnexpectedCodeError (
              f <- (match fs sz with
                    | Some f => Ok f
                    | None => s <- b64ToInt soft ;; Ok (s * 4 + cs)
                    end) ;;
              raise_if (len qb64b <? f) ShortageError (
              let q := ntake f qb64b in
              let ps := cs mod 4 in
              paw <- decodeB64 (repeat 65 (N.to_nat ps) ++ ndrop cs q) ;;
              let raw := ndrop (ps + ls sz) paw in
              raise_if (negb (int_from_bytes (ntake (ps + ls sz) paw) =? 0)) ConversionError (
              raise_if (negb (len raw + ls sz =? (len q - cs) * 3 / 4)) ConversionError (
              Ok (mkMatter hard soft raw)))))
          end)
      end
  end.

(** coring.py:1431-1514 _bexfil.  [first[0] == b'\xf8'] compares an int to bytes
    and is never true, so every unknown selector raises UnexpectedCodeError. *)
Definition bexfil (qb2 : bytes) : res matter :=
  match qb2 with
  | [] => Err ShortageError
  | _ =>
      first <- nabSextets qb2 1 ;;
      match dget Bards first with
      | None => Err UnexpectedCodeError
      | Some h =>
          raise_if (len qb2 <? sceil34 h) ShortageError (
          hard <- codeB2ToB64 qb2 h ;;
          match dget Sizes hard with
          | None => Err UnexpectedCodeError
          | Some sz =>
              let cs := hs sz + ss sz in
              let bcs := sceil34 cs in
              raise_if (len qb2 <? bcs) ShortageError (
              bt <- codeB2ToB64 qb2 cs ;;
              let soft0 := ntake (ss sz) (ndrop (hs sz) bt) in
              let xtra := ntake (xs sz) soft0 in
              let soft := ndrop (xs sz) soft0 in
              raise_if (negb (beq xtra (repeat 95 (N.to_nat (xs sz))))) UnexpectedCodeError (
              f <- (match fs sz with
                    | Some f => Ok f
                    | None => s <- b64ToInt soft ;; Ok (s * 4 + cs)
                    end) ;;
              let bfs := sceil34 f in
              raise_if (len qb2 <? bfs) ShortageError (
              let q := ntake bfs qb2 in
              let pbs := 2 * (cs mod 4) in
              let pi := N.land (int_from_bytes (ntake 1 (ndrop (bcs - 1) q))) (2 ^ pbs - 1) in
              raise_if (negb (pi =? 0)) ConversionError (
              raise_if (negb (int_from_bytes (ntake (ls sz) (ndrop bcs q)) =? 0)) ConversionError (
              let raw := ndrop (bcs + ls sz) q in
              raise_if (negb (len raw + bcs + ls sz =? len q)) ConversionError (
              Ok (mkMatter hard soft raw)))))))
          end)
      end
  end.

(** coring.py:1059-1070 Matter(qb64b=.., strip=True) / Matter(qb2=.., strip=True):
    parse and delete the consumed prefix of the stream. *)
Definition matter_strip (qb64b : bytes) : res (matter * bytes) :=
  m <- exfil qb64b ;; f <- fullSize m ;; Ok (m, ndrop f qb64b).
Definition matter_bstrip (qb2 : bytes) : res (matter * bytes) :=
  m <- bexfil qb2 ;; f <- fullSize m ;; Ok (m, ndrop (f * 3 / 4) qb2).
