(** Model of src/keri/core/indexing.py (Indexer, Siger). *)
From Verif Require Import Prelude B64Model MatterModel.

(** indexing.py:150 Xizage hs ss os fs ls *)
Record xizage := mkX { xhs : N; xss : N; xos : N; xfs : option N; xls : N }.

(** indexing.py:203-206 Hards *)
Definition IHards : list (bytes * N) :=
  map (fun i => ([65 + N.of_nat i], 1)) (seq 0 26)
  ++ map (fun i => ([97 + N.of_nat i], 1)) (seq 0 26)
  ++ [(s2b "0", 2); (s2b "1", 2); (s2b "2", 2); (s2b "3", 2); (s2b "4", 2)].

(** indexing.py:207 Bards *)
Definition IBards : list (bytes * N) :=
  map (fun p => (match codeB64ToB2 (fst p) with Ok b => b | Err _ => [] end, snd p)) IHards.

(** indexing.py:210-233 Sizes *)
Definition ISizes : list (bytes * xizage) := [
  (s2b "A", mkX 1 1 0 (Some 88) 0); (s2b "B", mkX 1 1 0 (Some 88) 0);
  (s2b "C", mkX 1 1 0 (Some 88) 0); (s2b "D", mkX 1 1 0 (Some 88) 0);
  (s2b "E", mkX 1 1 0 (Some 88) 0); (s2b "F", mkX 1 1 0 (Some 88) 0);
  (s2b "0A", mkX 2 2 1 (Some 156) 0); (s2b "0B", mkX 2 2 1 (Some 156) 0);
  (s2b "2A", mkX 2 4 2 (Some 92) 0); (s2b "2B", mkX 2 4 2 (Some 92) 0);
  (s2b "2C", mkX 2 4 2 (Some 92) 0); (s2b "2D", mkX 2 4 2 (Some 92) 0);
  (s2b "2E", mkX 2 4 2 (Some 92) 0); (s2b "2F", mkX 2 4 2 (Some 92) 0);
  (s2b "3A", mkX 2 6 3 (Some 160) 0); (s2b "3B", mkX 2 6 3 (Some 160) 0);
  (s2b "0z", mkX 2 2 0 None 0); (s2b "1z", mkX 2 2 1 (Some 76) 1); (s2b "4z", mkX 2 6 3 (Some 80) 1)].

(** indexing.py:96-115 IdxCrtSigDex, 119-137 IdxBthSigDex, 70-92 IdxSigDex *)
Definition IdxCrtSigDex : list bytes := map s2b ["B"; "D"; "F"; "0B"; "2B"; "2D"; "2F"; "3B"]%string.
Definition IdxBthSigDex : list bytes := map s2b ["A"; "C"; "E"; "0A"; "2A"; "2C"; "2E"; "3A"]%string.
Definition IdxSigDex : list bytes := map s2b ["A"; "B"; "C"; "D"; "E"; "F"; "0A"; "0B";
  "2A"; "2B"; "2C"; "2D"; "2E"; "2F"; "3A"; "3B"]%string.
Definition memB (x : bytes) (l : list bytes) : bool := existsb (beq x) l.

(** indexing.py:236-258 attributes of Indexer *)
Record indexer := mkIdx { i_code : bytes; i_index : N; i_ondex : option N; i_raw : bytes }.

(** indexing.py:286-293, 427-434, 489-496, 585-592: full size, from the index when
    the table has none. *)
Definition xfull (e : exn) (sz : xizage) (index : N) : res N :=
  match xfs sz with
  | Some f => Ok f
  | None =>
      raise_if (negb ((xhs sz + xss sz) mod 4 =? 0)) e (
      raise_if (negb (xos sz =? 0)) e (Ok (index * 4 + (xhs sz + xss sz))))
  end.

(** indexing.py:269-275, 435-441: does [ondex] fit its field? *)
Definition ondexFits (sz : xizage) (ondex : option N) : bool :=
  match ondex with
  | Some o => (xos sz =? 0) || (o <=? 64 ^ xos sz - 1)
  | None => true
  end.

(** indexing.py:260-305 Indexer(raw=, code=, index=, ondex=).
    Not modelled: negative or non integer index, type check of raw. *)
Definition indexer_of_raw (raw code : bytes) (index : N) (ondex : option N) : res indexer :=
  match code with
  | [] => Err EmptyMaterialError
  | _ =>
    match dget ISizes code with
    | None => Err UnexpectedCodeError
    | Some sz =>
        let cs := xhs sz + xss sz in
        let ms := xss sz - xos sz in
        raise_if (negb (index <=? 64 ^ ms - 1)) InvalidVarIndexError (
        raise_if (negb (ondexFits sz ondex)) InvalidVarIndexError (
        raise_if (memB code IdxCrtSigDex && match ondex with Some _ => true | None => false end)
          InvalidVarIndexError (
        ondex' <- (if memB code IdxBthSigDex then
                     match ondex with
                     | None => Ok (Some index)
                     | Some o => raise_if (negb (o =? index) && (xos sz =? 0)) InvalidVarIndexError (Ok ondex)
                     end
                   else Ok ondex) ;;
        f <- xfull InvalidCodeSizeError sz index ;;
        let rawsize := (f - cs) * 3 / 4 in
        let raw' := ntake rawsize raw in
        raise_if (negb (len raw' =? rawsize)) RawMaterialError (
        Ok (mkIdx code index ondex' raw')))))
    end
  end.

(** indexing.py:443-445, 498-500 both *)
Definition iboth (x : indexer) (sz : xizage) : bytes :=
  i_code x ++ intToB64 (i_index x) (xss sz - xos sz)
  ++ intToB64 (match i_ondex x with Some o => o | None => 0 end) (xos sz).

(** indexing.py:403-460 _infil *)
Definition iinfil (x : indexer) : res bytes :=
  match dget ISizes (i_code x) with
  | None => Err KeyError
  | Some sz =>
      let cs := xhs sz + xss sz in
      let ms := xss sz - xos sz in
      let ps := (3 - len (i_raw x) mod 3) mod 3 in
      f <- xfull InvalidCodeSizeError sz (i_index x) ;;
      raise_if (negb (i_index x <=? 64 ^ ms - 1)) InvalidVarIndexError (
      raise_if (negb (ondexFits sz (i_ondex x))) InvalidVarIndexError (
      let bt := iboth x sz in
      raise_if (negb (len bt =? cs)) InvalidCodeSizeError (
      raise_if (negb (cs mod 4 + xls sz =? ps)) InvalidCodeSizeError (
      let full := bt ++ ndrop (ps - xls sz) (encodeB64 (zeros (N.to_nat ps) ++ i_raw x)) in
      raise_if (negb (len full =? f)) InvalidCodeSizeError (Ok full)))))
  end.

(** indexing.py:463-518 _binfil *)
Definition ibinfil (x : indexer) : res bytes :=
  match dget ISizes (i_code x) with
  | None => Err KeyError
  | Some sz =>
      let cs := xhs sz + xss sz in
      let ps := (3 - len (i_raw x) mod 3) mod 3 in
      raise_if (negb (i_index x <=? 64 ^ xss sz - 1)) InvalidVarIndexError (
      raise_if (negb (ondexFits sz (i_ondex x))) InvalidVarIndexError (
      f <- xfull InvalidCodeSizeError sz (i_index x) ;;
      let bt := iboth x sz in
      raise_if (negb (len bt =? cs)) InvalidCodeSizeError (
      raise_if (negb (cs mod 4 + xls sz =? ps)) InvalidCodeSizeError (
      bcode <- (i <- b64ToInt bt ;; int_to_bytes (sceil34 cs) (N.shiftl i (2 * (ps - xls sz)))) ;;
      let full := bcode ++ zeros (N.to_nat (xls sz)) ++ i_raw x in
      let bfs := len full in
      raise_if (negb (bfs mod 3 =? 0) || negb (bfs * 4 / 3 =? f)) InvalidCodeSizeError (Ok full)))))
  end.

(** indexing.py:571-583, 673-691: ondex from its characters *)
Definition ondexOf (hard : bytes) (sz : xizage) (index : N) (chars : bytes) : res (option N) :=
  o <- (if xos sz =? 0 then Ok None else v <- b64ToInt chars ;; Ok (Some v)) ;;
  if memB hard IdxCrtSigDex then
    match o with
    | Some v => raise_if (negb (v =? 0)) ValueError (Ok None)
    | None => Ok None
    end
  else match o with Some v => Ok (Some v) | None => Ok (Some index) end.

(** indexing.py:521-637 _exfil on a bytes stream *)
Definition iexfil (qb64b : bytes) : res indexer :=
  match qb64b with
  | [] => Err ShortageError
  | x :: _ =>
      first <- decode_ascii [x] ;;
      match dget IHards first with
      | None => if x =? 45 then Err UnexpectedCountCodeError
                else if x =? 95 then Err UnexpectedOpCodeError
                else Err UnexpectedCodeError
      | Some h =>
          raise_if (len qb64b <? h) ShortageError (
          hard <- decode_ascii (ntake h qb64b) ;;
          match dget ISizes hard with
          | None => Err UnexpectedCodeError
          | Some sz =>
              let cs := xhs sz + xss sz in
              let ms := xss sz - xos sz in
              raise_if (len qb64b <? cs) ShortageError (
              ichars <- decode_ascii (ntake ms (ndrop (xhs sz) qb64b)) ;;
              index <- b64ToInt ichars ;;
              ochars <- decode_ascii (ntake (xos sz) (ndrop (xhs sz + ms) qb64b)) ;;
              ondex <- ondexOf hard sz index ochars ;;
              f <- xfull ValidationError sz index ;;
              raise_if (len qb64b <? f) ShortageError (
              let q := ntake f qb64b in
              let ps := cs mod 4 in
              raw <- (if negb (ps =? 0) then
                        paw <- decodeB64 (repeat 65 (N.to_nat ps) ++ ndrop cs q) ;;
                        let pi := N.land (int_from_bytes (ntake ps paw)) (2 ^ (2 * ps) - 1) in
                        raise_if (negb (pi =? 0)) ValueError (Ok (ndrop ps paw))
                      else
                        paw <- decodeB64 (ndrop cs q) ;;
                        raise_if (negb (int_from_bytes (ntake (xls sz) paw) =? 0)) ValueError
                          (Ok (ndrop (xls sz) paw))) ;;
              raise_if (negb (len raw =? (len q - cs) * 3 / 4)) ConversionError (
              Ok (mkIdx hard index ondex raw))))
          end)
      end
  end.

(** indexing.py:641-742 _bexfil.  [first[0] == b'\xf8'] is never true. *)
Definition ibexfil (qb2 : bytes) : res indexer :=
  match qb2 with
  | [] => Err ShortageError
  | _ =>
      first <- nabSextets qb2 1 ;;
      match dget IBards first with
      | None => Err UnexpectedCodeError
      | Some h =>
          raise_if (len qb2 <? sceil34 h) ShortageError (
          hard <- codeB2ToB64 qb2 h ;;
          match dget ISizes hard with
          | None => Err UnexpectedCodeError
          | Some sz =>
              let cs := xhs sz + xss sz in
              let ms := xss sz - xos sz in
              let bcs := sceil34 cs in
              raise_if (len qb2 <? bcs) ShortageError (
              bt <- codeB2ToB64 qb2 cs ;;
              index <- b64ToInt (ntake ms (ndrop (xhs sz) bt)) ;;
              ondex <- ondexOf hard sz index (ntake (xos sz) (ndrop (xhs sz + ms) bt)) ;;
              f <- xfull ValidationError sz index ;;
              let bfs := sceil34 f in
              raise_if (len qb2 <? bfs) ShortageError (
              let q := ntake bfs qb2 in
              let ps := cs mod 4 in
              raise_if (if negb (ps =? 0)
                        then negb (N.land (int_from_bytes (ntake 1 (ndrop (bcs - 1) q))) (2 ^ (2 * ps) - 1) =? 0)
                        else negb (int_from_bytes (ntake (xls sz) (ndrop bcs q)) =? 0)) ValueError (
              let raw := ndrop (bcs + xls sz) q in
              raise_if (negb (len raw + bcs + xls sz =? len q)) ConversionError (
              Ok (mkIdx hard index ondex raw)))))
          end)
      end
  end.

(** indexing.py:306-316 Indexer(qb64b=.., strip=True), Indexer(qb2=.., strip=True):
    the consumed prefix is the length of the re-encoding. *)
Definition indexer_strip (s : bytes) : res (indexer * bytes) :=
  x <- iexfil s ;; q <- iinfil x ;; Ok (x, ndrop (len q) s).
Definition indexer_bstrip (s : bytes) : res (indexer * bytes) :=
  x <- ibexfil s ;; q <- ibinfil x ;; Ok (x, ndrop (len q) s).

(** indexing.py:767-779 Siger: an Indexer whose code is a signature code. *)
Definition siger_check (x : indexer) : res indexer :=
  if memB (i_code x) IdxSigDex then Ok x else Err ValidationError.
Definition siger_of_raw (raw code : bytes) (index : N) (ondex : option N) : res indexer :=
  x <- indexer_of_raw raw code index ondex ;; siger_check x.
Definition siger_strip (s : bytes) : res (indexer * bytes) :=
  '(x, t) <- indexer_strip s ;; x' <- siger_check x ;; Ok (x', t).
Definition siger_bstrip (s : bytes) : res (indexer * bytes) :=
  '(x, t) <- indexer_bstrip s ;; x' <- siger_check x ;; Ok (x', t).
