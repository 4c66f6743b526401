(** Model of src/keri/core/counting.py (Counter).  The tables are transcribed
    mechanically from the source, line by line. *)
From Verif Require Import Prelude B64Model MatterModel.

(** counting.py:419 Cizage hs ss fs *)
Record cizage := mkC { chs : N; css : N; cfs : N }.

(** counting.py:49-81 CtrDex_1_0: code name, code *)
Definition CtrDex_1_0 : list (bytes * bytes) := [
  (s2b "ControllerIdxSigs", s2b "-A");
  (s2b "WitnessIdxSigs", s2b "-B");
  (s2b "NonTransReceiptCouples", s2b "-C");
  (s2b "TransReceiptIdxSigGroups", s2b "-D");
  (s2b "FirstSeenReplayCouples", s2b "-E");
  (s2b "TransIdxSigGroups", s2b "-F");
  (s2b "SealSourceCouples", s2b "-G");
  (s2b "TransLastIdxSigGroups", s2b "-H");
  (s2b "SealSourceTriples", s2b "-I");
  (s2b "PathedMaterialCouples", s2b "-L");
  (s2b "BigPathedMaterialCouples", s2b "--L");
  (s2b "GenericGroup", s2b "-T");
  (s2b "BigGenericGroup", s2b "--T");
  (s2b "BodyWithAttachmentGroup", s2b "-U");
  (s2b "BigBodyWithAttachmentGroup", s2b "--U");
  (s2b "AttachmentGroup", s2b "-V");
  (s2b "BigAttachmentGroup", s2b "--V");
  (s2b "NonNativeBodyGroup", s2b "-W");
  (s2b "BigNonNativeBodyGroup", s2b "--W");
  (s2b "ESSRPayloadGroup", s2b "-Z");
  (s2b "BigESSRPayloadGroup", s2b "--Z");
  (s2b "KERIACDCGenusVersion", s2b "-_AAA")].

(** counting.py:204-274 CtrDex_2_0 *)
Definition CtrDex_2_0 : list (bytes * bytes) := [
  (s2b "GenericGroup", s2b "-A");
  (s2b "BigGenericGroup", s2b "--A");
  (s2b "BodyWithAttachmentGroup", s2b "-B");
  (s2b "BigBodyWithAttachmentGroup", s2b "--B");
  (s2b "AttachmentGroup", s2b "-C");
  (s2b "BigAttachmentGroup", s2b "--C");
  (s2b "DatagramSegmentGroup", s2b "-D");
  (s2b "BigDatagramSegmentGroup", s2b "--D");
  (s2b "ESSRWrapperGroup", s2b "-E");
  (s2b "BigESSRWrapperGroup", s2b "--E");
  (s2b "FixBodyGroup", s2b "-F");
  (s2b "BigFixBodyGroup", s2b "--F");
  (s2b "MapBodyGroup", s2b "-G");
  (s2b "BigMapBodyGroup", s2b "--G");
  (s2b "NonNativeBodyGroup", s2b "-H");
  (s2b "BigNonNativeBodyGroup", s2b "--H");
  (s2b "GenericMapGroup", s2b "-I");
  (s2b "BigGenericMapGroup", s2b "--I");
  (s2b "GenericListGroup", s2b "-J");
  (s2b "BigGenericListGroup", s2b "--J");
  (s2b "ControllerIdxSigs", s2b "-K");
  (s2b "BigControllerIdxSigs", s2b "--K");
  (s2b "WitnessIdxSigs", s2b "-L");
  (s2b "BigWitnessIdxSigs", s2b "--L");
  (s2b "NonTransReceiptCouples", s2b "-M");
  (s2b "BigNonTransReceiptCouples", s2b "--M");
  (s2b "TransReceiptIdxSigGroups", s2b "-N");
  (s2b "BigTransReceiptIdxSigGroups", s2b "--N");
  (s2b "FirstSeenReplayCouples", s2b "-O");
  (s2b "BigFirstSeenReplayCouples", s2b "--O");
  (s2b "PathedMaterialCouples", s2b "-P");
  (s2b "BigPathedMaterialCouples", s2b "--P");
  (s2b "DigestSealSingles", s2b "-Q");
  (s2b "BigDigestSealSingles", s2b "--Q");
  (s2b "MerkleRootSealSingles", s2b "-R");
  (s2b "BigMerkleRootSealSingles", s2b "--R");
  (s2b "SealSourceCouples", s2b "-S");
  (s2b "BigSealSourceCouples", s2b "--S");
  (s2b "SealSourceTriples", s2b "-T");
  (s2b "BigSealSourceTriples", s2b "--T");
  (s2b "SealSourceLastSingles", s2b "-U");
  (s2b "BigSealSourceLastSingles", s2b "--U");
  (s2b "BackerRegistrarSealCouples", s2b "-V");
  (s2b "BigBackerRegistrarSealCouples", s2b "--V");
  (s2b "TypedDigestSealCouples", s2b "-W");
  (s2b "BigTypedDigestSealCouples", s2b "--W");
  (s2b "TransIdxSigGroups", s2b "-X");
  (s2b "BigTransIdxSigGroups", s2b "--X");
  (s2b "TransLastIdxSigGroups", s2b "-Y");
  (s2b "BigTransLastIdxSigGroups", s2b "--Y");
  (s2b "ESSRPayloadGroup", s2b "-Z");
  (s2b "BigESSRPayloadGroup", s2b "--Z");
  (s2b "BlindedStateQuadruples", s2b "-a");
  (s2b "BigBlindedStateQuadruples", s2b "--a");
  (s2b "BoundStateSextuples", s2b "-b");
  (s2b "BigBoundStateSextuples", s2b "--b");
  (s2b "TypedMediaQuadruples", s2b "-c");
  (s2b "BigTypedMediaQuadruples", s2b "--c");
  (s2b "KERIACDCGenusVersion", s2b "-_AAA")].

(** counting.py:84-110 QTDex_1_0 (codes only) *)
Definition QTDex_1_0 : list bytes := map s2b ["-D"; "-L"; "--L"; "-T"; "--T"; "-U"; "--U"; "-V"; "--V"; "-W"; "--W"; "-Z"; "--Z"]%string.

(** counting.py:611-640 Sizes for version 1 *)
Definition CSizes_1_0 : list (bytes * cizage) := [
  (s2b "-A", mkC 2 2 4);
  (s2b "-B", mkC 2 2 4);
  (s2b "-C", mkC 2 2 4);
  (s2b "-D", mkC 2 2 4);
  (s2b "-E", mkC 2 2 4);
  (s2b "-F", mkC 2 2 4);
  (s2b "-G", mkC 2 2 4);
  (s2b "-H", mkC 2 2 4);
  (s2b "-I", mkC 2 2 4);
  (s2b "-L", mkC 2 2 4);
  (s2b "--L", mkC 3 5 8);
  (s2b "-T", mkC 2 2 4);
  (s2b "--T", mkC 3 5 8);
  (s2b "-U", mkC 2 2 4);
  (s2b "--U", mkC 3 5 8);
  (s2b "-V", mkC 2 2 4);
  (s2b "--V", mkC 3 5 8);
  (s2b "-W", mkC 2 2 4);
  (s2b "--W", mkC 3 5 8);
  (s2b "-Z", mkC 2 2 4);
  (s2b "--Z", mkC 3 5 8);
  (s2b "-_AAA", mkC 5 3 8)].

(** counting.py:641-706 Sizes for version 2 *)
Definition CSizes_2_0 : list (bytes * cizage) := [
  (s2b "-A", mkC 2 2 4);
  (s2b "--A", mkC 3 5 8);
  (s2b "-B", mkC 2 2 4);
  (s2b "--B", mkC 3 5 8);
  (s2b "-C", mkC 2 2 4);
  (s2b "--C", mkC 3 5 8);
  (s2b "-D", mkC 2 2 4);
  (s2b "--D", mkC 3 5 8);
  (s2b "-E", mkC 2 2 4);
  (s2b "--E", mkC 3 5 8);
  (s2b "-F", mkC 2 2 4);
  (s2b "--F", mkC 3 5 8);
  (s2b "-G", mkC 2 2 4);
  (s2b "--G", mkC 3 5 8);
  (s2b "-H", mkC 2 2 4);
  (s2b "--H", mkC 3 5 8);
  (s2b "-I", mkC 2 2 4);
  (s2b "--I", mkC 3 5 8);
  (s2b "-J", mkC 2 2 4);
  (s2b "--J", mkC 3 5 8);
  (s2b "-K", mkC 2 2 4);
  (s2b "--K", mkC 3 5 8);
  (s2b "-L", mkC 2 2 4);
  (s2b "--L", mkC 3 5 8);
  (s2b "-M", mkC 2 2 4);
  (s2b "--M", mkC 3 5 8);
  (s2b "-N", mkC 2 2 4);
  (s2b "--N", mkC 3 5 8);
  (s2b "-O", mkC 2 2 4);
  (s2b "--O", mkC 3 5 8);
  (s2b "-P", mkC 2 2 4);
  (s2b "--P", mkC 3 5 8);
  (s2b "-Q", mkC 2 2 4);
  (s2b "--Q", mkC 3 5 8);
  (s2b "-R", mkC 2 2 4);
  (s2b "--R", mkC 3 5 8);
  (s2b "-S", mkC 2 2 4);
  (s2b "--S", mkC 3 5 8);
  (s2b "-T", mkC 2 2 4);
  (s2b "--T", mkC 3 5 8);
  (s2b "-U", mkC 2 2 4);
  (s2b "--U", mkC 3 5 8);
  (s2b "-V", mkC 2 2 4);
  (s2b "--V", mkC 3 5 8);
  (s2b "-W", mkC 2 2 4);
  (s2b "--W", mkC 3 5 8);
  (s2b "-X", mkC 2 2 4);
  (s2b "--X", mkC 3 5 8);
  (s2b "-Y", mkC 2 2 4);
  (s2b "--Y", mkC 3 5 8);
  (s2b "-Z", mkC 2 2 4);
  (s2b "--Z", mkC 3 5 8);
  (s2b "-a", mkC 2 2 4);
  (s2b "--a", mkC 3 5 8);
  (s2b "-b", mkC 2 2 4);
  (s2b "--b", mkC 3 5 8);
  (s2b "-c", mkC 2 2 4);
  (s2b "--c", mkC 3 5 8);
  (s2b "-_AAA", mkC 5 3 8)].

(** kering.py Versionage *)
Record versionage := mkV { vmajor : N; vminor : N }.

(** counting.py:816-828: tables for a version; both majors have latest minor 0. *)
Definition ctables (v : versionage) : res (list (bytes * bytes) * list (bytes * cizage)) :=
  if vmajor v =? 1 then raise_if (0 <? vminor v) InvalidVersionError (Ok (CtrDex_1_0, CSizes_1_0))
  else if vmajor v =? 2 then raise_if (0 <? vminor v) InvalidVersionError (Ok (CtrDex_2_0, CSizes_2_0))
  else Err InvalidVersionError.

(** counting.py:597-600 Hards *)
Definition CHards : list (bytes * N) :=
  map (fun i => ([45; 65 + N.of_nat i], 2)) (seq 0 26)
  ++ map (fun i => ([45; 97 + N.of_nat i], 2)) (seq 0 26)
  ++ [(s2b "--", 3); (s2b "-_", 5)].
(** counting.py:604 Bards *)
Definition CBards : list (bytes * N) :=
  map (fun p => (match codeB64ToB2 (fst p) with Ok b => b | Err _ => [] end, snd p)) CHards.

(** counting.py:441-470 attributes of Counter *)
Record counter := mkCtr { c_vrsn : versionage; c_code : bytes; c_count : N; c_name : bytes }.

(** counting.py:588-591 Names: first name with the given code.  Simplification: a
    Python dict inversion keeps the last name of a duplicated code; the codexes have none. *)
Definition nameOf (codes : list (bytes * bytes)) (code : bytes) : res bytes :=
  match find (fun p => beq (snd p) code) codes with
  | Some (n, _) => Ok n
  | None => Err KeyError
  end.

(** counting.py:833-839: [code] is a hard code or a code name *)
Definition lookCode (codes : list (bytes * bytes)) (sizes : list (bytes * cizage)) (code : bytes) : res (bytes * cizage) :=
  let ok c := match dget sizes c with
              | Some sz => if len c <? 2 then None else Some (c, sz)
              | None => None end in
  match ok code with
  | Some r => Ok r
  | None => match dget codes code with
            | None => Err InvalidCodeError
            | Some c => match ok c with Some r => Ok r | None => Err InvalidCodeError end
            end
  end.

(** counting.py:852: a second character of a code that is a digit or an underscore *)
Definition digits_ (x : N) : bool := ((48 <=? x) && (x <=? 57)) || (x =? 95).

(** counting.py:831-866, 886 Counter(code=, count=, version=).  Not modelled:
    negative count; count None (defaults to 1); countB64 is [b64ToInt] of it. *)
Definition counter_of (v : versionage) (code : bytes) (count : N) : res counter :=
  '(codes, sizes) <- ctables v ;;
  '(code, sz) <- lookCode codes sizes code ;;
  let cs := chs sz + css sz in
  raise_if ((chs sz <? 2) || negb (cfs sz =? cs) || negb (cs mod 4 =? 0)) InvalidCodeSizeError (
  '(code, ss) <-
     (if negb (digits_ (nth 1 code 0)) then
        raise_if (negb ((css sz =? 2) || (css sz =? 5))) InvalidVarIndexError (
        if negb (nth 1 code 0 =? 45) && (64 ^ 2 - 1 <? count)
        then Ok ([45; 45; nth 1 code 0], 5) else Ok (code, css sz))
      else Ok (code, css sz)) ;;
  raise_if (64 ^ ss - 1 <? count) InvalidVarIndexError (
  name <- nameOf codes code ;;
  Ok (mkCtr v code count name))).

(** counting.py:831-866 Sizes[code], KeyError when absent *)
Definition csize (c : counter) : res cizage :=
  '(_, sizes) <- ctables (c_vrsn c) ;;
  match dget sizes (c_code c) with Some sz => Ok sz | None => Err KeyError end.

(** counting.py:1128-1150 _infil *)
Definition cinfil (c : counter) : res bytes :=
  sz <- csize c ;;
  raise_if (64 ^ css sz - 1 <? c_count c) InvalidVarIndexError (
  let bt := c_code c ++ intToB64 (c_count c) (css sz) in
  raise_if (negb (len bt mod 4 =? 0)) InvalidCodeSizeError (Ok bt)).

(** counting.py:1153-1174 _binfil *)
Definition cbinfil (c : counter) : res bytes :=
  sz <- csize c ;;
  raise_if (64 ^ css sz - 1 <? c_count c) InvalidVarIndexError (
  let bt := c_code c ++ intToB64 (c_count c) (css sz) in
  raise_if (negb (len bt =? cfs sz)) InvalidCodeSizeError (codeB64ToB2 bt)).

(** counting.py:1177-1218 _exfil, then 886 *)
Definition cexfil (v : versionage) (q : bytes) : res counter :=
  '(codes, sizes) <- ctables v ;;
  raise_if (len q <? 2) ShortageError (
  first <- decode_ascii (ntake 2 q) ;;
  match dget CHards first with
  | None => if nth 0 first 0 =? 95 then Err UnexpectedOpCodeError else Err UnexpectedCodeError
  | Some h =>
      raise_if (len q <? h) ShortageError (
      hard <- decode_ascii (ntake h q) ;;
      match dget sizes hard with
      | None => Err UnexpectedCodeError
      | Some sz =>
          raise_if (len q <? cfs sz) ShortageError (
          cnt <- decode_ascii (ntake (cfs sz - chs sz) (ndrop (chs sz) q)) ;;
          count <- b64ToInt cnt ;;
          name <- nameOf codes hard ;;
          Ok (mkCtr v hard count name))
      end)
  end).

(** counting.py:1221-1257 _bexfil, then 886; [first[0] == b'\xfc'] is never true *)
Definition cbexfil (v : versionage) (q : bytes) : res counter :=
  '(codes, sizes) <- ctables v ;;
  raise_if (len q <? 2) ShortageError (
  first <- nabSextets q 2 ;;
  match dget CBards first with
  | None => Err UnexpectedCodeError
  | Some h =>
      raise_if (len q <? sceil34 h) ShortageError (
      hard <- codeB2ToB64 q h ;;
      match dget sizes hard with
      | None => Err UnexpectedCodeError
      | Some sz =>
          raise_if (len q <? sceil34 (cfs sz)) ShortageError (
          bt <- codeB2ToB64 q (cfs sz) ;;
          count <- b64ToInt (ntake (cfs sz - chs sz) (ndrop (chs sz) bt)) ;;
          name <- nameOf codes hard ;;
          Ok (mkCtr v hard count name))
      end)
  end).

(** counting.py:868-879 Counter(qb64b=, strip=True) and Counter(qb2=, strip=True) *)
Definition counter_strip (v : versionage) (q : bytes) : res (counter * bytes) :=
  c <- cexfil v q ;; sz <- csize c ;; Ok (c, ndrop (cfs sz) q).
Definition counter_bstrip (v : versionage) (q : bytes) : res (counter * bytes) :=
  c <- cbexfil v q ;; sz <- csize c ;; Ok (c, ndrop (cfs sz * 3 / 4) q).

(** counting.py:1022-1038 byteCount *)
Definition byteCount_txt (c : counter) : N := c_count c * 4.
Definition byteCount_bny (c : counter) : N := c_count c * 3.

(** Python [in] for a tuple of codes *)
Definition memC (x : bytes) (l : list bytes) : bool := existsb (beq x) l.

(** counting.py:724-779 enclose, text and binary *)
Definition enclose (v : versionage) (code qb64 : bytes) : res bytes :=
  raise_if (negb (len qb64 mod 4 =? 0)) ValueError (
  c <- counter_of v code (len qb64 / 4) ;;
  raise_if ((vmajor v <? 2) && negb (memC (c_code c) QTDex_1_0)) ValueError (
  q <- cinfil c ;; Ok (q ++ qb64))).
Definition benclose (v : versionage) (code qb2 : bytes) : res bytes :=
  raise_if (negb (len qb2 mod 3 =? 0)) ValueError (
  c <- counter_of v code (len qb2 / 3) ;;
  raise_if ((vmajor v <? 2) && negb (memC (c_code c) QTDex_1_0)) ValueError (
  q <- cbinfil c ;; Ok (q ++ qb2))).

(** counting.py:1063-1100 verToB64(major=, minor=); the text= and version= forms
    only choose major and minor. *)
Definition verToB64 (major minor : N) : res bytes :=
  raise_if ((63 <? major) || (4095 <? minor)) ValueError (Ok (intToB64 major 1 ++ intToB64 minor 2)).
(** counting.py:1103-1125 b64ToVer(texted=False) *)
Definition b64ToVer (b64 : bytes) : res versionage :=
  raise_if (negb (Reb64 b64)) ValueError (
  match b64 with
  | [] => Err IndexError
  | x :: r => major <- b64ToInt [x] ;; minor <- b64ToInt (ntake 2 r) ;; Ok (mkV major minor)
  end).
(** counting.py:709-720 makeGVC *)
Definition makeGVC (v : versionage) : res bytes :=
  b <- verToB64 (vmajor v) (vminor v) ;;
  n <- b64ToInt b ;;
  c <- counter_of v (s2b "KERIACDCGenusVersion") n ;; cinfil c.
