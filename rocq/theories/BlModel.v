(** Structures of primitives: Structor, Sealer, Blinder and Mediar (core/structing.py), read from field values, from
    text and from binary streams, in counted groups, and the blinding and unblinding of transaction states.

    Simplifications: Structor(data=) with primitives of the caller, casts and clans other than the known ones, saids=
    and verify=False are not modelled; a clan is given by its type and not by field names; values of a type that a
    field does not expect raise TypeError; the empty strings that unblind appends to the lists of the caller are not
    visible. *)
From Verif Require Import Prelude B64Model MatterModel IdxModel SubsModel CtrModel ThModel VerModel JsonModel SerModel NmModel NkModel MzModel.
Open Scope N_scope.
Notation versionage := CtrModel.versionage.
Notation val := JsonModel.val.

(** ** Primitives of a field *)
Inductive kls := KDiger | KPrefixer | KNumber | KVerser | KNoncer | KLabeler | KTexter | KDater.
(** the test of its code in the constructor of a class: coring.py:3573-3574 Diger, 3656-3657 Prefixer, 1776-1781
    Number, 2217-2220 and 2542-2544 Verser, 3714-3715 Noncer, 3298-3299 Labeler, 2673-2675 Texter, 2107-2109 Dater *)
Definition check (k : kls) (m : matter) : res matter :=
  match k with
  | KDiger => raise_if (negb (memB (m_code m) DigDex)) InvalidCodeError (Ok m)
  | KPrefixer => raise_if (negb (memB (m_code m) PreDex)) InvalidCodeError (Ok m)
  | KNumber => raise_if (negb (memB (m_code m) NumDex)) ValidationError (Ok m)
  | KVerser => raise_if (negb (special (m_code m)) || negb (memB (m_code m) TagDex)) InvalidCodeError (isVerser m)
  | KNoncer => raise_if (negb (memB (m_code m) NonceDex)) InvalidCodeError (Ok m)
  | KLabeler => inLabelDex m
  | KTexter => raise_if (negb (memB (m_code m) TexDex)) ValidationError (Ok m)
  | KDater => raise_if (negb (beq (m_code m) DateTime)) ValidationError (Ok m)
  end.
(** kls(qb64b=) and kls(qb2=) *)
Definition readText (k : kls) (s : bytes) : res matter := m <- exfil s ;; check k m.
Definition readBin (k : kls) (s : bytes) : res matter := m <- bexfil s ;; check k m.
(** coring.py:3690-3715 Noncer(nonce=) *)
Definition noncer_of_nonce (s : bytes) : res matter :=
  m <- (match s with [] => matter_of_raw [] Empty [] None | _ => exfil s end) ;; check KNoncer m.
(** coring.py:3719-3729 nonce *)
Definition nonceOf (m : matter) : res bytes := if beq (m_code m) Empty then Ok [] else infil m.
(** coring.py:2664-2675 Texter(text=) *)
Definition texter_of_text (s : bytes) : res matter := m <- matter_of_raw s (s2b "4B") [] None ;; check KTexter m.
(** kls(ipn=val), where ipn is nonce for Noncer, text for Labeler and Texter, numh for Number, dts for Dater and qb64
    for the others (structing.py:403-448); numh may be an int (coring.py:1711-1714) *)
Definition castVal (k : kls) (v : val) : res matter :=
  match k, v with
  | KNumber, VInt z => raise_if (z <? 0)%Z InvalidValueError (number_of_num (Z.to_N z) None)
  | KNumber, VStr s => number_of_numh s
  | KNoncer, VStr s => noncer_of_nonce s
  | KLabeler, VStr s => labeler_text s
  | KTexter, VStr s => texter_of_text s
  | KDater, VStr s => readText KDater (DateTime ++ map dtTo s)
  | _, VStr s => readText k s
  | _, _ => Err TypeError
  end.

(** ** Structures *)
(** structing.py:33-106, 403-448: the classes of the fields of a clan *)
Definition castOf (c : clan) : list kls :=
  match c with
  | SealDigest | SealRoot => [KDiger]
  | SealSource => [KNumber; KDiger]
  | SealEvent => [KPrefixer; KNumber; KDiger]
  | SealLast => [KPrefixer]
  | SealBack => [KPrefixer; KDiger]
  | SealKind => [KVerser; KDiger]
  | BlindState => [KNoncer; KNoncer; KNoncer; KLabeler]
  | BoundState => [KNoncer; KNoncer; KNoncer; KLabeler; KNumber; KNoncer]
  | TypeMedia => [KNoncer; KNoncer; KLabeler; KTexter]
  | FirstSeen => [KNumber; KDater]
  end.
(** structing.py Structor.Clans, Sealer.Clans, Blinder.Clans, Mediar.Clans *)
Inductive family := Structor | Sealer | Blinder | Mediar.
Definition clansOf (f : family) : list clan :=
  match f with
  | Structor => [SealDigest; SealRoot; SealSource; SealEvent; SealLast; SealBack; SealKind; BlindState; BoundState; TypeMedia; FirstSeen]
  | Sealer => [SealDigest; SealRoot; SealSource; SealEvent; SealLast; SealBack; SealKind]
  | Blinder => [BlindState; BoundState]
  | Mediar => [TypeMedia]
  end.
Definition hasClan (f : family) (c : clan) : bool := existsb (clan_eqb c) (clansOf f).
(** structing.py:716 and 1553, 1826: the default of saidive=.  The clans of the families that compute SAIDs have a
    zeroth field d of class Noncer *)
Definition saidive (f : family) : bool := match f with Blinder | Mediar => true | _ => false end.
Record structor := mkSt { s_clan : clan; s_data : list matter }.

(** structing.py:1086-1100 qb64b and qb2 *)
Definition stText (s : structor) : res bytes := matsB (s_data s).
Definition stBin (s : structor) : res bytes := cat (map binfil (s_data s)).

Section Digest.
(** Diger._digest: coring.py:3536-3552 *)
Variable digest : bytes -> bytes -> bytes.

(** structing.py:600-601, 905-929 and 953-977: the SAID of the data, with d replaced by a dummy *)
Definition saidCode (d : matter) : bytes := if memB (m_code d) DigDex then m_code d else s2b "E".
Definition saidText (ms : list matter) : res bytes :=
  match ms with
  | [] => Err AttributeError
  | d :: rest =>
      _ <- infil d ;; r <- matsB rest ;;
      match dget Sizes (saidCode d) with
      | Some sz => match fs sz with
                   | Some f => digerOf digest (saidCode d) (repeat 35 (N.to_nat f) ++ r)
                   | None => Err TypeError
                   end
      | None => Err KeyError
      end
  end.
(** structing.py:905-939 makify *)
Definition makify (ms : list matter) : res (list matter) :=
  said <- saidText ms ;; m <- readText KNoncer said ;; Ok (m :: tl ms).
(** structing.py:952-985 verify *)
Definition verifySaid (ms : list matter) : res unit :=
  said <- saidText ms ;;
  match ms with
  | [] => Err AttributeError
  | d :: _ => q <- infil d ;; raise_if (negb (beq q said)) ValidationError (Ok tt)
  end.
Definition settle (f : family) (make : bool) (c : clan) (ms : list matter) : res structor :=
  if saidive f then
    if make then ms' <- makify ms ;; Ok (mkSt c ms') else _ <- verifySaid ms ;; Ok (mkSt c ms)
  else Ok (mkSt c ms).

(** structing.py:856-858 *)
Fixpoint castAll (ks : list kls) (vs : list val) : res (list matter) :=
  match ks, vs with
  | [], [] => Ok []
  | k :: ks, v :: vs => m <- castVal k v ;; ms <- castAll ks vs ;; Ok (m :: ms)
  | _, _ => Err TypeError
  end.
(** structing.py:860-876 *)
Fixpoint textAll (ks : list kls) (s : bytes) : res (list matter * bytes) :=
  match ks with
  | [] => Ok ([], s)
  | k :: ks => m <- readText k s ;; q <- infil m ;; '(ms, r) <- textAll ks (ndrop (len q) s) ;; Ok (m :: ms, r)
  end.
(** structing.py:878-891 *)
Fixpoint binAll (ks : list kls) (s : bytes) : res (list matter * bytes) :=
  match ks with
  | [] => Ok ([], s)
  | k :: ks => m <- readBin k s ;; q <- binfil m ;; '(ms, r) <- binAll ks (ndrop (len q) s) ;; Ok (m :: ms, r)
  end.
(** structing.py:713-985 Structor(clan=, crew=, makify=), and the test of the clan at 1589-1590 *)
Definition ofCrew (f : family) (make : bool) (c : clan) (crew : list val) : res structor :=
  raise_if (negb (hasClan f c)) InvalidValueError (ms <- castAll (castOf c) crew ;; settle f make c ms).
(** Structor(clan=, qb64b=, strip=True) *)
Definition ofText (f : family) (c : clan) (s : bytes) : res (structor * bytes) :=
  raise_if (negb (hasClan f c)) InvalidValueError (
  match s with
  | [] => Err EmptyMaterialError
  | _ => '(ms, r) <- textAll (castOf c) s ;; t <- settle f false c ms ;; Ok (t, r)
  end).
(** Structor(clan=, qb2=, strip=True) *)
Definition ofBin (f : family) (c : clan) (s : bytes) : res (structor * bytes) :=
  raise_if (negb (hasClan f c)) InvalidValueError (
  match s with
  | [] => Err EmptyMaterialError
  | _ => '(ms, r) <- binAll (castOf c) s ;; t <- settle f false c ms ;; Ok (t, r)
  end).

(** ** Groups *)
(** structing.py:627-654 Structor.enclose; without structors the default clan is a str, which has no __name__ *)
Definition joinAll (ser : structor -> res bytes) (c : clan) (l : list structor) : res bytes :=
  concatr (fun s => raise_if (negb (clan_eqb (s_clan s) c)) InvalidValueError (ser s)) l.
Definition encloseWith (ser : structor -> res bytes) (wrap : versionage -> bytes -> bytes -> res bytes)
  (f : family) (l : list structor) : res bytes :=
  match l with
  | [] => Err AttributeError
  | s :: _ =>
      buf <- joinAll ser (s_clan s) l ;;
      raise_if (negb (hasClan f (s_clan s))) InvalidValueError (wrap V20 (s2b (codenOf (s_clan s))) buf)
  end.
Definition encloseText := encloseWith stText enclose.
Definition encloseBin := encloseWith stBin benclose.
(** CodenClans: structing.py:455-470 *)
Definition clanOfName (f : family) (name : bytes) : res clan :=
  match find (fun c => beq (s2b (codenOf c)) name) (clansOf f) with Some c => Ok c | None => Err KeyError end.
(** structing.py:675-710 Structor.extract, with the stream that is left when strip=True *)
Definition extractText (f : family) (s : bytes) : res (list structor * bytes) :=
  ctr <- cexfil V20 s ;; c <- clanOfName f (c_name ctr) ;; sz <- CtrModel.csize ctr ;;
  let cs := cfs sz in let gs := cs + byteCount_txt ctr in
  l <- readFrame (ofText f c) (ndrop cs (ntake gs s)) ;; Ok (l, ndrop gs s).
Definition extractBin (f : family) (s : bytes) : res (list structor * bytes) :=
  ctr <- cbexfil V20 s ;; c <- clanOfName f (c_name ctr) ;; sz <- CtrModel.csize ctr ;;
  let cs := cfs sz / 4 * 3 in let gs := cs + byteCount_bny ctr in
  l <- readFrame (ofBin f c) (ndrop cs (ntake gs s)) ;; Ok (l, ndrop gs s).

(** ** Blinded states *)
(** structing.py:1421-1437 makeUUID; [stretch] is Salter(raw=, qb64=, tier=).stretch *)
Definition makeUUID (stretch : bytes -> bytes) (sn : N) : res bytes :=
  raise_if (MaxON <? sn) ValidationError (m <- matter_of_raw (stretch (hexstr sn)) (s2b "a") [] None ;; infil m).
(** structing.py:1474-1479 the blinder of a state, bound to an event of the issuee if [bd] is given *)
Definition blinderOf (uuid acdc state : bytes) (bd : option (N * bytes)) : res structor :=
  match bd with
  | Some (bsn, b) => ofCrew Blinder true BoundState [VStr []; VStr uuid; VStr acdc; VStr state; VInt (Z.of_N bsn); VStr b]
  | None => ofCrew Blinder true BlindState [VStr []; VStr uuid; VStr acdc; VStr state]
  end.
(** structing.py:1440-1479 blind *)
Definition blind (stretch : bytes -> bytes) (sn : N) (acdc state : bytes) (bd : option (N * bytes)) : res structor :=
  uuid <- makeUUID stretch sn ;; blinderOf uuid acdc state bd.
(** structing.py:1531-1549 the loops over the candidates *)
Fixpoint search (said uuid : bytes) (l : list (bytes * bytes * option (N * bytes))) : res (option structor) :=
  match l with
  | [] => Ok None
  | (acdc, state, bd) :: l =>
      b <- blinderOf uuid acdc state bd ;;
      match s_data b with
      | [] => Err AttributeError
      | d :: _ => q <- nonceOf d ;; if beq q said then Ok (Some b) else search said uuid l
      end
  end.
Definition withEmpty (l : list bytes) : list bytes := if memB [] l then l else l ++ [[]].
Definition withZero (l : list (N * bytes)) : list (N * bytes) :=
  if existsb (fun p => (fst p =? 0) && beq (snd p) []) l then l else l ++ [(0, [])].
Definition boundsOf (bounds : option (list (N * bytes))) : list (option (N * bytes)) :=
  match bounds with None => [None] | Some l => map Some (withZero l) end.
(** structing.py:1482-1550 unblind; [bounds] is None for bound=False; [salt] is the stretching of the salt if one is
    given *)
Definition unblind (said : bytes) (uuid : option bytes) (salt : option (bytes -> bytes)) (sn : N) (acdc : bytes)
  (states : list bytes) (bounds : option (list (N * bytes))) : res (option structor) :=
  uuid <- (match uuid, salt with
           | Some u, _ => Ok u
           | None, Some stretch => makeUUID stretch sn
           | None, None => Err InvalidValueError
           end) ;;
  search said uuid
    (flat_map (fun bd => flat_map (fun td => map (fun ts => (td, ts, bd)) (withEmpty states)) (withEmpty [acdc])) (boundsOf bounds)).
End Digest.

(** structing.py:1593-1680 uuid, acdc, state, bsn and bd of a blinder *)
Definition uuidOf (s : structor) : res bytes := match s_data s with _ :: u :: _ => nonceOf u | _ => Err AttributeError end.
Definition acdcOf (s : structor) : res bytes := match s_data s with _ :: _ :: td :: _ => nonceOf td | _ => Err AttributeError end.
Definition stateOf (s : structor) : res bytes := match s_data s with _ :: _ :: _ :: ts :: _ => textOf ts | _ => Err AttributeError end.
Definition boundOf (s : structor) : res (option (N * bytes)) :=
  match s_clan s, s_data s with
  | BoundState, _ :: _ :: _ :: _ :: bn :: bd :: _ => b <- nonceOf bd ;; Ok (Some (SubsModel.num bn, b))
  | _, _ => Ok None
  end.
(** structing.py:1103-1114 said of a saidive structor *)
Definition saidOfSt (s : structor) : res bytes := match s_data s with d :: _ => infil d | _ => Err AttributeError end.
