(** Version strings and cold start of kering.py.

    Texts are byte strings.  Regular expression matching of VEREX is modelled by the list of
    character classes of each alternative; the alternatives are tried in the order of VEREX,
    and search tries the positions from left to right (re module). *)
From Verif Require Import Prelude B64Model SubsModel.
Open Scope N_scope.

(** kering.py:17-18, 20-22 *)
Definition Kinds : list bytes := [s2b "JSON"; s2b "MGPK"; s2b "CBOR"; s2b "CESR"].
Definition KindCesr : bytes := s2b "CESR".
Definition Protocols : list bytes := [s2b "KERI"; s2b "ACDC"].

(** kering.py:24 Versionage: (major, minor) *)
Definition versionage := (N * N)%type.

(** kering.py:78 Smellage *)
Record smellage := { s_proto : bytes; s_pvrsn : versionage; s_kind : bytes; s_size : N; s_gvrsn : option versionage }.

(** kering.py:37, 54-56 character classes of the regular expressions *)
Definition upper (ch : N) : bool := (65 <=? ch) && (ch <=? 90).
Definition hexlow (ch : N) : bool := (48 <=? ch) && (ch <=? 57) || (97 <=? ch) && (ch <=? 102).
Definition pat1 : list (N -> bool) :=
  [upper; upper; upper; upper; hexlow; hexlow; upper; upper; upper; upper;
   hexlow; hexlow; hexlow; hexlow; hexlow; hexlow; N.eqb 95].
Definition pat2 : list (N -> bool) :=
  [upper; upper; upper; upper; isB64; isB64; isB64; isB64; isB64; isB64; upper; upper; upper; upper;
   isB64; isB64; isB64; isB64; N.eqb 46].
Fixpoint matches (p : list (N -> bool)) (s : bytes) : bool :=
  match p, s with
  | [], _ => true
  | f :: p', x :: s' => f x && matches p' s'
  | _ :: _, [] => false
  end.
(** kering.py:58-63 Rever.match: VEREX2, then VEREX1 *)
Definition matchAt (s : bytes) : option bytes :=
  if matches pat2 s then Some (firstn 19 s) else if matches pat1 s then Some (firstn 17 s) else None.
(** Rever.search: start and text of the leftmost match *)
Fixpoint search (s : bytes) (i : N) : option (N * bytes) :=
  match matchAt s with
  | Some f => Some (i, f)
  | None => match s with [] => None | _ :: s' => search s' (i + 1) end
  end.

(** Python s[i:i+n] *)
Definition slice (i n : nat) (s : bytes) : bytes := firstn n (skipn i s).

(** kering.py:80-138 rematch; the groups are the slices at the places of the two formats *)
Definition rematch (full : bytes) : res smellage :=
  if (len full =? 19) && (List.last full 0 =? 46) then
    raise_if (negb (memB (slice 0 4 full) Protocols)) ProtocolError (
    pmajor <- b64ToInt (slice 4 1 full) ;;
    pminor <- b64ToInt (slice 5 2 full) ;;
    raise_if (negb (pmajor =? 2)) VersionError (
    gmajor <- b64ToInt (slice 7 1 full) ;;
    gminor <- b64ToInt (slice 8 2 full) ;;
    raise_if (negb (gmajor =? 2)) VersionError (
    raise_if (negb (memB (slice 10 4 full) Kinds)) KindError (
    size <- b64ToInt (slice 14 4 full) ;;
    Ok {| s_proto := slice 0 4 full; s_pvrsn := (pmajor, pminor); s_kind := slice 10 4 full; s_size := size;
          s_gvrsn := Some (gmajor, gminor) |}))))
  else if (len full =? 17) && (List.last full 0 =? 95) then
    raise_if (negb (memB (slice 0 4 full) Protocols)) ProtocolError (
    major <- hexint (slice 4 1 full) ;;
    minor <- hexint (slice 5 1 full) ;;
    raise_if (1 <? major) VersionError (
    raise_if (negb (memB (slice 6 4 full) Kinds)) KindError (
    raise_if (beq (slice 6 4 full) KindCesr) KindError (
    size <- hexint (slice 10 6 full) ;;
    Ok {| s_proto := slice 0 4 full; s_pvrsn := (major, minor); s_kind := slice 6 4 full; s_size := size; s_gvrsn := None |}))))
  else Err VersionError.

(** kering.py:141-178 versify *)
Definition versify (proto : bytes) (pvrsn : versionage) (kind : bytes) (size : N) (gvrsn : option versionage) : res bytes :=
  raise_if (negb (memB proto Protocols)) ProtocolError (
  raise_if (negb (memB kind Kinds)) KindError (
  let '(pmajor, pminor) := pvrsn in
  if pmajor <? 2 then
    raise_if (match gvrsn with Some (gmajor, gminor) => negb (gmajor =? pmajor) || negb (gminor =? pminor) | None => false end) VersionError (
    raise_if (beq kind KindCesr) KindError (
    Ok (proto ++ hexstr pmajor ++ hexstr pminor ++ kind ++ hexpad 6 size ++ [95])))
  else if pmajor =? 2 then
    let '(gmajor, gminor) := match gvrsn with Some g => g | None => pvrsn end in
    raise_if (negb (gmajor =? 2)) VersionError (
    Ok (proto ++ intToB64 pmajor 1 ++ intToB64 pminor 2 ++ intToB64 gmajor 1 ++ intToB64 gminor 2 ++ kind ++ intToB64 size 4 ++ [46]))
  else Err VersionError)).

(** kering.py:181-210 deversify *)
Definition deversify (vs : bytes) : res smellage :=
  match matchAt vs with None => Err VersionError | Some full => rematch full end.

(** kering.py:65-66 *)
Definition MAXVSOFFSET : N := 8.
Definition SMELLSIZE : N := 27.

(** kering.py:213-235 smell *)
Definition smell (raw : bytes) : res smellage :=
  raise_if (len raw <? SMELLSIZE) ShortageError (
  match search raw 0 with
  | None => Err VersionError
  | Some (start, full) => raise_if (MAXVSOFFSET <? start) VersionError (rematch full)
  end).

(** kering.py:238-284 ColdDex, Colds *)
Inductive cold := Cmsg | Ctxt | Cbny | Cano.
(** kering.py:287-328 sniff *)
Definition sniff (ims : bytes) : res cold :=
  match ims with
  | [] => Err ShortageError
  | x :: _ =>
      let tritet := N.shiftr x 5 in
      if (tritet =? 3) || (tritet =? 4) || (tritet =? 5) || (tritet =? 6) then Ok Cmsg
      else if (tritet =? 1) || (tritet =? 2) then Ok Ctxt
      else if tritet =? 7 then Ok Cbny
      else if tritet =? 0 then Ok Cano
      else Err ColdStartError
  end.
