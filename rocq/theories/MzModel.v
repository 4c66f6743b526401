(** Model of messagize (src/keri/core/eventing.py:1538-1934): a message with its
    authenticators as attachments, in the text domain.

    Simplifications: bonds whose field values are serialised strings are taken as
    the primitives they stand for; the serder is its raw bytes with its version
    [sv] and the flag [native] (kind CESR); of several errors in one call the model
    may report another one first than Python. *)
From Verif Require Import Prelude B64Model MatterModel IdxModel SubsModel SerModel CtrModel KelModel.
Open Scope N_scope.

(** kering.py Vrsn_1_0, Vrsn_2_0 *)
Definition V1 : versionage := mkV 1 0.
Definition V2 : versionage := mkV 2 0.

(** structing.py:379-391 AClanDom, the kinds of bonds *)
Inductive clan := SealEvent | SealSource | SealLast | FirstSeen | SealDigest | SealRoot | SealBack | SealKind
                | BlindState | BoundState | TypeMedia.
Definition clan_eqb (a b : clan) : bool :=
  match a, b with
  | SealEvent, SealEvent | SealSource, SealSource | SealLast, SealLast | FirstSeen, FirstSeen | SealDigest, SealDigest
  | SealRoot, SealRoot | SealBack, SealBack | SealKind, SealKind | BlindState, BlindState | BoundState, BoundState
  | TypeMedia, TypeMedia => true
  | _, _ => false
  end.
(** structing.py:455-466 ClanToCodens *)
Definition codenOf (c : clan) : string :=
  match c with
  | SealEvent => "SealSourceTriples" | SealSource => "SealSourceCouples" | SealLast => "SealSourceLastSingles"
  | FirstSeen => "FirstSeenReplayCouples" | SealDigest => "DigestSealSingles" | SealRoot => "MerkleRootSealSingles"
  | SealBack => "BackerRegistrarSealCouples" | SealKind => "TypedDigestSealCouples"
  | BlindState => "BlindedStateQuadruples" | BoundState => "BoundStateSextuples" | TypeMedia => "TypedMediaQuadruples"
  end.

(** the authenticators: arguments of messagize *)
Record auth := mkA {
  a_sigers : list indexer;
  a_tsgs : list (matter * matter * matter * list indexer);
  a_lsgs : list (matter * list indexer);
  a_wigers : list (indexer * option bytes);   (* with the code of its verfer, if any *)
  a_cigars : list (matter * matter);          (* verfer and signature *)
  a_rsgs : list (matter * matter * matter * list indexer);
  a_bonds : list (clan * list matter) }.

(** concatenation of texts *)
Fixpoint cat (l : list (res bytes)) : res bytes :=
  match l with [] => Ok [] | r :: l => b <- r ;; t <- cat l ;; Ok (b ++ t) end.
Definition sigsB (xs : list indexer) : res bytes := cat (map iinfil xs).
Definition matsB (ms : list matter) : res bytes := cat (map infil ms).
(** Counter(code, count, version).qb64b *)
Definition cnt (v : versionage) (name : string) (n : N) : res bytes := c <- counter_of v (s2b name) n ;; cinfil c.

(** eventing.py:1538-1560 _v1seqner of a Number *)
Definition v1seqner (n : matter) : res matter := seqner_of_sn (num n).

(** clans = {} ... 1707-1716, 1888-1902: by kind, in the order of first appearance *)
Fixpoint addClan {A} (c : clan) (x : A) (l : list (clan * list A)) : list (clan * list A) :=
  match l with
  | [] => [(c, [x])]
  | (c', xs) :: l => if clan_eqb c c' then (c', xs ++ [x]) :: l else (c', xs) :: addClan c x l
  end.
Definition collate {A} (bonds : list (clan * A)) : list (clan * list A) :=
  fold_left (fun l b => addClan (fst b) (snd b) l) bonds [].

(** eventing.py:1671-1675, 1680-1684 *)
Definition wigerOk (w : indexer * option bytes) : bool :=
  match snd w with Some c => memB c NonTransDex | None => true end.
Definition cigarOk (c : matter * matter) : bool := memB (m_code (fst c)) NonTransDex.

(** [if group:] *)
Definition when {A} (l : list A) (r : res bytes) : res bytes := match l with [] => Ok [] | _ => r end.

(** eventing.py:1636-1765 version 1 *)
Definition tsg1 (t : matter * matter * matter * list indexer) : res bytes :=
  let '(p, n, d, sigers) := t in
  s <- v1seqner n ;;
  cat [infil p; infil s; infil d; cnt V1 "ControllerIdxSigs" (len sigers); sigsB sigers].
Definition lsg1 (t : matter * list indexer) : res bytes :=
  let '(p, sigers) := t in cat [infil p; cnt V1 "ControllerIdxSigs" (len sigers); sigsB sigers].
(** the fields of a bond, ordinals as Seqner *)
Definition bond1 (c : clan) (ms : list matter) : res (list matter) :=
  match c, ms with
  | SealEvent, [i; s; d] => s <- v1seqner s ;; Ok [i; s; d]
  | SealSource, [s; d] => s <- v1seqner s ;; Ok [s; d]
  | SealLast, [i] => Ok [i]
  | FirstSeen, [f; dt] => f <- v1seqner f ;; Ok [f; dt]
  | _, _ => Err ValueError
  end.
Definition v1clan (c : clan) : bool := match c with SealEvent | SealSource | SealLast | FirstSeen => true | _ => false end.
Definition bonds1 (g : clan * list (list matter)) : res bytes :=
  let '(c, group) := g in
  cat (cnt V1 (codenOf c) (len group) :: map (fun ms => fs <- bond1 c ms ;; matsB fs) group).
Definition aims1 (a : auth) : res bytes :=
  cat [
    when (a_sigers a) (cat [cnt V1 "ControllerIdxSigs" (len (a_sigers a)); sigsB (a_sigers a)]);
    when (a_tsgs a) (cat (cnt V1 "TransIdxSigGroups" (len (a_tsgs a)) :: map tsg1 (a_tsgs a)));
    when (a_lsgs a) (cat (cnt V1 "TransLastIdxSigGroups" (len (a_lsgs a)) :: map lsg1 (a_lsgs a)));
    when (a_wigers a) (raise_if (negb (forallb wigerOk (a_wigers a))) ValueError
      (cat [cnt V1 "WitnessIdxSigs" (len (a_wigers a)); sigsB (map fst (a_wigers a))]));
    when (a_cigars a) (raise_if (negb (forallb cigarOk (a_cigars a))) ValueError
      (cat (cnt V1 "NonTransReceiptCouples" (len (a_cigars a)) :: map (fun c => matsB [fst c; snd c]) (a_cigars a))));
    when (a_rsgs a) (rims <- cat (map tsg1 (a_rsgs a)) ;; enclose V1 (s2b "TransReceiptIdxSigGroups") rims);
    raise_if (negb (forallb (fun b => v1clan (fst b)) (a_bonds a))) ValueError (cat (map bonds1 (collate (a_bonds a))))].

(** eventing.py:1776-1902 version 2 *)
Definition sigs2 (v : versionage) (name : string) (xs : list indexer) : res bytes :=
  s <- sigsB xs ;; enclose v (s2b name) s.
Definition tsg2 (v : versionage) (t : matter * matter * matter * list indexer) : res bytes :=
  let '(p, n, d, sigers) := t in cat [infil p; infil n; infil d; sigs2 v "ControllerIdxSigs" sigers].
Definition lsg2 (v : versionage) (t : matter * list indexer) : res bytes :=
  let '(p, sigers) := t in cat [infil p; sigs2 v "ControllerIdxSigs" sigers].
(** structing.py:604-653 Structor.enclose: always the version 2 code *)
Definition bonds2 (g : clan * list (list matter)) : res bytes :=
  let '(c, group) := g in b <- cat (map matsB group) ;; enclose V2 (s2b (codenOf c)) b.
Definition aims2 (v : versionage) (a : auth) : res bytes :=
  let group name l := b <- cat l ;; enclose v (s2b name) b in
  cat [
    when (a_sigers a) (sigs2 v "ControllerIdxSigs" (a_sigers a));
    when (a_tsgs a) (group "TransIdxSigGroups"%string (map (tsg2 v) (a_tsgs a)));
    when (a_lsgs a) (group "TransLastIdxSigGroups"%string (map (lsg2 v) (a_lsgs a)));
    when (a_wigers a) (raise_if (negb (forallb wigerOk (a_wigers a))) ValueError (sigs2 v "WitnessIdxSigs" (map fst (a_wigers a))));
    when (a_cigars a) (raise_if (negb (forallb cigarOk (a_cigars a))) ValueError
      (group "NonTransReceiptCouples"%string (map (fun c => matsB [fst c; snd c]) (a_cigars a))));
    when (a_rsgs a) (group "TransReceiptIdxSigGroups"%string (map (tsg2 v) (a_rsgs a)));
    cat (map bonds2 (collate (a_bonds a)))].

(** eventing.py:1617-1618 no authenticators *)
Definition noAuth (a : auth) : bool :=
  isnil (a_sigers a) && isnil (a_tsgs a) && isnil (a_lsgs a) && isnil (a_cigars a) && isnil (a_wigers a) && isnil (a_rsgs a) && isnil (a_bonds a).
(** order of Versionage tuples *)
Definition vlt (a b : versionage) : bool := (vmajor a <? vmajor b) || (vmajor a =? vmajor b) && (vminor a <? vminor b).

(** coring.py:2650-2675 Texter(raw=); the codes that Matter chooses for the length are all in TexDex *)
Definition texter_of_raw (raw : bytes) : res matter := matter_of_raw raw (s2b "4B") [] None.

(** eventing.py:1563-1934 messagize *)
Definition messagize (raw : bytes) (sv : versionage) (native : bool) (a : auth) (nests : list bytes)
    (framed nested : bool) (gv : versionage) (genusify : bool) : res bytes :=
  raise_if (noAuth a) ValueError (
  let nesting := nested || negb (isnil nests) in
  let gv := if nesting && (vmajor gv <? 2) then V2 else gv in
  let nested := nested || negb (isnil nests) && framed in
  let gv := if vlt gv sv then sv else gv in
  gvc <- (if genusify then makeGVC gv else Ok []) ;;
  msg <- (if (vmajor gv <? 2) && negb nested then
            aims <- aims1 a ;;
            raise_if (negb (len aims mod 4 =? 0)) ValueError (
            h <- (if framed then Ok [] else cnt V1 "AttachmentGroup" (len aims / 4)) ;;
            Ok (raw ++ h ++ aims))
          else if vmajor gv =? 2 then
            aims <- aims2 gv a ;;
            raise_if (negb (forallb Reb64 nests)) ValueError (
            let aims := aims ++ List.concat nests in
            raise_if (negb (len aims mod 4 =? 0)) ValueError (
            aims <- (if negb nested && negb framed then enclose gv (s2b "AttachmentGroup") aims else Ok aims) ;;
            if nested then
              msg <- (if native then Ok raw
                      else t <- texter_of_raw raw ;; q <- infil t ;; enclose gv (s2b "NonNativeBodyGroup") q) ;;
              enclose V2 (s2b "BodyWithAttachmentGroup") (msg ++ aims)
            else Ok (raw ++ aims)))
          else Err ValueError) ;;
  Ok (gvc ++ msg)).
