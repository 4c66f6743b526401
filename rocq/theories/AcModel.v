(** ACDC messages: SerderACDC (core/serdering.py:2635-3129), whose SAID is computed over the most compact
    form of the message.

    Simplifications: those of SerModel and CpModel; errors raised by the sections are passed on as they
    are; the loops of Compactor are given a number of rounds, None when it is not enough. *)
From Verif Require Import Prelude B64Model MatterModel SubsModel VerModel ThModel JsonModel SerModel CpModel.
Open Scope N_scope.

(** sequencing of computations that may not end *)
Definition obind {A B} (x : option (res A)) (f : A -> option (res B)) : option (res B) :=
  match x with None => None | Some (Err e) => Some (Err e) | Some (Ok a) => f a end.

(** core/serdering.py:2989, 3043 the labels of the sections, in the order in which they are handled *)
Definition SectLabels : list bytes := map s2b ["s"; "a"; "e"; "r"; "A"]%string.
(** core/serdering.py:2986-2987 *)
Definition compactable (pvrsn : versionage) (ilk : option bytes) : bool :=
  (2 <=? fst pvrsn) && match ilk with None => true | Some t => memB t (map s2b ["acm"; "act"; "acg"; "ace"]%string) end.
(** core/serdering.py:3040-3041 *)
Definition sectional (pvrsn : versionage) (ilk : option bytes) : bool :=
  (2 <=? fst pvrsn) && match ilk with None => false | Some t => memB t (map s2b ["sch"; "att"; "agg"; "edg"; "rul"]%string) end.

Section Externals.
Variable digest : bytes -> bytes -> bytes.
Variable odumps : bytes -> sad -> res bytes.
Variable cdumps : bytes -> versionage -> option versionage -> sad -> res bytes.
Variable loads : bytes -> bytes -> res sad.
(** native serialization of field maps in sections; serialization of lists of elements by kind (cbor,
    msgpack, native) *)
Variable nmap : bool -> list bytes -> sad -> res bytes.
Variable olist : bytes -> list val -> res bytes.

(** core/mapping.py:567-653 Mapper._exhale: strict labels and the dummies only matter in the native kind *)
Definition mapDump (kind : bytes) (strict : bool) (dl : list bytes) (m : sad) : res bytes :=
  if beq kind (s2b "JSON") then Ok (json (VMap m))
  else if beq kind KindCesr then nmap strict dl m
  else odumps kind m.
(** core/mapping.py:1706-1761 Aggor._exhale *)
Definition listDump (kind : bytes) (l : list val) : res bytes :=
  if beq kind (s2b "JSON") then Ok (json (VList l)) else olist kind l.

(** core/serdering.py:3014-3021 schema, 3023-3027 the other sections that are maps: the said after compaction *)
Definition mapSaid (n : nat) (kind l : bytes) (m : sad) : option (res val) :=
  if beq l (s2b "s") then
    match mapperMake digest (mapDump kind) false SaidsS m with
    | Err e => Some (Err e)
    | Ok (m', _) => Some (Ok (saidOf SaidsS m'))
    end
  else if memB l (map s2b ["a"; "e"; "r"]%string) then
    obind (compactor digest (mapDump kind) n true SaidsD m) (fun r => Some (Ok (saidOf SaidsD (fst r))))
  else Some (Ok VNull).
(** core/serdering.py:2990-3020 one section: what stands for it in the most compact form *)
Definition compactSection (n : nat) (kind l : bytes) (v : val) : option (res val) :=
  if negb (truthy (Some v)) then Some (Ok v)
  else match v with
  | VMap m => obind (mapSaid n kind l m) (fun q => Some (Ok (if truthy (Some q) then q else v)))
  | VList es =>
      if beq l (s2b "A") then
        match aggorMake digest (mapDump kind) (listDump kind) (s2b "E") SaidsD es with
        | Err e => Some (Err e)
        | Ok (q :: _) => Some (Ok (if truthy (Some q) then q else v))
        | Ok [] => Some (Ok v)
        end
      else Some (Ok v)
  | _ => Some (Ok v)
  end.
(** core/serdering.py:2989-3024 *)
Fixpoint compactSections (n : nat) (kind : bytes) (labels : list bytes) (sd : sad) : option (res sad) :=
  match labels with
  | [] => Some (Ok sd)
  | l :: rest =>
      match dget sd l with
      | None => compactSections n kind rest sd
      | Some v => obind (compactSection n kind l v) (fun w => compactSections n kind rest (dset sd l w))
      end
  end.
(** core/serdering.py:3043-3087: the said in the section of a section message is that of its most compact
    form; of an aggregate only that it can be made *)
Definition checkSection (n : nat) (kind l : bytes) (v : val) : option (res unit) :=
  if negb (truthy (Some v)) then Some (Ok tt)
  else match v with
  | VMap m => obind (mapSaid n kind l m) (fun q =>
                if truthy (Some q) then
                  match dget m (if beq l (s2b "s") then s2b "$id" else s2b "d"), q with
                  | Some (VStr a), VStr b => if beq a b then Some (Ok tt) else Some (Err InvalidValueError)
                  | _, _ => Some (Err InvalidValueError)
                  end
                else Some (Ok tt))
  | VList es =>
      if beq l (s2b "A") then
        match aggorMake digest (mapDump kind) (listDump kind) (s2b "E") SaidsD es with
        | Ok (q :: _) => if truthy (Some q) then Some (Ok tt) else Some (Err InvalidValueError)
        | _ => Some (Err InvalidValueError)
        end
      else Some (Ok tt)
  | _ => Some (Ok tt)
  end.
Fixpoint checkSections (n : nat) (kind : bytes) (labels : list bytes) (sd : sad) : option (res unit) :=
  match labels with
  | [] => Some (Ok tt)
  | l :: rest =>
      match dget sd l with
      | None => checkSections n kind rest sd
      | Some v => obind (checkSection n kind l v) (fun _ => checkSections n kind rest sd)
      end
  end.

(** core/serdering.py:2986-3095 the most compact form, whose serialization is digested *)
Definition mostCompact (n : nat) (s : serder) (ilk : option bytes) (sd : sad) : option (res sad) :=
  if compactable (d_pvrsn s) ilk then
    obind (compactSections n (d_kind s) SectLabels sd) (fun c =>
    Some (if negb (beq (d_kind s) KindCesr) then
            raw <- dumps odumps cdumps s c ;;
            vs <- versify (d_proto s) (d_pvrsn s) (d_kind s) (len raw) (d_gvrsn s) ;;
            Ok (dset c (s2b "v") (VStr vs))
          else Ok c))
  else if sectional (d_pvrsn s) ilk then
    obind (checkSections n (d_kind s) SectLabels sd) (fun _ => Some (Ok sd))
  else Some (Ok sd).
(** core/serdering.py:2938-3129 SerderACDC._compute; [ilk] is that of the serder's own field map *)
Definition computeA (n : nat) (s : serder) (ilk : option bytes) (compactify : bool) (sd : sad) (saids : list (bytes * bytes)) : option (res (sad * bytes * N)) :=
  let native := beq (d_kind s) KindCesr in
  obind (Some (if negb native then
                 raw0 <- dumps odumps cdumps s sd ;;
                 vs <- versify (d_proto s) (d_pvrsn s) (d_kind s) (len raw0) (d_gvrsn s) ;;
                 Ok (dset sd (s2b "v") (VStr vs), len raw0)
               else Ok (sd, 0))) (fun '(sd1, size1) =>
  obind (mostCompact n s ilk sd1) (fun csad =>
  Some (raw <- dumps odumps cdumps s csad ;;
        let '(sd2, size2) := if compactify then (csad, len raw) else (sd1, size1) in
        sd3 <- fillSaids digest saids raw sd2 ;;
        final <- dumps odumps cdumps s sd3 ;;
        if native then
          vs <- versify (d_proto s) (d_pvrsn s) (d_kind s) (len final) (d_gvrsn s) ;;
          Ok (dset sd3 (s2b "v") (VStr vs), final, len final)
        else Ok (sd3, final, size2)))).

(** core/serdering.py:2857-2914 SerderACDC._verify *)
Definition verifyACDC (n : nat) (s : serder) : option (res unit) :=
  obind (Some (validate (Some (s2b "ACDC")) s)) (fun '(sd, saids) =>
  obind (Some (ilkOf (d_sad s))) (fun ilk =>
  obind (computeA n s ilk false sd saids) (fun '(sd', raw, _) =>
  Some (
  raise_if (negb (beq raw (d_raw s))) ValidationError (
  match dget sd' (s2b "v") with
  | Some (VStr vs) =>
      sm <- deversify vs ;;
      raise_if (negb (beq (d_proto s) (s_proto sm))) ValidationError (
      raise_if (negb (veq (d_pvrsn s) (s_pvrsn sm))) ValidationError (
      raise_if (negb (beq (d_kind s) (s_kind sm))) ValidationError (
      raise_if (if negb (beq (d_kind s) KindCesr)
                then negb (s_size sm =? d_size s) && negb (d_size s =? len raw)
                else negb (d_size s =? len raw)) ValidationError (
      raise_if (negb (oveq (d_gvrsn s) (s_gvrsn sm))) ValidationError (
      if match ilk with None => true | Some t => (len t =? 0) || memB t (map s2b ["acm"; "ace"; "act"; "acg"; "rip"]%string) end then
        match codeOf (dget (d_sad s) (s2b "i")) with
        | Err _ => Err ValidationError
        | Ok code => raise_if (negb (memB code PreDex)) ValidationError (Ok tt)
        end
      else Ok tt)))))
  | _ => Err TypeError
  end))))).

(** core/serdering.py:609-632 SerderACDC(raw=raw) *)
Definition acdcOfRaw (n : nat) (raw : bytes) : option (res serder) :=
  obind (Some (inhale loads raw)) (fun s =>
  match verifyACDC n s with None => None | Some (Ok _) => Some (Ok s) | Some (Err _) => Some (Err ValidationError) end).
(** core/serdering.py:634-665, 2917-2967 SerderACDC(sad=sad, makify=True, ...); the ilk is read from the
    field map given, not from the one arranged by _makify.  Simplification: the protocol is given in
    [args] or in the version string. *)
Definition acdcMake (n : nat) (args : mkargs) (compactify : bool) (sd : sad) : option (res serder) :=
  obind (Some (makifyPre (Some (s2b "ACDC")) args sd)) (fun '(s, cds) =>
  obind (Some (ilkOf sd)) (fun ilk =>
  obind (computeA n s ilk compactify (d_sad s) cds) (fun '(sd', raw, size) =>
  let s' := mkSerder raw sd' (d_proto s) (d_pvrsn s) (d_gvrsn s) (d_kind s) size in
  match verifyACDC n s' with None => None | Some (Ok _) => Some (Ok s') | Some (Err _) => Some (Err ValidationError) end))).
End Externals.
