(** Model of src/keri/core/parsing.py (Parser): extraction of messages with their
    attachments from a byte stream that arrives in pieces.

    A Python generator that reads a growing buffer and yields while it waits for
    more bytes is a tree of commands: each [Op] tests the parser state (the
    current code table version [self.version] and the buffer [ims]) and either
    waits ([None], Python [yield] and retry) or answers and updates the state.
    Answers are results, so exceptions pass through [try]/[except].

    Not modelled: the [piped] mode (it returns nothing), [local], the [version]
    argument of parsator/allParsator (None: keep self.version), logging. *)
From Verif Require Import Prelude B64Model MatterModel IdxModel VerModel CtrModel KelModel.
Open Scope N_scope.

(** self.version and ims *)
Record pst := mkP { pv : CtrModel.versionage; pb : bytes }.

(** a generator, see the head of the file *)
Inductive com (A : Type) : Type :=
| Ret (a : A)
| Raise (e : exn)
| Op (B : Type) (f : pst -> option (res B * pst)) (k : res B -> com A).
Arguments Ret {A}. Arguments Raise {A}. Arguments Op {A B}.

(** [onres c h]: run [c], then [h] on its value or exception *)
Fixpoint onres {A B} (c : com A) (h : res A -> com B) : com B :=
  match c with
  | Ret a => h (Ok a)
  | Raise e => h (Err e)
  | Op f k => Op f (fun r => onres (k r) h)
  end.
Definition bindc {A B} (c : com A) (h : A -> com B) : com B :=
  onres c (fun r => match r with Ok a => h a | Err e => Raise e end).
Notation "x <~ e ;; f" := (bindc e (fun x => f)) (at level 61, e at next level, right associativity).
Notation "' p <~ e ;; f" := (bindc e (fun p => f)) (at level 61, p pattern, e at next level, right associativity).
Notation "e ;;; f" := (bindc e (fun _ : unit => f)) (at level 61, right associativity).
Definition lift {A} (r : res A) : com A := match r with Ok a => Ret a | Err e => Raise e end.
Definition op {B} (f : pst -> option (res B * pst)) : com B := Op f lift.
(** a generator that yields for ever *)
Definition stuck {A} : com A := Op (B := unit) (fun _ => None) (fun _ => Raise KeyError).

(** Run until the end or until the next yield. *)
Inductive out (A : Type) : Type := Done (r : res A) (s : pst) | Blocked (c : com A) (s : pst).
Arguments Done {A}. Arguments Blocked {A}.
Fixpoint resume {A} (c : com A) (s : pst) : out A :=
  match c with
  | Ret a => Done (Ok a) s
  | Raise e => Done (Err e) s
  | Op f k => match f s with
              | None => Blocked c s
              | Some (r, s') => resume (k r) s'
              end
  end.

(** kering.py:815-955 the subclasses of ExtractionError *)
Definition isExtraction (e : exn) : bool :=
  match e with
  | ExtractionError | ShortageError | ColdStartError | SizedGroupError | TopLevelStreamError
  | VersionError | ProtocolError | KindError | IlkError | ConversionError | DeserializeError
  | FieldError | UnexpectedCodeError | UnexpectedCountCodeError | UnexpectedOpCodeError => true
  | _ => false
  end.

(** The primitive classes that attachments are made of. *)
Inductive klas := KVerfer | KCigar | KPrefixer | KNumber | KDiger | KDater | KTexter | KNoncer | KLabeler | KVerser.
(** parsing.py:40-65 MsgParseDom: the lists of attachments, by name. *)
Inductive fld := Fsigers | Fwigers | Fcigars | Frsgs | Ftsgs | Flsgs | Ffrcs | Fsscs | Fssts | Ftdcs | Fbsqs
               | Fbsss | Ftmqs | Fessrs | Fptds.
Definition fld_eqb (a b : fld) : bool :=
  match a, b with
  | Fsigers, Fsigers | Fwigers, Fwigers | Fcigars, Fcigars | Frsgs, Frsgs | Ftsgs, Ftsgs | Flsgs, Flsgs
  | Ffrcs, Ffrcs | Fsscs, Fsscs | Fssts, Fssts | Ftdcs, Ftdcs | Fbsqs, Fbsqs | Fbsss, Fbsss | Ftmqs, Ftmqs
  | Fessrs, Fessrs | Fptds, Fptds => true
  | _, _ => false
  end.
(** One element of such a list: an indexed signature, a tuple of primitives with
    the signatures of its group if it has one, or raw bytes. *)
Inductive item := ISig (x : indexer) | IMats (ms : list matter) (sigs : list indexer) | IRaw (b : bytes).

Section Ps.
(** The deserialised and verified message (a Serder). *)
Variable Ser : Type.
(** serdering.py:222-227, 1233-, 621-628: Serder(raw=, smellage=): deserialise and
    verify exactly the sized bytes.  Any function. *)
Variable sload : smellage -> bytes -> res Ser.
(** serdering.py:172-227: reap of a CESR native body, from its counter and the
    text domain bytes of counter and content; [true] for fixed fields.  Any function. *)
Variable nload : bool -> counter -> bytes -> res Ser.
(** The code check of the primitive's class, e.g. Verfer.  Any function. *)
Variable kcheck : klas -> matter -> res unit.

(** parsing.py:40-65 MsgParseDom.  Simplification: the fifteen lists are one list
    of elements tagged with the name of their list, see [listOf]. *)
Inductive exts := mkE (x_serder : Ser) (x_atts : list (fld * item)) (x_nests : list exts).
Definition x_serder (e : exts) := let 'mkE s _ _ := e in s.
Definition x_atts (e : exts) := let 'mkE _ a _ := e in a.
Definition x_nests (e : exts) := let 'mkE _ _ n := e in n.
Definition listOf (f : fld) (e : exts) : list item := map snd (filter (fun p => fld_eqb (fst p) f) (x_atts e)).
Definition addAtts (e : exts) (f : fld) (l : list item) : exts :=
  mkE (x_serder e) (x_atts e ++ map (pair f) l) (x_nests e).
Definition addNest (e : exts) (n : exts) : exts := mkE (x_serder e) (x_atts e) (x_nests e ++ [n]).

(* ------------------------------------------------------------------ *)
(** Operations on the stream *)

(** parsing.py:998, 1164 [while not ims and not framed: yield] *)
Definition needSome (framed : bool) : com unit :=
  op (fun s => if isnil (pb s) && negb framed then None else Some (Ok tt, s)).
Definition sniffOp : com cold := op (fun s => Some (sniff (pb s), s)).
Definition isEmpty : com bool := op (fun s => Some (Ok (isnil (pb s)), s)).
Definition getV : com CtrModel.versionage := op (fun s => Some (Ok (pv s), s)).
Definition consume (n : N) : com unit := op (fun s => Some (Ok tt, mkP (pv s) (ndrop n (pb s)))).
(** parsing.py:236-258 the version setter *)
Definition setV (v : option CtrModel.versionage) : com unit :=
  op (fun s => match v with
               | None => Some (Ok tt, s)
               | Some v => if negb ((vmajor v =? 1) || (vmajor v =? 2)) || (0 <? vminor v)
                           then Some (Err InvalidVersionError, s) else Some (Ok tt, mkP v (pb s))
               end).
(** parsing.py:323-353 _extractor: wait on ShortageError unless [abort] *)
Definition extractor {X} (abort strip : bool) (get : CtrModel.versionage -> bytes -> res (X * bytes)) : com X :=
  op (fun s => match get (pv s) (pb s) with
               | Ok (x, t) => Some (Ok x, if strip then mkP (pv s) t else s)
               | Err ShortageError => if abort then Some (Err ShortageError, s) else None
               | Err e => Some (Err e, s)
               end).
(** Counter(qb64b=|qb2=, version=) by cold start *)
Definition counterAt (cl : cold) (v : CtrModel.versionage) (b : bytes) : res (counter * bytes) :=
  match cl with Ctxt => counter_strip v b | Cbny => counter_bstrip v b | _ => Err ColdStartError end.
Definition peek (cl : cold) (abort : bool) : com counter := extractor abort false (counterAt cl).
(** klas(qb64b=|qb2=) for a Matter subclass *)
Definition matAt (k : klas) (cl : cold) (b : bytes) : res (matter * bytes) :=
  '(m, t) <- (match cl with Ctxt => matter_strip b | Cbny => matter_bstrip b | _ => Err ColdStartError end) ;;
  _ <- kcheck k m ;; Ok (m, t).
Definition sigAt (cl : cold) (b : bytes) : res (indexer * bytes) :=
  match cl with Ctxt => siger_strip b | Cbny => siger_bstrip b | _ => Err ColdStartError end.
(** counting.py:1041-1059 byteSize, 1022-1038 byteCount *)
Definition byteSize (ct : counter) (cl : cold) : res N :=
  sz <- csize ct ;;
  match cl with Ctxt => Ok (cfs sz) | Cbny => Ok (cfs sz / 4 * 3) | _ => Err ValueError end.
Definition byteCount (ct : counter) (cl : cold) : res N :=
  match cl with Ctxt => Ok (c_count ct * 4) | Cbny => Ok (c_count ct * 3) | _ => Err ValueError end.
Definition consumeCtr (ct : counter) (cl : cold) : com unit := n <~ lift (byteSize ct cl) ;; consume n.
(** [while len(ims) < n and not framed: yield]; eims = ims[:n]; del ims[:n] *)
Definition takeF (n : N) (framed : bool) : com bytes :=
  op (fun s => if (len (pb s) <? n) && negb framed then None
               else Some (Ok (ntake n (pb s)), mkP (pv s) (ndrop n (pb s)))).
(** the substream [sub] replaces ims for the rest of the generator: nothing more
    will be appended to it, so a generator that waits on it waits for ever *)
Definition inSub {A} (sub : bytes) (c : com A) : com A :=
  op (fun s => match resume c (mkP (pv s) sub) with
               | Done r s' => Some (r, mkP (pv s') (pb s))
               | Blocked _ _ => None
               end).
Definition isName (l : list string) (ct : counter) : bool := existsb (fun n => beq (c_name ct) (s2b n)) l.
(** The tests [ctr.code in (self.sucodes.GenericGroup, ...)] are made on the name
    of the code: within one version's table codes and names are one to one. *)
Definition isGenus := isName ["KERIACDCGenusVersion"]%string.
Definition isGeneric := isName ["GenericGroup"; "BigGenericGroup"]%string.
Definition isBodyAtt := isName ["BodyWithAttachmentGroup"; "BigBodyWithAttachmentGroup"]%string.
Definition isAttGroup := isName ["AttachmentGroup"; "BigAttachmentGroup"]%string.
Definition isNonNative := isName ["NonNativeBodyGroup"; "BigNonNativeBodyGroup"]%string.
Definition isFixBody := isName ["FixBodyGroup"; "BigFixBodyGroup"]%string.
Definition isMapBody := isName ["MapBodyGroup"; "BigMapBodyGroup"]%string.
(** counting.py:179-195, 353-381 BUCodes *)
Definition isBody (ct : counter) : bool := isNonNative ct || isFixBody ct || isMapBody ct.
(** counting.py:161-177, 328-351: MUCodes that are not BUCodes *)
Definition isOther := isName ["DatagramSegmentGroup"; "BigDatagramSegmentGroup"; "ESSRWrapperGroup"; "BigESSRWrapperGroup"]%string.
(** Counter.b64ToVer(ctr.countToB64(l=3)) *)
Definition genusOf (ct : counter) : res CtrModel.versionage := b64ToVer (intToB64 (c_count ct) 3).

(* ------------------------------------------------------------------ *)
(** Attachments *)

(** What one element of an attachment group consists of: a signature, a tuple of
    primitives, or a tuple followed by a group of signatures. *)
Inductive shape := SSig | SMat (ks : list klas) | SGrp (ks : list klas).
(** How its method reads the elements: [count] of them from the stream, or all
    those in the counted bytes; or keeps the counted bytes. *)
Inductive method := M1 (f : fld) (sh : shape) | M2 (f : fld) (sh : shape) | MRaw (f : fld).

(** parsing.py:126-182 Methods, with the bodies at 1541-2548 *)
Definition methods1 : list (string * method) := [
  ("ControllerIdxSigs", M1 Fsigers SSig);
  ("WitnessIdxSigs", M1 Fwigers SSig);
  ("NonTransReceiptCouples", M1 Fcigars (SMat [KVerfer; KCigar]));
  ("TransReceiptIdxSigGroups", M2 Frsgs (SGrp [KPrefixer; KNumber; KDiger]));
  ("TransIdxSigGroups", M1 Ftsgs (SGrp [KPrefixer; KNumber; KDiger]));
  ("TransLastIdxSigGroups", M1 Flsgs (SGrp [KPrefixer]));
  ("FirstSeenReplayCouples", M1 Ffrcs (SMat [KNumber; KDater]));
  ("SealSourceTriples", M1 Fssts (SMat [KPrefixer; KNumber; KDiger]));
  ("SealSourceCouples", M1 Fsscs (SMat [KNumber; KDiger]));
  ("PathedMaterialCouples", MRaw Fptds); ("BigPathedMaterialCouples", MRaw Fptds);
  ("ESSRPayloadGroup", M1 Fessrs (SMat [KTexter])); ("BigESSRPayloadGroup", M1 Fessrs (SMat [KTexter]))]%string.
Definition methods2 : list (string * method) := [
  ("ControllerIdxSigs", M2 Fsigers SSig); ("BigControllerIdxSigs", M2 Fsigers SSig);
  ("WitnessIdxSigs", M2 Fwigers SSig); ("BigWitnessIdxSigs", M2 Fwigers SSig);
  ("NonTransReceiptCouples", M2 Fcigars (SMat [KVerfer; KCigar]));
  ("BigNonTransReceiptCouples", M2 Fcigars (SMat [KVerfer; KCigar]));
  ("TransReceiptIdxSigGroups", M2 Frsgs (SGrp [KPrefixer; KNumber; KDiger]));
  ("BigTransReceiptIdxSigGroups", M2 Frsgs (SGrp [KPrefixer; KNumber; KDiger]));
  ("TransIdxSigGroups", M2 Ftsgs (SGrp [KPrefixer; KNumber; KDiger]));
  ("BigTransIdxSigGroups", M2 Ftsgs (SGrp [KPrefixer; KNumber; KDiger]));
  ("TransLastIdxSigGroups", M2 Flsgs (SGrp [KPrefixer]));
  ("BigTransLastIdxSigGroups", M2 Flsgs (SGrp [KPrefixer]));
  ("FirstSeenReplayCouples", M2 Ffrcs (SMat [KNumber; KDater]));
  ("BigFirstSeenReplayCouples", M2 Ffrcs (SMat [KNumber; KDater]));
  ("SealSourceTriples", M2 Fssts (SMat [KPrefixer; KNumber; KDiger]));
  ("BigSealSourceTriples", M2 Fssts (SMat [KPrefixer; KNumber; KDiger]));
  ("SealSourceCouples", M2 Fsscs (SMat [KNumber; KDiger]));
  ("BigSealSourceCouples", M2 Fsscs (SMat [KNumber; KDiger]));
  ("TypedDigestSealCouples", M2 Ftdcs (SMat [KVerser; KDiger]));
  ("BigTypedDigestSealCouples", M2 Ftdcs (SMat [KVerser; KDiger]));
  ("BlindedStateQuadruples", M2 Fbsqs (SMat [KDiger; KNoncer; KNoncer; KLabeler]));
  ("BigBlindedStateQuadruples", M2 Fbsqs (SMat [KDiger; KNoncer; KNoncer; KLabeler]));
  ("BoundStateSextuples", M2 Fbsss (SMat [KDiger; KNoncer; KNoncer; KLabeler; KNumber; KNoncer]));
  ("BigBoundStateSextuples", M2 Fbsss (SMat [KDiger; KNoncer; KNoncer; KLabeler; KNumber; KNoncer]));
  ("TypedMediaQuadruples", M2 Ftmqs (SMat [KDiger; KNoncer; KLabeler; KTexter]));
  ("BigTypedMediaQuadruples", M2 Ftmqs (SMat [KDiger; KNoncer; KLabeler; KTexter]));
  ("PathedMaterialCouples", MRaw Fptds); ("BigPathedMaterialCouples", MRaw Fptds);
  ("ESSRPayloadGroup", M2 Fessrs (SMat [KTexter])); ("BigESSRPayloadGroup", M2 Fessrs (SMat [KTexter]))]%string.
Definition methodOf (ct : counter) : option method :=
  match find (fun p => beq (c_name ct) (s2b (fst p))) (if vmajor (c_vrsn ct) =? 1 then methods1 else methods2) with
  | Some (_, m) => Some m
  | None => None
  end.

(** Reading from the stream, waiting for each primitive. *)
Fixpoint matsC (cl : cold) (abort : bool) (ks : list klas) : com (list matter) :=
  match ks with
  | [] => Ret []
  | k :: ks => m <~ extractor abort true (fun _ b => matAt k cl b) ;; ms <~ matsC cl abort ks ;; Ret (m :: ms)
  end.
Fixpoint sigsC (cl : cold) (abort : bool) (n : nat) : com (list indexer) :=
  match n with
  | O => Ret []
  | S n => x <~ extractor abort true (fun _ b => sigAt cl b) ;; xs <~ sigsC cl abort n ;; Ret (x :: xs)
  end.
Definition isIdxSigs (ct : counter) : bool := beq (c_name ct) (s2b "ControllerIdxSigs").
(** one element of a version 1 counted list *)
Definition elemC (cl : cold) (abort : bool) (sh : shape) : com item :=
  match sh with
  | SSig => x <~ extractor abort true (fun _ b => sigAt cl b) ;; Ret (ISig x)
  | SMat ks => ms <~ matsC cl abort ks ;; Ret (IMats ms [])
  | SGrp ks =>
      ms <~ matsC cl abort ks ;;
      ct <~ extractor abort true (counterAt cl) ;;
      if negb (isIdxSigs ct) then Raise UnexpectedCountCodeError else
      xs <~ sigsC cl abort (N.to_nat (c_count ct)) ;; Ret (IMats ms xs)
  end.
Fixpoint elemsC (cl : cold) (abort : bool) (sh : shape) (n : nat) : com (list item) :=
  match n with
  | O => Ret []
  | S n => x <~ elemC cl abort sh ;; xs <~ elemsC cl abort sh n ;; Ret (x :: xs)
  end.

(** Reading from counted bytes that were copied out. *)
Fixpoint matsP (cl : cold) (ks : list klas) (b : bytes) : res (list matter * bytes) :=
  match ks with
  | [] => Ok ([], b)
  | k :: ks => '(m, b) <- matAt k cl b ;; '(ms, b) <- matsP cl ks b ;; Ok (m :: ms, b)
  end.
Fixpoint sigsN (cl : cold) (n : nat) (b : bytes) : res (list indexer * bytes) :=
  match n with
  | O => Ok ([], b)
  | S n => '(x, b) <- sigAt cl b ;; '(xs, b) <- sigsN cl n b ;; Ok (x :: xs, b)
  end.
(** [while igims:]; the fuel is never reached because every primitive is at least
    one byte long, see PsTerm.elemsP_fuel *)
Fixpoint sigsAll (n : nat) (cl : cold) (b : bytes) : res (list indexer) :=
  match b with
  | [] => Ok []
  | _ => match n with
         | O => Err OverflowError
         | S n => '(x, b) <- sigAt cl b ;; xs <- sigsAll n cl b ;; Ok (x :: xs)
         end
  end.
(** the signatures of one group: version 1 counts signatures, version 2 bytes *)
Definition groupSigs (v : CtrModel.versionage) (cl : cold) (b : bytes) : res (list indexer * bytes) :=
  '(ct, b) <- counterAt cl v b ;;
  raise_if (negb (isIdxSigs ct)) UnexpectedCountCodeError (
  if vmajor v =? 1 then sigsN cl (N.to_nat (c_count ct)) b
  else
    igs <- byteCount ct cl ;;
    raise_if (len b <? igs) ShortageError (
    xs <- sigsAll (List.length b) cl (ntake igs b) ;; Ok (xs, ndrop igs b))).
Definition elemP (v : CtrModel.versionage) (cl : cold) (sh : shape) (b : bytes) : res (item * bytes) :=
  match sh with
  | SSig => '(x, b) <- sigAt cl b ;; Ok (ISig x, b)
  | SMat ks => '(ms, b) <- matsP cl ks b ;; Ok (IMats ms [], b)
  | SGrp ks => '(ms, b) <- matsP cl ks b ;; '(xs, b) <- groupSigs v cl b ;; Ok (IMats ms xs, b)
  end.
(** [while gims:] *)
Fixpoint elemsP (n : nat) (v : CtrModel.versionage) (cl : cold) (sh : shape) (b : bytes) : res (list item) :=
  match b with
  | [] => Ok []
  | _ => match n with
         | O => Err OverflowError
         | S n => '(x, b) <- elemP v cl sh b ;; xs <- elemsP n v cl sh b ;; Ok (x :: xs)
         end
  end.

(** parsing.py:1541-2548 the attachment methods, after the counter was consumed;
    a code without method is getattr(self, None): TypeError. *)
Definition attMethod (ct : counter) (cl : cold) (abort : bool) (e : exts) : com exts :=
  match methodOf ct with
  | None => Raise TypeError
  | Some (M1 f sh) => xs <~ elemsC cl abort sh (N.to_nat (c_count ct)) ;; Ret (addAtts e f xs)
  | Some (M2 f sh) =>
      gs <~ lift (byteCount ct cl) ;;
      g <~ op (fun s => if len (pb s) <? gs then if abort then Some (Err ShortageError, s) else None
                        else Some (Ok (ntake gs (pb s)), mkP (pv s) (ndrop gs (pb s)))) ;;
      v <~ getV ;;
      xs <~ lift (elemsP (List.length g) v cl sh g) ;; Ret (addAtts e f xs)
  | Some (MRaw f) =>
      gs <~ lift (byteCount ct cl) ;;
      g <~ op (fun s => if len (pb s) <? gs then if abort then Some (Err ShortageError, s) else None
                        else Some (Ok (ntake gs (pb s)), mkP (pv s) (ndrop gs (pb s)))) ;;
      Ret (addAtts e f [IRaw g])
  end.

(** parsing.py:1202-1295 the loop over attachment counters; [nest] is the
    recursive msgParsator.  The fuel bounds the number of counters of one message. *)
Fixpoint attLoop (nest : bool -> com exts) (n : nat) (cl : cold) (framed enclosed : bool) (e : exts) : com exts :=
  match n with
  | O => stuck
  | S n =>
      let again e :=
        emp <~ isEmpty ;;
        if emp then Ret e
        else if enclosed then attLoop nest n cl framed enclosed e
        else cl' <~ sniffOp ;;
             match cl' with Cmsg => Ret e | _ => attLoop nest n cl' framed enclosed e end in
      ct <~ peek cl (framed || enclosed) ;;
      if isGenus ct || isGeneric ct || isOther ct then
        if enclosed then Raise SizedGroupError else Ret e
      else if isAttGroup ct then
        cbs <~ lift (byteSize ct cl) ;; g <~ lift (byteCount ct cl) ;;
        _ <~ takeF (cbs + g) framed ;; again e
      else if isBodyAtt ct || isBody ct then
        if negb enclosed then Ret e
        else sub <~ nest framed ;; again (addNest e sub)
      else
        consumeCtr ct cl ;;; e <~ attMethod ct cl (framed || enclosed) e ;; again e
  end.

(** the [finally] at 1307-1309: [vs] is the bottom of the version stack *)
Definition restoring {A} (vs : option CtrModel.versionage) (c : com A) : com A :=
  onres c (fun r => setV vs ;;; lift r).
Definition orOld (vs : option CtrModel.versionage) (v : CtrModel.versionage) : option CtrModel.versionage :=
  match vs with Some _ => vs | None => Some v end.
(** [except ExtractionError: if enclosed: raise SizedGroupError] *)
Definition sized {A} (enclosed : bool) (c : com A) : com A :=
  onres c (fun r => match r with
                    | Err e => if isExtraction e && enclosed then Raise SizedGroupError else Raise e
                    | Ok a => Ret a
                    end).

(** parsing.py:1161-1312 the attachments of a message *)
Definition attach (nest : bool -> com exts) (n : nat) (framed enclosed : bool) (vs : option CtrModel.versionage) (e : exts) : com exts :=
  restoring vs (sized enclosed (
    needSome framed ;;;
    cl <~ sniffOp ;;
    match cl with
    | Cmsg => Ret e
    | _ =>
        ct <~ peek cl framed ;;
        if isAttGroup ct then
          consumeCtr ct cl ;;;
          eags <~ lift (byteCount ct cl) ;;
          eims <~ takeF eags framed ;;
          inSub eims (sized true (
            ct <~ peek cl true ;;
            if isGenus ct then
              consumeCtr ct cl ;;;
              v <~ getV ;;
              g <~ lift (genusOf ct) ;; 
              restoring (orOld vs v) (setV (Some g) ;;; attLoop nest n cl framed true e)
            else attLoop nest n cl framed true e))
        else attLoop nest n cl framed enclosed e
    end)).

(** serdering.py:143-227 reap of a non native message at the front of a stream.
    Not modelled: the genus test 200-202 (both protocols use the KERI genus). *)
Definition reap (v : CtrModel.versionage) (b : bytes) : res (Ser * bytes) :=
  sm <- smell b ;;
  raise_if (vmajor v <? fst (s_pvrsn sm)) DeserializeError (
  _ <- (match s_gvrsn sm with
        | None => Ok tt
        | Some g =>
            raise_if (vmajor v <? fst g) DeserializeError (
            raise_if (vminor v <? snd g) DeserializeError (
            raise_if (negb ((fst g =? 1) || (fst g =? 2))) KeyError (
            raise_if (0 <? snd g) DeserializeError (Ok tt))))
        end) ;;
  raise_if (len b <? s_size sm) ShortageError (
  x <- sload sm (ntake (s_size sm) b) ;; Ok (x, ndrop (s_size sm) b))).
(** parsing.py:1140-1151.  Simplification: when deserialisation fails the
    message bytes stay in the stream; Python has stripped them, but the error
    flushes the stream or drops the enclosing group in either case. *)
Definition reapOp (framed : bool) : com Ser := extractor framed true reap.

(** parsing.py:1069-1137 the message body that counter [ct] announces *)
Definition body (ct : counter) (cl : cold) (framed : bool) : com Ser :=
  if isNonNative ct then
    consumeCtr ct cl ;;;
    t <~ extractor framed true (fun _ b => matAt KTexter cl b) ;;
    v <~ getV ;;
    '(x, _) <~ lift (reap v (m_raw t)) ;; Ret x
  else if vmajor (c_vrsn ct) =? 1 then Raise AttributeError   (* MUCodes[1] has no FixBodyGroup *)
  else if isFixBody ct || isMapBody ct then
    cbs <~ lift (byteSize ct cl) ;; g <~ lift (byteCount ct cl) ;;
    b <~ takeF (cbs + g) framed ;;
    lift (nload (isFixBody ct) ct (match cl with Cbny => encodeB64 b | _ => b end))
  else if isGeneric ct then Raise TopLevelStreamError
  else Raise ColdStartError.

(** parsing.py:914-1312 msgParsator.  The fuel bounds nesting and the number of
    attachment counters of one message. *)
Fixpoint msgP (n : nat) (framed : bool) : com exts :=
  match n with
  | O => stuck
  | S n' =>
      let start x := mkE x [] [] in
      let nest := msgP n' in
      needSome framed ;;;
      cl <~ sniffOp ;;
      (match cl with
       | Cmsg => Ret tt
       | _ =>
           ct <~ peek cl framed ;;
           if isGenus ct then consumeCtr ct cl ;;; g <~ lift (genusOf ct) ;; setV (Some g) else Ret tt
       end) ;;;
      cl <~ sniffOp ;;
      match cl with
      | Cmsg => x <~ reapOp framed ;; attach nest n framed false None (start x)
      | _ =>
          ct <~ peek cl framed ;;
          if isBodyAtt ct then
            consumeCtr ct cl ;;;
            emgs <~ lift (byteCount ct cl) ;;
            eims <~ takeF emgs framed ;;
            inSub eims (
              '(x, vs) <~ sized true (
                ct <~ peek cl true ;;
                if isGenus ct then
                  consumeCtr ct cl ;;;
                  v <~ getV ;;
                  g <~ lift (genusOf ct) ;; setV (Some g) ;;;
                  ct <~ peek cl true ;;
                  x <~ body ct cl true ;; Ret (x, Some v)
                else x <~ body ct cl true ;; Ret (x, None)) ;;
              attach nest n true true vs (start x))
          else
            x <~ body ct cl framed ;; attach nest n framed false None (start x)
      end
  end.

(* ------------------------------------------------------------------ *)
(** Groups of messages and the stream *)

(** parsing.py:790-792, 838-842: the local variables of groupParsator.  [g_cur]
    is the substream that replaces ims, None for the stream itself. *)
Record gst := mkG { g_cur : option bytes; g_stack : list (CtrModel.versionage * option bytes);
                    g_svrsn : option CtrModel.versionage; g_eggs : bool; g_framed : bool }.
Inductive front := FGroup (eims : bytes) (sv : option CtrModel.versionage) | FMsg (e : exts) | FTop.
Inductive gout := GBreak | GNext (g : gst) (m : option exts).

(** parsing.py:805-865 one turn of the loop on the current stream.  An exception
    of msgParsator becomes ExtractionError; one raised once [eggs] is set becomes
    SizedGroupError at 894-903. *)
Definition frontC (n : nat) (framed : bool) : com front :=
  let msg := onres (msgP n framed) (fun r => match r with
                                             | Ok e => Ret (FMsg e)
                                             | Err TopLevelStreamError => Ret FTop
                                             | Err _ => Raise ExtractionError
                                             end) in
  cl <~ sniffOp ;;
  match cl with
  | Cmsg => msg
  | _ =>
      ct <~ peek cl framed ;;
      if isGeneric ct then
        consumeCtr ct cl ;;;
        eggs <~ lift (byteCount ct cl) ;;
        eims <~ takeF eggs framed ;;
        '(rest, sv) <~ sized true (inSub eims (
          ct <~ peek cl framed ;;
          if isGenus ct then
            consumeCtr ct cl ;;;
            g <~ lift (genusOf ct) ;;
            rest <~ op (fun s => Some (Ok (pb s), s)) ;; Ret (rest, Some g)
          else Ret (eims, None))) ;;
        Ret (FGroup rest sv)
      else msg
  end.

(** run [c] on the current stream; returns the result and what is left of a substream *)
Definition onCur {A} (cur : option bytes) (c : com A) : com (res A * option bytes) :=
  match cur with
  | None => onres c (fun r => Ret (r, None))
  | Some b => op (fun s => match resume c (mkP (pv s) b) with
                           | Done r s' => Some (Ok (r, Some (pb s')), mkP (pv s') (pb s))
                           | Blocked _ _ => None
                           end)
  end.

(** parsing.py:797-799 un-nesting: the version that ends up set, the stream, the stack *)
Fixpoint unnest (sv : option CtrModel.versionage) (cur : option bytes) (st : list (CtrModel.versionage * option bytes))
  : option CtrModel.versionage * option bytes * list (CtrModel.versionage * option bytes) :=
  match cur, st with
  | Some [], (v, cur') :: st' => unnest (Some v) cur' st'
  | _, _ => (sv, cur, st)
  end.

(** parsing.py:906-910: on the way out the version of the outermost level is restored *)
Definition leaving {A} (st : list (CtrModel.versionage * option bytes)) (eggs : bool) (e : exn) : com A :=
  setV (match rev st with (v, _) :: _ => Some v | [] => None end) ;;;
  if isExtraction e && eggs then Raise SizedGroupError else Raise e.

(** parsing.py:796-891 one turn of the loop of groupParsator *)
Definition groupStep (n : nat) (g : gst) : com gout :=
  let '(sv, cur, st) := unnest None (g_cur g) (g_stack g) in
  setV sv ;;;
  let sv := match sv with Some _ => sv | None => g_svrsn g end in
  emp <~ (match cur with None => isEmpty | Some b => Ret (isnil b) end) ;;
  if emp then Ret GBreak else
  '(r, cur) <~ onCur cur (frontC n (g_framed g)) ;;
  match r with
  | Ok (FMsg e) => Ret (GNext (mkG cur st sv (g_eggs g) (g_framed g)) (Some e))
  | Ok FTop => Ret (GNext (mkG cur st sv (g_eggs g) (g_framed g)) None)
  | Ok (FGroup eims sv') =>
      (* 836 is [svrsn == None], a comparison: svrsn keeps its old value *)
      let sv := match sv' with Some _ => sv' | None => sv end in
      v <~ getV ;;
      onres (setV sv) (fun r => match r with
                                | Ok _ => Ret (GNext (mkG (Some eims) ((v, cur) :: st) sv true true) None)
                                | Err e => leaving ((v, cur) :: st) true e
                                end)
  | Err e => leaving st (g_eggs g) e
  end.
Definition g0 (framed : bool) : gst := mkG None [] None false framed.

(** parsing.py:736-748 and 543-557: what parsator and allParsator do with an exception *)
Definition afterErr (e : exn) (s : pst) : pst :=
  match e with
  | SizedGroupError => s
  | _ => if isExtraction e then mkP (pv s) [] else s
  end.

(** The generator parsator at one of its yields: what it will run next, and its state. *)
Definition gen := (com gout * pst)%type.
Definition fresh (n : nat) (framed : bool) (s : pst) : gen := (groupStep n (g0 framed), s).
(** parsing.py:712-748 one next() of parsator: from one yield to the next.  The
    messages extracted on the way are handed to processing in order.  The fuel
    [m] bounds the number of messages between two yields. *)
Fixpoint turn (n : nat) (framed : bool) (m : nat) (x : gen) : option (list exts * gen) :=
  match m with
  | O => None
  | S m =>
      match resume (fst x) (snd x) with
      | Blocked c s => Some ([], (c, s))
      | Done (Ok (GNext g e)) s =>
          match turn n framed m (groupStep n g, s) with
          | Some (es, x') => Some (match e with Some e => e :: es | None => es end, x')
          | None => None
          end
      | Done (Ok GBreak) s => Some ([], fresh n framed s)
      | Done (Err e) s => Some ([], fresh n framed (afterErr e s))
      end
  end.
(** bytes that arrive while the generator is suspended *)
Definition feed (x : gen) (b : bytes) : gen := (fst x, mkP (pv (snd x)) (pb (snd x) ++ b)).

(** A stream that arrives in chunks, with one next() after each. *)
Inductive session (n : nat) (framed : bool) : gen -> list bytes -> list exts -> gen -> Prop :=
| session_nil : forall x, session n framed x [] [] x
| session_cons : forall x b bs m es es' x' x'',
    turn n framed m (feed x b) = Some (es, x') -> session n framed x' bs es' x'' ->
    session n framed x (b :: bs) (es ++ es') x''.

(** parsing.py:356-411, 471-559 parse(ims): next() until the generator returns,
    which it does between groups when the stream is empty. *)
Fixpoint parseF (n : nat) (framed : bool) (m : nat) (s : pst) : option (list exts * pst) :=
  match m with
  | O => None
  | S m =>
      if isnil (pb s) then Some ([], s) else
      match turn n framed m (fresh n framed s) with
      | None => None
      | Some (es, x) =>
          match resume (fst x) (snd x) with
          | Blocked _ _ => None      (* waits for bytes that never come *)
          | _ => match parseF n framed m (snd x) with
                 | Some (es', s') => Some (es ++ es', s')
                 | None => None
                 end
          end
      end
  end.
End Ps.
