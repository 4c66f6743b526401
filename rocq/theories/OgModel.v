(** Contacts, app/organizing.py:14-199 BaseOrganizer, and notices, app/notifying.py:186-471 Noter and Notifier,
    over the sub databases of db/subing.py:111-436 Suber, signed at rest by app/habbing.py:907-937 Signator.

    Simplifications, common to the whole file.
    - json.dumps, json.loads and the signatures of Signator are parameters.
    - Texts are their UTF-8 bytes.  A value of a contact is a text or another JSON value.
    - Every operation is the list of its database transactions, in order, and its outcome: a crash leaves the
      effect of a prefix of that list.
    - Images and the regular expressions of find and values are not modelled.
    - Keys of notices are taken to be not too long. *)
From Verif Require Import Prelude ThModel JsonModel DbModel.
Open Scope N_scope.

(** ** Sub databases *)
(** dbing.py:670-690 setVal with a key that is not too long *)
Definition sput (k v : bytes) (s : store) : store := if isnil k then s else fst (put true k v s).
(** dbing.py:711-731 remVal *)
Definition sdel (k : bytes) (s : store) : store := fst (del k s).
(** lmdb.BadValsizeError: the longest key of LMDB has 511 bytes *)
Definition long (k : bytes) : bool := 511 <? len k.

(** ** Contacts *)
(** a value: a text, or another JSON value *)
Inductive fval := Txt (t : bytes) | Oth (j : bytes).
Definition dict := list (bytes * fval).
(** json.dumps, json.loads, Signator.sign, Signator.verify *)
Record env := mkE { dumps : dict -> bytes; loads : bytes -> res dict; sgn : bytes -> bytes; vfy : bytes -> bytes -> bool }.
(** organizing.py:17-31: signatures, data and fields *)
Record book := mkB { sig : store; dat : store; fld : store }.
Definition empty : book := mkB [] [] [].
(** subing.py:148-179 _tokey((pre, field)) with the separator "." *)
Definition fkey (pre f : bytes) : bytes := pre ++ 46 :: f.
(** the text "id" *)
Definition ID : bytes := [105; 100].

(** one transaction of the database *)
Inductive write := WSig (pre cg : bytes) | WDat (pre raw : bytes) | WFld (key val : bytes)
| DSig (pre : bytes) | DDat (pre : bytes) | DTop (pre : bytes) | DFld (key : bytes).
(** its effect: pin, rem and trim of subing.py:222-249, 419-436 *)
Definition wr (b : book) (w : write) : book :=
  match w with
  | WSig p v => mkB (sput p v (sig b)) (dat b) (fld b)
  | WDat p v => mkB (sig b) (sput p v (dat b)) (fld b)
  | WFld k v => mkB (sig b) (dat b) (sput k v (fld b))
  | DSig p => mkB (sdel p (sig b)) (dat b) (fld b)
  | DDat p => mkB (sig b) (sdel p (dat b)) (fld b)
  | DTop p => mkB (sig b) (dat b) (fst (remTop p (fld b)))
  | DFld k => mkB (sig b) (dat b) (sdel k (fld b))
  end.
Definition run (ws : list write) (b : book) : book := fold_left wr ws b.

Section E.
Variable E : env.

(** organizing.py:118-128, up to the loaded data.  An empty key is not read but gives False (dbing.py:701-702),
    and no signature can be made of that. *)
Definition load (b : book) (pre : bytes) : res (option dict) :=
  if isnil pre then Err EmptyMaterialError else
  raise_if (long pre) KeyError
  match get pre (dat b) with
  | None => Ok None
  | Some raw =>
      match get pre (sig b) with
      | None => Err AttributeError
      | Some cg => if vfy E raw cg then d <- loads E raw ;; Ok (Some d) else Err ValidationError
      end
  end.
(** organizing.py:107-134 get without field *)
Definition getc (b : book) (pre : bytes) : res (option dict) :=
  o <- load b pre ;; Ok match o with None => None | Some d => Some (dset d ID (Txt pre)) end.
(** organizing.py:130-131 get with field *)
Definition getf (b : book) (pre f : bytes) : res (option fval) :=
  o <- load b pre ;; Ok match o with None => None | Some d => dget d f end.

(** dict |= dict *)
Definition merge (d e : dict) : dict := fold_left (fun d x => dset d (fst x) (snd x)) e d.
(** organizing.py:53-54: the first value that is no text, or key that is too long, ends it *)
Fixpoint pins (pre : bytes) (l : dict) : list write * res unit :=
  match l with
  | [] => ([], Ok tt)
  | (f, v) :: l =>
      match v with
      | Oth _ => ([], Err TypeError)
      | Txt t => if long (fkey pre f) then ([], Err KeyError) else let '(ws, r) := pins pre l in (WFld (fkey pre f) t :: ws, r)
      end
  end.
(** organizing.py:33-54 update *)
Definition update (b : book) (pre : bytes) (data : dict) : list write * res unit :=
  match getc b pre with
  | Err e => ([], Err e)
  | Ok o =>
      let raw := dumps E (merge (match o with None => [] | Some d => d end) data) in
      let '(ws, r) := pins pre data in
      (WSig pre (sgn E raw) :: WDat pre raw :: ws, r)
  end.
(** organizing.py:94-105 rem *)
Definition remove (pre : bytes) : list write * res unit :=
  if long pre then ([], Err KeyError) else ([DSig pre; DDat pre; DTop pre], Ok tt).
(** one after the other *)
Definition andThen (b : book) (p : list write * res unit) (q : book -> list write * res unit) : list write * res unit :=
  match p with
  | (ws, Err e) => (ws, Err e)
  | (ws, Ok _) => let '(ws', r) := q (run ws b) in (ws ++ ws', r)
  end.
(** organizing.py:56-65 replace *)
Definition replace (b : book) (pre : bytes) (data : dict) : list write * res unit :=
  andThen b (remove pre) (fun b => update b pre data).
(** organizing.py:67-79 set *)
Definition set (b : book) (pre f : bytes) (v : fval) : list write * res unit :=
  match getc b pre with
  | Err e => ([], Err e)
  | Ok o => andThen b (replace b pre (dset (match o with None => [] | Some d => d end) f v)) (fun _ => pins pre [(f, v)])
  end.
(** del data[field] *)
Definition ddrop (d : dict) (f : bytes) : dict := filter (fun x => negb (beq f (fst x))) d.
(** organizing.py:81-92 unset *)
Definition unset (b : book) (pre f : bytes) : list write * res unit :=
  match getc b pre with
  | Err e => ([], Err e)
  | Ok None => ([], Err TypeError)
  | Ok (Some d) =>
      match dget d f with
      | None => ([], Err KeyError)
      | Some _ => andThen b (replace b pre (ddrop d f)) (fun _ => if long (fkey pre f) then ([], Err KeyError) else ([DFld (fkey pre f)], Ok tt))
      end
  end.

(** the operations that write *)
Inductive cop := Update (pre : bytes) (data : dict) | Replace (pre : bytes) (data : dict) | SetF (pre f : bytes) (v : fval)
| Unset (pre f : bytes) | Rem (pre : bytes).
Definition plan (b : book) (o : cop) : list write * res unit :=
  match o with
  | Update p d => update b p d
  | Replace p d => replace b p d
  | SetF p f v => set b p f v
  | Unset p f => unset b p f
  | Rem p => remove p
  end.
Definition step (b : book) (o : cop) : book := run (fst (plan b o)) b.
(** the program ends after [n] transactions of the operation *)
Definition crash (n : nat) (b : book) (o : cop) : book := run (firstn n (fst (plan b o))) b.

(** organizing.py:136-158 list: the entries left, and key and data so far *)
Fixpoint listing (l : store) (cur : option (bytes * dict)) : res (list dict) :=
  match l with
  | [] => Ok match cur with None => [] | Some (_, d) => [d] end
  | (k, v) :: l =>
      match splitb 46 k with
      | [pre; f] =>
          match cur with
          | None => if isnil pre then Err TypeError else listing l (Some (pre, dset [(ID, Txt pre)] f (Txt v)))
          | Some (key, d) =>
              if beq pre key then listing l (Some (key, dset d f (Txt v)))
              else r <- listing l (Some (pre, dset [(ID, Txt pre)] f (Txt v))) ;; Ok (d :: r)
          end
      | _ => Err ValueError
      end
  end.
Definition list_ (b : book) : res (list dict) := listing (fld b) None.
(** organizing.py:194-197: the prefixes with this value of this field *)
Fixpoint having (l : store) (field val : bytes) : res (list bytes) :=
  match l with
  | [] => Ok []
  | (k, v) :: l =>
      match splitb 46 k with
      | [pre; f] => r <- having l field val ;; Ok (if beq f field && beq v val then pre :: r else r)
      | _ => Err ValueError
      end
  end.
(** organizing.py:179-199 findExact *)
Definition findExact (b : book) (field val : bytes) : res (list (option dict)) :=
  ps <- having (fld b) field val ;; mapr (getc b) ps.
End E.

(** ** Notices *)
(** notifying.py:17-38 notice: rid, date and time, whether read, attributes *)
Record note := mkN { n_id : bytes; n_dt : bytes; n_read : bool; n_attr : bytes }.
(** Notice.raw, Notice(raw=), Signator.sign, Signator.verify *)
Record nenv := mkNE { ndump : note -> bytes; nload : bytes -> res note; nsgn : bytes -> bytes; nvfy : bytes -> bytes -> bool }.
(** notifying.py:218-220 reopen: index, signatures and notices *)
Record noter := mkNo { nidx : store; ncigs : store; notes : store }.
Definition none : noter := mkNo [] [] [].
(** subing.py _tokey((dt, rid)) with the separator "/" *)
Definition nkey (dt rid : bytes) : bytes := dt ++ 47 :: rid.
(** one transaction *)
Inductive nwrite := PIdx (rid dt : bytes) | PCig (rid cg : bytes) | PNote (key raw : bytes)
| RIdx (rid : bytes) | RCig (rid : bytes) | RNote (key : bytes).
Definition nwr (b : noter) (w : nwrite) : noter :=
  match w with
  | PIdx k v => mkNo (sput k v (nidx b)) (ncigs b) (notes b)
  | PCig k v => mkNo (nidx b) (sput k v (ncigs b)) (notes b)
  | PNote k v => mkNo (nidx b) (ncigs b) (sput k v (notes b))
  | RIdx k => mkNo (sdel k (nidx b)) (ncigs b) (notes b)
  | RCig k => mkNo (nidx b) (sdel k (ncigs b)) (notes b)
  | RNote k => mkNo (nidx b) (ncigs b) (sdel k (notes b))
  end.
Definition nrun (ws : list nwrite) (b : noter) : noter := fold_left nwr ws b.

Section NE.
Variable E : nenv.

(** notifying.py:224-241 Noter.add, 243-260 Noter.update, the three writes *)
Definition pinNote (n : note) : list nwrite :=
  [PIdx (n_id n) (n_dt n); PCig (n_id n) (nsgn E (ndump E n)); PNote (nkey (n_dt n) (n_id n)) (ndump E n)].
(** notifying.py:262-278 Noter.get: None, or notice with its bytes and signature, each may be missing *)
Definition nget (b : noter) (rid : bytes) : res (option (option (bytes * note) * option bytes)) :=
  match get rid (nidx b) with
  | None => Ok None
  | Some dt =>
      n <- match get (nkey dt rid) (notes b) with None => Ok None | Some raw => n <- nload E raw ;; Ok (Some (raw, n)) end ;;
      Ok (Some (n, get rid (ncigs b)))
  end.
(** notifying.py:356-376 Notifier.add, the random id and the time are given *)
Definition nadd (b : noter) (rid dt attr : bytes) : list nwrite * res bool :=
  match get rid (nidx b) with
  | Some _ => ([], Ok false)
  | None => (pinNote (mkN rid dt false attr), Ok true)
  end.
(** notifying.py:378-404 Notifier.rem with 280-298 Noter.rem: the signature is checked when the notice is gone *)
Definition nrem (b : noter) (rid : bytes) : list nwrite * res bool :=
  match nget b rid with
  | Err e => ([], Err e)
  | Ok None => ([], Ok false)
  | Ok (Some (None, _)) => ([], Err AttributeError)
  | Ok (Some (Some (raw, n), cg)) =>
      let k := nkey (n_dt n) (n_id n) in
      ([RIdx (n_id n); RCig (n_id n); RNote k],
        if snd (del k (notes b)) then match cg with None => Err AttributeError | Some _ => Ok true end else Ok true)
  end.
(** notifying.py:406-443 Notifier.mar *)
Definition nmar (b : noter) (rid : bytes) : list nwrite * res bool :=
  match nget b rid with
  | Err e => ([], Err e)
  | Ok None => ([], Ok false)
  | Ok (Some (Some (raw, n), Some cg)) =>
      if negb (nvfy E raw cg) then ([], Ok false)
      else if n_read n then ([], Ok false)
      else let n' := mkN (n_id n) (n_dt n) true (n_attr n) in
           match get (n_id n) (nidx b) with None => ([], Ok false) | Some _ => (pinNote n', Ok true) end
  | Ok (Some _) => ([], Err AttributeError)
  end.
Inductive nop := NAdd (rid dt attr : bytes) | NRem (rid : bytes) | NMar (rid : bytes).
Definition nplan (b : noter) (o : nop) : list nwrite * res bool :=
  match o with NAdd r d a => nadd b r d a | NRem r => nrem b r | NMar r => nmar b r end.
Definition nstep (b : noter) (o : nop) : noter := nrun (fst (nplan b o)) b.
Definition ncrash (n : nat) (b : noter) (o : nop) : noter := nrun (firstn n (fst (nplan b o))) b.

(** notifying.py:300-306 getNoteCnt *)
Definition ncnt (b : noter) : N := len (notes b).
(** notifying.py:164-175: one entry with key and notice; the key is split *)
Definition entryOf (e : bytes * bytes) : res (bytes * note) := n <- nload E (snd e) ;; Ok (snd e, n).
(** notifying.py:331-335, the loop: [left] is how many more are wanted, None all.  It is looked at after one
    was taken: nothing is left only then. *)
Fixpoint nloop (b : noter) (l : store) (left : option Z) : res (list (bytes * note * option bytes)) :=
  match l with
  | [] => Ok []
  | e :: l =>
      raise_if (negb (List.length (splitb 47 (fst e)) =? 2)%nat) ValueError (
      '(raw, n) <- entryOf e ;;
      let x := (raw, n, get (n_id n) (ncigs b)) in
      match left with
      | Some k => if (k =? 1)%Z then Ok [x] else r <- nloop b l (Some (k - 1)%Z) ;; Ok (x :: r)
      | None => r <- nloop b l None ;; Ok (x :: r)
      end)
  end.
(** notifying.py:308-337 Noter.getNotes *)
Definition ngetNotes (b : noter) (start : nat) (last : Z) : res (list (bytes * note * option bytes)) :=
  _ <- mapr entryOf (firstn start (notes b)) ;;
  nloop b (skipn start (notes b)) (if (last =? -1)%Z then None else Some (last - Z.of_nat start + 1)%Z).
(** notifying.py:453-471 Notifier.getNotes *)
Definition getNotes (b : noter) (start : nat) (last : Z) : res (list note) :=
  l <- ngetNotes b start last ;;
  mapr (fun x => let '(raw, n, cg) := x in
    match cg with None => Err AttributeError | Some cg => if nvfy E raw cg then Ok n else Err ValidationError end) l.
End NE.
