(** The HTTP Signature header, end/ending.py:62-262 signature and designature, and the check of signed
    requests, app/httping.py:30-70 SignatureValidationComponent.

    Simplifications, common to the whole file.
    - Texts are lists of characters.  Siger(qb64=) and Cigar(qb64=) are parameters; IdxModel and MatterModel
      say what they are.  The raw signature is a function of the text, so that [vfy] takes the text.
    - The values of a signage that are texts in the documentation are texts or None.
    - req.media and json.dumps are not modelled: the check starts with the text to be verified. *)
From Verif Require Import Prelude ThModel JsonModel.
Open Scope N_scope.

(** a Siger with its index, a Cigar with its verfer (None when read from text), a text *)
Inductive mark := Sg (qb64 : bytes) (index : N) | Cg (qb64 : bytes) (verfer : option bytes) | Tx (text : bytes).
Inductive marks := MList (l : list mark) | MDict (d : list (bytes * mark)).
(** ending.py:47 Signage *)
Record signage := mkG { markers : marks; indexed : option bool; signer : option bytes; ordinal : option bytes; digest : option bytes; kind : option bytes }.

(** hasattr(marker, "index"): also str has one *)
Definition hasIndex (m : mark) : bool := match m with Sg _ _ | Tx _ => true | Cg _ _ => false end.
(** marker.qb64 *)
Definition qb64Of (m : mark) : res bytes := match m with Sg q _ | Cg q _ => Ok q | Tx _ => Err AttributeError end.
(** f'{tag}="{val}"' *)
Definition item (tag val : bytes) : bytes := tag ++ 61 :: 34 :: val ++ [34].
(** if signer: and the like *)
Definition opt (tag : string) (v : option bytes) : list bytes := match v with None | Some [] => [] | Some v => [item (s2b tag) v] end.
(** ending.py:145-161, the tag of a marker without one *)
Definition autoTag (ind : bool) (m : mark) : res bytes :=
  match m with
  | Sg _ i => raise_if (negb ind) ValueError (Ok (decstr i))
  | Tx _ => raise_if (negb ind) ValueError (Err AttributeError)
  | Cg _ v => raise_if ind ValueError match v with Some k => Ok k | None => Err AttributeError end
  end.
(** ending.py:142-164 *)
Definition markItems (ms : marks) (ind : bool) : res (list bytes) :=
  match ms with
  | MDict d => mapr (fun x => q <- qb64Of (snd x) ;; Ok (item (fst x) q)) d
  | MList l => mapr (fun m => t <- autoTag ind m ;; q <- qb64Of m ;; Ok (item t q)) l
  end.
(** ending.py:113-114 *)
Definition isIndexed (g : signage) : res bool :=
  match indexed g with
  | Some b => Ok b
  | None => match match markers g with MList l => l | MDict d => map snd d end with [] => Err IndexError | m :: _ => Ok (hasIndex m) end
  end.
(** ending.py:98-166, one signage *)
Definition group (g : signage) : res bytes :=
  ind <- isIndexed g ;;
  ms <- markItems (markers g) ind ;;
  Ok (joinb 59 (item (s2b "indexed") (if ind then s2b "?1" else s2b "?0") ::
    opt "signer" (signer g) ++ opt "ordinal" (ordinal g) ++ opt "digest" (digest g) ++ opt "kind" (kind g) ++ ms)).
(** ending.py:62-168 signature *)
Definition signature (gs : list signage) : res bytes := vs <- mapr group gs ;; Ok (joinb 44 vs).

(** str.split("=", maxsplit=1) into two *)
Fixpoint cut (s : bytes) : res (bytes * bytes) :=
  match s with
  | [] => Err ValueError
  | ch :: s => if ch =? 61 then Ok ([], s) else '(a, b) <- cut s ;; Ok (ch :: a, b)
  end.
(** str.strip of quotes *)
Fixpoint lstrip (s : bytes) : bytes := match s with ch :: r => if ch =? 34 then lstrip r else s | [] => [] end.
Definition strip (s : bytes) : bytes := rev (lstrip (rev (lstrip s))).
(** str.replace(" ", "") *)
Definition nospace (s : bytes) : bytes := filter (fun ch => negb (ch =? 32)) s.
(** ending.py:214-217 *)
Fixpoint fields (l : list bytes) (d : list (bytes * bytes)) : res (list (bytes * bytes)) :=
  match l with
  | [] => Ok d
  | x :: l => '(k, v) <- cut x ;; fields l (dset d k (strip v))
  end.
Definition without {V} (d : list (bytes * V)) (k : bytes) : list (bytes * V) := filter (fun x => negb (beq (fst x) k)) d.
(** helping.py:20 FALSEY, the texts of it *)
Definition falsey : list bytes := [s2b "?0"; s2b "no"; s2b "false"; s2b "False"; s2b "off"].

Section Sg.
Variables (siger cigar : bytes -> res mark).

(** ending.py:212-259, one value *)
Definition ungroup (value : bytes) : res signage :=
  d <- fields (splitb 59 value) [] ;;
  match dget d (s2b "indexed") with
  | None => Err ValueError
  | Some v =>
      let ind := negb (existsb (beq v) falsey) in
      let d := without d (s2b "indexed") in
      let sr := dget d (s2b "signer") in let d := without d (s2b "signer") in
      let od := dget d (s2b "ordinal") in let d := without d (s2b "ordinal") in
      let dg := dget d (s2b "digest") in let d := without d (s2b "digest") in
      let kd := match dget d (s2b "kind") with Some k => k | None => s2b "CESR" end in let d := without d (s2b "kind") in
      ms <- mapr (fun x => if beq kd (s2b "CESR") then m <- (if ind then siger (snd x) else cigar (snd x)) ;; Ok (fst x, m) else Ok (fst x, Tx (snd x))) d ;;
      Ok (mkG (MDict ms) (Some ind) sr od dg (Some kd))
  end.
(** ending.py:171-262 designature *)
Definition designature (value : bytes) : res (list signage) := mapr ungroup (splitb 44 (nospace value)).

(** verfer.verify(siger.raw, ser); hby.kevers with the keys of the key states *)
Variable vfy : bytes -> bytes -> bytes -> bool.
(** httping.py:61-68, the loop over the keys *)
Fixpoint allSigned (ms : list (bytes * mark)) (ser : bytes) (idx : N) (keys : list bytes) : res bool :=
  match keys with
  | [] => Ok true
  | key :: keys =>
      match dget ms (decstr idx) with
      | None => Ok false
      | Some m => q <- match m with Sg q _ | Cg q _ => Ok q | Tx _ => Err AttributeError end ;;
          if vfy key q ser then allSigned ms ser (idx + 1) keys else Ok false
      end
  end.
(** httping.py:53-70 SignatureValidationComponent.validate; the header may be missing *)
Definition validate (kevers : list (bytes * list bytes)) (pre : bytes) (sig : option bytes) (ser : bytes) : res bool :=
  match sig with
  | None => Err AttributeError
  | Some sig =>
      gs <- designature sig ;;
      match gs with
      | [] => Err IndexError
      | g :: _ =>
          match dget kevers pre with
          | None => Ok false
          | Some keys => match markers g with MDict ms => allSigned ms ser 0 keys | MList _ => Err TypeError end
          end
      end
  end.
(** httping.py:37-51 process_request: a request goes on to its endpoint, or is answered with 401, or raises *)
Inductive reply := Goes | Unauthorized | Raises.
Definition process_request (kevers : list (bytes * list bytes)) (pre : bytes) (sig : option bytes) (ser : bytes) : reply :=
  match validate kevers pre sig ser with Ok true => Goes | Ok false => Unauthorized | Err _ => Raises end.
End Sg.
