(** Vocabulary of the statements about native field maps. *)
From Verif Require Import Prelude B64Model MatterModel SubsModel CtrModel ThModel JsonModel NmModel.
Open Scope N_scope.

(** As a whole, the text is that of a primitive. *)
Definition isPrim (s : bytes) : Prop := exists p q, exfil s = Ok p /\ infil p = Ok q /\ len q = len s.
(** A well formed text which, if it is that of a primitive, is in the URL safe Base64 alphabet. *)
Definition plainText (s : bytes) : Prop := utf8 s = true /\ (isPrim s -> Reb64 s = true).
(** A value with plain texts and, in every map in it, distinct labels. *)
Fixpoint plain (v : val) : Prop :=
  match v with
  | VStr s => plainText s
  | VList l => fold_right (fun x P => plain x /\ P) True l
  | VMap m => NoDup (map fst m) /\ fold_right (fun kv P => utf8 (fst kv) = true /\ plain (snd kv) /\ P) True m
  | _ => True
  end.
Definition plainMap (m : sad) : Prop := plain (VMap m).
(** The text of a float: the characters of digits, signs and exponents, and no plus sign; it is read back as
    that float and not as an int. *)
Definition floatText (pyfloat : bytes -> option bytes) (r : bytes) : Prop :=
  Forall (fun x => 48 <= x <= 57 \/ x = 45 \/ x = 46 \/ x = 101 \/ x = 105 \/ x = 110 \/ x = 102 \/ x = 97) r /\
  pyint r = None /\ pyfloat r = Some r.

(** The label can be written: any text, or with strict labels a name that does not end in a newline. *)
Definition legalLabel (strict : bool) (l : bytes) : Prop := if strict then Reatt l = true /\ (forall r, l <> r ++ [10]) else True.
(** All labels in the value can be written. *)
Fixpoint legal (strict : bool) (v : val) : Prop :=
  match v with
  | VList l => fold_right (fun x P => legal strict x /\ P) True l
  | VMap m => fold_right (fun kv P => legalLabel strict (fst kv) /\ legal strict (snd kv) /\ P) True m
  | _ => True
  end.
(** The text, the list or the map is too large for its code. *)
Definition sizeErr (e : exn) : Prop := e = InvalidVarIndexError \/ e = InvalidVarRawSizeError.

(** The reader of NmModel with any bound on the number of calls. *)
Definition inhaleN (n : nat) (strict : bool) (s : bytes) : res sad :=
  '(ctr, r) <- counter_strip V20 s ;;
  raise_if (negb (isMapName (c_name ctr))) DeserializeError (
  raise_if (negb (len r =? byteCount_txt ctr)) DeserializeError (
  catchIV DeserializeError (desFields n strict r []))).

Definition plainTextB (s : bytes) : bool :=
  utf8 s && match exfil s with
            | Ok p => match infil p with Ok q => negb (len q =? len s) || Reb64 s | Err _ => true end
            | Err _ => true
            end.
Fixpoint nodupL (l : list bytes) : bool := match l with [] => true | x :: r => negb (existsb (beq x) r) && nodupL r end.
Fixpoint plainB (v : val) : bool :=
  match v with
  | VStr s => plainTextB s
  | VList l => forallb plainB l
  | VMap m => nodupL (map fst m) && forallb (fun kv => utf8 (fst kv) && plainB (snd kv)) m
  | _ => true
  end.
