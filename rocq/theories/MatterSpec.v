(** Specification vocabulary for properties C01-C04, C41 (class Matter). *)
From Verif Require Import Prelude B64Model B64Proofs MatterModel.

(** ** Specification vocabulary

    [b64text s]: every character of s is in A-Z a-z 0-9 - _   (B64Proofs)
    [octets b]:  every element is below 256                   (Prelude)
    [val s]:     the integer a Base64 text denotes, most significant first. *)

(** The layout a qualified text must have: the code characters, then zero bits,
    then the raw octets right aligned, the whole a multiple of 24 bits. *)
Definition layout (code_chars raw q : bytes) : Prop :=
  len q mod 4 = 0 /\ b64text q /\
  exists rest, q = code_chars ++ rest /\ val rest = int_from_bytes raw
               /\ len raw * 8 <= len rest * 6.

(** Reading a whole text stream as a sequence of primitives. *)
Fixpoint parse_stream (fuel : nat) (s : bytes) : res (list matter) :=
  match s, fuel with
  | [], _ => Ok []
  | _, O => Err ShortageError
  | _, S f => '(m, r) <- matter_strip s ;; ms <- parse_stream f r ;; Ok (m :: ms)
  end.
Fixpoint bparse_stream (fuel : nat) (s : bytes) : res (list matter) :=
  match s, fuel with
  | [], _ => Ok []
  | _, O => Err ShortageError
  | _, S f => '(m, r) <- matter_bstrip s ;; ms <- bparse_stream f r ;; Ok (m :: ms)
  end.

(** A primitive some Matter constructor call returned. *)
Inductive built : matter -> Prop :=
| built_raw : forall raw code soft rize m, octets raw ->
    matter_of_raw raw code soft rize = Ok m -> built m
| built_soft : forall code soft m sz, dget Sizes code = Some sz -> fs sz = Some (hs sz + ss sz) ->
    matter_of_soft code soft = Ok m -> built m
| built_qb2 : forall q m, octets q -> bexfil q = Ok m -> built m
| built_qb64 : forall q m f, exfil q = Ok m -> fullSize m = Ok f ->
    Reb64 (ntake f q) = true -> built m.

