(** The configuration file of Configer, app/configing.py:123-216.
    What is on disk is a byte string.  [puts] gives the contents that the disk has one after the other, each of which is what a crash
    then leaves; the write of a file may be cut anywhere.  Serialisation is a parameter: json, hjson, msgpack and cbor are
    libraries outside the repository.  Opening and closing (hio Filer) are left out. *)
From Verif Require Import Prelude.
Open Scope N_scope.

Definition bytes := list N.
(** formats of configing.py:152-164 *)
Inductive fmt := Json | Hjson | Mgpk | Cbor.
(** the extension of the path *)
Inductive fext := EJson | EMgpk | ECbor | EOther.
Inductive cerr := NotOpen | BadExt | BadData.
Record codec (D : Type) := mkCodec { enc : fmt -> D -> option bytes; dec : fmt -> bytes -> option D; empty : D }.
Arguments enc {D} c. Arguments dec {D} c. Arguments empty {D} c.
Record cfile := mkCfile { f_open : bool; f_ext : fext; f_human : bool; f_disk : bytes }.

(** configing.py:148, 198: the argument, or the setting of the Configer *)
Definition humanOf (F : cfile) (h : option bool) : bool := match h with Some b => b | None => f_human F end.
(** configing.py:152-164, 204-215 *)
Definition fmtOf (F : cfile) (h : option bool) : option fmt :=
  match f_ext F with
  | EJson => Some (if humanOf F h then Hjson else Json)
  | EMgpk => Some Mgpk
  | ECbor => Some Cbor
  | EOther => None
  end.

(** configing.py:145-168: the contents of the disk in turn, the last is the one at the end, and the error raised, if any *)
Definition puts {D} (C : codec D) (F : cfile) (d : D) (h : option bool) : list bytes * option cerr :=
  if f_open F then
    match fmtOf F h with
    | None => ([f_disk F; []], Some BadExt)                                    (* 149-150 come before 163 *)
    | Some m => match enc C m d with
                | None => ([f_disk F; []], Some BadData)
                | Some s => ([f_disk F; []] ++ map (fun n => firstn n s) (seq 0 (S (List.length s))), None)
                end
    end
  else ([f_disk F], Some NotOpen).
(** the file after put *)
Definition put {D} (C : codec D) (F : cfile) (d : D) (h : option bool) : cfile * option cerr :=
  let x := puts C F d h in (mkCfile (f_open F) (f_ext F) (f_human F) (last (fst x) (f_disk F)), snd x).
(** configing.py:195-216; None as error of a library *)
Definition get {D} (C : codec D) (F : cfile) (h : option bool) : D + cerr :=
  if f_open F then
    match f_disk F with
    | [] => inl (empty C)
    | s => match fmtOf F h with
           | None => inr BadExt
           | Some m => match dec C m s with Some d => inl d | None => inr BadData end
           end
    end
  else inr NotOpen.
