(** Values carried by messages and their JSON text.

    json.dumps(sad, separators=(",", ":"), ensure_ascii=False).encode() as called in
    serdering.py:1640-1642 and coring.py dumps.  Texts are their UTF-8 bytes; the escapes of
    the json module concern ASCII characters only, so they can be applied to the bytes.
    Simplification: no floating point numbers, labels are texts. *)
From Verif Require Import Prelude B64Model SubsModel ThModel.
Open Scope N_scope.

(** the Python values of a field map (serdering.py sad): None, bool, int, str, list, dict *)
Inductive val :=
| VNull
| VBool (b : bool)
| VInt (z : Z)
| VStr (s : bytes)
| VList (l : list val)
| VMap (m : list (bytes * val)).

(** Python dict in insertion order *)
Definition sad := list (bytes * val).

(** json/encoder.py ESCAPE_DCT: one character of a text *)
Definition jchar (ch : N) : bytes :=
  if ch =? 92 then [92; 92]
  else if ch =? 34 then [92; 34]
  else if ch =? 10 then [92; 110]
  else if ch =? 13 then [92; 114]
  else if ch =? 9 then [92; 116]
  else if ch =? 12 then [92; 102]
  else if ch =? 8 then [92; 98]
  else if ch <? 32 then 92 :: 117 :: hexpad 4 ch
  else [ch].
(** json/encoder.py py_encode_basestring *)
Definition jstr (s : bytes) : bytes := 34 :: List.concat (map jchar s) ++ [34].
(** int.__repr__ *)
Definition jint (z : Z) : bytes :=
  match z with Zneg p => 45 :: decstr (Npos p) | _ => decstr (Z.to_N z) end.
(** json/encoder.py _make_iterencode with item separator "," and key separator ":" *)
Fixpoint json (v : val) : bytes :=
  match v with
  | VNull => s2b "null"
  | VBool true => s2b "true"
  | VBool false => s2b "false"
  | VInt z => jint z
  | VStr s => jstr s
  | VList l => 91 :: joinb 44 (map json l) ++ [93]
  | VMap m => 123 :: joinb 44 (map (fun kv => jstr (fst kv) ++ 58 :: json (snd kv)) m) ++ [125]
  end.

(** dict assignment d[k] = v: keeps the place of an existing label, else appends *)
Fixpoint dset {V} (d : list (bytes * V)) (k : bytes) (v : V) : list (bytes * V) :=
  match d with
  | [] => [(k, v)]
  | (k', v') :: d' => if beq k k' then (k, v) :: d' else (k', v') :: dset d' k v
  end.
Definition keysOf {V} (d : list (bytes * V)) : list bytes := map fst d.
