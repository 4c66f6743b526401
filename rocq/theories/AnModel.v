(** Annotating a CESR stream and taking the annotations off, core/annotating.py.
    Text is a list of code points; a CESR stream in text form is ASCII.  How a primitive is read from the front of a stream with
    strip=True (Counter, Verser, Ilker, ...) is a parameter [ext].  The wording of the comments is not modelled: each primitive
    comes with the text of its comment. *)
From Verif Require Import Prelude.
Open Scope N_scope.

Definition text := list N.
(** The classes annot reads with. *)
Inductive cls := Ctr | Ver | Ilk | Dig | Pre | Num | Tho | Vfr | Tra | Sea.
(** Message types annot knows, and others. *)
Inductive ilk := Icp | Dip | Ixn | Rot | Drt | Other.
(** A primitive read: its qb64, the comment, and what annot uses of it: the count of a counter (in quadlets) and whether it is the
    code of a seal group, the message type of an Ilker, the comment lines on the fields of a seal. *)
Record tok := mkTok { t_txt : text; t_note : text; t_count : nat; t_seal : bool; t_ilk : ilk; t_fields : list text }.
Definition extractor := cls -> text -> res (tok * text).

(** One line of output: indent, qb64 (empty for a line that is all comment), white space before the comment, comment. *)
Record line := mkLine { l_ind : nat; l_txt : text; l_gap : text; l_note : text }.
(** the f-strings of annotating.py:40-270: indent * 2 spaces, qb64, gap, #, comment, newline *)
Definition render (l : line) : text := repeat 32 (2 * l_ind l) ++ l_txt l ++ l_gap l ++ 35 :: l_note l ++ [10].

(** read one primitive and write its line, e.g. annotating.py:48-51 *)
Definition prim (ext : extractor) (c : cls) (ind : nat) (s : text) : res (tok * list line * text) :=
  match ext c s with
  | Ok (t, r) => Ok (t, [mkLine ind (t_txt t) [32] (t_note t)], r)
  | Err e => Err e
  end.
(** while frame: ..., annotating.py:91-94 and the like; the number of rounds is bounded by [fuel], which is the length of the frame,
    as every primitive has at least one character *)
Fixpoint many (p : text -> res (list line * text)) (fuel : nat) (s : text) : res (list line) :=
  match s with
  | [] => Ok []
  | _ => match fuel with
         | O => Err ShortageError
         | S f => match p s with
                  | Ok (l, r) => match many p f r with Ok l' => Ok (l ++ l') | Err e => Err e end
                  | Err e => Err e
                  end
         end
  end.
Definition one (ext : extractor) (c : cls) (ind : nat) (s : text) : res (list line * text) :=
  match prim ext c ind s with Ok (_, l, r) => Ok (l, r) | Err e => Err e end.
(** a counter and its frame, annotating.py:84-95 *)
Definition listOf (ext : extractor) (p : nat -> text -> res (list line * text)) (ind : nat) (s : text) : res (list line * text) :=
  match prim ext Ctr ind s with
  | Ok (t, l, r) =>
      let frame := firstn (4 * t_count t) r in
      match many (p (S ind)) (List.length frame) frame with
      | Ok l' => Ok (l ++ l', skipn (4 * t_count t) r)
      | Err e => Err e
      end
  | Err e => Err e
  end.
(** annotating.py:256-264: a seal and the comments on its fields; there is no space before the comment (258) *)
Definition seal (ext : extractor) (ind : nat) (s : text) : res (list line * text) :=
  match ext Sea s with
  | Ok (t, r) => Ok (mkLine ind (t_txt t) [] (t_note t) :: map (fun n => mkLine (S ind) [] [] n) (t_fields t), r)
  | Err e => Err e
  end.
(** annotating.py:248-265: a group of seals; the counter must be one for seals (255) *)
Definition sealGroup (ext : extractor) (ind : nat) (s : text) : res (list line * text) :=
  match prim ext Ctr ind s with
  | Ok (t, l, r) =>
      if t_seal t then
        let sub := firstn (4 * t_count t) r in
        match many (seal ext (S ind)) (List.length sub) sub with
        | Ok l' => Ok (l ++ l', skipn (4 * t_count t) r)
        | Err e => Err e
        end
      else Err KeyError
  | Err e => Err e
  end.

(** What is read one after the other: a primitive, a list of primitives, the list of seals. *)
Inductive field := F (c : cls) | FL (c : cls) | FS.
(** annotating.py:59-271 *)
Definition fields (i : ilk) : list field :=
  let top := [F Dig; F Pre; F Num] in
  let inc := [F Tho; FL Vfr; F Tho; FL Dig; F Tho; FL Pre; FL Tra] in
  match i with
  | Icp => top ++ inc ++ [FS]
  | Dip => top ++ inc ++ [FS; F Pre]
  | Ixn => top ++ [F Dig; FS]
  | Rot | Drt => top ++ [F Dig; F Tho; FL Vfr; F Tho; FL Dig; F Tho; FL Pre; FL Pre; FL Tra; FS]
  | Other => []
  end.
Definition readField (ext : extractor) (f : field) (s : text) : res (list line * text) :=
  match f with
  | F c => one ext c 1 s
  | FL c => listOf ext (one ext c) 1 s
  | FS => listOf ext (sealGroup ext) 1 s
  end.
Fixpoint readAll (ext : extractor) (fs : list field) (s : text) : res (list line * text) :=
  match fs with
  | [] => Ok ([], s)
  | f :: fs' => match readField ext f s with
                | Ok (l, r) => match readAll ext fs' r with Ok (l', r') => Ok (l ++ l', r') | Err e => Err e end
                | Err e => Err e
                end
  end.
(** annotating.py:38-271 *)
Definition message (ext : extractor) (s : text) : res (list line * text) :=
  match prim ext Ctr 0 s with
  | Err e => Err e
  | Ok (_, l1, r1) =>
      match prim ext Ver 1 r1 with
      | Err e => Err e
      | Ok (_, l2, r2) =>
          match prim ext Ilk 1 r2 with
          | Err e => Err e
          | Ok (t, l3, r3) =>
              match t_ilk t with
              | Other => Err IlkError                                                        (* 241 *)
              | i => match readAll ext (fields i) r3 with Ok (l4, r4) => Ok (l1 ++ l2 ++ l3 ++ l4, r4) | Err e => Err e end
              end
          end
      end
  end.

(** annotating.py:35-282: [n] rounds of the loop; None: still running *)
Fixpoint annot (ext : extractor) (n : nat) (s : text) (out : list line) : option (res text) :=
  match s with
  | [] => Some (Ok (flat_map render out))
  | b :: _ =>
      match n with
      | O => None
      | S n' =>
          let tritet := b / 32 in                                                            (* kering.py:317-325 *)
          if (tritet =? 1) || (tritet =? 2) then
            match message ext s with
            | Err e => Some (Err e)
            | Ok (l, []) => annot ext n' [] (out ++ l)
            | Ok (_, _) => Some (Err ExtractionError)                                        (* 273-274 *)
            end
          else if tritet =? 7 then annot ext n' s out                                        (* 276-277: pass *)
          else Some (Err ColdStartError)                                                     (* 279-281 *)
      end
  end.

(** str.splitlines: the line breaks.  "\r\n" is one break for Python, two here, which adds an empty line that denot drops. *)
Definition isbreak (c : N) : bool :=
  ((10 <=? c) && (c <=? 13)) || ((28 <=? c) && (c <=? 30)) || (c =? 133) || (c =? 8232) || (c =? 8233).
Fixpoint splitlines (cur s : text) : list text :=
  match s with
  | [] => match cur with [] => [] | _ => [rev cur] end
  | c :: s' => if isbreak c then rev cur :: splitlines [] s' else splitlines (c :: cur) s'
  end.
(** str.isspace, str.strip *)
Definition isspace (c : N) : bool :=
  ((9 <=? c) && (c <=? 13)) || ((28 <=? c) && (c <=? 32)) || (c =? 133) || (c =? 160) || (c =? 5760) || ((8192 <=? c) && (c <=? 8202)) ||
  (c =? 8232) || (c =? 8233) || (c =? 8239) || (c =? 8287) || (c =? 12288).
Fixpoint lstrip (s : text) : text := match s with [] => [] | c :: s' => if isspace c then lstrip s' else s end.
Definition strip (s : text) : text := rev (lstrip (rev (lstrip s))).
(** line.partition('#')[0] *)
Fixpoint front (s : text) : text := match s with [] => [] | c :: s' => if c =? 35 then [] else c :: front s' end.
(** annotating.py:285-303; the encoding to bytes is left out *)
Definition denot (s : text) : text := flat_map (fun l => strip (front (strip l))) (splitlines [] s).
