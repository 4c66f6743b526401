(** What the theorems on annotations talk about. *)
From Verif Require Import Prelude AnModel.
Open Scope N_scope.

(** Characters of URL safe Base64. *)
Definition b64 (c : N) : bool :=
  ((48 <=? c) && (c <=? 57)) || ((65 <=? c) && (c <=? 90)) || ((97 <=? c) && (c <=? 122)) || (c =? 45) || (c =? 95).
(** A comment has no line breaks. *)
Definition oneLine (s : text) : Prop := Forall (fun c => isbreak c = false) s.
(** Reading a primitive takes just its qb64 from the front of the stream, which is Base64. *)
Definition strips (ext : extractor) : Prop := forall c s t r, ext c s = Ok (t, r) ->
  s = t_txt t ++ r /\ t_txt t <> [] /\ Forall (fun x => b64 x = true) (t_txt t) /\ oneLine (t_note t) /\ Forall oneLine (t_fields t).

(** The fields of a message of each type, in the order the protocol has them. *)
Definition order (i : ilk) : list field :=
  match i with
  (* d i s kt k nt n bt b c a *)
  | Icp => [F Dig; F Pre; F Num; F Tho; FL Vfr; F Tho; FL Dig; F Tho; FL Pre; FL Tra; FS]
  (* d i s kt k nt n bt b c a di *)
  | Dip => [F Dig; F Pre; F Num; F Tho; FL Vfr; F Tho; FL Dig; F Tho; FL Pre; FL Tra; FS; F Pre]
  (* d i s p a *)
  | Ixn => [F Dig; F Pre; F Num; F Dig; FS]
  (* d i s p kt k nt n bt br ba c a *)
  | Rot | Drt => [F Dig; F Pre; F Num; F Dig; F Tho; FL Vfr; F Tho; FL Dig; F Tho; FL Pre; FL Pre; FL Tra; FS]
  | Other => []
  end.
(** The content of a field: a primitive, a counter with primitives, a counter with groups of seals. *)
Inductive item := I1 (t : tok) | IL (k : tok) (ts : list tok) | IS (k : tok) (gs : list (tok * list tok)).
Definition groupText (g : tok * list tok) : text := t_txt (fst g) ++ flat_map t_txt (snd g).
Definition itemText (x : item) : text :=
  match x with I1 t => t_txt t | IL k ts => t_txt k ++ flat_map t_txt ts | IS k gs => t_txt k ++ flat_map groupText gs end.
(** The counter counts the quadlets of what follows. *)
Definition counts (k : tok) (s : text) : Prop := List.length s = (4 * t_count k)%nat.
(** The content fits the field; [V c t]: [t] is a primitive of class [c]. *)
Definition fits (V : cls -> tok -> Prop) (f : field) (x : item) : Prop :=
  match f, x with
  | F c, I1 t => V c t
  | FL c, IL k ts => V Ctr k /\ Forall (V c) ts /\ counts k (flat_map t_txt ts)
  | FS, IS k gs => V Ctr k /\ counts k (flat_map groupText gs) /\
      Forall (fun g => V Ctr (fst g) /\ t_seal (fst g) = true /\ Forall (V Sea) (snd g) /\ counts (fst g) (flat_map t_txt (snd g))) gs
  | _, _ => False
  end.
(** Every primitive is read back whatever follows it. *)
Definition readsBack (ext : extractor) (V : cls -> tok -> Prop) : Prop := forall c t r, V c t -> t_txt t <> [] /\ ext c (t_txt t ++ r) = Ok (t, r).
