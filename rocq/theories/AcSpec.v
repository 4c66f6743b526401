(** Vocabulary of the statements about ACDC messages. *)
From Verif Require Import Prelude B64Model MatterModel SubsModel VerModel ThModel JsonModel JsonProofs SerModel SerSpec CpModel CpSpec.
Open Scope N_scope.

(** the same field maps but for the value of one label *)
Definition sameBut (L : bytes) (m m' : sad) : Prop := Forall2 (fun a b => fst a = fst b /\ (fst a = L \/ snd a = snd b)) m m'.

(** labels of the sections of an ACDC *)
Definition sections : list bytes := map s2b ["s"; "a"; "e"; "r"; "A"]%string.
Definition mapSections : list bytes := map s2b ["a"; "e"; "r"]%string.

(** the message is a credential of version 2 or later whose said is that of its most compact form *)
Definition disclosable (s : serder) : Prop :=
  2 <= fst (d_pvrsn s) /\
  match dget (d_sad s) (s2b "t") with
  | None | Some VNull => True
  | Some (VStr t) => In t (map s2b ["acm"; "act"; "acg"; "ace"]%string)
  | Some _ => False
  end.
(** the message carries one section *)
Definition sectionMessage (s : serder) : Prop :=
  2 <= fst (d_pvrsn s) /\ exists t, dget (d_sad s) (s2b "t") = Some (VStr t) /\ In t (map s2b ["sch"; "att"; "agg"; "edg"; "rul"]%string).

Section Spec.
Variable digest : bytes -> bytes -> bytes.
Variable dumpm : bool -> list bytes -> sad -> res bytes.
Variable dumpl : list val -> res bytes.
Notation d_ := (s2b "d").
Notation E_ := (s2b "E").

(** what stands for an element in the aggregate: the said of a map, null if it has no said field, a digest as
    it is *)
Definition elemText (e s : val) : Prop :=
  match e with
  | VMap m => match dget m d_ with
              | Some _ => exists q, saidText digest dumpm d_ E_ m = Ok q /\ s = VStr q
              | None => s = VNull
              end
  | VStr t => exists q, digText t = Ok q /\ s = VStr q
  | _ => False
  end.
(** [q] is the said of the section [v] with label [l]: of a schema, the digest of the schema itself; of the
    attribute, edge and rule sections, the digest of their most compact form; of an aggregate, the digest of the
    list of the saids of its elements *)
Definition sectionSaid (l : bytes) (v : val) (q : bytes) : Prop :=
  match v with
  | VMap m =>
      (l = s2b "s" /\ saidText digest dumpm (s2b "$id") E_ m = Ok q) \/
      (In l mapSections /\ dget m d_ <> None /\ exists m', rolls digest dumpm d_ (topCode d_ E_ m) (dset m d_ (VStr [])) = Ok m' /\ saidText digest dumpm d_ (topCode d_ E_ m) m' = Ok q)
  | VList (VStr _ :: es) => l = s2b "A" /\ exists ss raw, Forall2 elemText es ss /\ dumpl (dummy 44 :: ss) = Ok raw /\ isDigestOf digest E_ raw q
  | _ => False
  end.

(** the section has a said of its own *)
Definition saided (l : bytes) (v : val) : Prop :=
  match v with
  | VMap m => (l = s2b "s" /\ dget m (s2b "$id") <> None) \/ (In l mapSections /\ dget m d_ <> None)
  | VList es => l = s2b "A" /\ es <> []
  | _ => False
  end.
(** [w] stands for the section [v] in the most compact form of the message *)
Definition sectionCompact (l : bytes) (v w : val) : Prop :=
  (exists q, w = VStr q /\ sectionSaid l v q) \/ (w = v /\ ~ saided l v).
(** [c] is the most compact form of the message [m] with # in its said field: sections with a said of their own
    are replaced by it, all other fields but the version string stay as they are *)
Definition compactMessage (m c : sad) : Prop :=
  Forall2 (fun a b => fst a = fst b /\
    (fst a = s2b "v" \/
     if beq (fst a) d_ then match snd a with VStr t => snd b = VStr (repeat 35 (List.length t)) | _ => False end
     else if memB (fst a) sections then sectionCompact (fst a) (snd a) (snd b) else snd b = snd a)) m c.

(** two elements of an aggregate say the same as far as both are disclosed; nothing is known of two maps
    without a said field *)
Definition elemAgree (a b : val) : Prop :=
  match a, b with
  | VMap m, VMap m' => (dget m d_ = None /\ dget m' d_ = None) \/ sameBut d_ m m'
  | VMap m, VStr t | VStr t, VMap m => exists q, digText t = Ok q /\ saidText digest dumpm d_ E_ m = Ok q
  | VStr t, VStr t' => exists q, digText t = Ok q /\ digText t' = Ok q
  | _, _ => False
  end.
(** two sections with the same label say the same wherever both disclose something *)
Definition sectionAgree (l : bytes) (v w : val) : Prop :=
  v = w \/ (exists q, w = VStr q /\ sectionSaid l v q) \/ (exists q, v = VStr q /\ sectionSaid l w q) \/
  match v, w with
  | VMap m, VMap m' => (l = s2b "s" /\ sameBut (s2b "$id") m m') \/ (In l mapSections /\ agreeMap digest dumpm d_ E_ m m')
  | VList (VStr _ :: es), VList (VStr _ :: es') => l = s2b "A" /\ Forall2 elemAgree es es'
  | _, _ => False
  end.
(** two messages have the same fields and say the same in them but for the version string,
    in the sections as far as both disclose something *)
Definition messageAgree (m m' : sad) : Prop :=
  Forall2 (fun a b => fst a = fst b /\
    (fst a = s2b "v" \/ if memB (fst a) sections then sectionAgree (fst a) (snd a) (snd b) else snd a = snd b)) m m'.
(** [w] discloses at most what the section [v] discloses *)
Definition elemRedacts (w e : val) : Prop := w = e \/ exists q, elemText e (VStr q) /\ w = VStr q.
Definition sectionRedacts (l : bytes) (w v : val) : Prop :=
  w = v \/ (exists q, w = VStr q /\ sectionSaid l v q) \/
  match w, v with
  | VMap m, VMap m' => In l mapSections /\ dget m' d_ <> None /\ redactsMap digest dumpm d_ E_ m m'
  | VList (VStr h :: es), VList (VStr h' :: es') => l = s2b "A" /\ h = h' /\ Forall2 elemRedacts es es'
  | _, _ => False
  end.
(** [w] is the same message as [m] but for its version string, and discloses at most what [m] discloses in its
    sections *)
Definition messageRedacts (w m : sad) : Prop :=
  Forall2 (fun a b => fst a = fst b /\ (if memB (fst a) sections then sectionRedacts (fst a) (snd a) (snd b) else fst a = s2b "v" \/ snd a = snd b)) w m.
End Spec.
