(** Vocabulary of the statements about field maps with graduated disclosure. *)
From Verif Require Import Prelude B64Model MatterModel SubsModel VerModel ThModel JsonModel JsonProofs SerModel SerSpec CpModel.
Open Scope N_scope.

Section Spec.
Variable digest : bytes -> bytes -> bytes.
Variable dumpm : bool -> list bytes -> sad -> res bytes.
(** the label of the said fields and their derivation code where the field does not have one *)
Variable L : bytes.
Variable dflt : bytes.

Definition codeFor (x : val) : bytes := match codeOf (Some x) with Ok cd => cd | Err _ => dflt end.
(** the said of a map whose said field has the value [x]: the digest of its serialization with # in the
    said field *)
Definition saidText (m : sad) : res bytes :=
  match dget m L with
  | None => Err KeyError
  | Some x =>
      let cd := codeFor x in
      raise_if (negb (memB cd DigDex)) SerializeError (
      raw <- dumpm true [L] (dset m L (dummy (fullSize cd))) ;;
      q <- digerOf digest cd raw ;;
      _ <- dumpm true [] (dset m L (VStr q)) ;;
      Ok q)
  end.
Definition isMap (v : val) : bool := match v with VMap _ => true | _ => false end.
(** the most compact form: maps with a said field become their said, from the inside out *)
Fixpoint roll (v : val) : res val :=
  match v with
  | VMap m =>
      m' <- (fix go (m : sad) : res sad :=
               match m with
               | [] => Ok []
               | (l, x) :: r => raise_if (beq l L && isMap x) InvalidValueError (
                                x' <- roll x ;; r' <- go r ;; Ok ((l, x') :: r'))
               end) m ;;
      match dget m L with
      | None => Ok (VMap m')
      | Some _ => q <- saidText m' ;; Ok (VStr q)
      end
  | _ => Ok v
  end.
Fixpoint rolls (m : sad) : res sad :=
  match m with
  | [] => Ok []
  | (l, x) :: r => raise_if (beq l L && isMap x) InvalidValueError (
                   x' <- roll x ;; r' <- rolls r ;; Ok ((l, x') :: r'))
  end.
(** the top level map stays a map *)
Definition rollTop (m : sad) : res sad :=
  m' <- rolls m ;;
  match dget m L with
  | None => Ok m'
  | Some _ => q <- saidText m' ;; Ok (dset m' L (VStr q))
  end.

(** [w] discloses at most what [v] discloses: some of the maps with a said field in [v] are replaced by
    their said *)
Inductive redacts : val -> val -> Prop :=
| rd_same : forall v, redacts v v
| rd_hide : forall m q, roll (VMap m) = Ok (VStr q) -> redacts (VStr q) (VMap m)
| rd_map : forall m m', Forall2 (fun a b => fst a = fst b /\ redacts (snd a) (snd b)) m m' -> redacts (VMap m) (VMap m').
(** the code of the said field of a map, which the maps in it without one take over *)
Definition topCode (m : sad) : bytes := match dget m L with Some x => codeFor x | None => dflt end.
(** two values say the same wherever both disclose something; the said fields are not compared *)
Inductive agree : val -> val -> Prop :=
| ag_same : forall v, agree v v
| ag_left : forall m q, roll (VMap m) = Ok (VStr q) -> agree (VStr q) (VMap m)
| ag_right : forall m q, roll (VMap m) = Ok (VStr q) -> agree (VMap m) (VStr q)
| ag_map : forall m m', Forall2 (fun a b => fst a = fst b /\ (fst a = L \/ agree (snd a) (snd b))) m m' -> agree (VMap m) (VMap m').
End Spec.
(** the field map [w] shows the said of [m] and at most what [m] discloses in the other fields *)
Definition redactsMap (digest : bytes -> bytes -> bytes) (dumpm : bool -> list bytes -> sad -> res bytes) (L dflt : bytes) (w m : sad) : Prop :=
  Forall2 (fun a b => fst a = fst b /\ if beq (fst a) L then snd a = snd b else redacts digest dumpm L (topCode L dflt m) (snd a) (snd b)) w m.
(** two field maps say the same wherever both disclose something *)
Definition agreeMap (digest : bytes -> bytes -> bytes) (dumpm : bool -> list bytes -> sad -> res bytes) (L dflt : bytes) (m m' : sad) : Prop :=
  Forall2 (fun a b => fst a = fst b /\ (fst a = L \/ agree digest dumpm L (topCode L dflt m) (snd a) (snd b))) m m'.

(** the number of maps with a said field, which bounds the number of rounds *)
Fixpoint saidCount (L : bytes) (v : val) : nat :=
  match v with
  | VMap m => ((if memB L (keysOf m) then 1 else 0) + fold_right (fun kv n => saidCount L (snd kv) + n) 0 m)%nat
  | _ => 0%nat
  end.
(** no dot in the labels of the values that have maps with a said field in them, at every depth *)
Definition noDot (l : bytes) : Prop := ~ In 46 l.
Fixpoint dotless (L : bytes) (v : val) : Prop :=
  match v with
  | VMap m => fold_right (fun kv P => ((0 < saidCount L (snd kv))%nat -> noDot (fst kv)) /\ dotless L (snd kv) /\ P) True m
  | _ => True
  end.
(** what is assumed of a serialization: different maps have different serializations *)
Definition injDump (dumpm : bool -> list bytes -> sad -> res bytes) : Prop :=
  forall s dl m m' r, dumpm s dl m = Ok r -> dumpm s dl m' = Ok r -> m = m'.
(** the JSON serialization *)
Definition jsonDump (strict : bool) (dl : list bytes) (m : sad) : res bytes := Ok (json (VMap m)).
Definition jsonDumpl (l : list val) : res bytes := Ok (json (VList l)).

(** ** Aggregates *)
(** the elements that are maps have a said field *)
Definition saidedElems (L : bytes) (l : list val) : Prop := Forall (fun e => match e with VMap m => In L (keysOf m) | _ => True end) l.
(** the said of an element *)
Definition elemSaid (L : bytes) (e : val) : option val := match e with VMap m => dget m L | VStr t => Some (VStr t) | _ => None end.
(** [d] shows the elements of [l] at the indices and the saids of the others *)
Definition discloses (L : bytes) (l : list val) (indices : list Z) (d : list val) : Prop :=
  List.length d = List.length l /\
  forall i e, nth_error l i = Some e -> nth_error d i = if existsb (fun z => (z =? Z.of_nat i)%Z) indices then Some e else elemSaid L e.
(** two elements are the same as far as both are disclosed *)
Definition sameElem (L : bytes) (a b : val) : Prop :=
  match a, b with
  | VMap m, VMap m' => m = m'
  | VMap m, VStr t | VStr t, VMap m => exists q, digText t = Ok q /\ dget m L = Some (VStr q)
  | VStr t, VStr t' => exists q, digText t = Ok q /\ digText t' = Ok q
  | _, _ => False
  end.
(** what is assumed of the serialization of lists: different lists of digests and nulls have
    different serializations *)
Definition digElem (v : val) : Prop := exists t, v = VStr t /\ digText t = Ok t.
Definition injDumpl (dumpl : list val -> res bytes) : Prop :=
  forall n l l' r, Forall (fun v => v = VNull \/ digElem v) l -> Forall (fun v => v = VNull \/ digElem v) l' -> dumpl (dummy n :: l) = Ok r -> dumpl (dummy n :: l') = Ok r -> l = l'.
