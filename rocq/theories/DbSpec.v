(** What the database theorems talk about, without the storage code: tables of values per
    key, and the effect that each operation should have on them. *)
From Coq Require Import Sorting.Sorted.
From Verif Require Import Prelude Lex SubsModel DbModel.
Open Scope N_scope.

(** The separator is none of the characters of a hexadecimal number. *)
Definition goodsep (sep : N) : Prop := hexval sep = None.

(** [K] is a set of keys none of which continues another one after a separator.  Keys with
    the same number of parts are such a set. *)
Definition flat (sep : N) (K : bytes -> Prop) : Prop :=
  ~ K [] /\ forall k k' t, K k -> K k' -> k' <> k ++ sep :: t.

(** ** Ordered sets of values *)
Definition add1 (s : list bytes) (v : bytes) : list bytes := if memV v s then s else s ++ [v].
Definition addAll (s vals : list bytes) : list bytes := fold_left add1 vals s.
Definition remove1 (v : bytes) (s : list bytes) : list bytes := filter (fun x => negb (beq v x)) s.

Inductive sop :=
| SPut (key : bytes) (vals : list bytes) | SPin (key : bytes) (vals : list bytes) | SAdd (key val : bytes)
| SRem (key : bytes) | SRemVal (key val : bytes).
Definition sop_key (o : sop) : bytes :=
  match o with SPut k _ | SPin k _ | SAdd k _ | SRem k | SRemVal k _ => k end.
(** how many values an operation can add *)
Definition sop_size (o : sop) : N :=
  match o with SPut _ l | SPin _ l => len l | SAdd _ _ => 1 | _ => 0 end.
(** effect of an operation on the ordered set at its own key *)
Definition sop_eff (o : sop) (s : list bytes) : list bytes :=
  match o with
  | SPut _ vals => addAll s vals
  | SPin _ vals => match vals with [] => s | _ => addAll [] vals end
  | SAdd _ v => add1 s v
  | SRem _ => []
  | SRemVal _ v => remove1 v s
  end.
Definition sets := bytes -> list bytes.
Definition sets0 : sets := fun _ => [].
Definition sop_spec (t : sets) (o : sop) : sets :=
  fun k => if beq k (sop_key o) then sop_eff o (t k) else t k.
Definition total (ops : list sop) : N := fold_left (fun n o => n + sop_size o) ops 0.

(** ** Tables of values by ordinal: ascending ordinals *)
Fixpoint tput (ow : bool) (n : N) (v : bytes) (l : list (N * bytes)) : list (N * bytes) :=
  match l with
  | [] => [(n, v)]
  | (m, w) :: l' =>
      if m =? n then (if ow then (n, v) :: l' else l)
      else if m <? n then (m, w) :: tput ow n v l' else (n, v) :: l
  end.
Definition tnext (l : list (N * bytes)) : N := fold_left (fun a e => N.max a (fst e + 1)) l 0.
Inductive oop :=
| OPut (key : bytes) (on : N) (val : bytes) | OPin (key : bytes) (on : N) (val : bytes) | OApp (key val : bytes)
| ORem (key : bytes) (on : N) | ORemAll (key : bytes) (on : N).
Definition oop_key (o : oop) : bytes := match o with OPut k _ _ | OPin k _ _ | OApp k _ | ORem k _ | ORemAll k _ => k end.
Definition oop_on (o : oop) : N := match o with OPut _ n _ | OPin _ n _ | ORem _ n | ORemAll _ n => n | OApp _ _ => 0 end.
Definition oop_eff (o : oop) (l : list (N * bytes)) : list (N * bytes) :=
  match o with
  | OPut _ n v => tput false n v l
  | OPin _ n v => tput true n v l
  | OApp _ v => if tnext l <=? MaxON then l ++ [(tnext l, v)] else l
  | ORem _ n => filter (fun e => negb (fst e =? n)) l
  | ORemAll _ n => filter (fun e => fst e <? n) l
  end.
Definition tabs := bytes -> list (N * bytes).
Definition tabs0 : tabs := fun _ => [].
Definition oop_spec (t : tabs) (o : oop) : tabs :=
  fun k => if beq k (oop_key o) then oop_eff o (t k) else t k.

(** what an operation reports *)
Definition sop_out (o : sop) (s : list bytes) : bool :=
  match o with
  | SPut _ vals => existsb (fun v => negb (memV v s)) vals
  | SPin _ vals => negb (isnil vals)
  | SAdd _ v => negb (memV v s)
  | SRem _ => negb (isnil s)
  | SRemVal _ v => memV v s
  end.

(** what the operations of a history report *)
Fixpoint outs (ops : list sop) (t : sets) : list bool :=
  match ops with [] => [] | o :: ops' => sop_out o (t (sop_key o)) :: outs ops' (sop_spec t o) end.

(** what an operation on numbered values reports *)
Inductive out := OutB (b : bool) | OutN (n : N) | OutE (e : exn).
Definition has (n : N) (l : list (N * bytes)) : bool := existsb (fun e => fst e =? n) l.
Definition oop_out (o : oop) (l : list (N * bytes)) : out :=
  match o with
  | OPut _ n _ => OutB (negb (has n l))
  | OPin _ _ _ => OutB true
  | OApp _ _ => if tnext l <=? MaxON then OutN (tnext l) else OutE ValueError
  | ORem _ n => OutB (has n l)
  | ORemAll _ n => OutB (existsb (fun e => n <=? fst e) l)
  end.
Fixpoint oouts (ops : list oop) (t : tabs) : list out :=
  match ops with [] => [] | o :: ops' => oop_out o (t (oop_key o)) :: oouts ops' (oop_spec t o) end.
Definition lookup (n : N) (l : list (N * bytes)) : option bytes :=
  match find (fun e => fst e =? n) l with Some (_, v) => Some v | None => None end.

(** ** Ordered sets by ordinal *)
Inductive nop :=
| NSet (key : bytes) (on : N) (o : sop) (* one of the ordered set operations, at ordinal [on] of [key] *)
| NApp (key : bytes) (vals : list bytes)
| NRemAll (key : bytes) (on : N).
Definition nsets := bytes -> N -> list bytes.
Definition nsets0 : nsets := fun _ _ => [].
(** [n] is the ordinal after the last one in use at [key] *)
Definition next_of (t : nsets) (key : bytes) (n : N) : Prop :=
  (forall m, t key m <> [] -> m < n) /\ (n = 0 \/ t key (n - 1) <> []).
(** what an operation does: the table after it and what it reports *)
Inductive nstep (t : nsets) : nop -> nsets -> bool + N -> Prop :=
| st_set : forall k on o t' b, (forall k' m, t' k' m = if beq k' k && (m =? on) then sop_eff o (t k on) else t k' m) ->
    nstep t (NSet k on o) t' (inl b)
| st_app : forall k vals n t', next_of t k n -> (forall k' m, t' k' m = if beq k' k && (m =? n) then vals else t k' m) ->
    nstep t (NApp k vals) t' (inr n)
| st_remall : forall k on t' b, (forall k' m, t' k' m = if beq k' k && (on <=? m) then [] else t k' m) ->
    nstep t (NRemAll k on) t' (inl b).

(** reading all ordinals from [on] upwards, in order *)
Definition flat_of (on : N) (t : N -> list bytes) (r : list (N * bytes)) : Prop :=
  StronglySorted (fun x y => fst x <= fst y) r /\ forall o, map snd (filter (fun e => fst e =? o) r) = if on <=? o then t o else [].
(** reading the last value of each ordinal *)
Definition last_of (f : N -> bool) (t : N -> list bytes) (r : list (N * bytes)) : Prop :=
  forall o v, In (o, v) r <-> f o = true /\ olast (t o) = Some v.
(** reading all ordinals from [on] downwards *)
Definition back_of (on : N) (t : N -> list bytes) (r : list (N * bytes)) : Prop :=
  StronglySorted (fun x y => fst y <= fst x) r /\ forall o, map snd (filter (fun e => fst e =? o) r) = if o <=? on then rev (t o) else [].
Definition nop_key (o : nop) : bytes := match o with NSet k _ _ | NApp k _ | NRemAll k _ => k end.
Definition nop_size (o : nop) : N := match o with NSet _ _ o => sop_size o | NApp _ vals => len vals | NRemAll _ _ => 0 end.
Definition nop_res (o : nop) (t : nsets) (r : bool + N) : Prop :=
  match o with NSet k on o => r = inl (sop_out o (t k on)) | NApp k _ => True
  | NRemAll k on => exists b, r = inl b /\ (b = true <-> exists m, on <= m /\ t k m <> []) end.


Section Run.
Variable sep : N.
(** dispatch of the operations *)
Definition do_sop (o : sop) (st : store) : res (store * bool) :=
  match o with
  | SPut k vals => putIoSetVals sep k vals st
  | SPin k vals => pinIoSetVals sep k vals st
  | SAdd k v => addIoSetVal sep k v st
  | SRem k => remIoSet sep k st
  | SRemVal k v => remIoSetVal sep k v st
  end.

(** a history of operations: the store and what each operation reported *)
Fixpoint do_sops (ops : list sop) (st : store) : res (store * list bool) :=
  match ops with
  | [] => Ok (st, [])
  | o :: ops' => '(st, b) <- do_sop o st ;; '(st, l) <- do_sops ops' st ;; Ok (st, b :: l)
  end.
Definition do_oop (o : oop) (st : store) : store * out :=
  match o with
  | OPut k n v => let '(st, b) := putOnVal sep k n v st in (st, OutB b)
  | OPin k n v => let '(st, b) := pinOnVal sep k n v st in (st, OutB b)
  | OApp k v => match appendOnVal sep k v st with Ok (st, n) => (st, OutN n) | Err e => (st, OutE e) end
  | ORem k n => let '(st, b) := remOn sep k n st in (st, OutB b)
  | ORemAll k n => match remOnAll sep k n st with Ok (st, b) => (st, OutB b) | Err e => (st, OutE e) end
  end.
Fixpoint do_oops (ops : list oop) (st : store) : store * list out :=
  match ops with [] => (st, []) | o :: ops' => let '(st, b) := do_oop o st in let '(st, l) := do_oops ops' st in (st, b :: l) end.
Definition do_nop (o : nop) (st : store) : res (store * (bool + N)) :=
  match o with
  | NSet k on (SPut _ vals) => '(st, b) <- putOnIoSetVals sep k on vals st ;; Ok (st, inl b)
  | NSet k on (SPin _ vals) => '(st, b) <- pinOnIoSetVals sep k on vals st ;; Ok (st, inl b)
  | NSet k on (SAdd _ v) => '(st, b) <- addOnIoSetVal sep k on v st ;; Ok (st, inl b)
  | NSet k on (SRem _) => '(st, b) <- remOnIoSet sep k on st ;; Ok (st, inl b)
  | NSet k on (SRemVal _ v) => '(st, b) <- remOnIoSetVal sep k on v st ;; Ok (st, inl b)
  | NApp k vals => '(st, n) <- appendOnIoSetVals sep k vals st ;; Ok (st, inr n)
  | NRemAll k on => '(st, b) <- remOnAllIoSet sep k on st ;; Ok (st, inl b)
  end.
(** a history of operations with the tables they lead to *)
Inductive nhist : store -> nsets -> list nop -> store -> nsets -> Prop :=
| nh_nil : forall st t, nhist st t [] st t
| nh_cons : forall st t o ops st1 t1 r st2 t2, do_nop o st = Ok (st1, r) -> nstep t o t1 r -> nop_res o t r -> nhist st1 t1 ops st2 t2 -> nhist st t (o :: ops) st2 t2.
End Run.
Definition ntotal (ops : list nop) : N := fold_right (fun o n => nop_size o + n) 0 ops.

(** ordinals used by the operations stay below [L] *)
Definition nop_ok (K : bytes -> Prop) (L : N) (o : nop) : Prop :=
  K (nop_key o) /\ match o with NSet _ on _ => on < L | NApp _ vals => vals <> [] /\ NoDup vals | NRemAll _ on => on <= MaxON end.

(** ** Insertion ordered duplicates *)
(** usable keys: the code refuses keys that start with a dot *)
Definition goodkey (k : bytes) : Prop := k <> [] /\ forall r, k <> 46 :: r.
Definition do_dop (o : sop) (st : store) : res (store * bool) :=
  match o with
  | SPut k vals => putIoDupVals k vals st
  | SPin k vals => pinIoDup k vals st
  | SAdd k v => addIoDupVal k v st
  | SRem k => Ok (delIoDupVals k st)
  | SRemVal k v => Ok (delIoDupVal k v st)
  end.
Definition distinct (o : sop) : Prop := match o with SPut _ l | SPin _ l => NoDup l | _ => True end.
(** pin with no values empties the set *)
Definition dop_eff (o : sop) (s : list bytes) : list bytes := match o with SPin _ [] => [] | _ => sop_eff o s end.
Definition dop_spec (t : sets) (o : sop) : sets := fun k => if beq k (sop_key o) then dop_eff o (t k) else t k.
Fixpoint do_dops (ops : list sop) (st : store) : res (store * list bool) :=
  match ops with
  | [] => Ok (st, [])
  | o :: ops' => '(st, b) <- do_dop o st ;; '(st, l) <- do_dops ops' st ;; Ok (st, b :: l)
  end.
Fixpoint douts (ops : list sop) (t : sets) : list bool :=
  match ops with [] => [] | o :: ops' => sop_out o (t (sop_key o)) :: douts ops' (dop_spec t o) end.
