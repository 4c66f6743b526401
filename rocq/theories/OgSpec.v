(** What the theorems about contacts and notices talk about. *)
From Verif Require Import Prelude DbModel OgModel.
Open Scope N_scope.

(** ** Contacts *)
(** What the user means: under every prefix no contact, or one with texts under some fields. *)
Definition contact := bytes -> option bytes.
Definition contacts := bytes -> option contact.
Definition nobody : contacts := fun _ => None.
Definition blank : contact := fun _ => None.
Definition put1 {V} (a : bytes -> V) (k : bytes) (v : V) : bytes -> V := fun k' => if list_N_dec k' k then v else a k'.
(** fields given replace those there were *)
Definition over (m : contact) (d : dict) : contact := fun f => match dget d f with Some (Txt t) => Some t | _ => m f end.
Definition orBlank (o : option contact) : contact := match o with Some m => m | None => blank end.
Definition whom (o : cop) : bytes := match o with Update p _ | Replace p _ | SetF p _ _ | Unset p _ | Rem p => p end.
(** what an operation should do to the contacts, and how it should end *)
Definition does (a : contacts) (o : cop) : contacts :=
  match o with
  | Update p d => put1 a p (Some (over (orBlank (a p)) d))
  | Replace p d => put1 a p (Some (over blank d))
  | SetF p f v => put1 a p (Some (over (orBlank (a p)) [(f, v)]))
  | Unset p f => match a p with
                 | Some m => match m f with Some _ => put1 a p (Some (put1 m f None)) | None => a end
                 | None => a
                 end
  | Rem p => put1 a p None
  end.
Definition ends (a : contacts) (o : cop) : res unit :=
  match o with
  | Unset p f => match a p with None => Err TypeError | Some m => match m f with None => Err KeyError | Some _ => Ok tt end end
  | _ => Ok tt
  end.
(** prefixes without dot, none of which begins another, not too long *)
Definition prefixes (P : bytes -> Prop) : Prop :=
  forall p, P p -> p <> [] /\ len p <= 508 /\ ~ In 46 p /\ (forall q t, P q -> q = p ++ t -> q = p).
(** the name of a field: no dot, not the text id, not too long *)
Definition field (p f : bytes) : Prop := ~ In 46 f /\ f <> [105; 100] /\ len p + 1 + len f <= 511.
Definition texts (d : dict) : Prop := forall f v, In (f, v) d -> exists t, v = Txt t.
Definition fields (p : bytes) (d : dict) : Prop := NoDup (map fst d) /\ texts d /\ forall f v, In (f, v) d -> field p f.
(** an operation with such arguments *)
Definition fair (P : bytes -> Prop) (o : cop) : Prop :=
  P (whom o) /\
  match o with
  | Update p d | Replace p d => fields p d
  | SetF p f v => field p f /\ exists t, v = Txt t
  | Unset p f => field p f
  | Rem _ => True
  end.
(** dictionaries of texts survive JSON, signatures made are good *)
Definition honest (E : env) : Prop :=
  (forall d, NoDup (map fst d) -> texts d -> loads E (dumps E d) = Ok d) /\ (forall raw, vfy E raw (sgn E raw) = true).
(** the dictionary shows this contact, with its prefix under id *)
Definition shows (d : dict) (p : bytes) (m : contact) : Prop :=
  dget d [105; 100] = Some (Txt p) /\ forall f, f <> [105; 100] -> dget d f = match m f with Some t => Some (Txt t) | None => None end.
(** a history of operations, each with its end *)
Fixpoint after (E : env) (b : book) (os : list cop) : book := match os with [] => b | o :: os => after E (step E b o) os end.
Fixpoint ending (E : env) (b : book) (os : list cop) : list (res unit) := match os with [] => [] | o :: os => snd (plan E b o) :: ending E (step E b o) os end.
Fixpoint means (a : contacts) (os : list cop) : contacts := match os with [] => a | o :: os => means (does a o) os end.
Fixpoint meantEnds (a : contacts) (os : list cop) : list (res unit) := match os with [] => [] | o :: os => ends a o :: meantEnds (does a o) os end.
(** reading [p] gives what is meant *)
Definition reads (E : env) (b : book) (a : contacts) (p : bytes) : Prop :=
  match a p with
  | None => getc E b p = Ok None
  | Some m => exists d, getc E b p = Ok (Some d) /\ shows d p m
  end.

(** ** Contacts and somebody who writes into the database *)
(** Histories of operations, some ended by a crash, and of writes by somebody else, who has no key: a
    signature they write is good for nothing, or was made before, for a contact or for another text in [S]. *)
Inductive hist (E : env) (S : bytes -> Prop) (b0 : book) : list (book * cop) -> book -> Prop :=
| h_none : hist E S b0 [] b0
| h_op : forall l b o n, hist E S b0 l b -> hist E S b0 (l ++ [(b, o)]) (crash E n b o)
| h_write : forall l b w, hist E S b0 l b ->
    (forall p cg, w = WSig p cg -> (forall raw, vfy E raw cg = false) \/ (exists r, S r /\ cg = sgn E r) \/
      exists b' o q, In (b', o) l /\ In (WSig q cg) (fst (plan E b' o))) ->
    hist E S b0 l (wr b w).
(** a good signature is the one made for that text *)
Definition unforgeable (E : env) : Prop :=
  (forall raw cg, vfy E raw cg = true -> cg = sgn E raw) /\ (forall r r', sgn E r = sgn E r' -> r = r').

(** ** Notices *)
(** what the user means: the notices there are, by their ids *)
Definition board := bytes -> option note.
Definition clear : board := fun _ => None.
Definition ndoes (a : board) (o : nop) : board :=
  match o with
  | NAdd r d t => match a r with None => put1 a r (Some (mkN r d false t)) | Some _ => a end
  | NRem r => put1 a r None
  | NMar r => match a r with None => a | Some n => put1 a r (Some (mkN r (n_dt n) true (n_attr n))) end
  end.
(** add: there was none with this id; rem: there was one; mar: there was one, and not read *)
Definition nends (a : board) (o : nop) : res bool :=
  match o with
  | NAdd r _ _ => Ok match a r with None => true | Some _ => false end
  | NRem r => Ok match a r with None => false | Some _ => true end
  | NMar r => Ok match a r with None => false | Some n => negb (n_read n) end
  end.
Definition who (o : nop) : bytes := match o with NAdd r _ _ | NRem r | NMar r => r end.
(** ids and times without slash *)
Definition nfair (o : nop) : Prop := who o <> [] /\ ~ In 47 (who o) /\ match o with NAdd _ d _ => ~ In 47 d | _ => True end.
Definition nhonest (E : nenv) : Prop :=
  (forall n, nload E (ndump E n) = Ok n) /\ (forall raw, nvfy E raw (nsgn E raw) = true).
Fixpoint nafter (E : nenv) (b : noter) (os : list nop) : noter := match os with [] => b | o :: os => nafter E (nstep E b o) os end.
Fixpoint nending (E : nenv) (b : noter) (os : list nop) : list (res bool) := match os with [] => [] | o :: os => snd (nplan E b o) :: nending E (nstep E b o) os end.
Fixpoint nmeans (a : board) (os : list nop) : board := match os with [] => a | o :: os => nmeans (ndoes a o) os end.
Fixpoint nmeantEnds (a : board) (os : list nop) : list (res bool) := match os with [] => [] | o :: os => nends a o :: nmeantEnds (ndoes a o) os end.
(** the list of all notices, by time and then id, each once *)
Definition inOrder (n n' : note) : Prop := Lex.blt (n_dt n ++ 47 :: n_id n) (n_dt n' ++ 47 :: n_id n').
Inductive ordered : list note -> Prop :=
| o_nil : ordered []
| o_cons : forall n l, Forall (inOrder n) l -> ordered l -> ordered (n :: l).
Definition allOf (a : board) (l : list note) : Prop := ordered l /\ forall n, In n l <-> a (n_id n) = Some n.
