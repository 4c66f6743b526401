(** What the theorems about the browser back end talk about. *)
From Verif Require Import Prelude Lex SubsModel DbModel DbSpec WbModel.
Open Scope N_scope.

(** What a method of the browser back end left and returned is what the LMDB back end left and
    returned; an LMDB transaction that raises leaves the store [st] as it was. *)
Definition agrees {A} (w : wres A) (l : res (store * A)) (st : store) : Prop :=
  match l with Ok (st', a) => fst (fst w) = st' /\ snd w = Ok a | Err e => fst (fst w) = st /\ snd w = Err e end.

(** Histories of operations that all return: the store they lead to and what they returned, on the
    browser back end and on LMDB. *)
Inductive whist {O A} (f : O -> store -> wres A) : store -> list O -> store -> list A -> Prop :=
| wh_nil : forall st, whist f st [] st []
| wh_cons : forall st o ops st1 d a st2 l, f o st = (st1, d, Ok a) -> whist f st1 ops st2 l -> whist f st (o :: ops) st2 (a :: l).
Inductive lhist {O A} (f : O -> store -> res (store * A)) : store -> list O -> store -> list A -> Prop :=
| lh_nil : forall st, lhist f st [] st []
| lh_cons : forall st o ops st1 a st2 l, f o st = Ok (st1, a) -> lhist f st1 ops st2 l -> lhist f st (o :: ops) st2 (a :: l).

(** ** Persistence *)
Definition isbytes (s : bytes) : Prop := Forall (fun b => b < 256) s.
(** The arguments of a call are bytes. *)
Definition callBytes (o : mcall) : Prop :=
  match o with
  | MPut k v | MSet k v => isbytes k /\ isbytes v
  | MRem _ | MRemTop _ => True
  | MS (SPut k l) | MS (SPin k l) => isbytes k /\ Forall isbytes l
  | MS (SAdd k v) => isbytes k /\ isbytes v
  | MS (SRem _) | MS (SRemVal _ _) => True
  | MO (OPut k _ v) | MO (OPin k _ v) | MO (OApp k v) => isbytes k /\ isbytes v
  | MO (ORem _ _) | MO (ORemAll _ _) => True
  | MN (NSet k _ (SPut _ l)) | MN (NSet k _ (SPin _ l)) => isbytes k /\ Forall isbytes l
  | MN (NSet k _ (SAdd _ v)) => isbytes k /\ isbytes v
  | MN (NApp k l) => isbytes k /\ Forall isbytes l
  | MN _ => True
  end.
(** The call is neither appendOnIoSetVals nor remOnAllIoSet for a key. *)
Definition tracked (o : mcall) : Prop := match o with MN (NApp _ _) => False | MN (NRemAll k _) => k = [] | _ => True end.
Definition evOk (e : wevent) : Prop := match e with WCall _ o => callBytes o /\ tracked o | _ => True end.
Definition noFlush (e : wevent) : Prop := match e with WFlush _ => False | _ => True end.
