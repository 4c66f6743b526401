(** Meaning of a fractionally weighted threshold, independent of the code: the leaf
    weights are numbered 0, 1, 2, ... from left to right, and each signer index names
    the leaf of that number. *)
From Verif Require Import Prelude ThModel.

(** Sum of weights. *)
Fixpoint total (l : list Q) : Q := match l with [] => 0%Q | x :: l' => (x + total l')%Q end.

(** A numbered leaf. *)
Definition leaf : Type := N * Q.
Inductive nelem := NW (x : leaf) | NN (k : Q) (xs : list leaf).

Fixpoint number_leaves (p : N) (ws : list Q) : list leaf :=
  match ws with [] => [] | w :: ws' => (p, w) :: number_leaves (p + 1) ws' end.
Fixpoint number_clause (p : N) (cl : list elem) : list nelem :=
  match cl with
  | [] => []
  | EW w :: cl' => NW (p, w) :: number_clause (p + 1) cl'
  | EN k vs :: cl' => NN k (number_leaves p vs) :: number_clause (p + len vs) cl'
  end.
(** Number of leaves. *)
Definition leaves (cl : list elem) : list Q :=
  flat_map (fun e => match e with EW w => [w] | EN _ vs => vs end) cl.
Fixpoint number_clauses (p : N) (th : list (list elem)) : list (list nelem) :=
  match th with
  | [] => []
  | cl :: th' => number_clause p cl :: number_clauses (p + len (leaves cl)) th'
  end.

(** Weight of the leaves whose number is in S. *)
Definition signed_weight (S : list N) (xs : list leaf) : Q :=
  total (map snd (filter (fun x => existsb (N.eqb (fst x)) S) xs)).

(** What an element contributes to its clause when exactly the leaves in S signed. *)
Definition contributes (S : list N) (e : nelem) (q : Q) : Prop :=
  match e with
  | NW x => q = signed_weight S [x]
  | NN k xs => (1 <= signed_weight S xs /\ q = k)%Q \/ (signed_weight S xs < 1 /\ q = 0)%Q
  end.

(** A clause holds when its contributions reach one. *)
Definition clause_holds (S : list N) (cl : list nelem) : Prop :=
  exists qs, Forall2 (contributes S) cl qs /\ (1 <= total qs)%Q.

(** The threshold holds when every clause does. *)
Definition holds (S : list N) (th : list (list elem)) : Prop :=
  Forall (clause_holds S) (number_clauses 0 th).

(** Weights allowed in a threshold: reduced fractions between 0 and 1. *)
Definition okw (w : Q) : Prop := (0 <= w <= 1)%Q /\ Qred w = w.
Definition oke (e : elem) : Prop := match e with EW w => okw w | EN k vs => okw k /\ Forall okw vs end.
Definition okth (th : list (list elem)) : Prop := th <> [] /\ Forall (Forall oke) th.

(** Thresholds obtained from any of the three representations. *)
Inductive threshold : tholder -> Prop :=
| th_num : forall n t, processThold (TNum n) = Ok t -> threshold t
| th_wt : forall th t, okth th -> processThold (TWt th) = Ok t -> threshold t
| th_sith : forall s t, processSith s = Ok t -> threshold t
| th_limen : forall q t, processLimen q = Ok t -> threshold t.
