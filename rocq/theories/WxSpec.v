(** What the theorems on WitnessReceiptor talk about. *)
From Verif Require Import Prelude GrModel WxModel.
Open Scope N_scope.

(** The signature is one of witness [v]. *)
Definition sigOf (J : job) (g : wiger) (v : N) : Prop := nth_error (j_wits J) (fst g) = Some v.
(** Witness [w] is sent a signature of witness [v]. *)
Definition gets (J : job) (l : list act) (w v : N) : Prop := exists gs g, In (Spread w gs) l /\ In g gs /\ sigOf J g v.
(** The signatures are stored in the order of the witness list, one for each. *)
Definition inOrder (J : job) (l : list wiger) : Prop := List.length l = List.length (j_wits J) /\ forall i g, nth_error l i = Some g -> fst g = i.
(** There is a signature of every witness. *)
Definition everyone (J : job) (l : list wiger) : Prop := forall v, In v (j_wits J) -> exists g, In g l /\ sigOf J g v.
