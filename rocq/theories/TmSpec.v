(** What the theorems on messengers talk about. *)
From Verif Require Import Prelude TmModel.
Open Scope N_scope.

(** The messages given to a messenger: those of the start and those put later. *)
Definition tcpGiven (q : list N) (xs : list tstep) : list N := q ++ flat_map (fun x => match x with TPut m => [m] | _ => [] end) xs.
Definition httpGiven (q : list N) (xs : list hstep) : list N := q ++ flat_map (fun x => match x with HPut m => [m] | _ => [] end) xs.
Definition tcpRun (q : list N) (xs : list tstep) : tcp := fold_left tcpStep xs (tcp0 q).
Definition httpRun (parts : N -> nat) (q : list N) (xs : list hstep) : http := fold_left (httpStep parts) xs (http0 q).
Definition pubRun (xs : list pstep) : pub := fold_left pubStep xs pub0.
(** The requests put so far, in order. *)
Definition pubGiven (xs : list pstep) : list (N * bool) := flat_map (fun x => match x with PPut m b => [(m, b)] | _ => [] end) xs.
(** The number of requests that messages make. *)
Definition requests (parts : N -> nat) (ms : list N) : nat := fold_right (fun m n => (parts m + n)%nat) 0%nat ms.
