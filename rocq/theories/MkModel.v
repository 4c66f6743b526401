(** Making a credential, vc/proving.py:20-93.
    A dict is a list of pairs in order of insertion.  Values are of any type; [dig] stands for Saider.saidify of the subject.  The
    model ends before SerderACDC(makify=True), which fills in version string and digest of the whole and checks the fields. *)
From Verif Require Import Prelude.
Open Scope string_scope.

Section Mk.
Context {V : Type}.
Definition dict (A : Type) := list (string * A).
(** d[k] = v *)
Fixpoint set {A} (k : string) (v : A) (l : dict A) : dict A :=
  match l with [] => [(k, v)] | (k', v') :: l' => if String.eqb k k' then (k, v) :: l' else (k', v') :: set k v l' end.
(** d.get(k) *)
Fixpoint val {A} (l : dict A) (k : string) : option A :=
  match l with [] => None | (k', v) :: l' => if String.eqb k k' then Some v else val l' k end.
(** d |= e *)
Definition merge {A} (l m : dict A) : dict A := fold_left (fun a kv => set (fst kv) (snd kv) a) m l.

(** The arguments of credential; [a_unonce], [a_snonce]: the nonces given or made (62-63), [a_now]: the time (68), [a_blank]: "". *)
Record args := mkArgs { a_schema : V; a_issuer : V; a_data : dict V; a_recp : option V; a_private : bool; a_unonce : V; a_snonce : V;
  a_status : option V; a_source : option V; a_rules : option V; a_now : V; a_blank : V }.

(** proving.py:57-70: the subject before its digest *)
Definition subject0 (X : args) : dict V :=
  let s := [("d", a_blank X)] in
  let s := if a_private X then set "u" (a_snonce X) s else s in
  let s := match a_recp X with Some r => set "i" r s | None => s end in
  let s := set "dt" (match val (a_data X) "dt" with Some t => t | None => a_now X end) s in
  merge s (a_data X).
(** proving.py:90 *)
Definition subject (dig : dict V -> V) (X : args) : dict V := set "d" (dig (subject0 X)) (subject0 X).

(** A field of the credential: a value or the subject. *)
Inductive cval := Val (v : V) | Sub (s : dict V).
(** proving.py:50-91 *)
Definition credential (dig : dict V -> V) (X : args) : dict cval :=
  let c := [("v", Val (a_blank X)); ("d", Val (a_blank X))] in
  let c := if a_private X then set "u" (Val (a_unonce X)) c else c in
  let c := merge c [("i", Val (a_issuer X))] in
  let c := match a_status X with Some r => set "ri" (Val r) c | None => c end in
  let c := merge c [("s", Val (a_schema X)); ("a", Sub [])] in
  let c := match a_source X with Some e => set "e" (Val e) c | None => c end in
  let c := match a_rules X with Some r => set "r" (Val r) c | None => c end in
  set "a" (Sub (subject dig X)) c.
End Mk.
