(** What the theorems about the Signature header talk about. *)
From Verif Require Import Prelude ThModel SgModel.
Open Scope N_scope.

(** a text without blank, comma, semicolon and quote *)
Definition plain (s : bytes) : Prop := forall ch, In ch s -> ch <> 32 /\ ch <> 44 /\ ch <> 59 /\ ch <> 34.
(** one that can name a signature: no equals sign and none of the names of the format *)
Definition label (s : bytes) : Prop := plain s /\ ~ In 61 s /\
  ~ In s [s2b "indexed"; s2b "signer"; s2b "ordinal"; s2b "digest"; s2b "kind"].
(** the name of a signature without one: its index, or its key *)
Inductive named : bool -> mark -> bytes * mark -> Prop :=
| nm_siger : forall q i, named true (Sg q i) (decstr i, Sg q i)
| nm_cigar : forall q v, named false (Cg q (Some v)) (v, Cg q (Some v)).
(** the signatures of a signage with their names, and whether they are indexed *)
Definition signed (g : signage) (ind : bool) (l : list (bytes * mark)) : Prop :=
  match markers g with MDict d => l = d | MList ms => Forall2 (named ind) ms l end /\
  match indexed g with Some b => b = ind | None => exists k m r, l = (k, m) :: r /\ match m with Sg _ _ => ind = true | Cg _ _ => ind = false | Tx _ => False end end.
(** an absent text and the empty one are the same *)
Definition text (o : option bytes) : option bytes := match o with Some [] => None | _ => o end.
(** what is read from a signature: itself, but without its key; or its text *)
Definition unkeyed (m : mark) : mark := match m with Cg q _ => Cg q None | _ => m end.
Definition chars (m : mark) : bytes := match m with Sg q _ | Cg q _ => q | Tx t => t end.
(** [o] is what the reader of a header with signage [g] should get *)
Definition arrives (siger cigar : bytes -> res mark) (g o : signage) : Prop :=
  exists ind l, signed g ind l /\
    NoDup (map fst l) /\ (forall k m, In (k, m) l -> label k /\ plain (chars m) /\ (forall t, m <> Tx t)) /\
    (forall v, In (Some v) [signer g; ordinal g; digest g; kind g] -> plain v) /\
    let kd := match text (kind g) with Some k => k | None => s2b "CESR" end in
    (kd = s2b "CESR" -> forall k m, In (k, m) l -> (if ind then siger else cigar) (chars m) = Ok (unkeyed m)) /\
    o = mkG (MDict (map (fun x => (fst x, if beq kd (s2b "CESR") then unkeyed (snd x) else Tx (chars (snd x)))) l))
          (Some ind) (text (signer g)) (text (ordinal g)) (text (digest g)) (Some kd).
(** a header with blanks removed has, in its first group, an item with this name and this value, quotes around
    it dropped *)
Definition carries (hdr name val : bytes) : Prop :=
  exists g gs v, splitb 44 (nospace hdr) = g :: gs /\ In (name ++ 61 :: v) (splitb 59 g) /\ val = strip v.
