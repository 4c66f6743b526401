(** What the theorems about proposals in groups talk about. *)
From Verif Require Import Prelude ExModel MxModel.
Open Scope N_scope.

(** the proposals of a history, and the identifiers that are local after it *)
Definition props (ops : list op) : list prop := flat_map (fun o => match o with Arrive p | Submit p => [p] | NewHab _ => [] end) ops.
Definition locals (hs : list bytes) (ops : list op) : list bytes :=
  hs ++ flat_map (fun o => match o with NewHab h => [h] | _ => [] end) ops.

(** kinds of proposals with one nested message, and of the message *)
Definition kinds : list (string * string) := [("icp", "icp"); ("icp", "dip"); ("rot", "rot"); ("ixn", "ixn"); ("rpy", "rpy")]%string.
(** The proposal is about [e]: it says so in its block of embedded messages, or this is the said of the only
    message that it carries, of the kind that its route tells. *)
Inductive about (dig : bytes -> bytes) (p : prop) (e : bytes) : Prop :=
| ab_block : forall l, p_major p = 1 -> p_embeds p = Some l -> dget l (s2b "d") = Some (EText e) -> about dig p e
| ab_nested : forall m k i, p_major p <> 1 -> p_nests p = [m] -> In (k, i) kinds -> p_route p = s2b "/multisig/" ++ s2b k ->
    c_ilk m = s2b i -> dget (p_texts p) (s2b k) = Some e -> c_said m = e -> dig (c_body m) = e -> about dig p e.

(** The proposal is for a local identifier: one of the members of the group, or the group itself. *)
Definition members (p : prop) : list bytes :=
  match p_smids p with Some l => l | None => [] end ++ match p_rmids p with Some l => l | None => [] end.
Inductive forUs (hs : list bytes) (p : prop) : Prop :=
| fu_icp : p_route p = s2b "/multisig/icp" -> p_smids p <> None -> (exists h, In h (members p) /\ In h hs) -> forUs hs p
| fu_rot : forall g, p_route p = s2b "/multisig/rot" -> p_gid p = Some g ->
    (In g hs \/ p_smids p <> None /\ p_rmids p <> None /\ exists h, In h (members p) /\ In h hs) -> forUs hs p
| fu_group : forall g k, In k ["ixn"; "vcp"; "iss"; "rev"; "exn"; "rpy"]%string -> p_route p = s2b "/multisig/" ++ s2b k ->
    p_gid p = Some g -> In g hs -> forUs hs p.

(** the messages that a proposal carries *)
Definition contents (p : prop) : list child :=
  match p_nests p with
  | [] => match p_embeds p with Some l => flat_map (fun kv => match snd kv with EMsg m => [m] | _ => [] end) l | None => [] end
  | l => l
  end.
(** they can be read: the signatures are indexed, and what looks like a message is one *)
Definition readable (dig : bytes -> bytes) (p : prop) : Prop :=
  p_nests p <> [] \/
  (p_cig p = false /\ exists l, p_embeds p = Some l /\
     forall k v, In (k, v) l -> v <> EMap /\ forall m, v = EMsg m -> dig (c_body m) = c_said m).

(** said and proposal belong together in the history *)
Definition identified (ops : list op) : Prop := forall p q, In p (props ops) -> In q (props ops) -> p_said p = p_said q -> p = q.
(** identifiers of senders are not made later *)
Definition steady (ops : list op) : Prop := forall h p, In (NewHab h) ops -> In p (props ops) -> p_sender p <> h.
(** it came, from elsewhere or by a command, when it was for a local identifier *)
Definition came (hs : list bytes) (ops : list op) (p : prop) : Prop :=
  exists a b o, ops = a ++ o :: b /\ (o = Arrive p \/ o = Submit p) /\ forUs (locals hs a) p.
