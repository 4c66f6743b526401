(** What the theorems about the completion of group and delegated events talk about. *)
From Verif Require Import Prelude CoModel.
Open Scope N_scope.

(** in this history: an event was accepted; a delegator has sealed an event *)
Definition accepted (ops : list op) (pre : bytes) (sn : N) (said : bytes) : Prop := exists k, In (Accept pre k) ops /\ k_sn k = sn /\ k_said k = said.
Definition sealed (ops : list op) (del pre : bytes) (v : evt) : Prop := exists a, In (Seal del pre v a) ops.
(** the key state of an identifier, and its own key, after this history *)
Definition current (ops : list op) (pre : bytes) (k : kst) : Prop := exists a b, ops = a ++ Accept pre k :: b /\ forall k', ~ In (Accept pre k') b.
Definition ownKey (ops : list op) (pre key : bytes) : Prop := exists a b h, ops = a ++ Own pre h :: b /\ h_key h = key /\ forall h', ~ In (Own pre h') b.
(** as many receipts of different witnesses for an event as the key state has witnesses *)
Definition receipted (ops : list op) (pre dig : bytes) (k : kst) : Prop :=
  exists l, NoDup l /\ List.length l = List.length (k_wits k) /\ forall i, In i l <-> In (Wig pre dig i) ops.
(** the Counselor had a reason to call the event complete in a pass after history [a] *)
Inductive finished (a : list op) (pre : bytes) (sn : N) (dig : bytes) : Prop :=
| fin_receipts : forall k, current a pre k -> receipted a pre dig k -> finished a pre sn dig
| fin_delegated : forall k key r del said, current a pre k -> ownKey a pre key -> k_keys k = key :: r ->
    accepted a pre (k_sn k) said -> sealed a del pre (k_sn k, said) -> finished a pre sn dig.

(** nothing raises and nothing crashes *)
Definition quiet (proxy : bool) (s : sys) (o : op) : Prop :=
  match o with
  | Process => snd (processEscrows (wo s) (db s, me s)) = Ok tt
  | SProcess => snd (sProcessEscrows proxy (wo s) (db s, me s)) = Ok tt
  | Delegate pre sn => snd (delegation (wo s) pre sn (db s, me s)) = Ok tt
  | Crash => False
  | _ => True
  end.
Definition calm (proxy : bool) (ops : list op) : Prop := forall a o b, ops = a ++ o :: b -> quiet proxy (run proxy a) o.

(** One event of a group that is not delegated, or is not at an event that needs approval; keys and witnesses
    stay, the own signature is stored before the event is accepted, and the Counselor is told about this event
    of the group only. *)
Record alone (ops : list op) (pre : bytes) (sn : N) (dig key : bytes) (keys wits : list bytes) : Prop := mkAlone {
  al_keys : NoDup keys;
  al_state : forall k, In (Accept pre k) ops -> k_keys k = keys /\ k_wits k = wits /\ (k_del k = None \/ k_ilk k <> s2b "dip" /\ k_ilk k <> s2b "drt");
  al_one : forall k, In (Accept pre k) ops -> k_sn k = sn -> k_said k = dig;
  al_own : forall h, In (Own pre h) ops -> h_key h = key;
  al_start : forall n d, In (Start pre n d) ops -> n = sn /\ d = dig;
  al_sig : forall a b k, ops = a ++ Accept pre k :: b -> k_sn k = sn -> exists i, In (Sig pre dig i) a /\ nth_error keys (N.to_nat i) = Some key }.
