(** What adjudications are about, without the code that makes them. *)
From Verif Require Import Prelude SubsModel ThModel JsonModel RpModel RpSpec WaModel.
Open Scope N_scope.

(** [a] watches [oid] for controller [cid]. *)
Definition watches (d : rdb) (cid a oid : bytes) : Prop := dget (vals d) (key tagWat [cid; a; oid]) = Some (flag true).

(** The records of watchers of [cid] are keyed by identifiers without dots, and no other controller's
    name starts with [cid]. *)
Definition tidy (d : rdb) (cid : bytes) : Prop :=
  ~ In 46 cid /\ forall x, dget (vals d) (tagWat :: cid ++ x) <> None -> exists a o, tagWat :: cid ++ x = key tagWat [cid; a; o] /\ ~ In 46 a /\ ~ In 46 o.

(** [k] is on record as the key state of [oid] that source [a] has told. *)
Definition told (dec : bytes -> ksr) (d : rdb) (oid a : bytes) (k : ksr) : Prop :=
  exists dg rec, dget (ans d) (key tagKsn [oid; a]) = Some dg /\ dget (vals d) (key tagKsn [dg]) = Some rec /\ k = dec rec.

(** watcher [a] of [cid] for [oid] has told [k] *)
Definition voice (dec : bytes -> ksr) (d : rdb) (cid oid a : bytes) (k : ksr) : Prop := watches d cid a oid /\ told dec d oid a k.

(** Against the own newest event with number [n] and digest [dg]: the watcher has another event at the
    same number; is ahead; is behind. *)
Definition forks dec d cid oid (n : N) (dg a : bytes) (k : ksr) : Prop := voice dec d cid oid a k /\ ks_s k = n /\ ks_d k <> dg.
Definition leads dec d cid oid (n : N) (a : bytes) (k : ksr) : Prop := voice dec d cid oid a k /\ n < ks_s k.
Definition lags dec d cid oid (n : N) (a : bytes) (k : ksr) : Prop := voice dec d cid oid a k /\ ks_s k < n.

(** As many different watchers are ahead as the threshold says; without one, all. *)
Definition enough dec d cid oid (n : N) (toad : option N) : Prop :=
  match toad with
  | Some (N.pos t) => exists W, NoDup W /\ Forall (fun a => exists k, leads dec d cid oid n a k) W /\ N.pos t <= len W
  | _ => forall a, watches d cid a oid -> exists k, leads dec d cid oid n a k
  end.
Definition agreed dec d cid oid (n : N) : Prop := forall a b k k', leads dec d cid oid n a k -> leads dec d cid oid n b k' -> ks_d k = ks_d k'.
Definition no_fork dec d cid oid n dg : Prop := forall a k, ~ forks dec d cid oid n dg a k.
Definition no_lead dec d cid oid n : Prop := forall a k, ~ leads dec d cid oid n a k.

(** A cue tells of exactly the watchers for which [P] holds, with the number and digest that they told. *)
Definition tells (dec : bytes -> ksr) (d : rdb) (cid oid : bytes) (P : bytes -> ksr -> Prop) (l : list dstate) : Prop :=
  (forall s, In s l -> exists k, P (ds_wit s) k /\ ds_sn s = ks_s k /\ ds_dig s = ks_d k) /\
  forall a k, P a k -> exists s, In s l /\ ds_wit s = a /\ ds_sn s = ks_s k /\ ds_dig s = ks_d k.

Definition wids_of (c : wcue) : list bytes := match c with Dup w _ | Update w _ _ | Lagging w _ | Consistent w _ => w end.

(** Source [a] has sent the key state [k] of [oid], signed, in the course of [l]. *)
Definition has_sent (e : renv) (l : list act) (a oid : bytes) (k : ksr) : Prop :=
  exists r, (exists kv cs gs, In (Msg kv r cs gs) l) /\ saidOk e r = true /\ q_ksr r = Some k /\ ks_i k = oid /\ q_route r = s2b "/ksn/" ++ a /\
    ((exists kv cs gs, In (Msg kv r cs gs) l /\ signedSingle e r a cs) \/ exists x sn dig, In x l /\ signedState e (viewOf x) r a sn dig).

(** The replies about watchers have identifiers without dots, and no other controller's identifier starts with [cid]. *)
Definition plain_watchers (e : renv) (l : list act) (cid : bytes) : Prop :=
  ~ In 46 cid /\ forall kv r cs gs c a o v, In (Msg kv r cs gs) l -> says e r c (key tagWat [c; a; o]) v ->
    ~ In 46 c /\ ~ In 46 a /\ ~ In 46 o /\ forall z, c = cid ++ z -> z = [].

(** Records are read back as they were written, and in all the key states sent the digest of an event goes
    with one identifier and one number. *)
Definition sound_states (dec : bytes -> ksr) (e : renv) (l : list act) : Prop :=
  forall a k, has_sent e l a (ks_i k) k -> dec (ks_rec k) = k /\
    forall b k', has_sent e l b (ks_i k') k' -> ks_d k = ks_d k' -> ks_i k = ks_i k' /\ ks_s k = ks_s k'.

(** Controller [cid] has made [a] its watcher of [oid], signed, in the course of [l]. *)
Definition has_engaged (e : renv) (l : list act) (cid a oid : bytes) : Prop :=
  exists r, (exists kv cs gs, In (Msg kv r cs gs) l) /\ saidOk e r = true /\ says e r cid (key tagWat [cid; a; oid]) (flag true) /\
    ((exists kv cs gs, In (Msg kv r cs gs) l /\ signedSingle e r cid cs) \/ exists x sn dig, In x l /\ signedState e (viewOf x) r cid sn dig).

(** the threshold is not more than the number of watchers *)
Definition feasible (d : rdb) (cid oid : bytes) (toad : option N) : Prop :=
  match toad with Some t => exists W, NoDup W /\ Forall (fun a => watches d cid a oid) W /\ t <= len W | None => True end.
