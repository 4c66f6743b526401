(** Specification vocabulary for reply messages: what a reply says, when it is signed by the
    identifier it speaks for, histories of deliveries and escrow sweeps, and the order of
    replies (best available data: signing key state first, then date time). *)
From Verif Require Import Prelude SubsModel ThModel JsonModel RpModel.
Open Scope N_scope.

(** [says e r aid k v]: reply [r] speaks for [aid] and sets record [k] to [v]. *)
Inductive says (e : renv) (r : reply) : bytes -> bytes -> bytes -> Prop :=
| says_role : forall (on : bool) rest cid role eid,
    q_route r = s2b (if on then "/end/role/add" else "/end/role/cut") ++ rest -> ~ In 47 rest ->
    dget (q_data r) (s2b "cid") = Some cid -> dget (q_data r) (s2b "role") = Some role ->
    dget (q_data r) (s2b "eid") = Some eid -> pfxOk e cid = true -> pfxOk e eid = true -> In role roles ->
    says e r cid (key tagEnd [cid; role; eid]) (flag on)
| says_loc : forall eid scheme url,
    q_route r = s2b "/loc/scheme" ->
    dget (q_data r) (s2b "eid") = Some eid -> dget (q_data r) (s2b "scheme") = Some scheme ->
    dget (q_data r) (s2b "url") = Some url -> pfxOk e eid = true -> In scheme schemes ->
    (urlScheme e url = [] \/ urlScheme e url = scheme) ->
    says e r eid (key tagLoc [eid; scheme]) url
| says_watch : forall (on : bool) aid cid oid,
    q_route r = s2b "/watcher/" ++ aid ++ s2b (if on then "/add" else "/cut") -> ~ In 47 aid -> aid <> [] ->
    dget (q_data r) (s2b "cid") = Some cid -> dget (q_data r) (s2b "oid") = Some oid ->
    says e r cid (key tagWat [cid; aid; oid]) (flag on).

(** The reply carries a signature of the nontransferable identifier [aid]. *)
Definition signedSingle (e : renv) (r : reply) (aid : bytes) (cs : list cigar) : Prop :=
  exists cg, In cg cs /\ c_key cg = aid /\ trans e aid = false /\ vrfy e aid (c_raw cg) (q_raw r) = true.

(** Verified signatures on the reply meet the threshold of the event of [aid] at [sn] with
    digest [dig]. *)
Definition signedState (e : renv) (kv : kview) (r : reply) (aid : bytes) (sn : N) (dig : bytes) : Prop :=
  exists ev sigs, at_sn kv aid sn = Some ev /\ e_said ev = dig /\ sigs <> [] /\ NoDup (map sg_qb64 sigs) /\
    (forall s, In s sigs -> exists k, nth_error (e_keys ev) (N.to_nat (sg_index s)) = Some k /\
                                      vrfy e k (sg_raw s) (q_raw r) = true) /\
    satisfy (e_th ev) (map sg_index sigs) = true.

(** Histories of a receiver: deliveries, with any attachments and under any key event logs, and
    rounds of escrow sweeps, for any entry and at any time. *)
Inductive act := Msg (kv : kview) (r : reply) (cs : list cigar) (gs : list group)
               | Item (kv : kview) (now : N) (route said : bytes).
Definition viewOf (a : act) : kview := match a with Msg kv _ _ _ => kv | Item kv _ _ _ => kv end.
Definition run (e : renv) (a : act) (d : rdb) : rdb :=
  match a with
  | Msg kv r cs gs => fst (processReply e kv r cs gs d)
  | Item kv now route said => unescrow e kv now route said d
  end.
Inductive hist (e : renv) : list act -> rdb -> Prop :=
| h_start : hist e [] rdb0
| h_step : forall l d a, hist e l d -> hist e (a :: l) (run e a d).

(** Records written by key state notices, as opposed to the three other kinds. *)
Definition isKsn (k : bytes) : bool := match k with t :: _ => t =? tagKsn | [] => false end.

(** The order of replies about one record. *)
Definition later (a b : N * N) : Prop := fst a < fst b \/ (fst a = fst b /\ snd a < snd b).

(** ---- Histories in which the date check can work ---- *)
Record world := mkW { msgs : reply -> Prop; kst : bytes -> N * bytes; sig : bytes -> siger }.

(** Saids identify replies and are not digests of key events. *)
Definition unique (w : world) : Prop :=
  (forall a b, msgs w a -> msgs w b -> q_said a = q_said b -> a = b) /\
  (forall a b k, msgs w a -> msgs w b -> q_ksr b = Some k -> ks_d k <> q_said a).

(** the identifier a reply has to be signed by *)
Definition signerOf (e : renv) (r : reply) : option bytes :=
  match findRoute (q_route r) with
  | Some (HKsn aid) => Some aid
  | _ => match parse e r with Ok p => Some (p_aid p) | Err _ => None end
  end.

(** One delivery: prefixes contain no '.', signatures are functions of their texts, and every
    group by the signer of the reply refers to the one key state that signed it, the signer being
    transferable. *)
Definition fairGroups (e : renv) (w : world) (r : reply) (gs : list group) : Prop :=
  forall g, In g gs -> ~ In 46 (g_pre g) /\ (forall s, In s (g_sigs g) -> s = sig w (sg_qb64 s)) /\
    (signerOf e r = Some (g_pre g) -> trans e (g_pre g) = true /\ (g_sn g, g_dig g) = kst w (q_said r)).
Definition fairMsg (e : renv) (w : world) (r : reply) (cs : list cigar) (gs : list group) : Prop :=
  msgs w r /\ (forall cg, In cg cs -> ~ In 46 (c_key cg)) /\ fairGroups e w r gs.

Inductive fair (e : renv) (w : world) : rdb -> rdb -> Prop :=
| f_refl : forall d, fair e w d d
| f_msg : forall d0 d kv r cs gs, fair e w d0 d -> fairMsg e w r cs gs ->
    fair e w d0 (fst (processReply e kv r cs gs d))
| f_item : forall d0 d kv now route said, fair e w d0 d ->
    (** the sweep does not drop a recorded reply *)
    (forall k, dget (ans d) k = Some said -> dget (sdts (unescrow e kv now route said d)) said <> None) ->
    fair e w d0 (unescrow e kv now route said d).

(** sequence number of the signing key state (0 for nontransferable signers), then date time *)
Definition rank (e : renv) (w : world) (aid : bytes) (r : reply) : N * N :=
  (if trans e aid then fst (kst w (q_said r)) else 0, q_dt r).
