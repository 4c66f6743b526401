(** What notices of transaction states are for, in words of the API: who may speak about a log, when a notice has
    their signature, and when all is there that is needed to record it. *)
From Verif Require Import Prelude SubsModel ThModel JsonModel RpModel RpSpec TsModel.
Open Scope N_scope.

(** the notice was received in this history *)
Definition received (es : list ev) (r : reply) : Prop := exists v cs gs, In (Msg v r cs gs) es.
(** the logs of the receiver at an event *)
Definition viewOf (e : ev) : view := match e with Msg v _ _ _ => v | Pass v _ => v | Sweep v _ _ _ => v end.
(** the source has signed the notice, with the key that it is or with keys that the receiver's logs have *)
Definition signed (E : tenv) (v : view) (r : reply) (aid : bytes) : Prop :=
  (exists cs, signedSingle (rv E) r aid cs) \/ exists sn dig, signedState (rv E) (kv v) r aid sn dig.
(** the source may speak: it is the issuer, one of these backers, a watcher, or everybody may *)
Definition maySpeak (E : tenv) (aid pre : bytes) (baks : list bytes) : Prop :=
  tlax E = true \/ aid = pre \/ In aid baks \/ In aid (twats E).
(** the notice [r] says that the last event of registry or credential [id] is [d] at [n] *)
Definition saysReg (E : tenv) (r : reply) (id d : bytes) (n : N) : Prop := exists x, asReg E r = Some x /\ r_i x = id /\ r_d x = d /\ r_s x = n.
Definition saysVc (E : tenv) (r : reply) (id d : bytes) (n : N) : Prop := exists x, asVc E r = Some x /\ v_i x = id /\ v_d x = d /\ v_s x = n.
(** [d] is the event at [n] in the receiver's own log *)
Definition inLog (v : view) (id d : bytes) (n : N) : Prop := exists m, telAt v id n = Some (d, m).
(** the source may speak about a credential, by the receiver's records of its registry *)
Definition vcSource (E : tenv) (v : view) (r : reply) (aid : bytes) : Prop :=
  exists x t, asVc E r = Some x /\ tevers v (v_ri x) = Some t /\ v_ra x <= tv_sn t /\ knows v (tv_pre t) = true /\
    maySpeak E aid (tv_pre t) (if tv_nob t then wits v (tv_pre t) else tv_baks t).
(** the source may speak about a registry, by what the notice says of it *)
Definition regSource (E : tenv) (v : view) (r : reply) (aid : bytes) : Prop :=
  exists x, asReg E r = Some x /\ knows v (r_ii x) = true /\ maySpeak E aid (r_ii x) (if r_nob x then wits v (r_ii x) else r_b x).
(** the source may speak about a registry, by the receiver's records of it *)
Definition regTrusted (E : tenv) (v : view) (id aid : bytes) : Prop :=
  exists t, tevers v id = Some t /\ maySpeak E aid (tv_pre t) (if tv_nob t then wits v (tv_pre t) else tv_baks t).

(** logs only grow from event to event *)
Fixpoint grows (es : list ev) : Prop :=
  match es with
  | [] => True
  | e :: es => (forall e' id n x, In e' es -> telAt (viewOf e) id n = Some x -> telAt (viewOf e') id n = Some x) /\ grows es
  end.
(** no event of the registry is above its state *)
Definition capped (id : bytes) (v : view) : Prop := forall n x, telAt v id n = Some x -> exists t, tevers v id = Some t /\ n <= tv_sn t.
(** the recorded state of [id] by source [aid] is the event at [n], in a log that the receiver had *)
Definition recordedAt (es : list ev) (s : st) (id aid : bytes) (n : N) : Prop :=
  exists d e, current (B s) id aid = Some d /\ In e es /\ inLog (viewOf e) id d n.

(** a notice of the escrow, with a couple of a nontransferable source *)
Definition waiting (s : st) (t : etyp) (pre aid : bytes) (r : reply) (cg : cigar) : Prop :=
  In (t, pre, aid, q_said r) (nes (B s)) /\ dget (dts (B s)) (q_said r) = Some (q_dt r) /\ dget (sns (B s)) (q_said r) = Some r /\
  exists cs, dget (bcgs (B s)) (q_said r) = Some cs /\ In cg cs.
(** nothing of the notice is stored but what came with it *)
Definition proper (s : st) (r : reply) : Prop :=
  (dget (dts (B s)) (q_said r) = None \/ dget (dts (B s)) (q_said r) = Some (q_dt r)) /\
  (dget (sns (B s)) (q_said r) = None \/ dget (sns (B s)) (q_said r) = Some r).
(** no groups by transferable sources with it *)
Definition plain (s : st) (said : bytes) : Prop := fetchTsgs (bsgs (B s)) said None = [].
(** the couple is a good signature of the source *)
Definition good (E : tenv) (r : reply) (aid : bytes) (cg : cigar) : Prop :=
  c_key cg = aid /\ trans (rv E) aid = false /\ vrfy (rv E) aid (c_raw cg) (q_raw r) = true /\ ~ In aid (owns (rv E)).
(** digests of events are not digests of notices, and notices are stored under the one or the other *)
Definition apart (ds : bytes -> Prop) (s : st) : Prop :=
  (forall id aid d, current (B s) id aid = Some d -> ds d) /\ (forall k, dget (sdts (R s)) k <> None -> ~ ds k) /\
  (forall k r, dget (sns (B s)) k = Some r -> ~ ds (q_said r) /\ (k = q_said r \/ ds k)) /\
  (forall t pre aid d, In (t, pre, aid, d) (nes (B s)) -> ~ ds d).
Definition digests (ds : bytes -> Prop) (v : view) : Prop := forall id n d m, telAt v id n = Some (d, m) -> ds d.
(** no entry, and no notice, whose identifiers have dots *)
Definition dotless (E : tenv) (s : st) : Prop :=
  (forall t pre aid d, In (t, pre, aid, d) (nes (B s)) -> ~ In 46 pre /\ ~ In 46 aid) /\
  (forall k r, dget (sns (B s)) k = Some r -> (forall x, asReg E r = Some x -> ~ In 46 (r_i x)) /\ forall x, asVc E r = Some x -> ~ In 46 (v_i x)).

(** what the receiver lacks for the notice *)
Definition lacks (E : tenv) (v : view) (t : etyp) (r : reply) (aid : bytes) : Prop :=
  match t with
  | CredMre => exists x, asVc E r = Some x /\ forall u, tevers v (v_ri x) = Some u -> tv_sn u < v_ra x
  | CredMae => exists x u, asVc E r = Some x /\ tevers v (v_ri x) = Some u /\ v_ra x <= tv_sn u /\ knows v (tv_pre u) = false
  | CredOoo => vcSource E v r aid /\ forall x, asVc E r = Some x -> telAt v (v_i x) (v_s x) = None
  | RegMae => exists x, asReg E r = Some x /\ knows v (r_ii x) = false
  | RegOoo => regSource E v r aid /\ forall x, asReg E r = Some x ->
      telAt v (r_i x) (r_s x) = None /\ (forall u, tevers v (r_i x) = Some u -> tv_sn u <= r_s x)
  end.
(** it has all, and the notice says what its log says *)
Definition ready (E : tenv) (v : view) (reg : bool) (r : reply) (aid id d : bytes) : Prop :=
  if reg then regSource E v r aid /\ exists n, saysReg E r id d n /\ inLog v id d n /\ forall u, tevers v id = Some u -> tv_sn u <= n
  else vcSource E v r aid /\ exists n m, saysVc E r id d n /\ telAt v id n = Some (d, m) /\ m <= n.
(** the entry type fits the route of the notice *)
Definition onRoute (E : tenv) (t : etyp) (r : reply) (aid : bytes) : Prop :=
  q_route r = s2b (if isReg t then "/tsn/registry/" else "/tsn/credential/") ++ aid /\ aid <> [] /\ ~ In 47 aid.
(** the log that the notice is about *)
Definition about (E : tenv) (t : etyp) (r : reply) (id : bytes) : Prop :=
  if isReg t then exists x, asReg E r = Some x /\ r_i x = id else exists x, asVc E r = Some x /\ v_i x = id.
(** the query for what it lacks *)
Definition helps (E : tenv) (v : view) (t : etyp) (r : reply) (q : cue) : Prop :=
  match t with
  | CredMre => exists x, asVc E r = Some x /\ q = AskTel (v_ri x) None
  | CredMae => exists x u, asVc E r = Some x /\ tevers v (v_ri x) = Some u /\ q = AskKel (tv_pre u)
  | CredOoo => exists x, asVc E r = Some x /\ q = AskTel (v_ri x) (Some (v_i x))
  | RegMae => exists x, asReg E r = Some x /\ q = AskKel (r_ii x)
  | RegOoo => exists x, asReg E r = Some x /\ q = AskTel (r_i x) None
  end.
