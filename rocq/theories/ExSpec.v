(** Vocabulary of the statements about exchange messages. *)
From Verif Require Import Prelude SubsModel ThModel ThSpec JsonModel RpModel ExModel.
Open Scope N_scope.

(** Verified signatures on the message meet the threshold of the event of its sender at [sn] with digest
    [dig] in the receiver's copy of the sender's log. *)
Definition signedAt (e : xenv) (kv : xview) (x : xmsg) (sn : N) (dig : bytes) (sigs : list siger) : Prop :=
  exists ev ks th, xat kv (x_sender x) sn = Some ev /\ xe_said ev = dig /\ xe_keys ev = Some ks /\ xe_th ev = Some th /\
    NoDup (map sg_qb64 sigs) /\
    (forall s, In s sigs -> exists k, nth_error ks (N.to_nat (sg_index s)) = Some k /\ xvrfy e k (sg_raw s) (x_raw x) = true) /\
    satisfy th (map sg_index sigs) = true.
(** The message is signed by its sender: under a key state of a transferable sender, or with the key that is
    the sender's identifier. *)
Definition senderSigned (e : xenv) (kv : xview) (x : xmsg) : Prop :=
  (xtrans e (x_sender x) = true /\ exists sn dig sigs, signedAt e kv x sn dig sigs) \/
  (exists sig, xvrfy e (x_sender x) sig (x_raw x) = true).

(** The signatures of a group meet the threshold at the event of the sender that the group names; for an
    identifier that is its key, one of them verifies with it. *)
Definition groupSigned (e : xenv) (kv : xview) (x : xmsg) (g : group) : Prop :=
  if xtrans e (x_sender x) then exists sigs, incl sigs (g_sigs g) /\ signedAt e kv x (g_sn g) (g_dig g) sigs
  else exists s, In s (g_sigs g) /\ xvrfy e (x_sender x) (sg_raw s) (x_raw x) = true.

(** Histories of a receiver: deliveries, with any attachments and under any key event logs, and visits of any
    entry of the escrow, at any time. *)
Inductive xact :=
| Deliver (kv : xview) (now : N) (x : xmsg) (gs : list group) (cs : list cigar) (ptds es nests : list bytes)
| Visit (kv : xview) (now : N) (said : bytes).
Definition xviewOf (a : xact) : xview := match a with Deliver kv _ _ _ _ _ _ _ => kv | Visit kv _ _ => kv end.
Definition xrun (e : xenv) (routes : bytes -> option behavior) (a : xact) (d : xdb) : xdb :=
  match a with
  | Deliver kv now x gs cs ptds es nests => fst (processEvent e routes kv now x gs cs ptds es nests d)
  | Visit kv now said => sweep1 e routes kv now said d
  end.
(** last action first *)
Inductive xhist (e : xenv) (routes : bytes -> option behavior) : list xact -> xdb -> Prop :=
| xh_start : xhist e routes [] xdb0
| xh_step : forall l d a, xhist e routes l d -> xhist e routes (a :: l) (xrun e routes a d).

(** the message was delivered in the history *)
Definition delivered (l : list xact) (x : xmsg) : Prop := exists kv now gs cs ptds es nests, In (Deliver kv now x gs cs ptds es nests) l.
(** number of deliveries of messages with a said *)
Fixpoint deliveries (s : bytes) (l : list xact) : nat :=
  match l with
  | [] => 0
  | Deliver _ _ x _ _ _ _ _ :: l => (if beq (x_said x) s then 1 else 0) + deliveries s l
  | _ :: l => deliveries s l
  end.
(** number of times the behavior was given a message with a said *)
Definition handled (s : bytes) (d : xdb) : nat := List.length (filter (fun c => beq (x_said (fst c)) s) (calls d)).
(** the message is saved *)
Definition savedMsg (d : xdb) (x : xmsg) : Prop := dget (exns d) (x_said x) = Some x.
(** [d'] comes after [d] *)
Inductive after (e : xenv) (routes : bytes -> option behavior) (d : xdb) : xdb -> Prop :=
| af_same : after e routes d d
| af_step : forall d' a, after e routes d d' -> after e routes d (xrun e routes a d').

(** the behavior's own verification is passed: it says so, or there is none *)
Definition agreed (routes : bytes -> option behavior) (x : xmsg) (kw : xkwa) : Prop :=
  match routes (x_route x) with
  | None => True
  | Some (Other f _) => f x kw = BTrue \/ f x kw = BNone
  | Some Ipex => True
  end.
(** the attachment announced in the message is the one announced *)
Definition essrOk (e : xenv) (x : xmsg) (kw : xkwa) : Prop :=
  match x_essr x with None => True | Some dig => exists ser, kw_essr kw = Some ser /\ xdig e dig ser = Ok true end.

(** ** IPEX *)
Definition ipexVerbs : list string := ["apply"; "offer"; "agree"; "grant"; "admit"; "spurn"]%string.
Definition ipexRoute (verb : string) : bytes := s2b "/ipex/" ++ s2b verb.
(** the order of the exchange: (verb, verb it may answer) *)
Definition answers : list (string * string) :=
  [("offer", "apply"); ("agree", "offer"); ("grant", "agree"); ("admit", "grant");
   ("spurn", "apply"); ("spurn", "offer"); ("spurn", "agree"); ("spurn", "grant")]%string.
(** an IpexHandler is registered for all its routes *)
Definition ipexReady (routes : bytes -> option behavior) : Prop := forall v, In v ipexVerbs -> routes (ipexRoute v) = Some Ipex.
(** number of IPEX messages given to the handler as answers to the message [p] *)
Definition replies (p : bytes) (d : xdb) : nat :=
  List.length (filter (fun c => beq (x_prior (fst c)) p && memB (x_route (fst c)) (map ipexRoute ipexVerbs)) (calls d)).
(** events of a log have both keys and threshold or neither; reading a path raises no AttributeError *)
Definition logsOk (kv : xview) : Prop :=
  (forall p n ev, xat kv p n = Some ev -> (xe_keys ev = None <-> xe_th ev = None)).
Definition pathsOk (e : xenv) : Prop := forall p, xpath e p <> Err AttributeError.

(** ** Groups of signatures *)
(** the keys and threshold of [pre] at [sn], in the event with digest [dig] *)
Definition keysAt (e : xenv) (kv : xview) (pre : bytes) (sn : N) (dig : bytes) (ks : list bytes) (th : tholder) : Prop :=
  if xtrans e pre then exists ev, xat kv pre sn = Some ev /\ xe_said ev = dig /\ xe_keys ev = Some ks /\ xe_th ev = Some th
  else ks = [pre] /\ th = TNum 1.
(** a weighted threshold has a weight for each key *)
Definition fits (th : tholder) (ks : list bytes) : Prop := match th with TNum _ => True | TWt _ => threshold th /\ thsize th = len ks end.
(** signatures are read from their text *)
Definition asText (rd : bytes -> siger) (l : list siger) : Prop := forall s, In s l -> rd (sg_qb64 s) = s.
(** the group has signatures of the sender that are enough by the key event logs [kv] *)
Definition enough (e : xenv) (kv : xview) (x : xmsg) (g : group) : Prop :=
  g_pre g = x_sender x /\ (exists n, xcur kv (g_pre g) = Some n /\ g_sn g <= n) /\
  exists ks th vs, keysAt e kv (g_pre g) (g_sn g) (g_dig g) ks th /\ fits th ks /\
    incl vs (g_sigs g) /\ NoDup (map sg_qb64 vs) /\
    (forall s, In s vs -> exists k, nth_error ks (N.to_nat (sg_index s)) = Some k /\ xvrfy e k (sg_raw s) (x_raw x) = true) /\
    satisfy th (map sg_index vs) = true.

(** in the history messages with the said of [x] are [x], come with signature groups that are enough by [kv],
    and without couples *)
Definition honest (e : xenv) (rd : bytes -> siger) (kv : xview) (x : xmsg) (a : xact) : Prop :=
  match a with
  | Visit _ _ _ => True
  | Deliver _ _ y gs cs _ _ _ => x_said y = x_said x -> y = x /\ (forall g, In g gs -> asText rd (g_sigs g) /\ enough e kv x g) /\
                                 cs = []
  end.
(** no unindexed signatures *)
Definition coupleless (a : xact) : Prop := match a with Deliver _ _ _ _ cs _ _ _ => cs = [] | Visit _ _ _ => True end.

(** ** Delivery in parts *)
Definition about (a : xact) : bytes := match a with Deliver _ _ x _ _ _ _ _ => x_said x | Visit _ _ s => s end.
(** Actions, last first, that are deliveries of [x] with some signatures of its sender at [sn], visits of [x] in the
    escrow, or concern other messages; the signatures.  At each of them the event at [sn] is the one with digest
    [dig] or not yet known; [now] is at most ten seconds after the deliveries. *)
Inductive parts (e : xenv) (rd : bytes -> siger) (now : N) (x : xmsg) (sn : N) (dig : bytes) (ptds nests : list bytes) : list xact -> list siger -> Prop :=
| pt_start : parts e rd now x sn dig ptds nests [] []
| pt_part : forall kv t sigs l S, parts e rd now x sn dig ptds nests l S -> asText rd sigs -> now <= t + 10 ->
    ((match xcur kv (x_sender x) with None => True | Some n => n < sn end) \/ (exists ks th, keysAt e kv (x_sender x) sn dig ks th)) ->
    parts e rd now x sn dig ptds nests (Deliver kv t x [mkG (x_sender x) sn dig sigs] [] ptds [] nests :: l) (S ++ sigs)
| pt_visit : forall kv t l S, parts e rd now x sn dig ptds nests l S -> t <= now ->
    ((match xcur kv (x_sender x) with None => True | Some n => n < sn end) \/ (exists ks th, keysAt e kv (x_sender x) sn dig ks th)) ->
    parts e rd now x sn dig ptds nests (Visit kv t (x_said x) :: l) S
| pt_other : forall a l S, parts e rd now x sn dig ptds nests l S -> about a <> x_said x -> parts e rd now x sn dig ptds nests (a :: l) S.
Definition xruns (e : xenv) (routes : bytes -> option behavior) (l : list xact) (d : xdb) : xdb := fold_right (xrun e routes) d l.
(** nothing is recorded for the said *)
Definition fresh (s : bytes) (d : xdb) : Prop :=
  dget (exns d) s = None /\ dget (epse d) s = None /\ dget (epsd d) s = None /\ dget (epath d) s = None /\
  dget (enst d) s = None /\ dget (essrs d) s = None /\ (forall t, In t (esigs d) -> t_said t <> s).
(** the message is acceptable to the behavior registered for its route *)
Definition welcome (routes : bytes -> option behavior) (x : xmsg) (kw : xkwa) : Prop :=
  match routes (x_route x) with
  | None => True
  | Some (Other f _) => f x kw = BTrue
  | Some Ipex => x_prior x = [] /\ (exists v, In v ["apply"; "offer"; "grant"]%string /\ x_route x = ipexRoute v) /\ kw_nests kw = None
  end.
