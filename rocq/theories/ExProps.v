(** exchange messages *)
From Verif Require Import Prelude B64Model SubsModel ThModel ThSpec ThThms JsonModel JsonProofs Lex SerProofs RpModel RpProofs ExModel ExSpec ExProofs ExProofs2 ExProofs3 ExThms.
Open Scope N_scope.

(** C75. In any history of deliveries and escrow visits a saved message was delivered, is filed under its own
    said, was signed by its sender by the receiver's key event logs at that time, has the attachment it
    announces, and was approved by the behavior of its route. *)
Theorem C75_saved_signed : forall e routes l d s x, xhist e routes l d -> dget (exns d) s = Some x ->
  x_said x = s /\ delivered l x /\
  exists a kw, In a l /\ senderSigned e (xviewOf a) x /\ essrOk e x kw /\ agreed routes x kw.
Proof. exact c75_saved_signed. Qed.
Print Assumptions C75_saved_signed.

(** C75. The same for every message given to a behavior, and for every message announced as saved. *)
Theorem C75_handled_signed : forall e routes l d x kw, xhist e routes l d -> In (x, kw) (calls d) ->
  delivered l x /\ essrOk e x kw /\ agreed routes x kw /\ exists a, In a l /\ senderSigned e (xviewOf a) x.
Proof. exact c75_handled_signed. Qed.
Print Assumptions C75_handled_signed.

Theorem C75_announced_signed : forall e routes l d s, xhist e routes l d -> In s (scues d) ->
  exists x a, x_said x = s /\ delivered l x /\ In a l /\ senderSigned e (xviewOf a) x.
Proof. exact c75_announced_signed. Qed.
Print Assumptions C75_announced_signed.

(** C75. When a delivery gets a message saved, every group of signatures that came with it is of the sender and
    has enough verified signatures of the sender; without groups, every unindexed signature is the sender's. *)
Theorem C75_every_group : forall e routes kv now x gs cs ptds es nests d d' r, processEvent e routes kv now x gs cs ptds es nests d = (d', r) ->
  scues d' <> scues d \/ exns d' <> exns d \/ calls d' <> calls d ->
  (gs <> [] \/ cs <> []) /\ (forall g, In g gs -> g_pre g = x_sender x /\ groupSigned e kv x g) /\
  (gs = [] -> forall c, In c cs -> c_key c = x_sender x /\ xvrfy e (x_sender x) (c_raw c) (x_raw x) = true).
Proof. exact c75_every_group. Qed.
Print Assumptions C75_every_group.

(** C76. What is saved under a said stays, whatever happens later, and counts as complete. *)
Theorem C76_saved_stays : forall e routes l d d' x, xhist e routes l d -> savedMsg d x -> after e routes d d' ->
  savedMsg d' x /\ complete (x_said x) d' = Ok true.
Proof. exact c76_saved_stays. Qed.
Print Assumptions C76_saved_stays.

(** C77. If all deliveries of the message came with enough indexed signatures by the receiver's logs [kv], a saved
    message is cloned under [kv]. *)
Theorem C77_clone_partial : forall e routes rd kv x l d, xhist e routes l d -> (forall a, In a l -> honest e rd kv x a) ->
  savedMsg d x -> (forall p, exists o, xpath e p = Ok o) -> exists ps, clone e kv (x_said x) d = Ok (Some (x, ps)).
Proof. exact c77_clone_partial. Qed.
Print Assumptions C77_clone_partial.

(** C78. A message that arrives in parts, each with some signatures of the sender's event at [sn], is saved and
    given to its behavior by the next pass over the escrow, if that comes within ten seconds, all signatures
    together are enough, and the behavior agrees; whatever visits the escrow has had before, and whatever happens
    to other messages meanwhile. *)
Theorem C78_parts_partial : forall e routes rd kv now x sn dig ptds nests kw l0 d l S,
  xhist e routes l0 d -> fresh (x_said x) d -> parts e rd now x sn dig ptds nests l S ->
  enough e kv x (mkG (x_sender x) sn dig S) -> kwargs e x ptds [] nests = Ok kw -> welcome routes x kw -> NoDup ptds -> NoDup nests ->
  let d' := sweep e routes kv now (xruns e routes l d) in
  savedMsg d' x /\ (routes (x_route x) <> None -> In (x, kw) (calls d')).
Proof. exact c78_parts_partial. Qed.
Print Assumptions C78_parts_partial.

(** C79. A behavior is given messages with a said at most as often as they were delivered, if handling never
    fails with a missing signature. *)
Theorem C79_at_most_delivered : forall e routes l d s, xhist e routes l d ->
  (forall x kw, handleOf e routes x kw <> Err MissingSignatureError) -> (handled s d <= deliveries s l)%nat.
Proof. exact c79_at_most_delivered. Qed.
Print Assumptions C79_at_most_delivered.

(** C80. If no message ever came with unindexed signatures: a saved IPEX message without prior opens an exchange; one with a prior answers a saved message, of the
    right verb if that is an IPEX message. *)
Theorem C80_answers_partial : forall e routes l d x v, ipexReady routes -> pathsOk e -> xhist e routes l d -> (forall a, In a l -> coupleless a) -> (forall a, In a l -> logsOk (xviewOf a)) ->
  savedMsg d x -> In v ipexVerbs -> x_route x = ipexRoute v ->
  (x_prior x = [] -> In v ["apply"; "offer"; "grant"]%string) /\
  (x_prior x <> [] -> exists p, dget (exns d) (x_prior x) = Some p /\ x_said p = x_prior x /\
     forall w, In w ipexVerbs -> x_route p = ipexRoute w -> In (v, w) answers).
Proof. exact c80_answers_partial. Qed.
Print Assumptions C80_answers_partial.

(** C80. Then also at most one IPEX answer to a message is given to the handler, and at most one is saved. *)
Theorem C80_one_answer_partial : forall e routes l d p, ipexReady routes -> pathsOk e -> xhist e routes l d -> (forall a, In a l -> coupleless a) -> (forall a, In a l -> logsOk (xviewOf a)) ->
  p <> [] -> (replies p d <= 1)%nat.
Proof. exact c80_one_answer_partial. Qed.
Print Assumptions C80_one_answer_partial.

Theorem C80_one_saved_partial : forall e routes l d x y v w, ipexReady routes -> pathsOk e -> xhist e routes l d -> (forall a, In a l -> coupleless a) -> (forall a, In a l -> logsOk (xviewOf a)) ->
  savedMsg d x -> savedMsg d y -> In v ipexVerbs -> In w ipexVerbs -> x_route x = ipexRoute v -> x_route y = ipexRoute w ->
  x_prior x = x_prior y -> x_prior x <> [] -> x = y.
Proof. exact c80_one_saved_partial. Qed.
Print Assumptions C80_one_saved_partial.

Example C75_example : xhist xe1 kinds [send note] (ran [send note]) /\ dget (exns (ran [send note])) (s2b "x1") = Some note /\
  exists kw, In (note, kw) (calls (ran [send note])).
Proof. split; [apply ran_hist|]. split; [vm_compute; reflexivity|]. eexists. vm_compute. left. reflexivity. Qed.

Example C75_every_group_example : exists d', processEvent xe1 kinds v0 1 note [both note] [] [] [] [] xdb0 = (d', Ok tt) /\ scues d' <> scues xdb0.
Proof. eexists. split; [vm_compute; reflexivity|vm_compute; discriminate]. Qed.

(** C75. A message is saved and handled although the verification of its behavior fails with an AttributeError. *)
Theorem C75_failed_verification_refuted : exists routes f h x d, routes (x_route x) = Some (Other f h) /\ (forall kw, f x kw = BNone) /\
  xhist xe1 routes [send x] d /\ savedMsg d x /\ (handled (x_said x) d = 1)%nat.
Proof. exact c75_failed_verification_refuted. Qed.
Print Assumptions C75_failed_verification_refuted.

(** C75. Signatures with keys that the sender has rotated out are accepted. *)
Theorem C75_superseded_keys_refuted : exists x d, xcur v1 (x_sender x) = Some 1 /\
  (forall sigs, ~ exists dig, signedAt xe1 v1 x 1 dig sigs /\ incl sigs (g_sigs (both x))) /\
  xhist xe1 kinds [Deliver v1 1 x [both x] [] [] [] []] d /\ savedMsg d x.
Proof. exact c75_superseded_keys_refuted. Qed.
Print Assumptions C75_superseded_keys_refuted.

Theorem C75_couple_of_transferable_refuted : exists x c d, xtrans xeD (x_sender x) = true /\
  (exists ev, xcur vD (x_sender x) = Some 1 /\ xat vD (x_sender x) 1 = Some ev /\ xe_keys ev = Some [s2b "L0"]) /\ c_key c <> s2b "L0" /\
  xhist xeD kinds [Deliver vD 1 x [] [c] [] [] []] d /\ savedMsg d x.
Proof. exact c75_couple_of_transferable_refuted. Qed.
Print Assumptions C75_couple_of_transferable_refuted.

Example C76_example : xhist xe1 kinds [send note] (ran [send note]) /\ savedMsg (ran [send note]) note /\
  after xe1 kinds (ran [send note]) (ran [send (ms "x2" "E" "/note" ""); send note]).
Proof. split; [apply ran_hist|]. split; [vm_compute; reflexivity|]. change (ran [send (ms "x2" "E" "/note" ""); send note]) with (xrun xe1 kinds (send (ms "x2" "E" "/note" "")) (ran [send note])). constructor. constructor. Qed.

(** C76. The attachments of a saved message do not stay: a delivery of the message without signatures, which is
    not accepted, replaces them. *)
Theorem C76_attachments_refuted : exists x a a2 l d, xhist xe1 kinds l d /\ savedMsg d x /\ vget (epath d) (x_said x) = [a] /\
  snd (processEvent xe1 kinds v0 2 x [] [] [a2] [] [] d) = Err MissingSignatureError /\
  vget (epath (xrun xe1 kinds (Deliver v0 2 x [] [] [a2] [] []) d)) (x_said x) = [a2] /\ a <> a2.
Proof. exact c76_attachments_refuted. Qed.
Print Assumptions C76_attachments_refuted.

Example C77_example : xhist xe1 kinds [send note] (ran [send note]) /\ (forall a, In a [send note] -> honest xe1 rdS v0 note a) /\
  savedMsg (ran [send note]) note /\ (forall p, exists o, xpath xe1 p = Ok o).
Proof.
  split; [apply ran_hist|]. split; [|split; [vm_compute; reflexivity|intros p; eexists; reflexivity]]. intros a [<-|[]] _. split; [reflexivity|]. split; [|reflexivity].
  intros g [<-|[]]. apply (enough_both note eq_refl _ eq_refl).
Qed.

(** C77. Anyone can keep a saved message from being read back: a group that names a later event of the sender is
    stored, though its delivery is not accepted. *)
Theorem C77_bogus_group_refuted : exists x g l d, xhist xe1 kinds l d /\ savedMsg d x /\ clone xe1 v0 (x_said x) d = Ok (Some (x, [])) /\
  snd (processEvent xe1 kinds v0 2 x [g] [] [] [] [] d) = Err MissingSignatureError /\
  (forall s k, In s (g_sigs g) -> In k [s2b "K0"; s2b "K1"] -> xvrfy xe1 k (sg_raw s) (x_raw x) = false) /\
  clone xe1 v0 (x_said x) (xrun xe1 kinds (Deliver v0 2 x [g] [] [] [] []) d) = Err MissingSignatureError.
Proof. exact c77_bogus_group_refuted. Qed.
Print Assumptions C77_bogus_group_refuted.

(** C77. A message that its sender signed with their unindexed signature is saved but cannot be read back. *)
Theorem C77_couple_refuted : exists x c d, xtrans xe1 (x_sender x) = false /\ c_key c = x_sender x /\ xvrfy xe1 (c_key c) (c_raw c) (x_raw x) = true /\
  xhist xe1 kinds [Deliver v0 1 x [] [c] [] [] []] d /\ savedMsg d x /\ forall kv, clone xe1 kv (x_said x) d = Err AttributeError.
Proof. exact c77_couple_refuted. Qed.
Print Assumptions C77_couple_refuted.

(** C77. Unindexed signatures next to a group are not verified but stored, and then fail when read back. *)
Theorem C77_unverified_couple_refuted : exists x c d, xhist xe1 kinds [Deliver v0 1 x [both x] [c] [] [] []] d /\ savedMsg d x /\
  clone xe1 v0 (x_said x) d = Err AttributeError.
Proof. exact c77_unverified_couple_refuted. Qed.
Print Assumptions C77_unverified_couple_refuted.

Example C78_example : xhist xe1 kinds [] xdb0 /\ fresh (s2b "x1") xdb0 /\ parts xe1 rdS 9 note 0 (s2b "E0") [] [] halves [sgn 0 "K0" note; sgn 1 "K1" note] /\
  enough xe1 v0 note (mkG (s2b "E") 0 (s2b "E0") [sgn 0 "K0" note; sgn 1 "K1" note]) /\
  (exists kw, kwargs xe1 note [] [] [] = Ok kw /\ welcome kinds note kw) /\ savedMsg (ran halves) note = (None = Some note).
Proof.
  split; [constructor|]. split; [unfold fresh; cbn; auto 10|]. split.
  - assert (T0 : forall i k, asText rdS [sgn i k note]) by (intros i k s [<-|[]]; reflexivity).
    pose proof (pt_part xe1 rdS 9 note 0 (s2b "E0") [] [] vNone 1 [sgn 0 "K0" note] [] [] (pt_start _ _ _ _ _ _ _ _) (T0 0 _) ltac:(lia) (or_introl Logic.I)) as P1.
    assert (KA : exists ks th, keysAt xe1 v0 (x_sender note) 0 (s2b "E0") ks th) by (eexists; eexists; unfold keysAt; cbn; eexists; repeat split; reflexivity).
    pose proof (pt_visit xe1 rdS 9 note 0 (s2b "E0") [] [] v0 2 _ _ P1 ltac:(lia) (or_intror KA)) as P1'.
    pose proof (pt_other xe1 rdS 9 note 0 (s2b "E0") [] [] (Visit v0 3 (s2b "x2")) _ _ P1' ltac:(discriminate)) as P2.
    exact (pt_part xe1 rdS 9 note 0 (s2b "E0") [] [] v0 5 [sgn 1 "K1" note] _ _ P2 (T0 1 _) ltac:(lia) (or_intror KA)).
  - split; [apply (enough_both note eq_refl _ eq_refl)|]. split; [|vm_compute; reflexivity]. eexists. split; [reflexivity|reflexivity].
Qed.

Theorem C78_essr_refuted :
  let wait := xrun xe1 kinds (Deliver vNone 1 essr1 [both essr1] [] [] [s2b "blob"] []) xdb0 in
  savedMsg (xrun xe1 kinds (Deliver v0 1 essr1 [both essr1] [] [] [s2b "blob"] []) xdb0) essr1 /\
  dget (epse wait) (s2b "x1") = Some essr1 /\
  dget (epse (sweep xe1 kinds v0 2 wait)) (s2b "x1") = None /\ dget (exns (sweep xe1 kinds v0 2 wait)) (s2b "x1") = None.
Proof. exact c78_essr_refuted. Qed.
Print Assumptions C78_essr_refuted.

(** C78. A complete message is never accepted from the escrow once a stranger has added a group to it there. *)
Theorem C78_foreign_group_refuted : exists g l, g_sigs g = [mkSiger (s2b "junk") 0 (s2b "junk")] /\
  l = [Deliver v0 2 note [half 1 "K1" note] [] [] [] []; Deliver v0 1 note [g] [] [] [] []; Deliver v0 1 note [half 0 "K0" note] [] [] [] []] /\
  dget (exns (sweep xe1 kinds v0 3 (ran l))) (s2b "x1") = None /\
  savedMsg (sweep xe1 kinds v0 3 (ran [Deliver v0 2 note [half 1 "K1" note] [] [] [] []; Deliver v0 1 note [half 0 "K0" note] [] [] [] []])) note.
Proof. exact c78_foreign_group_refuted. Qed.
Print Assumptions C78_foreign_group_refuted.

Example C79_example : xhist xe1 kinds [send note] (ran [send note]) /\ (forall x kw, handleOf xe1 kinds x kw <> Err MissingSignatureError) /\ (handled (s2b "x1") (ran [send note]) = 1)%nat.
Proof.
  split; [apply ran_hist|]. split; [|vm_compute; reflexivity]. intros x kw. unfold handleOf, kinds. destruct (memB (x_route x) (map ipexRoute ipexVerbs)); [destruct (kw_nests kw); [discriminate|]; destruct (kw_essr kw); discriminate|].
  destruct (beq (x_route x) (s2b "/note")); [discriminate|]. destruct (beq (x_route x) (s2b "/flaky")); discriminate.
Qed.

(** C79. A message is not handled only once: anyone can deliver it again. *)
Theorem C79_once_refuted : exists x l d, xhist xe1 kinds l d /\ l = [send x; send x] /\ (handled (x_said x) d = 2)%nat.
Proof. exact c79_once_refuted. Qed.
Print Assumptions C79_once_refuted.

Example C80_example : ipexReady kinds /\ pathsOk xe1 /\ xhist xe1 kinds [send offer1; send apply1] (ran [send offer1; send apply1]) /\
  (forall a, In a [send offer1; send apply1] -> coupleless a) /\ (forall a, In a [send offer1; send apply1] -> logsOk (xviewOf a)) /\ savedMsg (ran [send offer1; send apply1]) offer1 /\
  x_route offer1 = ipexRoute "offer" /\ replies (s2b "x1") (ran [send offer1; send apply1]) = 1%nat.
Proof.
  split; [apply kinds_ready|]. split; [intros p; discriminate|]. split; [apply ran_hist|]. split; [intros a [<-|[<-|[]]]; reflexivity|]. split; [intros a [<-|[<-|[]]]; apply v0_logs|]. split; [vm_compute; reflexivity|]. split; vm_compute; reflexivity.
Qed.

(** C80. The message that is answered need not be an IPEX message: any route that ends in the right verb will do. *)
Theorem C80_other_route_refuted : exists x p d, xhist xe1 kinds [send x; send p] d /\ savedMsg d x /\ x_route x = ipexRoute "admit" /\ x_prior x = x_said p /\
  savedMsg d p /\ kinds (x_route p) = None /\ forall w, x_route p <> ipexRoute w.
Proof. exact c80_other_route_refuted. Qed.
Print Assumptions C80_other_route_refuted.

Theorem C80_blocked_refuted : exists y x p, x_sender y <> x_sender x /\ (forall w, x_route y <> ipexRoute w) /\
  savedMsg (ran [sendF x; sendF p]) x /\ dget (exns (ran [sendF x; byEF y; sendF p])) (x_said x) = None.
Proof. exact c80_blocked_refuted. Qed.
Print Assumptions C80_blocked_refuted.

Theorem C80_couple_refuted : exists p x y, x_sender p = s2b "F" /\ xtrans xe1 (x_sender p) = false /\ x_route p = ipexRoute "apply" /\
  x_route x = ipexRoute "admit" /\ x_route y = ipexRoute "agree" /\ x_prior x = x_said p /\ x_prior y = x_said p /\ x <> y /\
  savedMsg (ran [send y; send x; byF p]) x /\ savedMsg (ran [send y; send x; byF p]) y /\ replies (x_said p) (ran [send y; send x; byF p]) = 2%nat.
Proof. exact c80_couple_refuted. Qed.
Print Assumptions C80_couple_refuted.

Theorem C80_couple_answer_refuted : exists p y x x', x_sender y = s2b "F" /\ xtrans xe1 (x_sender y) = false /\ (forall w, x_route y <> ipexRoute w) /\
  x_sender p = s2b "E" /\ x_prior x = x_said p /\ x_prior x' = x_said p /\ x <> x' /\
  dget (exns (ran [send x'; send x; send p])) (x_said x') = None /\
  savedMsg (ran [send x'; byF y; send x; send p]) x /\ savedMsg (ran [send x'; byF y; send x; send p]) x' /\ replies (x_said p) (ran [send x'; byF y; send x; send p]) = 2%nat.
Proof. exact c80_couple_answer_refuted. Qed.
Print Assumptions C80_couple_answer_refuted.
