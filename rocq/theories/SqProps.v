(** Properties of signals to the controller. *)
From Verif Require Import Prelude SqModel SqSpec SqProofs SqThms.
From Coq Require Import Lia Sorting.Sorted Permutation.
Open Scope N_scope.

(** C139.  No signal is delivered twice, to one reader or to two, and one delivered does not wait any more. *)
Theorem C139_once : forall ops, NoDup (map (fun x => g_id (snd x)) (out (run ops))) /\
  forall r g h, In (r, g) (out (run ops)) -> In h (sigs (run ops)) -> g_id g <> g_id h.
Proof. exact c139_once. Qed.
Print Assumptions C139_once.

(** C139.  What is delivered or waits was pushed, with this topic, key and time; signals of different pushes have different
    numbers. *)
Theorem C139_origin : forall ops g, (exists r, In (r, g) (out (run ops))) \/ In g (sigs (run ops)) ->
  exists o1 o2, ops = o1 ++ Push (g_key g) (g_topic g) (g_dt g) :: o2 /\ g = pushedBy o1 (g_key g) (g_topic g) (g_dt g).
Proof. exact c139_origin. Qed.
Print Assumptions C139_origin.

(** C139.  A pushed signal waits; and if it has no key or no signal of its key waits, behind all others, none of which is lost. *)
Theorem C139_pushed : forall ops k t d, In (pushedBy ops k t d) (sigs (run (ops ++ [Push k t d]))) /\
  ((forall k' g, k = Some k' -> In g (sigs (run ops)) -> g_key g <> Some k') -> sigs (run (ops ++ [Push k t d])) = sigs (run ops) ++ [pushedBy ops k t d]).
Proof. exact c139_pushed. Qed.
Print Assumptions C139_pushed.

(** C139.  A waiting signal goes on waiting unless it is delivered, replaced by a newer one of its key that waits instead, too
    old, or read together with a signal without topic. *)
Theorem C139_kept_partial : forall ops o g, In g (sigs (run ops)) ->
  In g (sigs (run (ops ++ [o]))) \/
  (exists r, o = Read r /\ In (r, g) (out (run (ops ++ [o])))) \/
  (exists k t d, o = Push (Some k) t d /\ g_key g = Some k /\ In (pushedBy ops (Some k) t d) (sigs (run (ops ++ [o])))) \/
  (expiry o /\ tooOld (ops ++ [o]) g) \/
  (exists r, o = Read r /\ ~ topical (sigs (run ops))).
Proof. exact c139_kept_partial. Qed.
Print Assumptions C139_kept_partial.

(** C139.  A read hands all waiting signals to the reader, in order, if they have topics. *)
Theorem C139_read : forall ops r, topical (sigs (run ops)) ->
  out (run (ops ++ [Read r])) = out (run ops) ++ map (pair r) (sigs (run ops)) /\ sigs (run (ops ++ [Read r])) = [].
Proof. exact c139_read. Qed.
Print Assumptions C139_read.

(** C139.  A waiting signal is the newest of its collapse key, so there is only one for a key. *)
Theorem C139_newest : forall ops g k, In g (sigs (run ops)) -> g_key g = Some k ->
  (exists o1 t d o2, ops = o1 ++ Push (Some k) t d :: o2 /\ g = pushedBy o1 (Some k) t d /\ Forall (fun o => ~ pushKey k o) o2) /\
  forall h, In h (sigs (run ops)) -> g_key h = Some k -> h = g.
Proof. exact c139_newest. Qed.
Print Assumptions C139_newest.

(** C139.  Without collapse keys signals are delivered in the order they were pushed, whoever reads. *)
Theorem C139_order_partial : forall ops, (forall k, Forall (fun o => ~ pushKey k o) ops) ->
  StronglySorted N.lt (map g_id (map snd (out (run ops)) ++ sigs (run ops))).
Proof. exact c139_order_partial. Qed.
Print Assumptions C139_order_partial.

Example C139_example : out (run h1) = [(1, mkSig 2 (Some 7) (Some 2) 1100); (2, mkSig 3 None (Some 1) 1200)] /\ sigs (run h1) = [] /\
  sigs (run (firstn 4 h1)) = [mkSig 0 None (Some 1) 100; mkSig 1 (Some 7) (Some 2) 1000] /\ topical (sigs (run (firstn 4 h1))) /\
  sigs (run (firstn 5 h1)) = [mkSig 1 (Some 7) (Some 2) 1000] /\ tooOld (firstn 5 h1) (mkSig 0 None (Some 1) 100) /\
  sigs (run (firstn 6 h1)) = [mkSig 2 (Some 7) (Some 2) 1100].
Proof.
  split; [reflexivity|]. split; [reflexivity|]. split; [reflexivity|]. split.
  { change (topical [mkSig 0 None (Some 1) 100; mkSig 1 (Some 7) (Some 2) 1000]). repeat (apply Forall_cons; [discriminate|]). apply Forall_nil. }
  split; [reflexivity|]. split; [|reflexivity]. exists 1100. split; [cbn; auto|reflexivity].
Qed.

Example C139_order_example : (forall k, Forall (fun o => ~ pushKey k o) [Push None (Some 1) 5; Read 1; Push None (Some 1) 6; Exp 7; Push None (Some 2) 6]) .
Proof. intros k. repeat (apply Forall_cons; [intros (t & d & Z); discriminate Z|]). apply Forall_nil. Qed.

(** C139, refuted for signals without topic: reading raises, and the signals taken before it are lost with it. *)
Theorem C139_topic_refuted : (forall ops r l1 g l2, sigs (run ops) = l1 ++ g :: l2 -> g_topic g = None -> topical l1 ->
    out (run (ops ++ [Read r])) = out (run ops) /\ sigs (run (ops ++ [Read r])) = l2) /\
  let ops := [Push None (Some 1) 5; Push None None 5; Push None (Some 1) 5; Read 1; Read 1] in
  map g_id (sigs (run (firstn 3 ops))) = [0; 1; 2] /\ map (fun x => g_id (snd x)) (out (run ops)) = [2] /\ sigs (run ops) = [].
Proof. exact c139_topic_refuted. Qed.
Print Assumptions C139_topic_refuted.

(** C139, refuted for the order with collapse keys: a signal that replaces one that waits gets ahead of those pushed before it. *)
Theorem C139_order_refuted : (forall ops k t d l1 h l2, sigs (run ops) = l1 ++ h :: l2 -> g_key h = Some k ->
    sigs (run (ops ++ [Push (Some k) t d])) = l1 ++ pushedBy ops (Some k) t d :: l2) /\
  map (fun x => g_id (snd x)) (out (run [Push (Some 7) (Some 1) 5; Push None (Some 1) 5; Push (Some 7) (Some 1) 6; Read 1])) = [2; 1].
Proof. exact c139_order_refuted. Qed.
Print Assumptions C139_order_refuted.

(** C140.  A pass that nobody disturbs, one turn for each waiting signal and one more, removes exactly the signals that were too
    old when it began, delivers nothing, and the next pass can begin.  Partial: passes that are disturbed. *)
Theorem C140_pass_partial : forall ops now nows, expd (run ops) = Rest -> List.length nows = List.length (sigs (run ops)) ->
  let s' := run (ops ++ map Exp (now :: nows)) in
  expd s' = Rest /\ out s' = out (run ops) /\ forall g, In g (sigs s') <-> In g (sigs (run ops)) /\ ~ timeout + g_dt g < now.
Proof. exact c140_pass_partial. Qed.
Print Assumptions C140_pass_partial.

Example C140_pass_example : let ops := [Push None (Some 1) 100; Push (Some 7) (Some 2) 1000; Push None (Some 3) 200] in
  expd (run ops) = Rest /\ List.length [1101; 1102; 1103] = List.length (sigs (run ops)) /\
  map g_id (sigs (run (ops ++ map Exp (1100 :: [1101; 1102; 1103])))) = [1].
Proof. split; [reflexivity|]. split; reflexivity. Qed.

(** C140, refuted: if a signal is pushed or signals are read while a pass goes on, the expiry ends with an exception at its next
    turn, and nothing expires ever after. *)
Theorem C140_disturbed_refuted : (forall ops n v i old o now ops', expd (run ops) = Scan n v i old ->
    ((exists t d, o = Push None t d) \/ (exists k t d, o = Push (Some k) t d /\ forall g, In g (sigs (run ops)) -> g_key g <> Some k) \/ (exists r, o = Read r /\ sigs (run ops) <> [])) ->
    expd (run (ops ++ o :: Exp now :: ops')) = Dead) /\
  (forall ops ops' now, expd (run ops) = Dead -> expd (run (ops ++ ops')) = Dead /\ sigs (run (ops ++ [Exp now])) = sigs (run ops)) /\
  expd (run [Push None (Some 1) 5; Exp 6; Push None (Some 1) 6; Exp 7]) = Dead /\
  expd (run [Push None (Some 1) 5; Exp 6; Read 1; Exp 7]) = Dead /\
  forall n, sigs (run ([Push None (Some 1) 5; Exp 6; Push None (Some 1) 6; Exp 7] ++ repeat (Exp 100000) n)) = [mkSig 0 None (Some 1) 5; mkSig 1 None (Some 1) 6].
Proof. exact c140_disturbed_refuted. Qed.
Print Assumptions C140_disturbed_refuted.

(** C140, refuted for a signal found too old and then replaced during the pass: removing it raises, and the expiry ends. *)
Theorem C140_replaced_refuted : (forall ops n v i old g now, expd (run ops) = Scan n v i old -> vers (run ops) = v -> nth_error (sigs (run ops)) i = None ->
    In g old -> (forall h, In h (sigs (run ops)) -> g_id h <> g_id g) -> expd (run (ops ++ [Exp now])) = Dead) /\
  let ops := [Push (Some 7) (Some 1) 5; Exp 1000; Push (Some 7) (Some 1) 1000] in
  expd (run ops) = Scan 1000 1 1 [mkSig 0 (Some 7) (Some 1) 5] /\ vers (run ops) = 1 /\ sigs (run ops) = [mkSig 1 (Some 7) (Some 1) 1000] /\
  expd (run (ops ++ [Exp 1001])) = Dead.
Proof. exact c140_replaced_refuted. Qed.
Print Assumptions C140_replaced_refuted.
