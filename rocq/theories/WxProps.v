(** Properties of gathering receipts with WitnessReceiptor. *)
From Verif Require Import Prelude GrModel WxModel WxSpec WxProofs WxThms.
From Coq Require Import Lia.
Open Scope N_scope.

(** C143.  If the first complete set of receipts arrived in the order of the witness list, every witness is sent a signature of every
    other and none of its own.  Partial: other orders. *)
Theorem C143_order_partial : forall J st o1 aw o2, j_wits J <> [] ->
  Forall (fun l => List.length l <> List.length (j_wits J)) (st :: o1) -> inOrder J aw ->
  let x := receiptDo J st (o1 ++ aw :: o2) in
  snd x = Cued /\ forall w v, In w (j_wits J) -> In v (j_wits J) -> (gets J (fst x) w v <-> v <> w).
Proof. exact c143_order_partial. Qed.
Print Assumptions C143_order_partial.

Example C143_order_example : j_wits J3 <> [] /\ Forall (fun l : list wiger => List.length l <> List.length (j_wits J3)) [[]; [s1]] /\ inOrder J3 [s1; s2; s3] /\
  receiptDo J3 [] ([[s1]] ++ [s1; s2; s3] :: []) = ([Post 1; Post 2; Post 3; Spread 1 [s2; s3]; Spread 2 [s1; s3]; Spread 3 [s1; s2]], Cued).
Proof.
  split; [discriminate|]. split; [repeat (apply Forall_cons; [discriminate|]); apply Forall_nil|]. split; [|reflexivity].
  split; [reflexivity|]. intros [|[|[|i]]] g H; cbn in H; try (inversion H; subst; reflexivity). destruct i; discriminate H.
Qed.

(** C143, refuted for other orders of arrival: a witness whose place in the order of arrival is taken by the signature of another does
    not get that signature, and gets its own if that arrived at another place. *)
Theorem C143_order_refuted : (forall J st o1 aw o2 i w v g, NoDup (j_wits J) -> Forall (fun l => List.length l <> List.length (j_wits J)) (st :: o1) ->
    List.length aw = List.length (j_wits J) -> NoDup aw -> nth_error (j_wits J) i = Some w -> nth_error aw i = Some g -> sigOf J g v -> v <> w ->
    ((forall h, In h aw -> sigOf J h v -> h = g) -> ~ gets J (fst (receiptDo J st (o1 ++ aw :: o2))) w v) /\
    ((exists h, In h aw /\ sigOf J h w) -> gets J (fst (receiptDo J st (o1 ++ aw :: o2))) w w)) /\
  receiptDo J3 [] [[s2]; [s2; s1]; [s2; s1; s3]] = ([Post 1; Post 2; Post 3; Spread 1 [s1; s3]; Spread 2 [s2; s3]; Spread 3 [s2; s1]], Cued) /\
  ~ gets J3 (fst (receiptDo J3 [] [[s2]; [s2; s1]; [s2; s1; s3]])) 1 2 /\ gets J3 (fst (receiptDo J3 [] [[s2]; [s2; s1]; [s2; s1; s3]])) 1 1.
Proof. exact c143_order_refuted. Qed.
Print Assumptions C143_order_refuted.

(** C143.  The event is submitted to every witness unless there are as many signatures as witnesses; a witness added by the event, of
    whatever type, or by an inception is sent the log just before. *)
Theorem C143_submitted : forall J st obs w, List.length st <> List.length (j_wits J) -> In w (j_wits J) ->
  exists l1 l2, fst (receiptDo J st obs) = l1 ++ Post w :: l2 /\
    (j_kind J = Kicp \/ j_kind J = Kdip \/ In w (j_adds J) -> exists l0, l1 = l0 ++ [Catch w]).
Proof. exact c143_submitted. Qed.
Print Assumptions C143_submitted.

Example C143_submitted_example : fst (receiptDo J4 [] []) = [Post 1; Post 2; Catch 3; Post 3] /\ In 3 (j_adds J4).
Proof. split; [reflexivity|cbn; auto]. Qed.

(** C143.  A message cued means that signatures of all witnesses were there, if each snapshot has at most one for a witness and none of
    others.  Partial: witnesses that sign twice. *)
Theorem C143_cued_partial : forall J st obs, Forall (fun l => NoDup (map fst l) /\ Forall (fun g => exists v, sigOf J g v) l) (st :: obs) ->
  snd (receiptDo J st obs) = Cued -> exists l, In l (st :: obs) /\ everyone J l.
Proof. exact c143_cued_partial. Qed.
Print Assumptions C143_cued_partial.

Example C143_cued_example : Forall (fun l => NoDup (map fst l) /\ Forall (fun g => exists v, sigOf J3 g v) l) [[]; [s2]; [s2; s1; s3]] /\
  snd (receiptDo J3 [] [[s2]; [s2; s1; s3]]) = Cued.
Proof.
  split; [|reflexivity].
  repeat (apply Forall_cons; [split; [repeat constructor; cbn; intuition discriminate|repeat (apply Forall_cons; [eexists; reflexivity|]); apply Forall_nil]|]). apply Forall_nil.
Qed.

(** C143, refuted for witnesses that sign twice: the number of signatures decides, whosever they are. *)
Theorem C143_cued_refuted : (forall J st obs, j_wits J <> [] -> List.length st = List.length (j_wits J) -> snd (receiptDo J st obs) = Cued) /\
  (let J := mkJob Kixn [] [1; 2] false in receiptDo J [] [[(0%nat, 7)]; [(0%nat, 7); (0%nat, 8)]] = ([Post 1; Post 2; Spread 1 [(0%nat, 8)]; Spread 2 [(0%nat, 7)]], Cued) /\
    forall l, In l [[]; [(0%nat, 7)]; [(0%nat, 7); (0%nat, 8)]] -> ~ everyone J l).
Proof. exact c143_cued_refuted. Qed.
Print Assumptions C143_cued_refuted.

(** C143, refuted for missing receipts: while the number of signatures is not that of the current witnesses, because a witness does not
    answer or because the event had another number of witnesses than there are now, nobody is sent any receipt and there is no
    cue. *)
Theorem C143_missing_refuted : (forall J st obs, Forall (fun l => List.length l <> List.length (j_wits J)) (st :: obs) ->
    snd (receiptDo J st obs) <> Cued /\ forall w l, ~ In (Spread w l) (fst (receiptDo J st obs))) /\
  forall n, receiptDo J3 [] (repeat [s1; s2] n) = ([Post 1; Post 2; Post 3], Never).
Proof. exact c143_missing_refuted. Qed.
Print Assumptions C143_missing_refuted.

(** C143.  An event that has its receipts already is not submitted again; if resubmission is forced, the receipts are sent as above.
    Partial: other orders. *)
Theorem C143_again_partial : forall J st obs, j_wits J <> [] -> inOrder J st ->
  snd (receiptDo J st obs) = Cued /\ (forall w, ~ In (Post w) (fst (receiptDo J st obs)) /\ ~ In (Catch w) (fst (receiptDo J st obs))) /\
  (j_force J = false -> fst (receiptDo J st obs) = []) /\
  (j_force J = true -> forall w v, In w (j_wits J) -> In v (j_wits J) -> (gets J (fst (receiptDo J st obs)) w v <-> v <> w)).
Proof. exact c143_again_partial. Qed.
Print Assumptions C143_again_partial.

Example C143_again_example : inOrder J3 [s1; s2; s3] /\ receiptDo J3 [s1; s2; s3] [] = ([], Cued) /\
  receiptDo (mkJob Kixn [] [1; 2; 3] true) [s1; s2; s3] [] = ([Spread 1 [s2; s3]; Spread 2 [s1; s3]; Spread 3 [s1; s2]], Cued).
Proof.
  split; [|split; reflexivity]. split; [reflexivity|]. intros [|[|[|i]]] g H; cbn in H; try (inversion H; subst; reflexivity). destruct i; discriminate H.
Qed.

(** C143.  Messages are worked off in order, each as if alone, as long as each of them comes to an end.  Partial: one that does not. *)
Theorem C143_queue_partial : forall ms, Forall (fun m => snd (receiptDo (fst (fst m)) (snd (fst m)) (snd m)) <> Never) ms ->
  receiptAll ms = map (fun m => receiptDo (fst (fst m)) (snd (fst m)) (snd m)) ms.
Proof. exact c143_queue_partial. Qed.
Print Assumptions C143_queue_partial.

Example C143_queue_example : receiptAll [(J3, [], [[s1; s2; s3]]); (mkJob Kixn [] [] false, [], []); (J3, [s1; s2; s3], [])] =
  [([Post 1; Post 2; Post 3; Spread 1 [s2; s3]; Spread 2 [s1; s3]; Spread 3 [s1; s2]], Cued); ([], Skipped); ([], Cued)].
Proof. reflexivity. Qed.

(** C143, refuted for messages behind one that lacks a receipt: nothing is done for them, also if they are of other identifiers with
    other witnesses, and were complete already. *)
Theorem C143_queue_refuted : (forall ms1 J st obs ms2, j_wits J <> [] -> Forall (fun l => List.length l <> List.length (j_wits J)) (st :: obs) ->
    receiptAll (ms1 ++ (J, st, obs) :: ms2) = receiptAll (ms1 ++ [(J, st, obs)]) /\ (List.length (receiptAll (ms1 ++ (J, st, obs) :: ms2)) <= S (List.length ms1))%nat) /\
  receiptAll [(J3, [], [[s1]; [s1; s2]]); (mkJob Kixn [] [8] false, [], [[(0%nat, 108)]])] = [([Post 1; Post 2; Post 3], Never)].
Proof. exact c143_queue_refuted. Qed.
Print Assumptions C143_queue_refuted.
