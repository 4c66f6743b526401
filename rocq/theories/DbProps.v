(** Properties of the database layer *)
From Verif Require Import Prelude Lex SubsModel SubsProofs DbModel DbSpec DbProofs DbRef DbOn DbOn2 DbDup DbThms.
From Coq Require Import Sorting.Sorted.
Open Scope N_scope.

(** C27.  An ordinal key splits back into its parts, for every separator that is not a
    hexadecimal digit. *)
Theorem C27_split : forall sep k n, goodsep sep -> splitOnKey sep (onKey sep k n) = Ok (k, n).
Proof. exact c27_split. Qed.
Print Assumptions C27_split.

(** C27.  Ordinal keys of one key are stored in the order of their ordinals. *)
Theorem C27_order : forall sep k n m, n <= MaxON -> m <= MaxON -> (blt (onKey sep k n) (onKey sep k m) <-> n < m).
Proof. exact c27_order. Qed.
Print Assumptions C27_order.

(** C27.  Different keys or ordinals never share an ordinal key. *)
Theorem C27_injective : forall sep k n k' n', goodsep sep -> onKey sep k n = onKey sep k' n' -> k = k' /\ n = n'.
Proof. exact c27_injective. Qed.
Print Assumptions C27_injective.

Example C27_example : goodsep 46 /\ splitOnKey 46 (onKey 46 [97; 46] 258) = Ok ([97; 46], 258) /\ blt (onKey 46 [97] 9) (onKey 46 [97] 10).
Proof. vm_compute. auto. Qed.

(** C28.  In a table whose keys do not continue one another after a separator, every history of
    put, pin, add and remove operations, adding fewer than 2^128 values, reports what the
    ordered sets of the specification say, and afterwards every key reads as its ordered set. *)
Theorem C28_ordered_sets_partial : forall sep K ops, goodsep sep -> flat sep K ->
  Forall (fun o => K (sop_key o)) ops -> total ops <= MaxON ->
  exists st, do_sops sep ops [] = Ok (st, outs ops sets0) /\
    forall k, K k -> let s := fold_left sop_spec ops sets0 k in
      NoDup s /\ getIoSet sep k 0 st = Ok s /\ getIoSetLast sep k st = Ok (olast s) /\ cntIoSet sep k 0 st = Ok (len s).
Proof. exact c28_ordered_sets_partial. Qed.
Print Assumptions C28_ordered_sets_partial.

(** C28.  Without that restriction the property fails: a key that continues another one after
    a separator hides part of its values. *)
Theorem C28_extended_key_refuted : exists ops st outp k, do_sops 46 ops [] = Ok (st, outp) /\
  getIoSet 46 k 0 st <> Ok (fold_left sop_spec ops sets0 k).
Proof. exact c28_extended_key_refuted. Qed.
Print Assumptions C28_extended_key_refuted.

Example C28_example : flat 46 (fun k => List.length k = 2%nat) /\
  exists st, do_sops 46 [SPut [97;97] [[1]; [2]; [1]]; SAdd [97;98] [7]; SRemVal [97;97] [1]; SAdd [97;97] [1]; SPin [97;98] [[9];[9];[8]]] [] = Ok (st, [true; true; true; true; true]) /\
    getIoSet 46 [97;97] 0 st = Ok [[2]; [1]] /\ getIoSet 46 [97;98] 0 st = Ok [[9]; [8]].
Proof. split; [apply flat_length; lia|]. eexists. vm_compute. auto. Qed.

(** C29.  The same for insertion ordered duplicates: here any usable keys can be mixed, but the
    values given to one put or pin must be distinct. *)
Theorem C29_ordered_duplicates_partial : forall ops, Forall (fun o => goodkey (sop_key o) /\ distinct o) ops -> total ops <= MaxON ->
  exists st, do_dops ops [] = Ok (st, douts ops sets0) /\
    forall k, goodkey k -> let s := fold_left dop_spec ops sets0 k in
      NoDup s /\ getIoDupVals k st = s /\ getIoDupValLast k st = olast s /\ cntIoDups k st = len s.
Proof. exact c29_ordered_duplicates_partial. Qed.
Print Assumptions C29_ordered_duplicates_partial.

(** C29.  A value given twice in one put is stored twice. *)
Theorem C29_repeated_value_refuted : exists k vals st, goodkey k /\ putIoDupVals k vals [] = Ok (st, true) /\ ~ NoDup (getIoDupVals k st).
Proof. exact c29_repeated_value_refuted. Qed.
Print Assumptions C29_repeated_value_refuted.

(** C29.  In the ordinal numbered variant, put compares with the values at ordinal 0: a value
    that is there is not stored at another ordinal. *)
Theorem C29_ordinal_refuted : exists k v st st', putOnIoDupVals 46 k 0 [v] [] = Ok (st, true) /\
  putOnIoDupVals 46 k 1 [v] st = Ok (st', false) /\ getOnIoDupVals 46 k 1 st' = [].
Proof. exact c29_ordinal_refuted. Qed.
Print Assumptions C29_ordinal_refuted.

(** C29.  Reading backwards from an ordinal that is not in use starts at the next higher one. *)
Theorem C29_backwards_refuted : exists k st st', putOnIoDupVals 46 k 0 [[1]] [] = Ok (st, true) /\ putOnIoDupVals 46 k 7 [[2]] st = Ok (st', true) /\
  getOnIoDupBack 46 k 3 st' = Ok [(7, [2]); (0, [1])].
Proof. exact c29_backwards_refuted. Qed.
Print Assumptions C29_backwards_refuted.

Example C29_example : exists st, do_dops [SPut [97] [[1]; [2]]; SAdd [97; 46] [7]; SRemVal [97] [1]; SAdd [97] [1]; SPin [97; 46] [[9]; [8]]] [] = Ok (st, [true; true; true; true; true]) /\
    getIoDupVals [97] st = [[2]; [1]] /\ getIoDupVals [97; 46] st = [[9]; [8]] /\ getIoDupValLast [97] st = Some [1].
Proof. eexists. vm_compute. auto. Qed.

(** C30.  Every history of put, pin, append and remove operations by ordinal reports what the
    tables of the specification say, append at the ordinal after the largest one in use; and
    afterwards every key reads as its table, in ascending order of ordinals. *)
Theorem C30_ordinals_partial : forall sep K ops, goodsep sep -> flat sep K ->
  Forall (fun o => K (oop_key o) /\ oop_on o <= MaxON) ops ->
  let st := fst (do_oops sep ops []) in
  snd (do_oops sep ops []) = oouts ops tabs0 /\
  forall k n, K k -> n <= MaxON -> let l := fold_left oop_spec ops tabs0 k in
    StronglySorted (fun a b => fst a < fst b) l /\
    getOnVal sep k n st = lookup n l /\ getOnAll sep k n st = Ok (filter (fun e => n <=? fst e) l) /\
    cntOnAll sep k n st = len (filter (fun e => n <=? fst e) l).
Proof. exact c30_ordinals_partial. Qed.
Print Assumptions C30_ordinals_partial.

(** C30.  Without the restriction on keys, append fails on a key whose values are followed by
    those of a key that continues it. *)
Theorem C30_extended_key_refuted : exists ops k v, let st := fst (do_oops 46 ops []) in
  fold_left oop_spec ops tabs0 k = [(0, [1])] /\ appendOnVal 46 k v st = Err ValueError.
Proof. exact c30_extended_key_refuted. Qed.
Print Assumptions C30_extended_key_refuted.

(** C30.  getOnItem reports an entry with an empty value as absent. *)
Theorem C30_empty_value_refuted : exists k n st, putOnVal 46 k n [] [] = (st, true) /\ getOnVal 46 k n st = Some [] /\ getOnItem 46 k n st = None.
Proof. exact c30_empty_value_refuted. Qed.
Print Assumptions C30_empty_value_refuted.

Example C30_example : snd (do_oops 46 [OApp [97] [1]; OPut [97] 7 [2]; OApp [98] [5]; OApp [97] [3]; ORem [97] 8; OApp [97] [4]] []) =
   [OutN 0; OutB true; OutN 0; OutN 8; OutB true; OutN 8].
Proof. vm_compute. reflexivity. Qed.

(** C31.  After any history on a flat set of keys, one more operation at a key leaves what is
    read at every other key as it was. *)
Theorem C31_isolation_partial : forall sep K ops o st outp k, goodsep sep -> flat sep K ->
  Forall (fun o => K (sop_key o)) (ops ++ [o]) -> total (ops ++ [o]) <= MaxON ->
  do_sops sep ops [] = Ok (st, outp) -> K k -> k <> sop_key o ->
  exists st' b, do_sop sep o st = Ok (st', b) /\ getIoSet sep k 0 st' = getIoSet sep k 0 st /\
    getIoSetLast sep k st' = getIoSetLast sep k st /\ cntIoSet sep k 0 st' = cntIoSet sep k 0 st.
Proof. exact c31_isolation_partial. Qed.
Print Assumptions C31_isolation_partial.

(** C31.  The same for values by ordinal. *)
Theorem C31_ordinal_isolation_partial : forall sep K ops o k n, goodsep sep -> flat sep K ->
  Forall (fun o => K (oop_key o) /\ oop_on o <= MaxON) (ops ++ [o]) -> K k -> k <> oop_key o -> n <= MaxON ->
  let st := fst (do_oops sep ops []) in let st' := fst (do_oop sep o st) in
  getOnVal sep k n st' = getOnVal sep k n st /\ getOnAll sep k n st' = getOnAll sep k n st /\ cntOnAll sep k n st' = cntOnAll sep k n st.
Proof. exact c31_ordinal_isolation_partial. Qed.
Print Assumptions C31_ordinal_isolation_partial.

(** C31.  And for insertion ordered duplicates, where keys need not be flat. *)
Theorem C31_duplicates_isolation_partial : forall ops o st outp k, Forall (fun o => goodkey (sop_key o) /\ distinct o) (ops ++ [o]) -> total (ops ++ [o]) <= MaxON ->
  do_dops ops [] = Ok (st, outp) -> goodkey k -> k <> sop_key o ->
  exists st' b, do_dop o st = Ok (st', b) /\ getIoDupVals k st' = getIoDupVals k st /\
    getIoDupValLast k st' = getIoDupValLast k st /\ cntIoDups k st' = cntIoDups k st.
Proof. exact c31_duplicates_isolation_partial. Qed.
Print Assumptions C31_duplicates_isolation_partial.

(** C31.  An operation at a key that continues another one changes what is read there. *)
Theorem C31_extended_key_refuted : exists st st' b k o, k <> sop_key o /\ do_sops 46 [SPut k [[1]; [2]]] [] = Ok (st, [true]) /\
  do_sop 46 o st = Ok (st', b) /\ getIoSet 46 k 0 st' <> getIoSet 46 k 0 st.
Proof. exact c31_extended_key_refuted. Qed.
Print Assumptions C31_extended_key_refuted.

(** C46.  Histories of operations on ordered sets by ordinal: every operation changes the tables
    and reports as specified, an append at the ordinal after the last one in use. *)
Theorem C46_history_partial : forall sep K L ops, goodsep sep -> flat sep K ->
  Forall (nop_ok K L) ops -> L + len ops <= MaxON -> ntotal ops <= MaxON ->
  exists st t, nhist sep [] nsets0 ops st t /\
    forall k on, K k -> on <= MaxON ->
      getOnIoSet sep k on st = Ok (t k on) /\ getOnIoSetLast sep k on st = Ok (olast (t k on)) /\ cntOnIoSet sep k on st = Ok (len (t k on)) /\
      (exists r, getOnAllIoSet sep k on st = Ok r /\ flat_of on (t k) r) /\
      (exists r, getOnAllIoSetLast sep k on st = Ok r /\ StronglySorted (fun x y => fst x < fst y) r /\ last_of (fun o => on <=? o) (t k) r) /\
      ((exists r, getOnAllIoSetBack sep k on st = Ok r /\ back_of on (t k) r) \/
       (getOnAllIoSetBack sep k on st = Err ValueError /\ forall o, o <= on -> t k o = [])) /\
      ((exists r, getOnAllIoSetLastBack sep k on st = Ok r /\ StronglySorted (fun x y => fst y < fst x) r /\ last_of (fun o => o <=? on) (t k) r) \/
       (getOnAllIoSetLastBack sep k on st = Err ValueError /\ forall o, o <= on -> t k o = [])).
Proof. exact c46_history_partial. Qed.
Print Assumptions C46_history_partial.

(** C46.  Append stores a list of values as it is, repetitions included. *)
Theorem C46_append_refuted : exists k vals st, appendOnIoSetVals 46 k vals [] = Ok (st, 0) /\ getOnIoSet 46 k 0 st = Ok vals /\ ~ NoDup vals.
Proof. exact c46_append_refuted. Qed.
Print Assumptions C46_append_refuted.

(** C46.  Reading backwards raises an exception for a key in front of all others in use. *)
Theorem C46_backwards_refuted : exists k k' st, addOnIoSetVal 46 k' 0 [1] [] = Ok (st, true) /\ getOnAllIoSetBack 46 k MaxON st = Err ValueError.
Proof. exact c46_backwards_refuted. Qed.
Print Assumptions C46_backwards_refuted.

Example C46_example : exists st st1 st2 st3, addOnIoSetVal 46 [97] 0 [1] [] = Ok (st, true) /\ addOnIoSetVal 46 [97] 0 [2] st = Ok (st1, true) /\ appendOnIoSetVals 46 [97] [[3]; [4]] st1 = Ok (st2, 1) /\
  addOnIoSetVal 46 [96] 0 [8] st2 = Ok (st3, true) /\
  getOnAllIoSet 46 [97] 0 st3 = Ok [(0, [1]); (0, [2]); (1, [3]); (1, [4])] /\ getOnAllIoSetLast 46 [97] 0 st3 = Ok [(0, [2]); (1, [4])] /\
  getOnAllIoSetBack 46 [97] MaxON st3 = Ok [(1, [4]); (1, [3]); (0, [2]); (0, [1])] /\ getOnAllIoSetLastBack 46 [97] MaxON st3 = Ok [(1, [4]); (0, [2])].
Proof.
  eexists. eexists. eexists. eexists. split; [vm_compute; reflexivity|]. split; [vm_compute; reflexivity|]. split; [vm_compute; reflexivity|]. split; [vm_compute; reflexivity|].
  split; [vm_compute; reflexivity|]. split; [vm_compute; reflexivity|]. split; vm_compute; reflexivity.
Qed.

(** C47.  In every database, reading, counting and removing a branch concerns exactly the entries
    whose key starts with the given bytes, and removing reports whether there were any. *)
Theorem C47_branch : forall top st, stored st ->
  (forall k v, In (k, v) (getTop top st) <-> In (k, v) st /\ exists r, k = top ++ r) /\
  cntTop top st = len (getTop top st) /\
  (forall k v, In (k, v) (fst (remTop top st)) <-> In (k, v) st /\ ~ exists r, k = top ++ r) /\
  (snd (remTop top st) = true <-> exists k v, In (k, v) st /\ exists r, k = top ++ r).
Proof. exact c47_branch. Qed.
Print Assumptions C47_branch.

Example C47_example : exists st, stored st /\ len st = 3 /\ getTop [97; 46] st = [([97; 46; 1], [5]); ([97; 46; 2], [6])] /\ fst (remTop [97; 46] st) = [([97; 47], [7])].
Proof.
  exists (fst (put false [97; 47] [7] (fst (put false [97; 46; 1] [5] (fst (put false [97; 46; 2] [6] [])))))). split.
  - eapply stored_put; [eapply stored_put; [eapply stored_put; [apply stored_nil|]|]|]; apply surjective_pairing.
  - vm_compute. auto.
Qed.
