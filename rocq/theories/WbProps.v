(** Browser back end of the database *)
From Verif Require Import Prelude Lex SubsModel SubsProofs DbModel DbSpec DbProofs DbRef DbOn DbOn2 DbThms WbModel WbSpec WbProofs WbProofs2 WbProofs3 WbProofs4 WbThms.
From Coq Require Import Lia.
Open Scope N_scope.

(** C104.  Single values under any key but the empty one: both back ends leave the same database and
    return the same, and count and list branches alike. *)
Theorem C104_single : forall st k v top, stored st -> k <> [] ->
  agrees (wputVal k v st) (Ok (putVal k v st)) st /\ agrees (wsetVal k v st) (Ok (setVal k v st)) st /\
  agrees (wremVal k st) (Ok (remVal k st)) st /\ agrees (wremTop top st) (Ok (remTop top st)) st /\
  (exists o, wgetVal k st = Ok o /\ getVal k st = match o with Some x => AVal x | None => ANone end) /\
  wgetTop top st = getTop top st /\ wcntTop top st = cntTop top st /\ wcntAll st = len st.
Proof. exact c104_single. Qed.
Print Assumptions C104_single.

(** C104.  Every history of operations on insertion ordered sets under keys that do not extend one
    another leaves the same database on both back ends and returns the same, and so do all reads
    that follow. *)
Theorem C104_sets_partial : forall sep K ops, goodsep sep -> flat sep K -> Forall (fun o => K (sop_key o)) ops -> total ops <= MaxON ->
  exists st bs, do_sops sep ops [] = Ok (st, bs) /\ whist (wdo_sop sep) [] ops st bs /\
    forall k ion top, wgetIoSet sep k ion st = getIoSet sep k ion st /\ wgetIoSetLast sep k st = getIoSetLast sep k st /\
      wcntIoSet sep k ion st = cntIoSet sep k ion st /\ wgetTopIoSet sep top st = getTopIoSet sep top st /\
      wgetIoSetLastAll sep k st = getIoSetLastAll sep k st.
Proof. exact c104_sets_partial. Qed.
Print Assumptions C104_sets_partial.

(** C104.  The same for values numbered by ordinals. *)
Theorem C104_ordinals_partial : forall sep K ops, goodsep sep -> flat sep K -> Forall (fun o => K (oop_key o) /\ oop_on o <= MaxON) ops ->
  let st := fst (do_oops sep ops []) in
  whist (wdo_oop sep) [] ops st (snd (do_oops sep ops [])) /\
  (forall k n, k <> [] -> wgetOnVal sep k n st = Ok (getOnVal sep k n st) /\ wgetOnAll sep k n st = getOnAll sep k n st /\ wcntOnAll sep k n st = cntOnAll sep k n st) /\
  (forall top, wgetOnTop sep top st = getOnTop sep top st) /\ wgetOnDb sep st = getOnDb sep st /\ wcntOnAll sep [] 0 st = cntOnDb sep st.
Proof. exact c104_ordinals_partial. Qed.
Print Assumptions C104_ordinals_partial.

(** C104.  The same for insertion ordered sets numbered by ordinals.  Reading backwards is the
    exception: where the LMDB back end raises ValueError, the other one finds nothing. *)
Theorem C104_nsets_partial : forall sep K L ops, goodsep sep -> flat sep K -> Forall (nop_ok K L) ops -> L + len ops <= MaxON -> ntotal ops <= MaxON ->
  exists st rs, lhist (do_nop sep) [] ops st rs /\ whist (wdo_nop sep) [] ops st rs /\
    (forall k on, k <> [] -> wcntOnAllIoSet sep k on st = cntOnAllIoSet sep k on st /\ wgetOnAllIoSet sep k on st = getOnAllIoSet sep k on st /\
       wgetOnAllIoSetLast sep k on st = getOnAllIoSetLast sep k on st) /\
    (forall k on, wgetOnIoSet sep k on st = getOnIoSet sep k on st /\ wgetOnIoSetLast sep k on st = getOnIoSetLast sep k on st /\ wcntOnIoSet sep k on st = cntOnIoSet sep k on st) /\
    (forall top, wgetOnTopIoSet sep top st = getOnTopIoSet sep top st) /\
    wgetOnDbIoSetLast sep st = getOnDbIoSetLast sep st /\ wgetOnDbIoSetBack sep st = getOnDbIoSetBack sep st /\ wgetOnDbIoSetLastBack sep st = getOnDbIoSetLastBack sep st /\
    (forall k on, K k -> on <= MaxON ->
       (exists r, wgetOnAllIoSetBack sep k on st = Ok r /\ (getOnAllIoSetBack sep k on st = Ok r \/ (getOnAllIoSetBack sep k on st = Err ValueError /\ r = []))) /\
       (exists r, wgetOnAllIoSetLastBack sep k on st = Ok r /\ (getOnAllIoSetLastBack sep k on st = Ok r \/ (getOnAllIoSetLastBack sep k on st = Err ValueError /\ r = [])))).
Proof. exact c104_nsets_partial. Qed.
Print Assumptions C104_nsets_partial.

(** C104.  Empty keys: where LMDB answers False, the browser back end raises or stores the value. *)
Theorem C104_empty_key_refuted : exists v st st', putVal [] v st = (st, false) /\ wputVal [] v st = (st, false, Err KeyError) /\
  setVal [] v st = (st, false) /\ wsetVal [] v st = (st, false, Err KeyError) /\ getVal [] st = AFalse /\ wgetVal [] st = Err KeyError /\
  putOnVal 46 [] 0 v st = (st, false) /\ wputOnVal 46 [] 0 v st = (st', true, Ok true) /\ st' <> st.
Proof. exact c104_empty_key_refuted. Qed.
Print Assumptions C104_empty_key_refuted.

(** C104.  An empty value at an ordinal is found on one back end only. *)
Theorem C104_empty_value_refuted : exists st, putOnVal 46 kAx 0 [] [] = (st, true) /\ wputOnVal 46 kAx 0 [] [] = (st, true, Ok true) /\
  getOnItem 46 kAx 0 st = None /\ wgetOnItem 46 kAx 0 st = Ok (Some (kAx, 0, [])).
Proof. exact c104_empty_value_refuted. Qed.
Print Assumptions C104_empty_value_refuted.

(** C104.  Reading backwards from a key in front of all others, and reading the last values of an
    empty database backwards: LMDB raises, the browser back end finds nothing. *)
Theorem C104_backwards_refuted : exists st, addOnIoSetVal 46 kBx 0 [1] [] = Ok (st, true) /\ waddOnIoSetVal 46 kBx 0 [1] [] = (st, true, Ok true) /\
  getOnAllIoSetBack 46 kAx MaxON st = Err ValueError /\ wgetOnAllIoSetBack 46 kAx MaxON st = Ok [] /\
  getOnAllIoSetLastBack 46 kAx MaxON [] = Err ValueError /\ wgetOnAllIoSetLastBack 46 kAx MaxON [] = Ok [].
Proof. exact c104_backwards_refuted. Qed.
Print Assumptions C104_backwards_refuted.

(** C104.  With keys that extend one another a put on the browser back end overwrites a value that
    LMDB keeps. *)
Theorem C104_extended_key_refuted : exists k k' st st', do_sops 46 [SPut k [[1]; [2]]; SPut k' [[9]]; SPut k [[3]]] [] = Ok (st, [true; true; false]) /\
  whist (wdo_sop 46) [] [SPut k [[1]; [2]]; SPut k' [[9]]; SPut k [[3]]] st' [true; true; true] /\
  get (suffix 46 k 1) st = Some [2] /\ get (suffix 46 k 1) st' = Some [3] /\ ~ In [2] (map snd st').
Proof. exact c104_extended_key_refuted. Qed.
Print Assumptions C104_extended_key_refuted.

(** C105.  Whatever happened to the stores before - opening, calls, flushes that ended early, crashes -
    as long as no call was one of the two that fail to report their change: after a flush of all stores
    the next start finds every store with all its items and its kind. *)
Theorem C105_flush_partial : forall n es, Forall evOk es -> exists s s', wrun (repeat blank n) es = Ok s /\ wrun s [WFlush n; WRestart] = Ok s' /\
  map c_items s' = map c_items s /\ map c_dup s' = map c_dup s.
Proof. exact c105_flush_partial. Qed.
Print Assumptions C105_flush_partial.

(** C105.  A flush that ended after [m] stores, and then anything but another flush: the next start finds
    the first [m] stores as they were at the flush, and the others as a start before the flush would
    have found them. *)
Theorem C105_crash_partial : forall n es m es' s s1 s2, Forall evOk es -> wrun (repeat blank n) es = Ok s -> Forall noFlush es' ->
  wrun s (WFlush m :: es') = Ok s1 -> reopen false s1 = Ok s2 ->
  exists s0, reopen false s = Ok s0 /\
    forall i, nth_error (map c_items s2) i = if Nat.ltb i m then nth_error (map c_items s) i else nth_error (map c_items s0) i.
Proof. exact c105_crash_partial. Qed.
Print Assumptions C105_crash_partial.

(** C105.  Sets appended at an ordinal are not written by a flush: they are gone at the next start. *)
Theorem C105_append_refuted : exists s s1 s2, wrun [blank] [WOpenDb 0 false; WFlush 1; WCall 0 (MN (NApp kAx [[1]; [2]]))] = Ok s /\
  map (fun c => map snd (c_items c)) s = [[[1]; [2]]] /\ wrun s [WFlush 1] = Ok s1 /\ wrun s1 [WRestart] = Ok s2 /\ map c_items s2 = [[]].
Proof. exact c105_append_refuted. Qed.
Print Assumptions C105_append_refuted.

(** C105.  The removal of all ordinals of a key is not written: the values are back at the next start. *)
Theorem C105_removal_refuted : exists s s1 s2, wrun [blank] [WOpenDb 0 false; WCall 0 (MN (NSet kAx 0 (SAdd [] [1]))); WFlush 1; WCall 0 (MN (NRemAll kAx 0))] = Ok s /\
  map c_items s = [[]] /\ wrun s [WFlush 1] = Ok s1 /\ wrun s1 [WRestart] = Ok s2 /\ map (fun c => map snd (c_items c)) s2 = [[[1]]].
Proof. exact c105_removal_refuted. Qed.
Print Assumptions C105_removal_refuted.

(** C105.  Closing with clear empties the memory only: the next start finds everything. *)
Theorem C105_clear_refuted : exists s s2, wrun [blank] [WOpenDb 0 false; WCall 0 (MPut kAx [1]); WFlush 1] = Ok s /\
  map c_items (close true s) = [[]] /\ reopen false (close true s) = Ok s2 /\ map c_items s2 = [[(kAx, [1])]].
Proof. exact c105_clear_refuted. Qed.
Print Assumptions C105_clear_refuted.

(** C105.  A flush is not one transaction: a crash in its middle leaves one store with the change and
    another one, changed before it, without. *)
Theorem C105_atomic_refuted : exists s s1 s2, wrun (repeat blank 2) [WOpenDb 0 false; WOpenDb 1 false; WFlush 2; WCall 1 (MPut kAx [1]); WCall 0 (MPut kAx [1])] = Ok s /\
  wrun s [WFlush 1] = Ok s1 /\ reopen false s1 = Ok s2 /\ map c_items s2 = [[(kAx, [1])]; []].
Proof. exact c105_atomic_refuted. Qed.
Print Assumptions C105_atomic_refuted.
