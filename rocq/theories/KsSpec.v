(** What the key manager theorems talk about: histories of calls, what was published, which
    private keys are at hand. *)
From Verif Require Import Prelude B64Model MatterModel SubsModel ThModel JsonModel KsModel.
Open Scope N_scope.

Section Spec.
Variable c : kcfg.

(** calls of the manager, and of Hab.rotate *)
Inductive op :=
| OSetup (aeid : bytes) (pidx : N) (algo salt tier : bytes)
| OUpdate (aeid seed : bytes)
| OIncept (a : iargs)
| OMove (old new : bytes)
| ORotate (pre : bytes) (a : rargs)
| OReplay (pre dcode : bytes) (advance erase : bool)
| OHabRotate (pre : bytes) (a : rargs) (valid : list bytes -> list bytes -> bool)
| OIngest (secrecies : list (list secret)) (iridx : N) (ncodes : list bytes) (stem : bytes) (tr temp : bool).

(** what a call returns: current public keys and digests of the next ones, where it returns those *)
Definition out := option (list bytes * list bytes).
Definition exec (o : op) : M out :=
  match o with
  | OSetup ae p al s t => _ <~ setup c ae p al s t ;; ret None
  | OUpdate ae s => _ <~ updateAeid c ae s ;; ret None
  | OIncept a => x <~ incept c a ;; ret (Some x)
  | OMove a b => _ <~ move a b ;; ret None
  | ORotate p a => x <~ rotate c p a ;; ret (Some x)
  | OReplay p d ad e => x <~ replay c p d ad e ;; ret (Some x)
  | OHabRotate p a v => x <~ habRotate c p a v ;; ret (Some x)
  | OIngest s i n st tr te => _ <~ ingest c s i n st tr te ;; ret None
  end.

(** ** Ledger of what was published: for a prefix, the digest code and the digests of the next
    keys handed out by the last call that made an event possible *)
Definition ledger := list (bytes * (bytes * list bytes)).

(** the prefix whose publication can no longer be relied on when a call dies on the way: the
    process is killed, or the call raises after it has written *)
Definition forget (o : op) (L : ledger) : ledger :=
  match o with
  | ORotate p _ | OReplay p _ _ _ | OHabRotate p _ _ | OMove p _ => krem L p
  | _ => L
  end.
(** effect of a call that returns *)
Definition publish (o : op) (r : out) (L : ledger) : ledger :=
  match o, r with
  | OIncept a, Some (vs, ds) => dset L (hd [] vs) (a_dcode a, ds)
  | ORotate p a, Some (_, ds) => dset L p (r_dcode a, ds)
  | OReplay p dc _ _, Some (_, ds) => dset L p (dc, ds)
  | OHabRotate p a _, Some (_, ds) => dset L p (r_dcode a, ds)
  | OMove p q, _ => if beq p q then L else match dget L p with Some x => dset (krem L p) q x | None => L end
  | _, _ => L
  end.
(** Histories from a new key store: calls that return, calls that raise and calls in the middle of
    which the process is killed and started again with any seed.  A call that raises without having
    written, and a Hab.rotate whose event is refused, take nothing away. *)
Inductive hist : mgr -> ledger -> Prop :=
| h_start : forall seed rnd, hist (mkMgr ks0 None None seed rnd) []
| h_ok : forall m L o t m' r, hist m L -> exec o m = (t, (m', Ok r)) -> hist m' (publish o r L)
| h_err : forall m L o t m' e, hist m L -> exec o m = (t, (m', Err e)) ->
    hist m' (match t, o, e with
             | [], _, _ => L
             | _, OHabRotate _ _ _, ValidationError => L
             | _, _, _ => forget o L
             end)
| h_kill : forall m L o d seed rnd, hist m L -> In d (fst (exec o m)) -> hist (mkMgr d None None seed rnd) (forget o L).

(** ** Secrets at rest *)
Definition salts (d : ksdb) (s : stored bytes) : Prop :=
  g_salt d = Some s \/ exists p q, dget (prms d) p = Some q /\ p_salt q = Some s.
(** every private key and salt of the store is sealed for [a] *)
Definition sealedUnder (a : bytes) (d : ksdb) : Prop :=
  (forall p v, dget (pris d) p = Some v -> exists x, v = Sealed a x) /\ (forall s, salts d s -> exists x, s = Sealed a x).
Definition plainStore (d : ksdb) : Prop :=
  (forall p v, dget (pris d) p = Some v -> exists x, v = Plain x) /\ (forall s, salts d s -> exists x, s = Plain x).

(** [p] is a current or a next key of an identifier *)
Definition inUse (d : ksdb) (p : bytes) : Prop := exists pre ps, dget (sits d) pre = Some ps /\ In p (l_pubs (t_new ps) ++ l_pubs (t_nxt ps)).
(** calls that make new current keys for [pre] *)
Definition rotates (pre : bytes) (o : op) : Prop :=
  match o with ORotate p _ | OReplay p _ true _ | OHabRotate p _ _ => p = pre | _ => False end.
(** calls on the keys of another identifier than [pre] *)
Definition elsewhere (pre : bytes) (o : op) : Prop :=
  match o with ORotate p _ | OReplay p _ _ _ | OHabRotate p _ _ | OMove p _ => p <> pre | _ => True end.

(** calls that use the keys *)
Definition usesKeys (o : op) : bool :=
  match o with OIncept _ | OMove _ _ | ORotate _ _ | OReplay _ _ _ _ | OHabRotate _ _ _ => true | _ => false end.
(** Histories of a store that is encrypted, or not, from its creation: calls with any outcome, changes of
    the authentication identifier of an encrypted store, restarts after the process was killed in any call.
    A seed is given exactly with an authentication identifier. *)
Inductive chist : mgr -> Prop :=
| c_new : forall aeid pidx algo salt tier seed rnd t m', (aeid = [] -> seed = []) ->
    setup c aeid pidx algo salt tier (mkMgr ks0 None None seed rnd) = (t, (m', Ok tt)) -> chist m'
| c_call : forall m o t m' r, chist m -> usesKeys o = true -> exec o m = (t, (m', r)) -> chist m'
| c_change : forall m aeid seed t m', chist m -> aeidOf (ks m) <> [] -> aeid <> aeidOf (ks m) -> (aeid = [] -> seed = []) ->
    updateAeid c aeid seed m = (t, (m', Ok tt)) -> chist m'
| c_kill : forall m o d seed aeid pidx algo salt tier rnd t m', chist m -> usesKeys o = true -> In d (ks m :: fst (exec o m)) ->
    (aeidOf (ks m) = [] -> aeid = [] /\ seed = []) ->
    setup c aeid pidx algo salt tier (mkMgr d None None seed rnd) = (t, (m', Ok tt)) -> chist m'.

(** ** Deterministic key sequences *)
(** the part of the derivation path that tells identifiers apart *)
Definition stemOf (pp : preprm) : bytes := match p_stem pp with [] => hexstr (p_pidx pp) | s => s end.
(** ** Histories without key collisions *)
(** the keys listed by a call for the first time are listed nowhere else *)
Definition freshKeys (d d' : ksdb) : Prop := forall k l p k' l', dget (pubs d) k = None -> dget (pubs d') k = Some l -> In p l ->
  dget (pubs d') k' = Some l' -> In p l' -> k' = k.
(** Histories in which calls return, or raise without having written, or are Hab.rotate calls whose event
    is refused, and new keys never collide with earlier ones.  Manager.rotate is called when there are no later
    keys to replay, as Hab.rotate does. *)
Inductive fhist : mgr -> Prop :=
| f_new : forall aeid pidx algo salt tier seed rnd t m', (aeid = [] -> seed = []) ->
    setup c aeid pidx algo salt tier (mkMgr ks0 None None seed rnd) = (t, (m', Ok tt)) -> fhist m'
| f_incept : forall m a t m' r, fhist m -> exec (OIncept a) m = (t, (m', Ok r)) -> freshKeys (ks m) (ks m') -> fhist m'
| f_move : forall m old new t m' r, fhist m -> exec (OMove old new) m = (t, (m', Ok r)) -> fhist m'
| f_rotate : forall m pre a t m' r m0, fhist m -> replay c pre (r_dcode a) true false m = ([], (m0, Err IndexError)) ->
    exec (ORotate pre a) m = (t, (m', Ok r)) -> freshKeys (ks m) (ks m') -> fhist m'
| f_replay : forall m pre dc ad er t m' r, fhist m -> exec (OReplay pre dc ad er) m = (t, (m', Ok r)) -> fhist m'
| f_hab : forall m pre a valid t m' r, fhist m -> exec (OHabRotate pre a valid) m = (t, (m', r)) ->
    (match r with Ok _ => True | Err e => e = ValidationError end) -> freshKeys (ks m) (ks m') -> fhist m'
| f_idle : forall m o m' r, fhist m -> usesKeys o = true -> exec o m = ([], (m', r)) -> fhist m'
| f_change : forall m aeid seed t m', fhist m -> aeidOf (ks m) <> [] -> aeid <> aeidOf (ks m) -> (aeid = [] -> seed = []) ->
    updateAeid c aeid seed m = (t, (m', Ok tt)) -> fhist m'
| f_reopen : forall m seed aeid pidx algo salt tier rnd t m', fhist m -> (aeidOf (ks m) = [] -> aeid = [] /\ seed = []) ->
    setup c aeid pidx algo salt tier (mkMgr (ks m) None None seed rnd) = (t, (m', Ok tt)) -> fhist m'.
(** total number of keys in key sets *)
Fixpoint keyCount (lots : list (list bytes)) : N := match lots with [] => 0 | l :: r => len l + keyCount r end.
End Spec.
