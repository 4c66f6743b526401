(** Model of the replay of first seen logs: db/basing.py clonePreIter, cloneEvtMsg,
    cloneAllPreIter and clean, on top of the key event processing of KelModel. *)
From Verif Require Import Prelude B64Model MatterModel SubsModel ThModel KelModel.
Open Scope N_scope.

(** A cloned message: the event, its recorded controller and witness signatures, its source seal
    couple, and the first seen couple (number, date).  Endorsements of non witnesses (rcts, vrcs) are
    not modelled, as in KelModel. *)
Record clone := mkClone {
  cl_evt : evt; cl_sigers : list siger; cl_wigers : list siger; cl_seal : option (N * N);
  cl_fn : N; cl_date : N }.

(** basing.py:1711-1789 cloneEvtMsg; None for MissingEntryError *)
Definition cloneEvtMsg (dx : db) (p fn s : N) : option clone :=
  let x := snd dx in
  match evts x p s with
  | None => None
  | Some e =>
      match getSigs x p s with
      | [] => None
      | g :: sg =>
          match dtss x p s with
          | None => None
          | Some dt => Some (mkClone e (g :: sg) (getWigs x p s) (aess x p s) fn dt)
          end
      end
  end.

(** the rows of the first seen log of [p] from number [fn] on: fels.getAllItemIter *)
Fixpoint numbered (n : N) (l : list N) : list (N * N) :=
  match l with
  | [] => []
  | s :: l => (n, s) :: numbered (n + 1) l
  end.
Definition felsFrom (dx : db) (p fn : N) : list (N * N) :=
  numbered fn (skipn (N.to_nat fn) (fels (fst dx) p)).

(** basing.py:1655-1680 clonePreIter: events that cannot be cloned are skipped *)
Definition clonePre (dx : db) (p fn : N) : list clone :=
  flat_map (fun r => match cloneEvtMsg dx p (fst r) (snd r) with Some c => [c] | None => [] end)
    (felsFrom dx p fn).

(** basing.py:1683-1707 cloneAllPreIter; [ps] are the prefixes of the first seen logs in the order
    of their keys *)
Definition cloneAll (dx : db) (ps : list N) : list clone :=
  flat_map (fun p => clonePre dx p 0) ps.

(** parsing.py:1391-1410 with eventing.py:4279-4291, 4373-4385: what Kevery.processEvent gets out of
    a cloned message.  The first seen number and date are used when the Kevery is in cloned mode;
    the number is only compared with the own one, for a cue. *)
Definition received (cloned local eager : bool) (now : N) (c : clone) : msg :=
  mkMsg (cl_evt c) (cl_sigers c) (cl_wigers c) (cl_seal c) eager local now
    (if cloned then Some (cl_date c) else None).

(** basing.py:1521-1651 clean, key event side: the messages are parsed by a Kevery (not in cloned
    mode, not local) on an empty database that controls no identifier; then state records that the
    copy has not got are put as they are (1558-1569), and the habitats in copy.kevers (read through
    the state records, 75-111) become the prefixes and groups of the database. *)
Definition nobody : conf := mkConf [] [] (fun _ => None).
Definition cleanCopy (E : env) (now : N) (ps : list N) (dx : db) : db :=
  run E nobody (map (fun c => Deliver (received false false false now c)) (cloneAll dx ps)) db0.
Definition putStates (src dx : db) : db :=
  let '(d, x) := dx in
  (set_states (fun p => match states d p with Some s => Some s | None => states (fst src) p end) d, x).
Definition clean (E : env) (cf : conf) (now : N) (ps : list N) (dx : db) : conf * db :=
  let dx' := putStates dx (cleanCopy E now ps dx) in
  let known p := match kget (fst dx') (snd dx') p with Some _ => true | None => false end in
  (mkConf (filter known (c_prefixes cf)) (filter known (c_groups cf)) (c_mid cf), dx').
