(** Key event log processing: core/eventing.py Kever (1940-4087) and the event part of
    Kevery (4090-4441, 5664-5816, 6047-6631), with the sub-databases of db/basing.py
    they use.

    Simplifications, common to the whole file.
    - Identifier prefixes, public keys, digests and saids are opaque numbers.  A witness
      is named by its non transferable prefix, which is its key.
    - An event is the record of its parsed fields; the field checks of Serder and the
      well-formedness of its key, digest and prefix texts are not repeated here.
    - Signature verification and digest comparison are parameters (record [env]).
    - A sub-database keyed by (prefix, said) is a function of both; kels is a list of
      lists per prefix (position = sn); fels is a list per prefix (position = fn).
    - Cues and log output are dropped, except that a Kever reloaded from the database
      has no cue deck, so pushing to it raises AttributeError.
    - Kevery.check is False.  In cloned mode the replayed date is in [m_dater].
    - Reading statedict (db/basing.py:75-127) caches the reloaded Kever; here the read
      is repeated instead of cached. *)
From Verif Require Import Prelude B64Model MatterModel SubsModel ThModel.
Open Scope N_scope.

(** ** Events *)
Inductive ilk := Icp | Dip | Rot | Drt | Ixn | OtherIlk.
Definition ilk_eqb (a b : ilk) : bool :=
  match a, b with
  | Icp, Icp | Dip, Dip | Rot, Rot | Drt, Drt | Ixn, Ixn | OtherIlk, OtherIlk => true
  | _, _ => false
  end.
Definition isIncept (i : ilk) : bool := match i with Icp | Dip => true | _ => false end.
Definition isRot (i : ilk) : bool := match i with Rot | Drt => true | _ => false end.
Definition isDel (i : ilk) : bool := match i with Dip | Drt => true | _ => false end.
Definition isEst (i : ilk) : bool := isIncept i || isRot i.

(** A seal of the 'a' field: an event seal {i, s, d} (structing.py SealEvent) with s in
    canonical hex, or anything else. *)
Inductive seal := SealEvt (i s d : N) | SealOther (x : bytes).

(** core/serdering.py:2297-2594, the properties of SerderKERI read by Kever.  [e_kt] and
    [e_nt] are the parsed thresholds.  Fields absent from an ilk hold empty values. *)
Record evt := mkEvt {
  e_raw : bytes; e_said : N; e_pre : N; e_sn : N; e_ilk : ilk; e_prior : option N;
  e_kt : tholder; e_keys : list N; e_nt : tholder; e_ndigs : list N;
  e_bt : N; e_wits : list N; e_cuts : list N; e_adds : list N;
  e_estOnly : bool; e_dnd : bool; e_delpre : option N; e_seals : list seal; e_vn : N }.

(** ** Key state *)
(** attributes of Kever, eventing.py:1940-2000; [k_evt] is .serder, [k_lastS], [k_lastD]
    are .lastEst, [k_cues] tells whether .cues is not None. *)
Record kever := mkKever {
  k_vn : N; k_pre : N; k_sn : N; k_evt : evt; k_ilk : ilk; k_tholder : tholder; k_keys : list N;
  k_ndigs : list N; k_nt : tholder; k_toad : N; k_wits : list N; k_cuts : list N;
  k_adds : list N; k_estOnly : bool; k_dnd : bool; k_lastS : N; k_lastD : N;
  k_delpre : option N; k_fn : N; k_dts : N; k_cues : bool }.

(** recording.py KeyStateRecord as written by eventing.py:536-556 *)
Record ksr := mkKsr {
  s_vn : N; s_i : N; s_s : N; s_p : option N; s_d : N; s_f : N; s_dt : N; s_et : ilk;
  s_kt : sith; s_k : list N; s_nt : sith; s_n : list N; s_bt : N; s_b : list N;
  s_estOnly : bool; s_dnd : bool; s_eeS : N; s_eeD : N; s_br : list N; s_ba : list N;
  s_di : option N }.

(** ** Databases *)
Definition amap (A : Type) : Type := N -> N -> option A.
Definition aset {A} (m : amap A) (a b : N) (v : option A) : amap A :=
  fun a' b' => if (a' =? a) && (b' =? b) then v else m a' b'.
Definition fset {A} (m : N -> A) (a : N) (v : A) : N -> A := fun a' => if a' =? a then v else m a'.
(** put: do not overwrite *)
Definition aput {A} (m : amap A) (a b : N) (v : A) : amap A :=
  match m a b with None => aset m a b (Some v) | Some _ => m end.

(** Escrow index: OnIoDupSuber of saids, iterated by prefix, then sn, then insertion
    order (subing.py:2527, dbing.py getTopIoDupItemIter). *)
Definition etab := list (N * N * N).
Definition key_ltb (a b : N * N * N) : bool :=
  let '(p, s, _) := a in let '(p', s', _) := b in (p <? p') || ((p =? p') && (s <? s')).
Definition row_eqb (a b : N * N * N) : bool :=
  let '(p, s, d) := a in let '(p', s', d') := b in (p =? p') && (s =? s') && (d =? d').
Fixpoint etab_ins (r : N * N * N) (t : etab) : etab :=
  match t with
  | [] => [r]
  | q :: t' => if key_ltb r q then r :: t else q :: etab_ins r t'
  end.
Definition etab_mem (r : N * N * N) (t : etab) : bool := existsb (row_eqb r) t.
Definition etab_add (r : N * N * N) (t : etab) : etab := if etab_mem r t then t else etab_ins r t.
Definition etab_rem (r : N * N * N) (t : etab) : etab := filter (fun q => negb (row_eqb r q)) t.

(** sub-databases that escrowing may write (basing.py:929-986) *)
Record aux := mkAux {
  evts : amap evt;
  dtss : amap N;
  sigs : amap (list siger);
  wigs : amap (list siger);
  aess : amap (N * N);
  udes : amap (N * N);
  esrs : amap bool;
  mfes : etab;
  dees : etab;
  pses : etab;
  pwes : etab;
  pdes : etab;
  ooes : etab }.
Definition set_evts (v : amap evt) (r : aux) : aux := mkAux v (dtss r) (sigs r) (wigs r) (aess r) (udes r) (esrs r) (mfes r) (dees r) (pses r) (pwes r) (pdes r) (ooes r).
Definition set_dtss (v : amap N) (r : aux) : aux := mkAux (evts r) v (sigs r) (wigs r) (aess r) (udes r) (esrs r) (mfes r) (dees r) (pses r) (pwes r) (pdes r) (ooes r).
Definition set_sigs (v : amap (list siger)) (r : aux) : aux := mkAux (evts r) (dtss r) v (wigs r) (aess r) (udes r) (esrs r) (mfes r) (dees r) (pses r) (pwes r) (pdes r) (ooes r).
Definition set_wigs (v : amap (list siger)) (r : aux) : aux := mkAux (evts r) (dtss r) (sigs r) v (aess r) (udes r) (esrs r) (mfes r) (dees r) (pses r) (pwes r) (pdes r) (ooes r).
Definition set_aess (v : amap (N * N)) (r : aux) : aux := mkAux (evts r) (dtss r) (sigs r) (wigs r) v (udes r) (esrs r) (mfes r) (dees r) (pses r) (pwes r) (pdes r) (ooes r).
Definition set_udes (v : amap (N * N)) (r : aux) : aux := mkAux (evts r) (dtss r) (sigs r) (wigs r) (aess r) v (esrs r) (mfes r) (dees r) (pses r) (pwes r) (pdes r) (ooes r).
Definition set_esrs (v : amap bool) (r : aux) : aux := mkAux (evts r) (dtss r) (sigs r) (wigs r) (aess r) (udes r) v (mfes r) (dees r) (pses r) (pwes r) (pdes r) (ooes r).
Definition set_mfes (v : etab) (r : aux) : aux := mkAux (evts r) (dtss r) (sigs r) (wigs r) (aess r) (udes r) (esrs r) v (dees r) (pses r) (pwes r) (pdes r) (ooes r).
Definition set_dees (v : etab) (r : aux) : aux := mkAux (evts r) (dtss r) (sigs r) (wigs r) (aess r) (udes r) (esrs r) (mfes r) v (pses r) (pwes r) (pdes r) (ooes r).
Definition set_pses (v : etab) (r : aux) : aux := mkAux (evts r) (dtss r) (sigs r) (wigs r) (aess r) (udes r) (esrs r) (mfes r) (dees r) v (pwes r) (pdes r) (ooes r).
Definition set_pwes (v : etab) (r : aux) : aux := mkAux (evts r) (dtss r) (sigs r) (wigs r) (aess r) (udes r) (esrs r) (mfes r) (dees r) (pses r) v (pdes r) (ooes r).
Definition set_pdes (v : etab) (r : aux) : aux := mkAux (evts r) (dtss r) (sigs r) (wigs r) (aess r) (udes r) (esrs r) (mfes r) (dees r) (pses r) (pwes r) v (ooes r).
Definition set_ooes (v : etab) (r : aux) : aux := mkAux (evts r) (dtss r) (sigs r) (wigs r) (aess r) (udes r) (esrs r) (mfes r) (dees r) (pses r) (pwes r) (pdes r) v.


(** sub-databases and key states that only acceptance writes *)
Record acc := mkAcc {
  kels : N -> list (list N);
  fels : N -> list N;
  fons : amap N;
  kwits : amap (list N);
  states : N -> option ksr;
  kevers : N -> option kever }.
Definition set_kels (v : N -> list (list N)) (r : acc) : acc := mkAcc v (fels r) (fons r) (kwits r) (states r) (kevers r).
Definition set_fels (v : N -> list N) (r : acc) : acc := mkAcc (kels r) v (fons r) (kwits r) (states r) (kevers r).
Definition set_fons (v : amap N) (r : acc) : acc := mkAcc (kels r) (fels r) v (kwits r) (states r) (kevers r).
Definition set_kwits (v : amap (list N)) (r : acc) : acc := mkAcc (kels r) (fels r) (fons r) v (states r) (kevers r).
Definition set_states (v : N -> option ksr) (r : acc) : acc := mkAcc (kels r) (fels r) (fons r) (kwits r) v (kevers r).
Definition set_kevers (v : N -> option kever) (r : acc) : acc := mkAcc (kels r) (fels r) (fons r) (kwits r) (states r) v.

(** basing.py:700-1300 Baser: the part written by acceptance and the rest *)
Definition db : Type := acc * aux.

(** IoSet put: add the values not yet present, in order (dbing.py putIoSetVals).  Stored
    signatures are compared by their qb64, which determines the other fields. *)
Definition siger_eqb (a b : siger) : bool :=
  beq (sg_qb64 a) (sg_qb64 b) && (sg_index a =? sg_index b) && beq (sg_raw a) (sg_raw b)
  && match sg_ondex a, sg_ondex b with
     | Some x, Some y => x =? y
     | None, None => true
     | _, _ => false
     end.
Definition addSigs (old new : list siger) : list siger :=
  fold_left (fun l s => if existsb (siger_eqb s) l then l else l ++ [s]) new old.
Definition addNs (old new : list N) : list N :=
  fold_left (fun l s => if memN s l then l else l ++ [s]) new old.
Definition olist {A} (o : option (list A)) : list A := match o with Some l => l | None => [] end.
Definition putSigs (a b : N) (l : list siger) (x : aux) : aux :=
  match l with [] => x | _ => set_sigs (aset (sigs x) a b (Some (addSigs (olist (sigs x a b)) l))) x end.
Definition putWigs (a b : N) (l : list siger) (x : aux) : aux :=
  match l with [] => x | _ => set_wigs (aset (wigs x) a b (Some (addSigs (olist (wigs x a b)) l))) x end.
Definition getSigs (x : aux) (a b : N) : list siger := olist (sigs x a b).
Definition getWigs (x : aux) (a b : N) : list siger := olist (wigs x a b).

(** kels.add(keys=pre, on=sn, val=said): add at position sn if not present, padding. *)
Fixpoint kadd (l : list (list N)) (sn : nat) (d : N) : list (list N) :=
  match sn, l with
  | O, [] => [[d]]
  | O, r :: l' => (if memN d r then r else r ++ [d]) :: l'
  | S n, [] => [] :: kadd [] n d
  | S n, r :: l' => r :: kadd l' n d
  end.
(** kels.getLast(keys=pre, on=sn) *)
Definition klast (l : list (list N)) (sn : N) : option N :=
  match nth_error l (N.to_nat sn) with
  | Some r => match rev r with [] => None | d :: _ => Some d end
  | None => None
  end.
(** kels.getBackIter(keys=pre, on=sn) *)
Definition kback (l : list (list N)) (sn : N) : list N := rev (List.concat (firstn (S (N.to_nat sn)) l)).

(** External functions: Verfer.verify, the digest comparison of exposeds
    (eventing.py:2988-2989), Prefixer.transferable and the acceptance of a prefix text
    by Prefixer(qb64=pre). *)
Record env := mkEnv {
  vrfy : N -> bytes -> bytes -> bool;
  commits : N -> N -> bool;
  transf : N -> bool;
  validPre : N -> bool }.

(** Local identifiers: db.prefixes, db.groups, and habs[pre].mid *)
Record conf := mkConf { c_prefixes : list N; c_groups : list N; c_mid : N -> option N }.

(** ** State and exception monad over the escrow side of the database *)
Definition M (A : Type) : Type := aux -> aux * res A.
Definition retm {A} (a : A) : M A := fun x => (x, Ok a).
Definition failm {A} (e : exn) : M A := fun x => (x, Err e).
Definition liftm {A} (r : res A) : M A := fun x => (x, r).
Definition readm {A} (f : aux -> A) : M A := fun x => (x, Ok (f x)).
(** write, then raise *)
Definition escm {A} (f : aux -> aux) (e : exn) : M A := fun x => (f x, Err e).
Definition modm (f : aux -> aux) : M unit := fun x => (f x, Ok tt).
Definition bindm {A B} (m : M A) (f : A -> M B) : M B :=
  fun x => match m x with (x', Ok a) => f a x' | (x', Err e) => (x', Err e) end.
Notation "x <~ e ;;; f" := (bindm e (fun x => f)) (at level 61, e at next level, right associativity).
Notation "' p <~ e ;;; f" := (bindm e (fun p => f)) (at level 61, p pattern, e at next level, right associativity).

(** ** Local tests: eventing.py:2157-2298 *)
(** eventing.py:2157-2167 *)
Definition transferable (E : env) (k : kever) : bool :=
  match k_ndigs k with [] => false | _ => transf E (k_pre k) end.
(** eventing.py:2170-2186 *)
Definition locallyOwned (cf : conf) (k : kever) : bool :=
  memN (k_pre k) (c_prefixes cf) && negb (memN (k_pre k) (c_groups cf)).
(** eventing.py:2189-2243; None stands for the empty prefix, never a member *)
Definition locallyDelegated (cf : conf) (p : option N) : bool :=
  match p with Some p => memN p (c_prefixes cf) | None => false end.
(** eventing.py:2247-2263, called without serder: an empty list falls back to the Kever's own *)
Definition locallyWitnessed (cf : conf) (k : kever) (wits : list N) : bool :=
  let wits := match wits with [] => k_wits k | _ => wits end in
  existsb (fun p => memN p wits) (c_prefixes cf).
(** eventing.py:2266-2280 *)
Definition locallyMembered (cf : conf) (k : kever) : bool := memN (k_pre k) (c_groups cf).

(** oset(l) as a list: first occurrences (ordered_set.OrderedSet) *)
Definition oset (l : list N) : list N := addNs [] l.
Fixpoint leqb (a b : list N) : bool :=
  match a, b with
  | [], [] => true
  | x :: a', y :: b' => (x =? y) && leqb a' b'
  | _, _ => false
  end.
Definition inter (a b : list N) : list N := filter (fun x => memN x b) a.
Definition diff (a b : list N) : list N := filter (fun x => negb (memN x b)) a.
Definition isnil {A} (l : list A) : bool := match l with [] => true | _ => false end.

(** ** Key state record *)
(** eventing.py:406-557 state, called by 3915-3947 Kever.state *)
Definition kstate (k : kever) : res ksr :=
  t <- processSith (sithOf (k_tholder k)) ;;
  raise_if (match t with TNum n => n <? 1 | _ => false end) ValueError (
  raise_if (len (k_keys k) <? thsize t) ValueError (
  nt <- processSith (sithOf (k_nt k)) ;;
  raise_if (len (k_ndigs k) <? thsize nt) ValueError (
  raise_if (negb (len (oset (k_wits k)) =? len (k_wits k))) ValueError (
  raise_if (if isnil (k_wits k) then negb (k_toad k =? 0)
            else (k_toad k <? 1) || (len (oset (k_wits k)) <? k_toad k)) ValueError (
  raise_if (negb (len (oset (k_cuts k)) =? len (k_cuts k))) ValueError (
  raise_if (negb (len (oset (k_adds k)) =? len (k_adds k))) ValueError (
  raise_if (negb (isnil (inter (oset (k_cuts k)) (oset (k_adds k))))) ValueError (
  Ok (mkKsr (e_vn (k_evt k)) (k_pre k) (k_sn k) (e_prior (k_evt k)) (e_said (k_evt k)) (k_fn k)
        (k_dts k) (k_ilk k) (sithOf t) (k_keys k) (sithOf nt) (k_ndigs k) (k_toad k) (k_wits k)
        (k_estOnly k) (k_dnd k) (k_lastS k) (k_lastD k) (k_cuts k) (k_adds k) (k_delpre k)))))))))).

(** eventing.py:2301-2332 Kever.reload; statedict and Baser.reload pass no cues *)
Definition kreload (x : aux) (s : ksr) : res kever :=
  t <- processSith (s_kt s) ;;
  nt <- processSith (s_nt s) ;;
  match evts x (s_i s) (s_d s) with
  | None => Err MissingEntryError
  | Some e => Ok (mkKever (s_vn s) (s_i s) (s_s s) e (s_et s) t (s_k s) (s_n s) nt (s_bt s) (s_b s)
                    (s_br s) (s_ba s) (s_estOnly s) (s_dnd s) (s_eeS s) (s_eeD s) (s_di s)
                    (s_f s) (s_dt s) false)
  end.

(** basing.py:87-111 statedict.__getitem__ and __contains__.  (Errors other than
    MissingEntryError while reloading cannot happen for stored records and are also
    treated as absence.) *)
Definition kget (d : acc) (x : aux) (p : N) : option kever :=
  match kevers d p with
  | Some k => Some k
  | None => match states d p with
            | Some s => match kreload x s with Ok k => Some k | Err _ => None end
            | None => None
            end
  end.

(** ** Inception and rotation rules *)
(** eventing.py:2337-2404 incept, 2407-2422 config *)
Definition incept (E : env) (e : evt) : res kever :=
  raise_if (0 <? e_sn e) ValidationError (
  raise_if (len (e_keys e) <? thsize (e_kt e)) ValidationError (
  raise_if (negb (transf E (e_pre e)) && negb (isnil (e_ndigs e))) ValidationError (
  raise_if (negb (transf E (e_pre e)) && negb (isnil (e_wits e))) ValidationError (
  raise_if (negb (len (oset (e_wits e)) =? len (e_wits e))) ValidationError (
  raise_if (if isnil (e_wits e) then negb (e_bt e =? 0)
            else (e_bt e <? 1) || (len (e_wits e) <? e_bt e)) ValueError (
  raise_if (negb (transf E (e_pre e)) && negb (isnil (e_seals e))) ValidationError (
  Ok (mkKever (e_vn e) (e_pre e) (e_sn e) e (e_ilk e) (e_kt e) (e_keys e) (e_ndigs e) (e_nt e)
        (e_bt e) (e_wits e) [] [] (e_estOnly e) (e_dnd e) (e_sn e) (e_said e) None 0 0 true)))))))).

(** eventing.py:2689-2735 deriveBacks.  [&] keeps the order of its left operand and [!=] compares
    ordered sets as sequences (ordered_set 4.1.0). *)
Definition deriveBacks (k : kever) (e : evt) : res (list N * list N * list N) :=
  if negb (isRot (e_ilk e)) || (e_sn e <=? k_sn k) then Ok (k_wits k, k_cuts k, k_adds k)
  else
    let witset := oset (k_wits k) in
    let cuts := e_cuts e in
    let cutset := oset cuts in
    raise_if (negb (len cutset =? len cuts)) ValidationError (
    raise_if (negb (leqb (inter witset cutset) cutset)) ValidationError (
    let adds := e_adds e in
    let addset := oset adds in
    raise_if (negb (len addset =? len adds)) ValidationError (
    raise_if (negb (isnil (inter cutset addset))) ValidationError (
    raise_if (negb (isnil (inter witset addset))) ValidationError (
    let wits := addNs (diff witset cutset) addset in
    raise_if (negb (len wits + len cuts =? len (k_wits k) + len adds)) ValidationError (
    Ok (wits, cuts, adds))))))).

(** serder.compare(said=...), serdering.py:1931: equality of saids *)
Definition compare (e : evt) (said : option N) : bool :=
  match said with Some d => e_said e =? d | None => false end.

(** eventing.py:2588-2686 rotate: returns toad, wits, cuts, adds (the threshold is the event's) *)
Definition rotate (d : acc) (x : aux) (k : kever) (e : evt) : res (list N * list N * list N) :=
  _ <- (if k_sn k + 1 <? e_sn e then Err ValidationError
        else if e_sn e <=? k_sn k then
          raise_if ((ilk_eqb (e_ilk e) Rot && (e_sn e <=? k_lastS k))
                    || (ilk_eqb (e_ilk e) Drt && (e_sn e <? k_lastS k))) ValidationError (
          raise_if (ilk_eqb (e_ilk e) Rot && negb (ilk_eqb (k_ilk k) Ixn)) ValidationError (
          (* psn = -1 has no entry *)
          match (if e_sn e =? 0 then None else klast (kels d (e_pre e)) (e_sn e - 1)) with
          | None => Err ValidationError
          | Some pd =>
              match evts x (e_pre e) pd with
              | None => Err ValidationError
              | Some pe => raise_if (negb (compare pe (e_prior e))) ValidationError (Ok tt)
              end
          end))
        else raise_if (negb (compare (k_evt k) (e_prior e))) ValidationError (Ok tt)) ;;
  raise_if (isnil (k_ndigs k)) ValidationError (
  raise_if (len (e_keys e) <? thsize (e_kt e)) ValidationError (
  '(wits, cuts, adds) <- deriveBacks k e ;;
  raise_if (if isnil wits then negb (e_bt e =? 0)
            else (e_bt e <? 1) || (len wits <? e_bt e)) ValueError (
  Ok (wits, cuts, adds)))).

(** ** Escrow writes *)
(** the part shared by 3698-3912 and 5731-5814: source record, date (both kept if
    already there, except that a local source replaces a remote one), event, sigs, wigs *)
Definition escCommon (now : N) (e : evt) (sg wg : list siger) (local : bool) (x : aux) : aux :=
  let p := e_pre e in let s := e_said e in
  let x := set_dtss (aput (dtss x) p s now) x in
  let x := putSigs p s sg x in
  let x := putWigs p s wg x in
  let x := set_evts (aput (evts x) p s e) x in
  match esrs x p s with
  | Some l => if local && negb l then set_esrs (aset (esrs x) p s (Some true)) x else x
  | None => set_esrs (aset (esrs x) p s (Some local)) x
  end.
Definition putUdes (e : evt) (sl : option (N * N)) (x : aux) : aux :=
  match sl with Some c => set_udes (aput (udes x) (e_pre e) (e_said e) c) x | None => x end.
Definition row (e : evt) : N * N * N := (e_pre e, e_sn e, e_said e).
(** eventing.py:3698-3734 *)
Definition escrowMF now e sg wg sl local (x : aux) : aux :=
  let x := putUdes e sl (escCommon now e sg wg local x) in set_mfes (etab_add (row e) (mfes x)) x.
(** eventing.py:3737-3768 *)
Definition escrowDelegable now e sg wg local (x : aux) : aux :=
  let x := escCommon now e sg wg local x in set_dees (etab_add (row e) (dees x)) x.
(** eventing.py:3771-3810 *)
Definition escrowPS now e sg wg sl local (x : aux) : aux :=
  let x := putUdes e sl (escCommon now e sg wg local x) in set_pses (etab_add (row e) (pses x)) x.
(** eventing.py:3813-3852 *)
Definition escrowPW now e sg wg sl local (x : aux) : aux :=
  let x := putUdes e sl (escCommon now e sg wg local x) in set_pwes (etab_add (row e) (pwes x)) x.
(** eventing.py:3855-3912: the source couple is replaced, or removed when absent *)
Definition escrowPD now e sg wg sl local (x : aux) : aux :=
  let x := escCommon now e sg wg local x in
  let x := set_udes (aset (udes x) (e_pre e) (e_said e) sl) x in
  set_pdes (etab_add (row e) (pdes x)) x.
(** eventing.py:5731-5764 *)
Definition escrowOO now e sg wg sl local (x : aux) : aux :=
  let x := putUdes e sl (escCommon now e sg wg local x) in set_ooes (etab_add (row e) (ooes x)) x.

(** ** Delegation *)
Definition seal_is (e : evt) (s : seal) : bool :=
  match s with
  | SealEvt i n d => (i =? e_pre e) && (n =? e_sn e) && (d =? e_said e)
  | SealOther _ => false
  end.

(** basing.py:2067-2083 fullyWitnessed, with the current witness threshold *)
Definition fullyWitnessed (d : acc) (x : aux) (e : evt) : bool :=
  match kget d x (e_pre e) with
  | Some k => k_toad k <=? len (getWigs x (e_pre e) (e_said e))
  | None => false
  end.

(** basing.py:1968-2002 over 2150-2174: last event at each sn, in sn order.  [kget] of
    the delegator has succeeded before every call, so the KeyError of fullyWitnessed
    for an unknown prefix does not arise. *)
Fixpoint lastEvts (x : aux) (p : N) (l : list (list N)) : list evt :=
  match l with
  | [] => []
  | r :: l' =>
      match rev r with
      | s :: _ => match evts x p s with Some e => e :: lastEvts x p l' | None => lastEvts x p l' end
      | [] => lastEvts x p l'
      end
  end.
Definition fetchLastSealing (d : acc) (x : aux) (delpre : N) (e : evt) : option evt :=
  find (fun de => existsb (seal_is e) (e_seals de) && fullyWitnessed d x de)
       (lastEvts x delpre (kels d delpre)).

(** eventing.py:3487-3603 fetchDelegatingEvent with original=True *)
Definition fetchDelegating (d : acc) (delpre : N) (e : evt) (eager : bool) : M (option evt) :=
  fun x =>
  match aess x (e_pre e) (e_said e) with
  | Some (_, dd) =>
      match fons d delpre dd with
      | None => (set_aess (aset (aess x) (e_pre e) (e_said e) None) x, Ok None)
      | Some _ =>
          match evts x delpre dd with
          | None => (x, Err ValidationError)
          | Some de => (x, Ok (Some de))
          end
      end
  | None =>
      if eager then
        match fetchLastSealing d x delpre e with
        | None => (x, Err ValidationError)
        | Some de =>
            match fons d (e_pre e) (e_said e) with
            | Some _ => (set_aess (aset (aess x) (e_pre e) (e_said e) (Some (e_sn de, e_said de))) x, Ok (Some de))
            | None => (x, Ok (Some de))
            end
        end
      else (x, Ok None)
  end.

(** kering.py MaxON *)
Definition MaxON : N := 2 ^ 128 - 1.

(** eventing.py:2995-3482 validateDelegation.  The result is the couple to record in aess, if any.
    The loop of 3424-3481 reads [bossn.Ilk], an attribute SerderKERI does not have, as
    soon as its first comparison is false, so it never goes round. *)
Definition validateDelegation (cf : conf) (now : N) (d : acc) (k : kever) (e : evt)
    (sg wg : list siger) (wits : list N) (delpre : option N) (sl : option (N * N))
    (eager local : bool) : M (option (N * N)) :=
  match delpre with
  | None => retm None
  | Some dp =>
  if locallyOwned cf k || locallyMembered cf k || locallyWitnessed cf k wits then retm None else
  dk <~ readm (fun x => kget d x dp) ;;;
  match dk with
  | None => escm (escrowPD now e sg wg sl local) MissingDelegationError
  | Some dk =>
  if k_dnd dk then failm ValidationError else
  found <~ (match sl with
            | None =>
                de <~ (if eager then readm (fun x => fetchLastSealing d x dp e) else retm None) ;;;
                match de with
                | Some de => retm (de, (e_sn de, e_said de))
                | None => escm (escrowPD now e sg wg None local) MissingDelegationError
                end
            | Some (dsn, dsaid) =>
                if (MaxON <? dsn) || (dsn <? 1) then failm ValidationError else
                match klast (kels d dp) dsn with
                | None =>
                    if negb (k_cues k) then failm AttributeError else
                    if (MaxON <? e_sn e) || (if isIncept (e_ilk e) then negb (e_sn e =? 0) else e_sn e <? 1)
                    then failm ValidationError else
                    escm (escrowPD now e sg wg sl local) MissingDelegationError
                | Some dd =>
                    de <~ readm (fun x => evts x dp dd) ;;;
                    match de with
                    | None => failm ValidationError
                    | Some de =>
                        if existsb (seal_is e) (e_seals de) then retm (de, (e_sn de, e_said de))
                        else escm (escrowPD now e sg wg None local) MissingDelegationError
                    end
                end
            end) ;;;
  let '(de, cpl) := found in
  if ilk_eqb (e_ilk e) Dip || (e_sn e =? k_sn k + 1)
     || ((e_sn e =? k_sn k) && ilk_eqb (k_ilk k) Ixn && ilk_eqb (e_ilk e) Drt)
  then retm (Some cpl) else
  bosso <~ fetchDelegating d dp (k_evt k) eager ;;;
  match bosso with
  | None => escm (escrowPD now e sg wg (Some cpl) local) MissingDelegationError
  | Some bosso => if e_sn bosso <? e_sn de then retm (Some cpl) else failm AttributeError
  end
  end
  end.

(** ** Signatures, witness receipts and delegation: 2739-2944 valSigsWigsDel *)
(** eventing.py:2949-2992 exposeds: dual indexed signatures whose key matches a next digest *)
Definition exposeds (E : env) (ndigs : list N) (verfers : list N) (sg : list siger) : list N :=
  flat_map (fun s =>
    match sg_ondex s with
    | None => []
    | Some o =>
        match nth_error ndigs (N.to_nat o), nth_error verfers (N.to_nat (sg_index s)) with
        | Some dg, Some ky => if commits E dg ky then [o] else []
        | _, _ => []
        end
    end) sg.

(** Python list.index *)
Fixpoint indexOf (x : N) (l : list N) : option N :=
  match l with
  | [] => None
  | y :: l' => if x =? y then Some 0 else match indexOf x l' with Some i => Some (i + 1) | None => None end
  end.
(** eventing.py:2283-2298 locallyContributedIndices *)
Definition contribIndex (cf : conf) (d : acc) (x : aux) (k : kever) (verfers : list N) : res N :=
  match c_mid cf (k_pre k) with
  | None => Err AttributeError
  | Some mid =>
      match kget d x mid with
      | None => Err KeyError
      | Some mk => match k_keys mk with
                   | [] => Err IndexError
                   | ky :: _ => match indexOf ky verfers with Some i => Ok i | None => Err ValueError end
                   end
      end
  end.

(** eventing.py:2739-2944 valSigsWigsDel *)
Definition valSigsWigsDel (E : env) (cf : conf) (now : N) (d : acc) (k : kever) (e : evt)
    (sg : list siger) (verfers : list N) (th : tholder) (wg : list siger) (toad : N)
    (wits : list N) (sl : option (N * N)) (eager local : bool)
  : M (list siger * list siger * option N * option (N * N)) :=
  if len verfers <? thsize th then failm ValidationError else
  sg <~ (if negb local && locallyMembered cf k then
           fun x => (x, i <- contribIndex cf d x k verfers ;;
                        Ok (filter (fun s => negb (sg_index s =? i)) sg))
         else retm sg) ;;;
  let '(sg, indices) := verifySigs N (vrfy E) (e_raw e) sg verfers in
  if isnil indices then failm ValidationError else
  delpre <~ (match e_ilk e with
             | Dip => match e_delpre e with None => failm ValidationError | Some p => retm (Some p) end
             | Drt => retm (k_delpre k)
             | _ => retm None
             end) ;;;
  if negb local && (locallyOwned cf k || locallyWitnessed cf k wits || locallyDelegated cf delpre)
  then escm (escrowMF now e sg wg sl local) MisfitEventSourceError else
  let '(wg, windices) := verifySigs N (vrfy E) (e_raw e) wg wits in
  if negb (satisfy th indices) then escm (escrowPS now e sg wg sl local) MissingSignatureError else
  if isRot (e_ilk e) && negb (satisfy (k_nt k) (exposeds E (k_ndigs k) verfers sg))
  then escm (escrowPS now e sg wg sl local) MissingSignatureError else
  _ <~ (if isnil wits then (if negb (toad =? 0) then failm ValidationError else retm tt)
        else if negb (locallyOwned cf k || locallyMembered cf k || locallyWitnessed cf k wits) then
          if (toad <? 1) || (len wits <? toad) then failm ValidationError else
          if len windices <? toad then
            fun x => (escrowPW now e sg wg sl local x,
                      if negb (etab_mem (row e) (pwes x)) && negb (k_cues k) then Err AttributeError
                      else Err MissingWitnessSignatureError)
          else retm tt
        else retm tt) ;;;
  if isDel (e_ilk e) && locallyDelegated cf delpre && negb (locallyOwned cf k)
     && match sl with None => true | Some _ => false end
  then escm (escrowDelegable now e sg wg local) MissingDelegableApprovalError else
  cpl <~ validateDelegation cf now d k e sg wg wits delpre sl eager local ;;;
  retm (sg, wg, delpre, cpl).

(** ** Acceptance *)
(** eventing.py:3607-3695 logEvent.  [first] is the first seen flag; returns the first seen number
    and date when it is set. *)
Definition logEvent (cf : conf) (now : N) (k : kever) (e : evt) (sg wg : list siger) (wits : list N)
    (first : bool) (cpl : option (N * N)) (dater : option N) (local : bool) (dx : db)
  : db * option (N * N) :=
  let '(d, x) := dx in
  let p := e_pre e in let s := e_said e in
  let x := set_dtss (aput (dtss x) p s now) x in
  let x := putWigs p s wg (putSigs p s sg x) in
  let d := match wits with
           | [] => d
           | _ => set_kwits (aset (kwits d) p s (Some (addNs (olist (kwits d p s)) wits))) d
           end in
  let x := set_evts (aput (evts x) p s e) x in
  let x := match k_delpre k, cpl with
           | Some _, Some c =>
               if negb (ilk_eqb (e_ilk e) Ixn) && negb (locallyOwned cf k) && negb (locallyWitnessed cf k wits)
               then set_aess (aset (aess x) p s (Some c)) x else x
           | _, _ => x
           end in
  let x := match esrs x p s with
           | Some l => if local && negb l then set_esrs (aset (esrs x) p s (Some true)) x else x
           | None => set_esrs (aset (esrs x) p s (Some local)) x
           end in
  let '(d, x, r) :=
    if first then
      let fn := len (fels d p) in
      let dts := match dater with Some t => t | None => now end in
      let x := set_dtss (aset (dtss x) p s (Some dts)) x in
      let d := set_fels (fset (fels d) p (fels d p ++ [s])) d in
      let d := set_fons (aset (fons d) p s (Some fn)) d in
      (d, x, Some (fn, dts))
    else (d, x, None) in
  let d := set_kels (fset (kels d) p (kadd (kels d p) (N.to_nat (e_sn e)) s)) d in
  ((d, x), r).

(** A message handed to Kevery.processEvent: the event with its attachments, how it was
    obtained, and the current date.  [m_seal] is the attached (delsner, delsger). *)
Record msg := mkMsg {
  m_evt : evt; m_sigers : list siger; m_wigers : list siger; m_seal : option (N * N);
  m_eager : bool; m_local : bool; m_now : N; m_dater : option N }.

(** store the (mutated or new) Kever and pin its state record: 2104-2108, 2529-2532,
    2579-2582.  When state() raises the Kever keeps its new attributes but the record
    is not written. *)
Definition pinState (k : kever) (dx : db) : db * res unit :=
  let '(d, x) := dx in
  match kstate k with
  | Ok s => ((set_states (fset (states d) (k_pre k) (Some s)) d, x), Ok tt)
  | Err ex => ((d, x), Err ex)
  end.

(** eventing.py:2006-2108 Kever.__init__ from an inception event, and 4282-4294 *)
Definition newKever (E : env) (cf : conf) (m : msg) (dx : db) : db * res unit :=
  let e := m_evt m in let now := m_now m in let '(d, x) := dx in
  if isnil (m_sigers m) then (dx, Err ValueError) else
  if negb (isIncept (e_ilk e)) then (dx, Err ValidationError) else
  match incept E e with
  | Err ex => (dx, Err ex)
  | Ok k =>
      match valSigsWigsDel E cf now d k e (m_sigers m) (e_keys e) (k_tholder k) (m_wigers m)
              (k_toad k) (k_wits k) (m_seal m) (m_eager m) (m_local m) x with
      | (x, Err ex) => ((d, x), Err ex)
      | (x, Ok (sg, wg, delpre, cpl)) =>
          let k := mkKever (k_vn k) (k_pre k) (k_sn k) (k_evt k) (k_ilk k) (k_tholder k) (k_keys k)
                     (k_ndigs k) (k_nt k) (k_toad k) (k_wits k) (k_cuts k) (k_adds k) (k_estOnly k)
                     (k_dnd k) (k_lastS k) (k_lastD k) delpre (k_fn k) (k_dts k) (k_cues k) in
          let '(dx, r) := logEvent cf now k e sg wg (e_wits e) true cpl (m_dater m) (m_local m) (d, x) in
          match r with
          | None => (dx, Ok tt)
          | Some (fn, dts) =>
              let k := mkKever (k_vn k) (k_pre k) (k_sn k) (k_evt k) (k_ilk k) (k_tholder k) (k_keys k)
                         (k_ndigs k) (k_nt k) (k_toad k) (k_wits k) (k_cuts k) (k_adds k) (k_estOnly k)
                         (k_dnd k) (k_lastS k) (k_lastD k) delpre fn dts (k_cues k) in
              match pinState k dx with
              | ((d, x), Ok _) => ((set_kevers (fset (kevers d) (k_pre k) (Some k)) d, x), Ok tt)
              | (dx, Err ex) => (dx, Err ex)
              end
          end
      end
  end.

(** eventing.py:2425-2585 Kever.update on the Kever [k] registered for the event's prefix *)
Definition update (E : env) (cf : conf) (m : msg) (k : kever) (dx : db) : db * res unit :=
  let e := m_evt m in let now := m_now m in let '(d, x) := dx in
  if negb (transferable E k) then (dx, Err ValidationError) else
  if negb (e_pre e =? k_pre k) then (dx, Err ValidationError) else
  if isRot (e_ilk e) then
    if (match k_delpre k with Some _ => true | None => false end) && negb (ilk_eqb (e_ilk e) Drt)
    then (dx, Err ValidationError) else
    match rotate d x k e with
    | Err ex => (dx, Err ex)
    | Ok (wits, cuts, adds) =>
        match valSigsWigsDel E cf now d k e (m_sigers m) (e_keys e) (e_kt e) (m_wigers m)
                (e_bt e) wits (m_seal m) (m_eager m) (m_local m) x with
        | (x, Err ex) => ((d, x), Err ex)
        | (x, Ok (sg, wg, _, cpl)) =>
            let '(dx, r) := logEvent cf now k e sg wg wits true cpl (m_dater m) (m_local m) (d, x) in
            let '(fn, dts) := match r with Some p => p | None => (k_fn k, k_dts k) end in
            let k := mkKever (k_vn k) (k_pre k) (e_sn e) e (e_ilk e) (e_kt e) (e_keys e) (e_ndigs e)
                       (e_nt e) (e_bt e) wits cuts adds (k_estOnly k) (k_dnd k) (e_sn e) (e_said e)
                       (k_delpre k) fn dts (k_cues k) in
            let '(d, x) := dx in
            pinState k (set_kevers (fset (kevers d) (k_pre k) (Some k)) d, x)
        end
    end
  else if ilk_eqb (e_ilk e) Ixn then
    if k_estOnly k then (dx, Err ValidationError) else
    if negb (e_sn e =? k_sn k + 1) then (dx, Err ValidationError) else
    if negb (compare (k_evt k) (e_prior e)) then (dx, Err ValidationError) else
    match valSigsWigsDel E cf now d k e (m_sigers m) (k_keys k) (k_tholder k) (m_wigers m)
            (k_toad k) (k_wits k) None (m_eager m) (m_local m) x with
    | (x, Err ex) => ((d, x), Err ex)
    | (x, Ok (sg, wg, _, _)) =>
        let '(dx, r) := logEvent cf now k e sg wg [] true None None true (d, x) in
        let '(fn, dts) := match r with Some p => p | None => (k_fn k, k_dts k) end in
        let k := mkKever (k_vn k) (k_pre k) (e_sn e) e (e_ilk e) (k_tholder k) (k_keys k) (k_ndigs k)
                   (k_nt k) (k_toad k) (k_wits k) (k_cuts k) (k_adds k) (k_estOnly k) (k_dnd k)
                   (k_lastS k) (k_lastD k) (k_delpre k) fn dts (k_cues k) in
        let '(d, x) := dx in
        pinState k (set_kevers (fset (kevers d) (k_pre k) (Some k)) d, x)
    end
  else (dx, Err ValidationError).

(** ** Kevery *)
(** eventing.py:5664-5690 fetchEstEvent: last event at sn, then at the sn before it, ... *)
Fixpoint fetchEst (fuel : nat) (d : acc) (x : aux) (p sn : N) : option evt :=
  match fuel with
  | O => None
  | S fuel =>
      match klast (kels d p) sn with
      | None => None
      | Some s =>
          match evts x p s with
          | None => None
          | Some e => if isEst (e_ilk e) then Some e
                      else if e_sn e =? 0 then None else fetchEst fuel d x p (e_sn e - 1)
          end
      end
  end.
(** eventing.py:4202-4224 fetchWitnessState; evts.get(...) of None raises AttributeError *)
Fixpoint fetchWits (d : acc) (x : aux) (p : N) (l : list N) : res (list N) :=
  match l with
  | [] => Ok []
  | s :: l' => match evts x p s with
               | None => Err AttributeError
               | Some e => if isEst (e_ilk e) then Ok (olist (kwits d p s)) else fetchWits d x p l'
               end
  end.

(** eventing.py:5789-5816 escrowLDEvent: after its first writes it calls self.db.addLde, which Baser
    does not have *)
Definition escrowLD now e sg (x : aux) : aux := escCommon now e sg [] true x.

(** eventing.py:4227-4441 processEvent *)
Definition processEvent (E : env) (cf : conf) (m : msg) (dx : db) : db * res unit :=
  let e := m_evt m in let p := e_pre e in let sn := e_sn e in let now := m_now m in
  let '(d, x) := dx in
  if negb (validPre E p) then (dx, Err ValidationError) else
  let oo := ((d, escrowOO now e (m_sigers m) (m_wigers m) (m_seal m) (m_local m) x), Err OutOfOrderError) in
  let ld := ((d, escrowLD now e (m_sigers m) x), Err AttributeError) in
  match kget d x p with
  | None => if isIncept (e_ilk e) then newKever E cf m dx else oo
  | Some k =>
      if isIncept (e_ilk e) then
        if negb (sn =? 0) then (dx, Err ValueError) else
        match fetchEst (S (N.to_nat sn)) d x p sn with
        | None => (dx, Err AttributeError)
        | Some ee =>
            if e_said ee =? e_said e then
              let '(sg, _) := verifySigs N (vrfy E) (e_raw e) (m_sigers m) (e_keys ee) in
              let '(wg, _) := verifySigs N (vrfy E) (e_raw e) (m_wigers m) (e_wits ee) in
              if isnil sg && isnil wg then (dx, Ok tt)
              else (fst (logEvent cf now k e sg wg [] false None None true dx), Ok tt)
            else ld
        end
      else
        if k_sn k + 1 <? sn then oo
        else if (sn =? k_sn k + 1)
                || (ilk_eqb (e_ilk e) Rot && (k_lastS k <? sn))
                || (ilk_eqb (e_ilk e) Drt && (k_lastS k <=? sn))
        then update E cf m k dx
        else if match klast (kels d p) sn with Some s => s =? e_said e | None => false end then
          match fetchEst (S (N.to_nat sn)) d x p sn with
          | None => (dx, Err AttributeError)
          | Some ee =>
              let '(sg, _) := verifySigs N (vrfy E) (e_raw e) (m_sigers m) (e_keys ee) in
              match fetchWits d x p (kback (kels d p) sn) with
              | Err ex => (dx, Err ex)
              | Ok wits =>
                  let '(wg, _) := verifySigs N (vrfy E) (e_raw e) (m_wigers m) wits in
                  if isnil sg && isnil wg then (dx, Ok tt)
                  else (fst (logEvent cf now k e sg wg [] false None None true dx), Ok tt)
              end
          end
        else ld
  end.

(** ** Escrow passes: 6047-6171, 6174-6322, 6328-6475, 6478-6631 *)
Inductive pass := POO | PPS | PPW | PPD.
Definition p_rows (q : pass) (x : aux) : etab :=
  match q with POO => ooes x | PPS => pses x | PPW => pwes x | PPD => pdes x end.
Definition p_rem (q : pass) (r : N * N * N) (x : aux) : aux :=
  match q with
  | POO => set_ooes (etab_rem r (ooes x)) x
  | PPS => set_pses (etab_rem r (pses x)) x
  | PPW => set_pwes (etab_rem r (pwes x)) x
  | PPD => set_pdes (etab_rem r (pdes x)) x
  end.
Definition p_timeout (q : pass) : N := match q with POO => 1200 | _ => 3600 end.
(** the exception that keeps the event in this escrow *)
Definition p_keep (q : pass) (ex : exn) : bool :=
  match q, ex with
  | POO, OutOfOrderError | PPS, MissingSignatureError
  | PPW, MissingWitnessSignatureError | PPD, MissingDelegationError => true
  | _, _ => false
  end.
Definition remUdes (p s : N) (x : aux) : aux := set_udes (aset (udes x) p s None) x.

(** one row of the escrow: rebuild the message and process it again *)
Definition unescrow1 (E : env) (cf : conf) (now : N) (q : pass) (r : N * N * N) (dx : db) : db :=
  let '(p, _, s) := r in
  let '(d, x) := dx in
  let drop dx := let '(d, x) := dx in
                 (d, match q with PPD => remUdes p s (p_rem q r x) | _ => p_rem q r x end) in
  match esrs x p s, dtss x p s, evts x p s, getSigs x p s with
  | Some local, Some dt, Some e, (_ :: _) as sg =>
      if p_timeout q <? now - dt then drop dx else
      let m := mkMsg e sg (getWigs x p s) (match q with POO => None | _ => udes x p s end)
                 (match q with POO => false | _ => true end) local now None in
      match processEvent E cf m dx with
      | ((d, x), Ok _) =>
          (d, match q with POO => p_rem q r x | _ => remUdes p s (p_rem q r x) end)
      | (dx, Err ex) => if p_keep q ex then dx else drop dx
      end
  | _, _, _, _ => drop dx
  end.

(** the iteration reads a snapshot of the escrow *)
Definition unescrow (E : env) (cf : conf) (now : N) (q : pass) (dx : db) : db :=
  fold_left (fun dx r => unescrow1 E cf now q r dx) (p_rows q (snd dx)) dx.

(** eventing.py:6027-6045 processEscrows, event escrows only, in its order *)
Definition processEscrows (E : env) (cf : conf) (now : N) (dx : db) : db :=
  fold_left (fun dx q => unescrow E cf now q dx) [POO; PPD; PPW; PPS] dx.

(** Restart of the process: the in-memory Kevers are gone; they are read back from the
    state records on use. *)
Definition restart (dx : db) : db := let '(d, x) := dx in (set_kevers (fun _ => None) d, x).

(** ** Executions *)
Inductive op := Deliver (m : msg) | Escrows (now : N) | Restart.
Definition step (E : env) (cf : conf) (o : op) (dx : db) : db :=
  match o with
  | Deliver m => fst (processEvent E cf m dx)
  | Escrows now => processEscrows E cf now dx
  | Restart => restart dx
  end.
Definition run (E : env) (cf : conf) (ops : list op) (dx : db) : db :=
  fold_left (fun dx o => step E cf o dx) ops dx.

(** an empty database *)
Definition aux0 : aux :=
  mkAux (fun _ _ => None) (fun _ _ => None) (fun _ _ => None) (fun _ _ => None) (fun _ _ => None)
        (fun _ _ => None) (fun _ _ => None) [] [] [] [] [] [].
Definition acc0 : acc :=
  mkAcc (fun _ => []) (fun _ => []) (fun _ _ => None) (fun _ _ => None) (fun _ => None) (fun _ => None).
Definition db0 : db := (acc0, aux0).
