(** Verification of credentials: vdr/verifying.py Verifier (25-490) with the part of Reger it
    writes (vdr/eventing.py:2318-2350, 2477-2505), on top of the transaction event logs of TlModel.

    Simplifications, common to the whole file.
    - Saids, identifiers and schemas (named by their said) are opaque numbers.  A credential is the
      record of the fields that are read.  One said may have several variants: the said of a version 2
      credential is that of its most compact form (core/serdering.py:2967-3129), so that a variant that
      hides its attributes has the same said and no readable issuee (serdering.py:2780-2803).
    - Dates are numbers of microseconds.  Cues and log output are dropped.
    - The schema validator and the date of an event are parameters. *)
From Verif Require Import Prelude B64Model MatterModel SubsModel ThModel KelModel TlModel.
Open Scope N_scope.

(** tokens of edge operators (vdr/verifying.py:36-48): those recognized and any other *)
Inductive eop := I2I | NI2I | DI2I | E1E | NOT | OtherOp.
Definition eop_eqb (a b : eop) : bool :=
  match a, b with
  | I2I, I2I | NI2I, NI2I | DI2I, DI2I | E1E, E1E | NOT, NOT | OtherOp, OtherOp => true
  | _, _ => false
  end.
(** vdr/verifying.py:41 UnaryOps *)
Definition unaryOp (o : eop) : bool := match o with OtherOp => false | _ => true end.
(** vdr/verifying.py:47 DelegativeOps *)
Definition delegativeOp (o : eop) : bool := match o with I2I | NI2I | DI2I => true | _ => false end.

(** An item of an edge block (vdr/verifying.py:171-175): label d or o, which is skipped; a block naming a far node
    with n, its operators o (a single operator is the list holding it, none the empty list) and
    schema s; or a value whose n cannot be read (a text such as the salt u raises TypeError, a block
    without n KeyError). *)
Inductive enode := Skip | Node (n : N) (o : list eop) (s : option N) | BadNode (x : exn).

(** core/serdering.py:2707-2853 getters of SerderACDC.  [c_edges] is None for an edge section that is neither block nor list
    (a said), and the items of its blocks one after the other otherwise; no section is the empty
    list.  *)
Record cred := mkCred {
  c_raw : bytes; c_said : N; c_reg : N; c_issuer : N; c_issuee : option N; c_schema : N;
  c_edges : option (list enode) }.

(** exceptions of processCredential *)
Inductive vx := XMissingRegistry | XMissingSchema | XMissingChain | XRevokedChain | XFailedSchema
| XValidation | XOther (e : exn).

(** escrows of credentials: missing registry, schema, chain *)
Inductive wait := MRE | MSE | MCE.
Definition wait_eqb (a b : wait) : bool :=
  match a, b with MRE, MRE | MSE, MSE | MCE, MCE => true | _, _ => false end.
(** what processCredential concludes *)
Inductive verdict := Save | Wait (w : wait) | Fail (x : vx).
Definition waitExn (w : wait) : vx :=
  match w with MRE => XMissingRegistry | MSE => XMissingSchema | MCE => XMissingChain end.

(** vdr/eventing.py:2318-2350 sub-databases creds, cancs, saved, issus, subjs, schms, mre, mse, mce;
    [schs] tells which schemas the resolver has (core/scheming.py CacheResolver.resolve) *)
Record vdb := mkVdb {
  tel : tdb;
  schs : N -> bool;
  creds : N -> option cred;
  cancs : N -> option (N * N * N);
  saved : N -> bool;
  issus : N -> list N; schms : N -> list N; subjs : N -> list N;
  escs : wait -> list (N * N) }.
Definition vdb0 : vdb :=
  mkVdb tdb0 (fun _ => false) (fun _ => None) (fun _ => None) (fun _ => false)
        (fun _ => []) (fun _ => []) (fun _ => []) (fun _ => []).
Definition set_tel v d := mkVdb v (schs d) (creds d) (cancs d) (saved d) (issus d) (schms d) (subjs d) (escs d).
Definition set_schs v d := mkVdb (tel d) v (creds d) (cancs d) (saved d) (issus d) (schms d) (subjs d) (escs d).
Definition set_escs v d := mkVdb (tel d) (schs d) (creds d) (cancs d) (saved d) (issus d) (schms d) (subjs d) v.

(** Suber.put of an escrow entry: kept in key order, an entry that exists stays as it is; Suber.rem *)
Fixpoint eput (s now : N) (l : list (N * N)) : list (N * N) :=
  match l with
  | [] => [(s, now)]
  | (s', t) :: l' => if s' =? s then l else if s <? s' then (s, now) :: l else (s', t) :: eput s now l'
  end.
Definition erem (s : N) (l : list (N * N)) : list (N * N) := filter (fun r => negb (fst r =? s)) l.
Definition eset (w : wait) (v : list (N * N)) (d : vdb) : vdb :=
  set_escs (fun w' => if wait_eqb w' w then v else escs d w') d.

(** dates of TEL events, schema validation and the expiry of a Verifier (64) *)
Record cenv := mkCenv { dated : tev -> N; validS : N -> bytes -> bool; expiry : N }.
(** vdr/verifying.py:31-34: an hour *)
Definition timeoutE : N := 3600000000.

Section V.
  Context (X : cenv).

  (** vdr/eventing.py:1144-1192 Tever.vcState: whether revoked and the date.  The log is found by the
      credential alone; in a registry with backers the last event must have ra, and always dt. *)
  Definition credState (tv : tever) (c : N) (d : tdb) : vx + option (bool * N) :=
    match tels d c with
    | [] => inr None
    | r :: l =>
        let g := snd (List.last l r) in
        match tvts d c g with
        | None => inl (XOther AttributeError)
        | Some e =>
            if negb (v_nob tv) && negb (match t_ilk e with Bis | Brv => true | _ => false end)
            then inl (XOther KeyError)
            else match ancs d c g with
                 | None => inl (XOther MissingEntryError)
                 | Some _ =>
                     match t_ilk e with
                     | Iss | Rev | Bis | Brv => inr (Some (negb (isnil l), dated X e))
                     | _ => inl (XOther KeyError)
                     end
                 end
        end
    end.

  (** vdr/verifying.py:400-490 verifyChain *)
  Definition verifyChain (n : N) (o : list eop) (issuer : N) (issuee : option N) (d : vdb)
    : vx + option (bool * N) :=
    if negb (saved d n) then inr None
    else match creds d n with
    | None => inl (XOther AttributeError)
    | Some f =>
        let ops := filter unaryOp o in
        let op := find delegativeOp (rev ops) in
        let op := if isnil ops then Some (match c_issuee f with Some _ => I2I | None => NI2I end) else op in
        if existsb (eop_eqb NOT) ops then inl XValidation
        else if (match op with Some DI2I => true | _ => false end) then inl XValidation
        else if existsb (eop_eqb E1E) ops &&
                negb (match c_issuee f, issuee with Some a, Some b => b =? a | _, _ => false end)
        then inr None
        else if (match op with
                 | None | Some NI2I => false
                 | Some o' =>
                     match c_issuee f with
                     | None => true
                     | Some a => isnil (subjs d a) || (eop_eqb o' I2I && negb (issuer =? a))
                     end
                 end)
        then inr None
        else match tget (tel d) (c_reg f) with
             | None => inr None
             | Some tv => credState tv n (tel d)
             end
    end.

  (** vdr/verifying.py:171-239: one item of the edges.  None: go on with the next. *)
  Definition checkEdge (c : cred) (now : N) (e : enode) (d : vdb) : option verdict :=
    match e with
    | Skip => None
    | BadNode x => Some (Fail (XOther x))
    | Node n o s =>
        match verifyChain n o (c_issuer c) (c_issuee c) d with
        | inl x => Some (Fail x)
        | inr None => Some (Wait MCE)
        | inr (Some (revoked, dt)) =>
            let sc := match s, creds d n with
                      | Some s', Some f =>
                          if c_schema f =? s' then None
                          else if negb (schs d s') then Some (Wait MSE)
                          else if negb (validS X s' (c_raw f)) then Some (Wait MCE)
                          else None
                      | _, _ => None
                      end in
            match sc with
            | Some v => Some v
            | None =>
                if dt + expiry X <? now then Some (Wait MCE)
                else if revoked then Some (Fail XRevokedChain)
                else None
            end
        end
    end.
  (** vdr/verifying.py:170-171: the items in order *)
  Fixpoint checkEdges (c : cred) (now : N) (es : list enode) (d : vdb) : verdict :=
    match es with
    | [] => Save
    | e :: es => match checkEdge c now e d with Some v => v | None => checkEdges c now es d end
    end.
  (** vdr/verifying.py:120-241 processCredential without its effects.  A revoked credential is only
      logged. *)
  Definition judge (c : cred) (now : N) (d : vdb) : verdict :=
    match tget (tel d) (c_reg c) with
    | None => Wait MRE
    | Some tv =>
        match credState tv (c_said c) (tel d) with
        | inl x => Fail x
        | inr None => Wait MRE
        | inr (Some (_, dt)) =>
            if dt + expiry X <? now then Wait MRE
            else if negb (schs d (c_schema c)) then Wait MSE
            else if negb (validS X (c_schema c) (c_raw c)) then Fail XFailedSchema
            else match c_edges c with
                 | None => Fail XValidation
                 | Some es => checkEdges c now es d
                 end
        end
    end.

  (** vdr/eventing.py:2477-2488 logCred: the anchor is pinned, the credential put *)
  Definition logCred (c : cred) (a : N * N * N) (d : vdb) : vdb :=
    mkVdb (tel d) (schs d)
      (match creds d (c_said c) with Some _ => creds d | None => fset (creds d) (c_said c) (Some c) end)
      (fset (cancs d) (c_said c) (Some a))
      (saved d) (issus d) (schms d) (subjs d) (escs d).
  (** vdr/verifying.py:262-307 escrowMRE, escrowMCE, escrowMSE *)
  Definition escrowC (w : wait) (c : cred) (a : N * N * N) (now : N) (d : vdb) : vdb :=
    let d := logCred c a d in eset w (eput (c_said c) now (escs d w)) d.
  (** CesrDupSuber.add *)
  Definition addDup (m : N -> list N) (k v : N) : N -> list N :=
    fset m k (if memN v (m k) then m k else m k ++ [v]).
  (** vdr/verifying.py:363-389 saveCredential *)
  Definition saveC (c : cred) (a : N * N * N) (d : vdb) : vdb :=
    let d := logCred c a d in
    mkVdb (tel d) (schs d) (creds d) (cancs d) (fset (saved d) (c_said c) true)
      (addDup (issus d) (c_issuer c) (c_said c)) (addDup (schms d) (c_schema c) (c_said c))
      (match c_issuee c with Some i => addDup (subjs d) i (c_said c) | None => subjs d end) (escs d).
  (** vdr/verifying.py:107-244 processCredential *)
  Definition process (c : cred) (a : N * N * N) (now : N) (d : vdb) : vdb * option vx :=
    match judge c now d with
    | Save => (saveC c a d, None)
    | Wait w => (escrowC w c a now d, Some (waitExn w))
    | Fail x => (d, Some x)
    end.

  (** vdr/verifying.py:318-361 _processEscrow: one row.  None when cloneCred (vdr/eventing.py:2490-2505) raises, outside the try *)
  Definition escRow (w : wait) (now : N) (r : N * N) (d : vdb) : option vdb :=
    let '(s, dt) := r in
    match creds d s, cancs d s with
    | Some c, Some a =>
        let rem d := eset w (erem s (escs d w)) d in
        Some (if dt + timeoutE <? now then rem d
              else match process c a now d with
                   | (d', None) => rem d'
                   | (d', Some x) => match w, x with
                                     | MRE, XMissingRegistry | MSE, XMissingSchema | MCE, XMissingChain => d'
                                     | _, _ => rem d'
                                     end
                   end)
    | _, _ => None
    end.
  (** the rows are those of the read transaction the loop opens; the flag tells whether the loop ran
      to its end *)
  Fixpoint escLoop (w : wait) (now : N) (rows : list (N * N)) (d : vdb) : vdb * bool :=
    match rows with
    | [] => (d, true)
    | r :: rows => match escRow w now r d with
                   | None => (d, false)
                   | Some d' => escLoop w now rows d'
                   end
    end.
  (** vdr/verifying.py:309-316 processEscrows *)
  Definition vsweep (now : N) (d : vdb) : vdb * bool :=
    match escLoop MCE now (escs d MCE) d with
    | (d, false) => (d, false)
    | (d, true) =>
        match escLoop MSE now (escs d MSE) d with
        | (d, false) => (d, false)
        | (d, true) => escLoop MRE now (escs d MRE) d
        end
    end.
End V.
