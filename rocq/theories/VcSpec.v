(** Specification of credential verification: histories, the rules of edges and what it means for a
    credential to have been accepted. *)
From Verif Require Import Prelude B64Model MatterModel SubsModel ThModel KelModel TlModel TlSpec VcModel.
Open Scope N_scope.

(** what can happen to a verifier: an action of its transaction event logs, a schema arrives, a
    credential arrives with the reference to its anchor, the escrows are processed *)
Inductive vact :=
| VTel (x : tact)
| VSchema (s : N)
| VCred (c : cred) (a : N * N * N) (now : N)
| VSweep (now : N).
Definition vdo (E : tenv) (cf : tconf) (X : cenv) (d : vdb) (x : vact) : vdb :=
  match x with
  | VTel x => set_tel (tdo E cf (tel d) x) d
  | VSchema s => set_schs (fset (schs d) s true) d
  | VCred c a now => fst (process X c a now d)
  | VSweep now => fst (vsweep X now d)
  end.
Definition vruns (E : tenv) (cf : tconf) (X : cenv) (h : list vact) (d : vdb) : vdb := fold_left (vdo E cf X) h d.

(** the part of a history that concerns transaction event logs *)
Definition telOf (h : list vact) : list tact :=
  flat_map (fun x => match x with VTel x => [x] | _ => [] end) h.
Definition sent (h : list vact) (c : cred) : Prop := exists a now, In (VCred c a now) h.
(** a said names one credential: no variants *)
Definition oneCred (h : list vact) : Prop :=
  forall c c', sent h c -> sent h c' -> c_said c = c_said c' -> c = c'.
(** times at which a credential or the escrows are processed *)
Definition timeOf (x : vact) : option N := match x with VCred _ _ t | VSweep t => Some t | _ => None end.

(** ** The rules of an edge from [c] to [f] *)
(** the last of the operators that relate the issuer of the near credential to the issuee of the far one *)
Definition relates (o : eop) : Prop := o = I2I \/ o = NI2I \/ o = DI2I.
Definition governs (o : eop) (ops : list eop) : Prop :=
  exists l1 l2, ops = l1 ++ o :: l2 /\ relates o /\ (forall x, In x l2 -> ~ relates x).
Record edgeRule (ops : list eop) (c f : cred) : Prop := mkRule {
  (** I2I: the issuer of the near credential is the issuee of the far one *)
  er_i2i : governs I2I ops -> c_issuee f = Some (c_issuer c);
  (** without operators that are known: the same, when the far credential has an issuee *)
  er_default : (forall o, In o ops -> o = OtherOp) -> forall i, c_issuee f = Some i -> i = c_issuer c;
  (** E1E: both have the same issuee *)
  er_e1e : In E1E ops -> exists i, c_issuee c = Some i /\ c_issuee f = Some i;
  (** NOT and DI2I are not supported *)
  er_not : ~ In NOT ops;
  er_di2i : ~ governs DI2I ops }.

(** the log of [c] in [t] is not empty, or holds just its issuance *)
Definition issuedIn (t : tdb) (c : N) : Prop := vcState t c <> NeverIssued.
Definition unrevokedIn (t : tdb) (c : N) : Prop := vcState t c = Issued.

(** [c] could be accepted by a verifier with the logs [t] and the schemas [S], when the credentials
    [early], found by [far], had been accepted before *)
Record acceptable (X : cenv) (t : tdb) (S : N -> Prop) (early : list N) (far : N -> option cred) (c : cred) : Prop := mkAcc {
  ac_registry : tget t (c_reg c) <> None;
  ac_issued : issuedIn t (c_said c);
  ac_known : S (c_schema c);
  ac_schema : validS X (c_schema c) (c_raw c) = true;
  ac_edges : exists es, c_edges c = Some es /\ forall e, In e es -> e = Skip \/
    exists n ops s f, e = Node n ops s /\ In n early /\ far n = Some f /\ edgeRule ops c f
      /\ tget t (c_reg f) <> None /\ unrevokedIn t n
      /\ (forall s', s = Some s' -> s' = c_schema f \/ S s' /\ validS X s' (c_raw f) = true) }.

(** the TEL events a credential has belong to the registry the credential names, and are of the kind
    of that registry *)
Definition consistent (h : list tact) (c : cred) : Prop :=
  c_said c <> c_reg c
  /\ (forall e, delivered h e -> t_pre e = c_said c -> registryOf e = c_reg c)
  /\ ((forall e, delivered h e -> t_pre e = c_said c -> t_ilk e = Bis \/ t_ilk e = Brv)
      \/ (forall r, delivered h r -> t_ilk r = Vcp -> t_pre r = c_reg c -> t_nob r = true)).

(** [cs] are credentials a verifier with the history [h] has been given, each acceptable when those
    before it in the list are accepted *)
Definition supplied (E : tenv) (cf : tconf) (X : cenv) (h : list vact) (cs : list cred) : Prop :=
  (forall c, In c cs -> sent h c /\ consistent (telOf h) c)
  /\ forall l1 c l2, cs = l1 ++ c :: l2 ->
       acceptable X (truns E cf (telOf h) tdb0) (fun s => In (VSchema s) h) (map c_said l1)
                  (fun n => find (fun f => c_said f =? n) l1) c.
(** all that happens at a time happens within an hour, and before the events of [cs] expire *)
Definition timely (X : cenv) (h : list vact) (cs : list cred) : Prop :=
  (forall x y t u, In x h -> In y h -> timeOf x = Some t -> timeOf y = Some u -> t <= u + timeoutE)
  /\ (forall c e x t, In c cs -> delivered (telOf h) e -> t_pre e = c_said c -> In x h -> timeOf x = Some t -> t <= dated X e + expiry X).
