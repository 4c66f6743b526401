(** What a reader needs to know about the shape of a stream, without the parser. *)
From Verif Require Import Prelude B64Model VerModel CtrModel MatterModel PsModel.
Open Scope N_scope.

(** The bytes of a message in JSON, CBOR or MGPK: they start like one, and the
    version string announces their number. *)
Definition sizedBody (b : bytes) : Prop :=
  sniff b = Ok Cmsg /\ exists sm, smell b = Ok sm /\ s_size sm = len b.

(** Counter.enclose in the text or the binary domain. *)
Definition enclosed (v : CtrModel.versionage) (name : string) (content g : bytes) : Prop :=
  enclose v (s2b name) content = Ok g \/ benclose v (s2b name) content = Ok g.

(** A message that says where it ends: a sized body followed by an attachment
    group, or a group with body and attachments. *)
Inductive delimited (v : CtrModel.versionage) : bytes -> Prop :=
| delimited_attached : forall b content g, sizedBody b -> enclosed v "AttachmentGroup" content g -> delimited v (b ++ g)
| delimited_grouped : forall content g, enclosed v "BodyWithAttachmentGroup" content g -> delimited v g.

Section Ps.
Variable Ser : Type.
Variable sload : smellage -> bytes -> res Ser.
Variable nload : bool -> counter -> bytes -> res Ser.
Variable kcheck : klas -> matter -> res unit.

(** The bytes [f], arriving in one piece at a parser that has read all it was
    given and stands at version [v], make it hand over exactly the message [e]
    and stand there again. *)
Definition alone (n : nat) (framed : bool) (v : CtrModel.versionage) (f : bytes) (e : exts Ser) : Prop :=
  let start := fresh Ser sload nload kcheck n framed (mkP v []) in
  exists m, turn Ser sload nload kcheck n framed m (feed Ser start f) = Some ([e], start).

(** Not yet a message: nothing, or the beginning of one. *)
Definition begun (n : nat) (v : CtrModel.versionage) (p : bytes) : Prop :=
  p = [] \/ exists f e q, delimited v f /\ alone n false v f e /\ f = p ++ q /\ q <> [].

(** The stream starts with what looks like a counter, but reading one fails with
    an exception that is no ExtractionError. *)
Definition brokenCounter (v : CtrModel.versionage) (b : bytes) : Prop :=
  exists e, isExtraction e = false /\
    (sniff b = Ok Ctxt /\ counter_strip v b = Err e \/ sniff b = Ok Cbny /\ counter_bstrip v b = Err e).

(** The parser, given a buffer and nothing more, gets from the state [s] to the
    state [s'] in some number of turns. *)
Inductive reaches (n : nat) (framed : bool) : pst -> pst -> Prop :=
| reaches_here : forall s, reaches n framed s s
| reaches_turn : forall s m es s1 s2, pb s <> [] ->
    turn Ser sload nload kcheck n framed m (fresh Ser sload nload kcheck n framed s) = Some (es, fresh Ser sload nload kcheck n framed s1) ->
    reaches n framed s1 s2 -> reaches n framed s s2.
End Ps.
