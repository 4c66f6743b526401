(** What a message with attachments should look like on arrival, without the
    code that writes or reads it. *)
From Verif Require Import Prelude B64Model MatterModel MatterSpec IdxModel SubsModel VerModel CtrModel KelModel PsModel PsSpec MzModel.
Open Scope N_scope.

(** a signature that some Siger constructor call returned *)
Definition sig_ok (x : indexer) : Prop :=
  exists raw code index ondex, octets raw /\ siger_of_raw raw code index ondex = Ok x.

(** the primitives a bond of each kind consists of; None: the parser has no
    method for the group *)
Definition fieldsOf (v : CtrModel.versionage) (c : clan) : option (fld * list klas) :=
  match c with
  | SealEvent => Some (Fssts, [KPrefixer; KNumber; KDiger])
  | SealSource => Some (Fsscs, [KNumber; KDiger])
  | FirstSeen => Some (Ffrcs, [KNumber; KDater])
  | SealKind => if vmajor v =? 2 then Some (Ftdcs, [KVerser; KDiger]) else None
  | BlindState => if vmajor v =? 2 then Some (Fbsqs, [KDiger; KNoncer; KNoncer; KLabeler]) else None
  | BoundState => if vmajor v =? 2 then Some (Fbsss, [KDiger; KNoncer; KNoncer; KLabeler; KNumber; KNoncer]) else None
  | TypeMedia => if vmajor v =? 2 then Some (Ftmqs, [KDiger; KNoncer; KLabeler; KTexter]) else None
  | SealLast | SealDigest | SealRoot | SealBack => None
  end.

(** The version of the attachments: the one asked for, but 2 at least if messages
    are nested, and the version of the message at least. *)
Definition sentAt (gv sv : CtrModel.versionage) (nesting : bool) : CtrModel.versionage :=
  let gv := if nesting && (vmajor gv <? 2) then V2 else gv in if vlt gv sv then sv else gv.

Section Mz.
Variable Ser : Type.
Variable sload : smellage -> bytes -> res Ser.
Variable nload : bool -> counter -> bytes -> res Ser.
Variable kcheck : klas -> matter -> res unit.
Local Notation exts := (exts Ser).
Local Notation listOf := (listOf Ser).

(** a primitive of a class *)
Definition prim (k : klas) (m : matter) : Prop := built m /\ kcheck k m = Ok tt.

(** The classes accept what the writer makes: a Number in the code of Seqner, a
    Texter in one of the codes for bytes (coring.py:1805-1822, 2640-2700). *)
Definition TexCodes := [s2b "4B"; s2b "5B"; s2b "6B"; s2b "7AAB"; s2b "8AAB"; s2b "9AAB"].
Definition accepting : Prop :=
  (forall m, m_code m = s2b "0A" -> kcheck KNumber m = Ok tt) /\
  (forall m, In (m_code m) TexCodes -> kcheck KTexter m = Ok tt).

(** The parser refuses signature groups inside other groups with more than 4095
    quadlets of signatures (version 2). *)
Definition fewSigs (v : CtrModel.versionage) (xs : list indexer) : Prop :=
  vmajor v = 2 -> forall b, sigsB xs = Ok b -> len b < 4 * 4096.

(** Authenticators made of well formed primitives of the right classes. *)
Definition tsg_ok (v : CtrModel.versionage) (t : matter * matter * matter * list indexer) : Prop :=
  let '(p, n, d, xs) := t in prim KPrefixer p /\ prim KNumber n /\ prim KDiger d /\ Forall sig_ok xs /\ fewSigs v xs.
Definition lsg_ok (v : CtrModel.versionage) (t : matter * list indexer) : Prop :=
  let '(p, xs) := t in prim KPrefixer p /\ Forall sig_ok xs /\ fewSigs v xs.
Definition bond_ok (v : CtrModel.versionage) (b : clan * list matter) : Prop :=
  exists f ks, fieldsOf v (fst b) = Some (f, ks) /\ Forall2 prim ks (snd b).
Record auth_ok (v : CtrModel.versionage) (a : auth) : Prop := {
  ok_sigers : Forall sig_ok (a_sigers a);
  ok_tsgs : Forall (tsg_ok v) (a_tsgs a);
  ok_lsgs : Forall (lsg_ok v) (a_lsgs a);
  ok_wigers : Forall (fun w => sig_ok (fst w)) (a_wigers a);
  ok_cigars : Forall (fun c => prim KVerfer (fst c) /\ prim KCigar (snd c)) (a_cigars a);
  ok_rsgs : Forall (tsg_ok v) (a_rsgs a);
  ok_bonds : Forall (bond_ok v) (a_bonds a) }.

(** The same primitive; an ordinal in version 1 arrives as another primitive
    with the same number. *)
Definition same (v : CtrModel.versionage) (k : klas) (m m' : matter) : Prop :=
  match k with
  | KNumber => num m' = num m /\ (vmajor v = 2 -> m' = m)
  | _ => m' = m
  end.
Fixpoint sames (v : CtrModel.versionage) (ks : list klas) (ms ms' : list matter) : Prop :=
  match ks, ms, ms' with
  | [], [], [] => True
  | k :: ks, m :: ms, m' :: ms' => same v k m m' /\ sames v ks ms ms'
  | _, _, _ => False
  end.
(** an element of an attachment list: these primitives and these signatures *)
Definition arrived (v : CtrModel.versionage) (ks : list klas) (ms : list matter) (xs : list indexer) (i : item) : Prop :=
  exists ms', i = IMats ms' xs /\ sames v ks ms ms'.
Definition tsg_arrived (v : CtrModel.versionage) (t : matter * matter * matter * list indexer) : item -> Prop :=
  let '(p, n, d, xs) := t in arrived v [KPrefixer; KNumber; KDiger] [p; n; d] xs.

(** What the receiver holds: the message, every authenticator in its list in
    order, nothing else, and the nested messages. *)
Record got (v : CtrModel.versionage) (x : Ser) (a : auth) (ns : list exts) (e : exts) : Prop := {
  got_serder : x_serder Ser e = x;
  got_sigers : listOf Fsigers e = map ISig (a_sigers a);
  got_tsgs : Forall2 (tsg_arrived v) (a_tsgs a) (listOf Ftsgs e);
  got_lsgs : Forall2 (fun t => arrived v [KPrefixer] [fst t] (snd t)) (a_lsgs a) (listOf Flsgs e);
  got_wigers : listOf Fwigers e = map ISig (map fst (a_wigers a));
  got_cigars : listOf Fcigars e = map (fun c => IMats [fst c; snd c] []) (a_cigars a);
  got_rsgs : Forall2 (tsg_arrived v) (a_rsgs a) (listOf Frsgs e);
  got_bonds : forall c f ks, fieldsOf v c = Some (f, ks) ->
    Forall2 (fun b => arrived v ks (snd b) []) (filter (fun b => clan_eqb (fst b) c) (a_bonds a)) (listOf f e);
  got_others : listOf Fessrs e = [] /\ listOf Fptds e = [] /\
    forall c f ks, fieldsOf V2 c = Some (f, ks) -> fieldsOf v c = None -> listOf f e = [];
  got_nests : x_nests Ser e = ns }.

(** A message with its authenticators and, nested in its attachments, further ones. *)
Inductive tree := Node (raw : bytes) (x : Ser) (a : auth) (ts : list tree).

(** The JSON, CBOR or MGPK text of the message [x] at version [v]. *)
Definition bodyOf (v : CtrModel.versionage) (raw : bytes) (x : Ser) : Prop :=
  sizedBody raw /\ reap Ser sload v raw = Ok (x, []).

(** [written]: the bytes of a nested message, from those of the messages nested in it *)
Inductive written : tree -> bytes -> Prop :=
| written_node : forall raw sv x a ts bs framed gv m,
    octets raw -> reap Ser sload V2 raw = Ok (x, []) -> auth_ok V2 a -> writtens ts bs ->
    sentAt gv sv true = V2 -> messagize raw sv false a bs framed true gv false = Ok m ->
    written (Node raw x a ts) m
with writtens : list tree -> list bytes -> Prop :=
| writtens_nil : writtens [] []
| writtens_cons : forall t ts b bs, written t b -> writtens ts bs -> writtens (t :: ts) (b :: bs).

Inductive gotTree : tree -> exts -> Prop :=
| got_node : forall raw x a ts es e, gotTrees ts es -> got V2 x a es e -> gotTree (Node raw x a ts) e
with gotTrees : list tree -> list exts -> Prop :=
| gots_nil : gotTrees [] []
| gots_cons : forall t ts e es, gotTree t e -> gotTrees ts es -> gotTrees (t :: ts) (e :: es).

(** The bytes [b], arriving in one piece at a parser that has read all it was given
    and stands at version [v0], make it hand over exactly the message [e] and stand
    at version [v]. *)
Definition delivers (n : nat) (fr : bool) (v0 v : CtrModel.versionage) (b : bytes) (e : exts) : Prop :=
  exists m, turn Ser sload nload kcheck n fr m (feed Ser (fresh Ser sload nload kcheck n fr (mkP v0 [])) b)
            = Some ([e], fresh Ser sload nload kcheck n fr (mkP v [])).

(** [posted v t b]: the text that messagize makes of the message [t] for a parser at
    version [v], in a form that shows its end. *)
Definition posted (v : CtrModel.versionage) (t : tree) (b : bytes) : Prop :=
  let 'Node raw x a ts := t in
  exists sv bs framed nested gv, octets raw /\ bodyOf v raw x /\ auth_ok v a /\ writtens ts bs /\
    (framed = false \/ nested = true \/ bs <> []) /\ sentAt gv sv (nested || negb (isnil bs)) = v /\
    messagize raw sv false a bs framed nested gv false = Ok b.
Definition gotAt (v : CtrModel.versionage) (t : tree) (e : exts) : Prop :=
  let 'Node raw x a ts := t in exists es, gotTrees ts es /\ got v x a es e.
End Mz.
