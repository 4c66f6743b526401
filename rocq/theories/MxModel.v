(** Proposals between the participants of a group: app/grouping.py Multiplexor (764-1039) and
    MultisigNotificationHandler (260-295); peer/exchanging.py Exchanger.processEvent (152-192) and logEvent
    (293-318) as far as they serve it; the calls of logEvent and Multiplexor.add by the commands, e.g.
    cli/commands/multisig/incept.py (176-182).

    Simplifications, common to the whole file.
    - Identifiers, digests and bodies of messages are texts.  The digest that a body should carry is a
      parameter, and stands for Serder.verify.
    - Proposals are authentic: their signatures have been verified by the Exchanger (ExModel), and verify
      again when a proposal is cloned, except for unindexed signatures, which cannot be read back
      (C77_couple_refuted).
    - A proposal is stored together with its attachments.  When it arrives again with other attachments,
      these take the place of the old ones.
    - What the local parser does with an embedded message is not modelled; the embedded messages that are
      given to it are recorded.  The parser raises no exceptions.
    - The payload is a field map.  The version of attachments (cgvrsn) is dropped, as is logging. *)
From Verif Require Import Prelude ExModel.
Open Scope N_scope.

(** an embedded message: ilk, said that it carries, body, attachments *)
Record child := mkC { c_ilk : bytes; c_said : bytes; c_body : bytes; c_atc : bytes }.
(** a value in the block of embedded messages: a text, a message, a field map that is no message, another value *)
Inductive emb := EText (t : bytes) | EMsg (m : child) | EMap | EOther.
(** serder.said, ['i'], ['r'], pvrsn.major; whether it is signed by unindexed signatures; ['e'];
    smids, rmids, gid and other texts of ['a']; the nested messages *)
Record prop := mkP { p_said : bytes; p_sender : bytes; p_route : bytes; p_major : N; p_cig : bool;
  p_embeds : option (list (bytes * emb));
  p_smids : option (list bytes); p_rmids : option (list bytes); p_gid : option bytes; p_texts : list (bytes * bytes);
  p_nests : list child }.

(** hby.habs; exns with epath and enst; meids, maids; notices (route, said, further copy); the messages given
    to the local parser, each with the proposal that it came from *)
Record mux := mkM { habs : list bytes; exns : list (bytes * prop); meids : list (bytes * bytes); maids : list (bytes * bytes);
  notes : list (bytes * bytes * bool); played : list (bytes * child) }.

Section M.
Variable dig : bytes -> bytes.

(** core/serdering.py Serder.verify *)
Definition intact (m : child) : bool := beq (dig (c_body m)) (c_said m).

Definition has (l : list bytes) (p : bytes) : bool := existsb (beq p) l.

(** grouping.py:908-913, 921-928 the routes with nested messages and the kinds of these *)
Definition supported : list bytes := map s2b ["/multisig/icp"; "/multisig/rot"; "/multisig/ixn"; "/multisig/rpy"]%string.
Definition allowed (route ilk : bytes) : bool :=
  if beq route (s2b "/multisig/icp") then has (map s2b ["icp"; "dip"]%string) ilk
  else if beq route (s2b "/multisig/rot") then beq ilk (s2b "rot")
  else if beq route (s2b "/multisig/ixn") then beq ilk (s2b "ixn")
  else if beq route (s2b "/multisig/rpy") then beq ilk (s2b "rpy") else false.
(** route.rsplit("/", 1)[-1] *)
Definition field (route : bytes) : bytes := last (splitB 47 route) [].
(** kinds of messages with a said: all that are allowed here *)

(** grouping.py:892-947, the identity of a proposal: that of the block of embedded messages, which is not
    verified, or the said of the only nested message, which is.  None: nothing to do. *)
Definition ident (p : prop) : res (option bytes) :=
  if p_major p =? 1 then
    match p_embeds p with
    | None => Ok None
    | Some e => match dget e (s2b "d") with
                | None => Ok None
                | Some (EText t) => Ok (Some t)
                | Some _ => Err TypeError
                end
    end
  else
    match p_nests p with
    | [m] =>
        raise_if (negb (has supported (p_route p))) ValidationError (
        match dget (p_texts p) (field (p_route p)) with
        | None => Err ValidationError
        | Some signed =>
            raise_if (negb (allowed (p_route p) (c_ilk m))) ValidationError (
            raise_if (negb (intact m && beq (c_said m) signed)) ValidationError (Ok (Some signed)))
        end)
    | _ => Err ValidationError
    end.

(** grouping.py:949-976 is it for a local participant *)
Definition need {A} (o : option A) : res A := match o with Some a => Ok a | None => Err KeyError end.
Definition joint (hs : list bytes) (mids : list bytes) : res unit :=
  raise_if (negb (existsb (has hs) mids)) ValueError (Ok tt).
Definition mine (hs : list bytes) (p : prop) : res unit :=
  match splitB 47 (p_route p) with
  | a :: b :: r =>
      raise_if (negb (beq a [] && beq b (s2b "multisig"))) ValueError (
      if match r with [k] => beq k (s2b "icp") | _ => false end then
        s <- need (p_smids p) ;;
        joint hs (s ++ match p_rmids p with Some l => l | None => [] end)
      else if match r with [k] => beq k (s2b "rot") | _ => false end then
        g <- need (p_gid p) ;;
        if has hs g then Ok tt
        else s <- need (p_smids p) ;; l <- need (p_rmids p) ;; joint hs (s ++ l)
      else
        g <- need (p_gid p) ;;
        raise_if (negb (has hs g)) ValueError (Ok tt))
  | _ => Err ValueError
  end.

(** grouping.py:880-978 validate *)
Definition validate (hs : list bytes) (p : prop) : res (option bytes) :=
  o <- ident p ;;
  match o with
  | None => Ok None
  | Some e => _ <- mine hs p ;; Ok (Some e)
  end.

(** grouping.py:859-878: the embedded messages go to the parser one after the other, up to the first that is
    none *)
Fixpoint playEmbeds (l : list (bytes * emb)) : list child * res unit :=
  match l with
  | [] => ([], Ok tt)
  | (_, EMsg m) :: l => if intact m then let '(ms, r) := playEmbeds l in (m :: ms, r) else ([], Err ValidationError)
  | (_, EMap) :: l => ([], Err VersionError)
  | _ :: l => playEmbeds l
  end.
(** grouping.py:839-878 _replayApproved: the messages given to the parser, and how it ended *)
Definition replay (xs : list (bytes * prop)) (said : bytes) : list child * res unit :=
  match dget xs said with
  | None => ([], Err AttributeError)
  | Some p =>
      match p_nests p with
      | _ :: _ => (p_nests p, Ok tt)
      | [] => if p_cig p then ([], Err AttributeError)
              else match p_embeds p with None => ([], Err KeyError) | Some l => playEmbeds l end
      end
  end.
(** grouping.py:1015-1016 *)
Fixpoint replays (xs : list (bytes * prop)) (saids : list bytes) : list (bytes * child) * res unit :=
  match saids with
  | [] => ([], Ok tt)
  | s :: saids =>
      let '(ms, r) := replay xs s in
      match r with
      | Ok _ => let '(rest, r') := replays xs saids in (map (pair s) ms ++ rest, r')
      | Err x => (map (pair s) ms, Err x)
      end
  end.

(** sets of values in the order of their insertion *)
Definition vals (l : list (bytes * bytes)) (k : bytes) : list bytes := map snd (filter (fun kv => beq (fst kv) k) l).
Definition vadd (l : list (bytes * bytes)) (k v : bytes) : list (bytes * bytes) := if has (vals l k) v then l else l ++ [(k, v)].

Definition setPlayed (s : mux) (l : list (bytes * child)) : mux := mkM (habs s) (exns s) (meids s) (maids s) (notes s) l.
Definition record (s : mux) (e said sender : bytes) : mux :=
  mkM (habs s) (exns s) (vadd (meids s) e said) (vadd (maids s) e sender) (notes s) (played s).
(** grouping.py:980-1019 add *)
Definition add (s : mux) (p : prop) : mux * res unit :=
  match validate (habs s) p with
  | Err x => (s, Err x)
  | Ok None => (s, Ok tt)
  | Ok (Some e) =>
      let digers := vals (meids s) e in
      let firstSeen := match digers with [] => true | _ => false end in
      let submitters := vals (maids s) e in
      if negb (has (habs s) (p_sender p)) then
        if existsb (has (habs s)) submitters then
          let '(ms, r) := replays (exns s) [p_said p] in
          let s := setPlayed s (played s ++ ms) in
          match r with Ok _ => (record s e (p_said p) (p_sender p), Ok tt) | Err x => (s, Err x) end
        else
          (record (mkM (habs s) (exns s) (meids s) (maids s) (notes s ++ [(p_route p, p_said p, negb firstSeen)]) (played s))
                  e (p_said p) (p_sender p), Ok tt)
      else if negb firstSeen && existsb (fun q => negb (has (habs s) q)) submitters then
        let '(ms, r) := replays (exns s) digers in
        let s := setPlayed s (played s ++ ms) in
        match r with Ok _ => (record s e (p_said p) (p_sender p), Ok tt) | Err x => (s, Err x) end
      else (record s e (p_said p) (p_sender p), Ok tt)
  end.

(** exchanging.py:293-318 logEvent *)
Definition logged (s : mux) (p : prop) : mux := mkM (habs s) ((p_said p, p) :: exns s) (meids s) (maids s) (notes s) (played s).
(** exchanging.py:170-192 with grouping.py:276-295: a proposal that is not valid, or without identity, is
    dropped; whatever the handler raises goes to the log *)
Definition arrive (s : mux) (p : prop) : mux :=
  match validate (habs s) p with
  | Ok (Some _) => fst (add (logged s p) p)
  | _ => s
  end.
(** the commands: the own proposal is stored and added *)
Definition submit (s : mux) (p : prop) : mux := fst (add (logged s p) p).

(** a proposal arrives; a command makes one; a local identifier is made *)
Inductive op := Arrive (p : prop) | Submit (p : prop) | NewHab (h : bytes).
Definition step (s : mux) (o : op) : mux :=
  match o with
  | Arrive p => arrive s p
  | Submit p => submit s p
  | NewHab h => mkM (habs s ++ [h]) (exns s) (meids s) (maids s) (notes s) (played s)
  end.
Definition mux0 (hs : list bytes) : mux := mkM hs [] [] [] [] [].
Definition run (hs : list bytes) (ops : list op) : mux := fold_left step ops (mux0 hs).
End M.
