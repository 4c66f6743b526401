(** The receipts a witness signs: app/indirecting.py ReceiptEnd (1038-1190), Hab.receipt (app/habbing.py:1712-1775),
    the receipt cues of Kevery.processEvent (core/eventing.py:4304-4308, 4395-4399) and their processing
    (app/habbing.py:2686-2749).  Events are processed by the model of Kevery in KelModel.
    Simplifications: a receipt is represented by the identifier, number and digest it names, the signature over the
    serialized event is valid by construction; Hab.receipt also parses its own receipt, which adds a witness
    signature to the database and changes no log, that write is left out; query, reply and delegation cues are left
    out.  ReceiptEnd.receipts is never filled in the code, so interceptDo passes every receipt cue on. *)
From Verif Require Import Prelude B64Model MatterModel SubsModel ThModel KelModel.
Open Scope N_scope.

(** A receipt: identifier, number and digest of the event it is for. *)
Definition rct : Type := N * N * N.
Definition rctOf (e : evt) : rct := (e_pre e, e_sn e, e_said e).

(** The witness: its database, the events cued for receipting and the receipts signed so far, oldest first. *)
Record wst := mkW { wdb : db; wcues : list evt; signed : list rct }.
Definition w0 : wst := mkW db0 [] [].

(** the first seen log of [p] got longer *)
Definition grew (p : N) (a b : db) : bool := negb (len (fels (fst a) p) =? len (fels (fst b) p)).

(** eventing.py:4227-4408: processEvent pushes a receipt cue after Kever() or update() returned, the two places that
    append to the first seen log.  The Kevery of a witness is lax
    (indirecting.py:74-80), so identifiers of the witness itself are not left out. *)
Definition processCue (E : env) (cf : conf) (m : msg) (a : db * list evt) : db * list evt :=
  let '(dx', r) := processEvent E cf m (fst a) in
  (dx', snd a ++ match r with Ok _ => if grew (e_pre (m_evt m)) (fst a) dx' then [m_evt m] else [] | Err _ => [] end).

(** one row of an escrow pass (eventing.py:6047-6631): the cue is pushed by the processEvent inside.  Simplification:
    whether it returned is read off the first seen log; an event that is logged and then raises (its key state cannot
    be recorded, see C22) would be cued here and not in the code. *)
Definition unescrowCue1 (E : env) (cf : conf) (now : N) (q : pass) (a : db * list evt) (r : N * N * N) : db * list evt :=
  let '(p, _, s) := r in
  let dx' := unescrow1 E cf now q r (fst a) in
  (dx', snd a ++ match evts (snd (fst a)) p s with Some e => if grew p (fst a) dx' then [e] else [] | None => [] end).
Definition unescrowCue (E : env) (cf : conf) (now : N) (a : db * list evt) (q : pass) : db * list evt :=
  fold_left (unescrowCue1 E cf now q) (p_rows q (snd (fst a))) a.
Definition escrowCues (E : env) (cf : conf) (now : N) (a : db * list evt) : db * list evt :=
  fold_left (unescrowCue E cf now) [POO; PPD; PPW; PPS] a.

(** habbing.py:1712-1775 Hab.receipt: a receipt of the event handed in, signed over its serialization *)
Definition receipt (e : evt) (s : wst) : wst := mkW (wdb s) (wcues s) (signed s ++ [rctOf e]).

(** indirecting.py:1052-1054, 1087: parseOne(msg, local=True) with the Kevery of the Habery (habbing.py:194), whose cues go
    to a deck of its own that the witness does not handle.  An event message without controller signatures raises
    ValidationError in the parser before Kevery sees it (core/parsing.py:1394-1398); every exception is caught there and
    logged. *)
Definition parseOne (E : env) (cf : conf) (m : msg) (dx : db) : db :=
  let m := mkMsg (m_evt m) (m_sigers m) (m_wigers m) (m_seal m) (m_eager m) true (m_now m) (m_dater m) in
  if isnil (m_sigers m) then dx else fst (processEvent E cf m dx).

Inductive answer := Receipted (r : rct) | Accepted202 | BadRequest.

(** indirecting.py:1059-1108 ReceiptEnd.on_post.  [me] is hab.pre, [aids] the allow list.  The type test of 1080-1082
    is met by every event of the model. *)
Definition onPost (E : env) (cf : conf) (me : N) (aids : option (list N)) (m : msg) (s : wst) : wst * answer :=
  let p := e_pre (m_evt m) in
  if match aids with Some l => negb (memN p l) | None => false end then (s, BadRequest) else
  let dx := parseOne E cf m (wdb s) in
  let s := mkW dx (wcues s) (signed s) in
  match kget (fst dx) (snd dx) p with
  | None => (s, Accepted202)
  | Some k => if memN me (k_wits k) then (receipt (m_evt m) s, Receipted (rctOf (m_evt m))) else (s, BadRequest)
  end.

Inductive getAnswer := GotReceipts (r : rct) (wigs : list siger) | GetNotFound | GetBadRequest | GetFailed.

(** indirecting.py:1110-1157 ReceiptEnd.on_get, with the query parameters sn and said.  receipt(sn=None) makes
    Number(num=None), which is zero (eventing.py receipt, coring.py Number.__init__).  fetchWitnessState may raise
    (eventing.py:4202-4224): GetFailed. *)
Definition onGet (me : N) (p : N) (sn said : option N) (dx : db) : getAnswer :=
  let '(d, x) := dx in
  match sn, said with
  | None, None => GetBadRequest
  | _, _ =>
      match match sn with Some n => klast (kels d p) n | None => said end with
      | None => GetNotFound
      | Some s =>
          match evts x p s with
          | None => GetNotFound
          | Some e =>
              match (if 0 <? e_sn e then fetchWits d x p (kback (kels d p) (e_sn e)) else Ok (e_wits e)) with
              | Err _ => GetFailed
              | Ok wits =>
                  if memN me wits
                  then GotReceipts (p, match sn with Some n => n | None => 0 end, s) (getWigs x p s)
                  else GetBadRequest
              end
          end
      end
  end.

(** What can happen at a witness: a message arrives on another way in, an event is posted to the receipt endpoint, the
    escrows are processed, the next cue is handled, the process restarts and loses its cues. *)
Inductive wop := WDeliver (m : msg) | WPost (m : msg) | WEscrows (now : N) | WCue | WRestart.
Definition wstep (E : env) (cf : conf) (me : N) (aids : option (list N)) (s : wst) (o : wop) : wst :=
  match o with
  | WDeliver m => let '(dx, cs) := processCue E cf m (wdb s, wcues s) in mkW dx cs (signed s)
  | WPost m => fst (onPost E cf me aids m s)
  | WEscrows now => let '(dx, cs) := escrowCues E cf now (wdb s, wcues s) in mkW dx cs (signed s)
  | WCue => match wcues s with [] => s | e :: cs => receipt e (mkW (wdb s) cs (signed s)) end
  | WRestart => mkW (restart (wdb s)) [] (signed s)
  end.
Definition wrun (E : env) (cf : conf) (me : N) (aids : option (list N)) (ops : list wop) : wst :=
  fold_left (wstep E cf me aids) ops w0.
