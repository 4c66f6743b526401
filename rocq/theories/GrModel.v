(** Gathering and spreading witness receipts: Receiptor.receipt and catchup, app/agenting.py:52-150 and 192-216.
    The witnesses, the network and the database reads are a world: which witnesses have an endpoint, what they answer, which
    signatures verify.  Simplifications: one event, whose witness list (fetchWitnessState) has no duplicates (C19); a reply
    is its status with the receipt couples of this event in the one message that parseOne takes from it (112), receipts of
    other events do not touch this event and are left out; the event is in the controller's own log, else its receipts would
    go to an escrow; indexed witness signatures in an answer (core/eventing.py:4524-4549) are treated as couples; TOTP headers, versions and scheme introductions are left out; sending a message in parts is one send. *)
From Verif Require Import Prelude.
Open Scope N_scope.

Inductive kind := Kicp | Krot | Kixn | Kdip | Kdrt.

(** The answer of a witness to the posted event: nothing ever, or a status and (witness, signature) couples. *)
Inductive reply := Silent | Reply (status : N) (couples : list (N * N)).

Record world := mkWorld {
  w_kind : kind;                 (* type of the event *)
  w_wits : list N;               (* its witness list *)
  w_adds : list N;               (* witnesses it adds *)
  w_url : N -> bool;             (* httpClient finds an endpoint (agenting.py:1037-1056) *)
  w_reply : N -> reply;          (* answer to POST /receipts *)
  w_valid : N -> N -> bool;      (* signature verifies with the key of the witness, which is nontransferable and not one of the own (core/eventing.py:4496-4513) *)
  w_caught : N -> bool;          (* answers the log sent by catchup *)
  w_ack : N -> bool }.           (* answers the receipts sent to it *)

(** A stored witness signature: index in the witness list and signature. *)
Definition wiger : Type := nat * N.
Definition weq (a b : wiger) : bool := Nat.eqb (fst a) (fst b) && (snd a =? snd b).

(** list.index (core/eventing.py:4517) *)
Fixpoint indexOf (w : N) (l : list N) : option nat :=
  match l with
  | [] => None
  | v :: l' => if v =? w then Some O else option_map S (indexOf w l')
  end.

(** core/eventing.py:4495-4522: one couple of a receipt; the signatures of others than witnesses go to another table *)
Definition storeOne (W : world) (st : list wiger) (c : N * N) : list wiger :=
  if w_valid W (fst c) (snd c) then
    match indexOf (fst c) (w_wits W) with
    | Some i => if existsb (weq (i, snd c)) st then st else st ++ [(i, snd c)]
    | None => st
    end
  else st.
Definition storeAll (W : world) (st : list wiger) (l : list (N * N)) : list wiger := fold_left (storeOne W) l st.

(** What the controller sends, in order: its log to a new witness, the event to a witness, receipts to a witness. *)
Inductive act := Catch (w : N) | Post (w : N) | Spread (w : N) (l : list wiger).
(** Done: the witnesses reported; Waits: yields for ever at this witness; Raises: an exception ends the generator. *)
Inductive result := Done (l : list N) | Waits (w : N) | Raises.

(** agenting.py:192-216 catchup, for each added witness (83-86); httpClient raises outside of any try.  Responses are not
    taken from the client, so it waits for the first only. *)
Fixpoint catchups (W : world) (l : list N) : list act * option result :=
  match l with
  | [] => ([], None)
  | w :: l' =>
      if w_url W w then
        if w_caught W w then let '(a, r) := catchups W l' in (Catch w :: a, r) else ([Catch w], Some (Waits w))
      else ([], Some Raises)
  end.

(** agenting.py:88-97: witnesses without endpoint are logged and left out *)
Definition clients (W : world) : list N := filter (w_url W) (w_wits W).

(** agenting.py:99-115: post to one after the other, wait for each answer, store the receipts of answer 200 *)
Fixpoint posts (W : world) (l : list N) (st : list wiger) : list act * list wiger * list N * option result :=
  match l with
  | [] => ([], st, [], None)
  | w :: l' =>
      match w_reply W w with
      | Silent => ([Post w], st, [], Some (Waits w))
      | Reply 200 cs =>
          let '(a, st, rs, r) := posts W l' (storeAll W st cs) in (Post w :: a, st, w :: rs, r)
      | Reply _ _ => let '(a, st, rs, r) := posts W l' st in (Post w :: a, st, rs, r)
      end
  end.

(** agenting.py:117-118: the dict of stored signatures by witness, the last one stored wins *)
Definition byWit (W : world) (st : list wiger) (w : N) : option wiger :=
  find (fun g => match nth_error (w_wits W) (fst g) with Some v => v =? w | None => false end) (rev st).
Definition inRange (W : world) (st : list wiger) : bool :=
  forallb (fun g => match nth_error (w_wits W) (fst g) with Some _ => true | None => false end) st.

(** agenting.py:122-123: the signatures of the other witnesses *)
Definition others (W : world) (st : list wiger) (w : N) : list wiger :=
  flat_map (fun v => if v =? w then [] else match byWit W st v with Some g => [g] | None => [] end) (w_wits W).

(** agenting.py:120-146; a witness that there is nothing for is left out (124-125) *)
Fixpoint spreads (W : world) (st : list wiger) (rs : list N) : list act * option result :=
  match rs with
  | [] => ([], None)
  | w :: rs' =>
      match others W st w with
      | [] => spreads W st rs'
      | l => if w_ack W w then let '(a, r) := spreads W st rs' in (Spread w l :: a, r) else ([Spread w l], Some (Waits w))
      end
  end.

(** agenting.py:52-150 receipt; [st] are the signatures stored before.  Without witnesses it returns None at once (79-80),
    here the empty report. *)
Definition receipt (W : world) (st : list wiger) : list act * list wiger * result :=
  match w_wits W with
  | [] => ([], st, Done [])
  | _ =>
      let '(a1, r1) := match w_kind W with Krot => catchups W (w_adds W) | _ => ([], None) end in
      match r1 with
      | Some r => (a1, st, r)
      | None =>
          let '(a2, st, rs, r2) := posts W (clients W) st in
          match r2 with
          | Some r => (a1 ++ a2, st, r)
          | None =>
              if negb (inRange W st) then (a1 ++ a2, st, Raises) else
              let '(a3, r3) := spreads W st rs in
              (a1 ++ a2 ++ a3, st, match r3 with Some r => r | None => Done rs end)
          end
      end
  end.
