(** Signals to the controller of an agent: Signaler.push and expireDo, SignalIterable, app/signaling.py.
    The doers of an agent take turns, expireDo gives its turn away at each yield: an execution is a list of turns.
    Simplifications: instants are numbers of seconds; attributes are left out; a signal is compared by identity (Dicter,
    core/coring.py:4720-4802, has no __eq__), its identity is the number of pushes before it; the first answer of a stream,
    which only tells the retry time, and the end of a stream after 300 seconds are left out.
    The deck is a deque: an iterator over a deque raises RuntimeError at its next use after an append or a popleft, not after
    an assignment to an item; remove raises ValueError if there is no such item. *)
From Verif Require Import Prelude.
Open Scope N_scope.

Record sig := mkSig { g_id : N; g_key : option N; g_topic : option N; g_dt : N }.

(** Where expireDo is: between two passes, in a pass of time [now] over a deck that had seen [v] changes, at index [i], with
    the old ones found; or ended by an exception. *)
Inductive exp := Rest | Scan (now v : N) (i : nat) (old : list sig) | Dead.

Record st := mkSt { sigs : list sig; vers : N; expd : exp; next : N; out : list (N * sig) }.
Definition st0 : st := mkSt [] 0 Rest 0 [].

(** app/signaling.py:97 SignalTimeout *)
Definition timeout : N := 600.

(** app/signaling.py:121-125: the first waiting signal of this key is replaced *)
Fixpoint replace (k : N) (s : sig) (l : list sig) : option (list sig) :=
  match l with
  | [] => None
  | g :: l' =>
      if match g_key g with Some k' => k' =? k | None => false end then Some (s :: l')
      else option_map (cons g) (replace k s l')
  end.

(** app/signaling.py:109-127 push *)
Definition push (k t : option N) (d : N) (s : st) : st :=
  let g := mkSig (next s) k t d in
  match match k with Some k => replace k g (sigs s) | None => None end with
  | Some l => mkSt l (vers s) (expd s) (next s + 1) (out s)
  | None => mkSt (sigs s ++ [g]) (vers s + 1) (expd s) (next s + 1) (out s)
  end.

(** app/signaling.py:277-289: signals are taken from the deck one by one; for one without topic [sig.id] raises AttributeError,
    with it what was taken is gone.  Result: what is answered, what stays. *)
Fixpoint drain (l : list sig) : option (list sig) * list sig :=
  match l with
  | [] => (Some [], [])
  | g :: l' =>
      match g_topic g with
      | Some _ => match drain l' with (Some a, r) => (Some (g :: a), r) | (None, r) => (None, r) end
      | None => (None, l')
      end
  end.
(** app/signaling.py:271-293 __next__ of the stream of reader [r] *)
Definition read (r : N) (s : st) : st :=
  let '(a, l) := drain (sigs s) in
  mkSt l (vers s + N.of_nat (List.length (sigs s) - List.length l)) (expd s) (next s)
       (out s ++ match a with Some a => map (pair r) a | None => [] end).

(** deque.remove *)
Fixpoint remove (g : sig) (l : list sig) : option (list sig) :=
  match l with
  | [] => None
  | h :: l' => if g_id h =? g_id g then Some l' else option_map (cons h) (remove g l')
  end.
(** app/signaling.py:154-155: remove them all; [false]: one was not there *)
Fixpoint removeAll (old l : list sig) (v : N) : list sig * N * bool :=
  match old with
  | [] => (l, v, true)
  | g :: old' => match remove g l with Some l' => removeAll old' l' (v + 1) | None => (l, v, false) end
  end.

(** app/signaling.py:149-157: from one yield to the next within a pass *)
Definition scan (now v : N) (i : nat) (old : list sig) (s : st) : st :=
  if negb (vers s =? v) then mkSt (sigs s) (vers s) Dead (next s) (out s)
  else match nth_error (sigs s) i with
       | Some g => mkSt (sigs s) (vers s) (Scan now v (i + 1) (if timeout + g_dt g <? now then old ++ [g] else old)) (next s) (out s)
       | None =>
           let '(l, v', ok) := removeAll old (sigs s) (vers s) in
           mkSt l v' (if ok then Rest else Dead) (next s) (out s)
       end.

(** app/signaling.py:129-157 expireDo: one turn at the instant [now]; only the start of a pass looks at the clock (147) *)
Definition expire (now : N) (s : st) : st :=
  match expd s with
  | Dead => s
  | Rest => scan now (vers s) 0 [] s
  | Scan n v i old => scan n v i old s
  end.

(** The turns of the doers of an agent. *)
Inductive op := Push (k t : option N) (d : N) | Read (r : N) | Exp (now : N).
Definition step (s : st) (o : op) : st :=
  match o with Push k t d => push k t d s | Read r => read r s | Exp now => expire now s end.
Definition run (ops : list op) : st := fold_left step ops st0.
