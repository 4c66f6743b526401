(** Receipts gathered by WitnessReceiptor.receiptDo for one message, app/agenting.py:312-438.
    What is stored for the event in db.wigs at a turn is a list of indexed signatures in the order they arrived (the table is an
    IoSet, db/basing.py:937, which returns values in order of insertion).  The run is given the list found at the start and the
    lists found at the later turns.  Simplifications: the identifier is a local one; messengers deliver what is appended to
    them and become idle (423-431); delegation chain and scheme introductions are left out. *)
From Verif Require Import Prelude GrModel.
Open Scope N_scope.

(** One event: its type, the witnesses it adds, the current witnesses of the identifier (341), resubmit flag. *)
Record job := mkJob { j_kind : kind; j_adds : list N; j_wits : list N; j_force : bool }.

(** Done: the message is pushed to the cues; Never: the turns given end before; Skipped: no witnesses (343-344), no cue *)
Inductive result' := Cued | Never | Skipped.

(** agenting.py:368-371: sent the whole log first *)
Definition isNew (J : job) (w : N) : bool :=
  match j_kind J with Kicp | Kdip => true | _ => existsb (N.eqb w) (j_adds J) end.
(** agenting.py:361-374 *)
Definition submits (J : job) : list act := flat_map (fun w => if isNew J w then [Catch w; Post w] else [Post w]) (j_wits J).

(** agenting.py:360, 378: complete by count *)
Definition full (J : job) (l : list wiger) : bool := Nat.eqb (List.length l) (List.length (j_wits J)).

(** agenting.py:394-398: the signature at the place of each other witness *)
Fixpoint picked (w : N) (wits : list N) (aw : list wiger) : list wiger :=
  match wits, aw with
  | v :: wits', g :: aw' => if v =? w then picked w wits' aw' else g :: picked w wits' aw'
  | _, _ => []
  end.
(** agenting.py:391-421; a witness that there is nothing for is left out *)
Definition spreadAll (J : job) (aw : list wiger) : list act :=
  flat_map (fun w => match picked w (j_wits J) aw with [] => [] | l => [Spread w l] end) (j_wits J).

(** agenting.py:331-436 for one message: [st] found at the start, [obs] at the turns after the event was submitted *)
Definition receiptDo (J : job) (st : list wiger) (obs : list (list wiger)) : list act * result' :=
  match j_wits J with
  | [] => ([], Skipped)
  | _ =>
      if full J st then if j_force J then (spreadAll J st, Cued) else ([], Cued)
      else match find (full J) obs with
           | Some aw => (submits J ++ spreadAll J aw, Cued)
           | None => (submits J, Never)
           end
  end.

(** agenting.py:331-332, 376-380: messages one after the other; each is given with what is found in its turns.  A message that is still
    waited for in the last of them keeps the others in the queue. *)
Fixpoint receiptAll (ms : list (job * list wiger * list (list wiger))) : list (list act * result') :=
  match ms with
  | [] => []
  | (J, st, obs) :: ms' => let x := receiptDo J st obs in x :: match snd x with Never => [] | _ => receiptAll ms' end
  end.
