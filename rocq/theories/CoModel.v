(** Completion of group and delegated events: app/grouping.py Counselor (27-258), app/delegating.py Anchorer
    (23-260), app/agenting.py Receiptor.witDo (218-249) and WitnessPublisher (600-681) as far as these two
    wait for them.

    Simplifications, common to the whole file.
    - Identifiers, digests and keys are texts; a Number is the number that it stands for, whatever its code.
    - The rest of the agent fills the database: events that are accepted, signatures, receipts of witnesses,
      seals of delegators and own keys arrive by operations of their own, at any time.
    - Queries, posted messages and gets have no effect but through these operations; logging is dropped.
    - An escrow is read in the order of insertion, not of identifiers; it is read as it was when the pass
      began, since the iterators of LMDB keep their transaction.
    - An exception in a pass ends the program, with the memory lost. *)
From Verif Require Import Prelude.
Open Scope N_scope.

(** the key state of an identifier: keys, witnesses, sequence number, ilk of the last event and said of it,
    delegator *)
Record kst := mkK { k_keys : list bytes; k_wits : list bytes; k_sn : N; k_ilk : bytes; k_said : bytes; k_del : option bytes }.
(** an own identifier: its key, or the key of the own member for a group; is it a group *)
Record hab := mkH { h_key : bytes; h_group : bool }.

(** number and digest of an event *)
Definition evt := (N * bytes)%type.
(** kels with the key states after each event; sigs, wigs with their indices; seals in the logs of delegators
    (delegator, sealed event, sealing event); habs; hby proxy *)
Record world := mkW { kel : list (bytes * kst); sigs : list (bytes * bytes * N); wigs : list (bytes * bytes * N);
  seals : list (bytes * (bytes * evt) * evt); habs : list (bytes * hab) }.
(** the escrows of Counselor and Anchorer, and what they have completed *)
Record dbs := mkD { gpse : list (bytes * evt); gdee : list (bytes * evt); gpwe : list (bytes * evt); cgms : list (bytes * N * bytes);
  dpwe : list (bytes * evt); dune : list (bytes * evt); dpub : list (bytes * evt); cdel : list (bytes * N * bytes);
  aess : list (bytes * bytes * evt) }.
(** messages for witnesses and done cues, of Counselor and Anchorer; publishers and whether they are busy *)
Record mem := mkMem { msgs : list (bytes * N); cues : list (bytes * N); smsgs : list (bytes * N); scues : list (bytes * N); pubs : list (bytes * bool) }.
Record sys := mkS { wo : world; db : dbs; me : mem }.

Definition mem0 : mem := mkMem [] [] [] [] [].

(** the last entry of an identifier *)
Definition kever (w : world) (pre : bytes) : option kst := dget (rev (kel w)) pre.
(** kels.getLast(keys=pre, on=sn): the last event that was accepted with this number *)
Definition lastAt (w : world) (pre : bytes) (sn : N) : option bytes :=
  match filter (fun x => beq (fst x) pre && (k_sn (snd x) =? sn)) (rev (kel w)) with [] => None | x :: _ => Some (k_said (snd x)) end.
Definition of2 (l : list (bytes * bytes * N)) (pre dig : bytes) : list N :=
  map snd (filter (fun x => beq (fst (fst x)) pre && beq (snd (fst x)) dig) l).
(** a set of values for a key *)
Definition evteq (a b : evt) : bool := (fst a =? fst b) && beq (snd a) (snd b).
Definition eadd (l : list (bytes * evt)) (pre : bytes) (v : evt) : list (bytes * evt) :=
  if existsb (fun x => beq (fst x) pre && evteq (snd x) v) l then l else l ++ [(pre, v)].
(** rem(keys=(pre,)): all values of the key *)
Definition erem (l : list (bytes * evt)) (pre : bytes) : list (bytes * evt) := filter (fun x => negb (beq (fst x) pre)) l.
(** entries with identifier and said as their key, for dpwe, dune and dpub *)
Definition srem (l : list (bytes * evt)) (pre said : bytes) : list (bytes * evt) := filter (fun x => negb (beq (fst x) pre && beq (snd (snd x)) said)) l.
Definition spin (l : list (bytes * evt)) (pre : bytes) (v : evt) : list (bytes * evt) := srem l pre (snd v) ++ [(pre, v)].
Definition sput (l : list (bytes * evt)) (pre : bytes) (v : evt) : list (bytes * evt) :=
  if existsb (fun x => beq (fst x) pre && beq (snd (snd x)) (snd v)) l then l else l ++ [(pre, v)].
(** put of a digest for identifier and number, and reading it *)
Definition nget (l : list (bytes * N * bytes)) (pre : bytes) (sn : N) : option bytes :=
  match filter (fun x => beq (fst (fst x)) pre && (snd (fst x) =? sn)) l with [] => None | x :: _ => Some (snd x) end.
Definition nput (l : list (bytes * N * bytes)) (pre : bytes) (sn : N) (d : bytes) : list (bytes * N * bytes) :=
  match nget l pre sn with Some _ => l | None => l ++ [(pre, sn, d)] end.
Definition hasMsg (l : list (bytes * N)) (pre : bytes) (sn : N) : bool := existsb (fun x => beq (fst x) pre && (snd x =? sn)) l.
(** basing.py:1968 fetchLastSealingEventByEventSeal *)
Definition sealing (w : world) (del pre : bytes) (v : evt) : option evt :=
  match filter (fun x => beq (fst (fst x)) del && (beq (fst (snd (fst x))) pre && evteq (snd (snd (fst x))) v)) (seals w) with [] => None | x :: _ => Some (snd x) end.
Definition needs {A} (o : option A) (x : exn) : res A := match o with Some a => Ok a | None => Err x end.
Definition least (l : list N) : N := match l with [] => 0 | x :: l => fold_left N.min l x end.

(** records with one field changed *)
Definition d_gpse d x := mkD x (gdee d) (gpwe d) (cgms d) (dpwe d) (dune d) (dpub d) (cdel d) (aess d).
Definition d_gdee d x := mkD (gpse d) x (gpwe d) (cgms d) (dpwe d) (dune d) (dpub d) (cdel d) (aess d).
Definition d_gpwe d x := mkD (gpse d) (gdee d) x (cgms d) (dpwe d) (dune d) (dpub d) (cdel d) (aess d).
Definition d_cgms d x := mkD (gpse d) (gdee d) (gpwe d) x (dpwe d) (dune d) (dpub d) (cdel d) (aess d).
Definition d_dpwe d x := mkD (gpse d) (gdee d) (gpwe d) (cgms d) x (dune d) (dpub d) (cdel d) (aess d).
Definition d_dune d x := mkD (gpse d) (gdee d) (gpwe d) (cgms d) (dpwe d) x (dpub d) (cdel d) (aess d).
Definition d_dpub d x := mkD (gpse d) (gdee d) (gpwe d) (cgms d) (dpwe d) (dune d) x (cdel d) (aess d).
Definition d_cdel d x := mkD (gpse d) (gdee d) (gpwe d) (cgms d) (dpwe d) (dune d) (dpub d) x (aess d).
Definition d_aess d x := mkD (gpse d) (gdee d) (gpwe d) (cgms d) (dpwe d) (dune d) (dpub d) (cdel d) x.

(** what a pass over an escrow changes: database and memory *)
Definition st := (dbs * mem)%type.
(** one entry: the state that it leaves, even if it raises *)
Definition out := (st * res unit)%type.
Definition good (s : st) : out := (s, Ok tt).
Definition oops (s : st) (x : exn) : out := (s, Err x).
Fixpoint each {A} (f : A -> st -> out) (l : list A) (s : st) : out :=
  match l with
  | [] => good s
  | a :: l => match f a s with (s, Ok _) => each f l s | (s, Err x) => (s, Err x) end
  end.
Definition andThen (o : out) (f : st -> out) : out := match o with (s, Ok _) => f s | (s, Err x) => (s, Err x) end.

(** delegating.py:51-84 Anchorer.delegation *)
Definition delegation (w : world) (pre : bytes) (sn : N) (s : st) : out :=
  let '(d, m) := s in
  match dget (habs w) pre, kever w pre with
  | Some _, Some k =>
      let m := mkMem (msgs m) (cues m) (smsgs m) (scues m) ((pre, false) :: pubs m) in
      match k_del k with
      | None => oops (d, m) ValidationError
      | Some del =>
          match kever w del with
          | None => oops (d, m) ValidationError
          | Some _ =>
              match lastAt w pre sn with
              | None => oops (d, m) MissingEntryError
              | Some said =>
                  good (d_dpwe d (spin (dpwe d) pre (sn, said)), mkMem (msgs m) (cues m) (smsgs m ++ [(pre, sn)]) (scues m) (pubs m))
              end
          end
      end
  | _, _ => oops s ValidationError
  end.

(** grouping.py:137-185 processPartialSignedEscrow, one entry *)
Definition partialSigned (w : world) (x : bytes * evt) (s : st) : out :=
  let '(pre, (sn, dig)) := x in
  let '(d, m) := s in
  match lastAt w pre sn with
  | None => good s
  | Some sdig =>
      let d := d_gpse d (erem (gpse d) pre) in
      match dget (habs w) pre, kever w pre with
      | Some h, Some k =>
          match of2 (sigs w) pre sdig with
          | [] => good (d, m)
          | is =>
              match nth_error (k_keys k) (N.to_nat (least is)) with
              | None => oops (d, m) IndexError
              | Some key =>
                  let witered := beq (h_key h) key in
                  if match k_del k with Some _ => true | None => false end && (beq (k_ilk k) (s2b "dip") || beq (k_ilk k) (s2b "drt")) then
                    andThen (if witered then delegation w pre sn (d, m) else good (d, m))
                      (fun s => good (d_gdee (fst s) (eadd (gdee (fst s)) pre (sn, dig)), snd s))
                  else
                    let m := if witered then mkMem (msgs m ++ [(pre, sn)]) (cues m) (smsgs m) (scues m) (pubs m) else m in
                    good (d_gpwe d (eadd (gpwe d) pre (sn, dig)), m)
              end
          end
      | _, _ => oops (d, m) KeyError
      end
  end.
(** grouping.py:187-225 processDelegateEscrow, one entry *)
Definition delegateEsc (w : world) (x : bytes * evt) (s : st) : out :=
  let '(pre, (sn, dig)) := x in
  let '(d, m) := s in
  match dget (habs w) pre, kever w pre with
  | Some h, Some k =>
      match k_keys k with
      | [] => oops s IndexError
      | key :: _ =>
          if beq (h_key h) key then
            match nget (cdel d) pre (k_sn k) with
            | Some _ => let d := d_gdee d (erem (gdee d) pre) in good (d_cgms d (nput (cgms d) pre sn dig), m)
            | None => good s
            end
          else
            match match k_del k with Some del => sealing w del pre (sn, dig) | None => None end with
            | Some a =>
                let d := d_aess d ((pre, dig, a) :: aess d) in
                let d := d_gdee d (erem (gdee d) pre) in
                good (d_gpwe d (eadd (gpwe d) pre (sn, dig)), m)
            | None => good s
            end
      end
  | _, _ => oops s KeyError
  end.
(** grouping.py:227-258 processPartialWitnessEscrow, one entry *)
Definition partialWitness (w : world) (x : bytes * evt) (s : st) : out :=
  let '(pre, (sn, dig)) := x in
  let '(d, m) := s in
  match dget (habs w) pre, kever w pre with
  | Some h, Some k =>
      match k_keys k with
      | [] => oops s IndexError
      | key :: _ =>
          let witer := beq (h_key h) key in
          if len (of2 (wigs w) pre dig) =? len (k_wits k) then
            if witer && negb (len (k_wits k) =? 0) && negb (hasMsg (cues m) pre sn) then good s
            else let d := d_gpwe d (erem (gpwe d) pre) in good (d_cgms d (nput (cgms d) pre sn dig), m)
          else good s
      end
  | _, _ => oops s KeyError
  end.
(** grouping.py:131-135 Counselor.processEscrows *)
Definition processEscrows (w : world) (s : st) : out :=
  andThen (each (partialSigned w) (gpse (fst s)) s) (fun s =>
  andThen (each (delegateEsc w) (gdee (fst s)) s) (fun s =>
  each (partialWitness w) (gpwe (fst s)) s)).

(** delegating.py:166-224 processPartialWitnessEscrow, one entry; proxy: is there one *)
Definition sPartialWitness (proxy : bool) (w : world) (x : bytes * evt) (s : st) : out :=
  let '(pre, (sn, said)) := x in
  let '(d, m) := s in
  match kever w pre with
  | None => oops s KeyError
  | Some k =>
      if len (of2 (wigs w) pre said) =? len (k_wits k) then
        if negb (len (k_wits k) =? 0) && negb (hasMsg (scues m) pre sn) then good s
        else
          match dget (habs w) pre with
          | None => good s
          | Some h =>
              match match k_del k with Some del => kever w del | None => None end with
              | None => oops s KeyError
              | Some _ =>
                  if h_group h || proxy then
                    let d := d_dpwe d (srem (dpwe d) pre said) in good (d_dune d (spin (dune d) pre (sn, said)), m)
                  else oops s ValidationError
              end
          end
      else good s
  end.
(** delegating.py:143-164 processUnanchoredEscrow with publishDelegator (245-254), one entry *)
Definition sUnanchored (w : world) (x : bytes * evt) (s : st) : out :=
  let '(pre, (sn, said)) := x in
  let '(d, m) := s in
  match kever w pre with
  | None => oops s KeyError
  | Some k =>
      match k_del k with
      | None => oops s KeyError
      | Some del =>
          match kever w del with
          | None => oops s KeyError
          | Some _ =>
              match sealing w del pre (sn, said) with
              | None => good s
              | Some a =>
                  let d := d_aess d ((pre, k_said k, a) :: aess d) in
                  let m := mkMem (msgs m) (cues m) (smsgs m) (scues m) (map (fun p => if beq (fst p) pre then (pre, true) else p) (pubs m)) in
                  let d := d_dpub d (sput (dpub d) pre (sn, said)) in
                  good (d_dune d (srem (dune d) pre said), m)
              end
          end
      end
  end.
(** delegating.py:226-243 processWitnessPublication, one entry *)
Definition sPublication (x : bytes * evt) (s : st) : out :=
  let '(pre, (sn, said)) := x in
  let '(d, m) := s in
  match dget (pubs m) pre with
  | None => good s
  | Some true => good s
  | Some false =>
      let m := mkMem (msgs m) (cues m) (smsgs m) (scues m) (filter (fun p => negb (beq (fst p) pre)) (pubs m)) in
      let d := d_dpub d (srem (dpub d) pre said) in
      good (d_cdel d (nput (cdel d) pre sn said), m)
  end.
(** delegating.py:137-141 Anchorer.processEscrows *)
Definition sProcessEscrows (proxy : bool) (w : world) (s : st) : out :=
  andThen (each (sPartialWitness proxy w) (dpwe (fst s)) s) (fun s =>
  andThen (each (sUnanchored w) (dune (fst s)) s) (fun s =>
  each sPublication (dpub (fst s)) s)).

(** grouping.py:87-105 Counselor.complete, delegating.py:86-102 Anchorer.complete *)
Definition completed (l : list (bytes * N * bytes)) (pre : bytes) (sn : N) (dig : option bytes) : res bool :=
  match nget l pre sn with
  | None => Ok false
  | Some c => match dig with Some d => raise_if (negb (beq c d)) ValidationError (Ok true) | None => Ok true end
  end.
Definition complete (s : sys) := completed (cgms (db s)).
Definition sComplete (s : sys) := completed (cdel (db s)).

(** an event is accepted, a signature or a receipt is stored, a seal is seen, an own identifier or key is
    made; start, and delegation, by a command; the passes of Counselor and Anchorer; their Receiptors are done
    with a message (agenting.py:236-246); a publisher is done; a crash *)
Inductive op :=
| Accept (pre : bytes) (k : kst) | Sig (pre dig : bytes) (i : N) | Wig (pre dig : bytes) (i : N)
| Seal (del pre : bytes) (v : evt) (a : evt) | Own (pre : bytes) (h : hab)
| Start (pre : bytes) (sn : N) (dig : bytes) | Delegate (pre : bytes) (sn : N)
| Process | SProcess | Serve | SServe | Published (pre : bytes) | Crash.

Definition after (w : world) (o : out) : sys :=
  match o with
  | ((d, m), Ok _) => mkS w d m
  | ((d, m), Err _) => mkS w d mem0
  end.
Definition w_kel w x := mkW x (sigs w) (wigs w) (seals w) (habs w).
Definition step (proxy : bool) (s : sys) (o : op) : sys :=
  let w := wo s in let d := db s in let m := me s in
  match o with
  | Accept pre k => mkS (w_kel w (kel w ++ [(pre, k)])) d m
  | Sig pre dig i => mkS (mkW (kel w) (sigs w ++ [(pre, dig, i)]) (wigs w) (seals w) (habs w)) d m
  | Wig pre dig i => if existsb (N.eqb i) (of2 (wigs w) pre dig) then s
                     else mkS (mkW (kel w) (sigs w) (wigs w ++ [(pre, dig, i)]) (seals w) (habs w)) d m
  | Seal del pre v a => mkS (mkW (kel w) (sigs w) (wigs w) (seals w ++ [(del, (pre, v), a)]) (habs w)) d m
  | Own pre h => mkS (mkW (kel w) (sigs w) (wigs w) (seals w) ((pre, h) :: habs w)) d m
  | Start pre sn dig => mkS w (d_gpse d (eadd (gpse d) pre (sn, dig))) m
  | Delegate pre sn => after w (delegation w pre sn (d, m))
  | Process => after w (processEscrows w (d, m))
  | SProcess => after w (sProcessEscrows proxy w (d, m))
  | Serve => match msgs m with
             | [] => s
             | x :: l => mkS w d (mkMem l (cues m ++ [x]) (smsgs m) (scues m) (pubs m))
             end
  | SServe => match smsgs m with
              | [] => s
              | x :: l => mkS w d (mkMem (msgs m) (cues m) l (scues m ++ [x]) (pubs m))
              end
  | Published pre => mkS w d (mkMem (msgs m) (cues m) (smsgs m) (scues m) (map (fun p => if beq (fst p) pre then (pre, false) else p) (pubs m)))
  | Crash => mkS w d mem0
  end.
Definition sys0 : sys := mkS (mkW [] [] [] [] []) (mkD [] [] [] [] [] [] [] [] []) mem0.
Definition run (proxy : bool) (ops : list op) : sys := fold_left (step proxy) ops sys0.
