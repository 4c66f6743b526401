(** Receipts of key events: core/eventing.py Kevery.processReceipt (4444-4680),
    processAttachedReceiptCouples (4828-4905), processAttachedReceiptSigGroups
    (4908-5031), their escrows (5818-6024, 6634-6890, 7097-7356) and the dispatch of
    events and receipts by the parser (core/parsing.py:1385-1431).

    Simplifications, besides those of KelModel.
    - A signature of a non transferable receiptor is its raw bytes; its text is a
      function of them.
    - Rows of an escrow are kept in the order of prefix and sn, then insertion.  In the
      database the rows of .ures are sorted by the Base64 text of sn instead, so rows of
      different sn may be visited in another order; the rows of the same key are not.
    - processEscrowUnverTrans visits the rows of the last key of .vres twice; the second
      visit finds the same logs and events, so it is left out.
    - Witness and receiptor prefixes are their keys, as in KelModel. *)
From Verif Require Import Prelude B64Model MatterModel SubsModel ThModel KelModel.
Open Scope N_scope.

(** ** Receipt material *)
(** coring.py:3443 Cigar: a signature with its key *)
Record cigar := mkCigar { cg_key : N; cg_raw : bytes }.
(** a transferable group: receiptor prefix, sn and said of its establishment event, signatures *)
Record tsg := mkTsg { t_pre : N; t_sn : N; t_dig : N; t_sigs : list siger }.
(** a receipt message: the fields i, s, d of its body (serdering.py:394, 2083-2090) with
    its attachments, its source and the date of its arrival *)
Record rmsg := mkRmsg {
  rm_pre : N; rm_sn : N; rm_said : N; rm_cigars : list cigar; rm_wigers : list siger;
  rm_tsgs : list tsg; rm_rsgs : list tsg; rm_local : bool; rm_now : N }.

(** ** Sub-databases: basing.py:937-957 *)
Definition cigar_eqb (a b : cigar) : bool := (cg_key a =? cg_key b) && beq (cg_raw a) (cg_raw b).
(** .vrcs key without the receipted event: receiptor prefix, sn and said *)
Definition src : Type := N * N * N.
(** values of the escrows .ures, .uwes, .vres *)
Definition ure : Type := N * cigar.
Definition uwe : Type := N * siger.
Definition vre : Type := N * src * siger.
Definition src_eqb (a b : src) : bool := row_eqb a b.
Definition ure_eqb (a b : ure) : bool := (fst a =? fst b) && cigar_eqb (snd a) (snd b).
Definition uwe_eqb (a b : uwe) : bool := (fst a =? fst b) && siger_eqb (snd a) (snd b).
Definition vre_eqb (a b : vre) : bool :=
  let '(d, s, g) := a in let '(d', s', g') := b in (d =? d') && src_eqb s s' && siger_eqb g g'.

(** a table keyed by prefix and sn whose keys hold sets of values in insertion order *)
Definition tab (A : Type) : Type := list (N * N * A).
Section Tab.
  Context {A : Type} (eqb : A -> A -> bool).
  Definition tkey_ltb (a b : N * N * A) : bool :=
    let '(p, s, _) := a in let '(p', s', _) := b in (p <? p') || ((p =? p') && (s <? s')).
  Definition trow_eqb (a b : N * N * A) : bool :=
    let '(p, s, v) := a in let '(p', s', v') := b in (p =? p') && (s =? s') && eqb v v'.
  Fixpoint tab_ins (r : N * N * A) (t : tab A) : tab A :=
    match t with
    | [] => [r]
    | q :: t' => if tkey_ltb r q then r :: t else q :: tab_ins r t'
    end.
  Definition tab_add (r : N * N * A) (t : tab A) : tab A := if existsb (trow_eqb r) t then t else tab_ins r t.
  Definition tab_rem (r : N * N * A) (t : tab A) : tab A := filter (fun q => negb (trow_eqb r q)) t.
End Tab.

Record rdbs := mkRdbs {
  rcts : amap (list cigar);
  vrcs : amap (list (src * siger));
  ures : tab ure;
  uwes : tab uwe;
  vres : tab vre }.
Definition set_rcts v r := mkRdbs v (vrcs r) (ures r) (uwes r) (vres r).
Definition set_vrcs v r := mkRdbs (rcts r) v (ures r) (uwes r) (vres r).
Definition set_ures v r := mkRdbs (rcts r) (vrcs r) v (uwes r) (vres r).
Definition set_uwes v r := mkRdbs (rcts r) (vrcs r) (ures r) v (vres r).
Definition set_vres v r := mkRdbs (rcts r) (vrcs r) (ures r) (uwes r) v.

Definition addc {A} (eqb : A -> A -> bool) (v : A) (l : list A) : list A :=
  if existsb (eqb v) l then l else l ++ [v].
Definition rct_eqb (a b : src * siger) : bool := src_eqb (fst a) (fst b) && siger_eqb (snd a) (snd b).
Definition getRcts (r : rdbs) (p s : N) : list cigar := olist (rcts r p s).
Definition getVrcs (r : rdbs) (p s : N) : list (src * siger) := olist (vrcs r p s).
(** rcts.add(keys=(p, s), val=(verfer, cigar)) *)
Definition addRct (p s : N) (c : cigar) (r : rdbs) : rdbs :=
  set_rcts (aset (rcts r) p s (Some (addc cigar_eqb c (getRcts r p s)))) r.
(** vrcs.add(keys=(p, s, receiptor, sn, said), val=siger) *)
Definition addVrc (p s : N) (o : src) (g : siger) (r : rdbs) : rdbs :=
  set_vrcs (aset (vrcs r) p s (Some (addc rct_eqb (o, g) (getVrcs r p s)))) r.

(** ** State and exceptions: what receipts may write *)
Definition wst : Type := aux * rdbs.
Definition act (T : Type) : Type := wst -> wst * res T.
Definition ok : act unit := fun w => (w, Ok tt).
Definition raise {T} (e : exn) : act T := fun w => (w, Err e).
Definition seqa {T} (a : act unit) (b : act T) : act T :=
  fun w => match a w with (w', Ok _) => b w' | (w', Err e) => (w', Err e) end.
Definition wr (f : rdbs -> rdbs) : act unit := fun '(x, r) => ((x, f r), Ok tt).
Definition wra (f : aux -> aux) : act unit := fun '(x, r) => ((f x, r), Ok tt).
(** a for loop *)
Fixpoint each {T} (f : T -> act unit) (l : list T) : act unit :=
  match l with [] => ok | a :: l' => seqa (f a) (each f l') end.

(** dtss.put(keys=dgKey(pre, said), val=Dater()) *)
Definition putDts (p s now : N) : act unit := wra (fun x => set_dtss (aput (dtss x) p s now) x).
(** eventing.py:5853-5885 escrowUReceipt *)
Definition escrowU (E : env) (now p sn said : N) (cs : list cigar) : act unit :=
  seqa (putDts p said now)
       (each (fun c => if transf E (cg_key c) then ok
                       else wr (fun r => set_ures (tab_add ure_eqb (p, sn, (said, c)) (ures r)) r)) cs).
(** eventing.py:5818-5851 escrowUWReceipt *)
Definition escrowUW (now p sn said : N) (ws : list siger) : act unit :=
  seqa (putDts p said now)
       (each (fun g => wr (fun r => set_uwes (tab_add uwe_eqb (p, sn, (said, g)) (uwes r)) r)) ws).
(** eventing.py:5937-5984 escrowTReceipts, 5987-6024 escrowTransReceiptGroup: the same writes *)
Definition escrowT (now p sn said : N) (t : tsg) : act unit :=
  seqa (putDts p said now)
       (each (fun g => wr (fun r => set_vres (tab_add vre_eqb (p, sn, (said, (t_pre t, t_sn t, t_dig t), g)) (vres r)) r))
             (t_sigs t)).
(** eventing.py:5887-5934 escrowTRGroups *)
Definition escrowTRs (now p sn said : N) (ts : list tsg) : act unit := each (escrowT now p sn said) ts.

(** Siger(raw=cigar.raw, index=index, verfer=cigar.verfer): the default code holds indices up
    to 63 (indexing.py); [Q] is the text of the result *)
Definition mkWig (Q : bytes -> N -> bytes) (raw : bytes) (i : N) : res siger :=
  if 63 <? i then Err InvalidVarIndexError else Ok (mkSigerO (Q raw i) i raw (Some i)).
Definition addWig (Q : bytes -> N -> bytes) (p s : N) (raw : bytes) (i : N) : act unit :=
  fun w => match mkWig Q raw i with
           | Ok g => wra (putWigs p s [g]) w
           | Err e => raise e w
           end.

(** Settings of Kevery: lax (4150-4160) and the text of indexed signatures *)
Record rconf := mkRconf { rc_conf : conf; rc_lax : bool; rc_qb : bytes -> N -> bytes }.

(** eventing.py:4490-4505, 4539-4552, 4559-4567, 4607-4615, 4873-4886, 4943-4951: a receipt by an
    own identifier of an own event, or of another event when it does not come from a local source *)
Definition ownBad (rc : rconf) (key p : N) (local : bool) : bool :=
  negb (rc_lax rc) && memN key (c_prefixes (rc_conf rc)) && (memN p (c_prefixes (rc_conf rc)) || negb local).

(** eventing.py:4202-4224 at a prefix and sn *)
Definition witState (d : acc) (x : aux) (p sn : N) : res (list N) := fetchWits d x p (kback (kels d p) sn).

(** ** Receipt messages *)
(** eventing.py:4485-4517: one couple of a receipt for event [le] found at (p, said) *)
Definition recCigar (E : env) (rc : rconf) (d : acc) (p sn said : N) (local : bool) (le : evt) (c : cigar) : act unit :=
  fun w =>
  if transf E (cg_key c) then ok w else
  if ownBad rc (cg_key c) p local then ok w else
  if vrfy E (cg_key c) (cg_raw c) (e_raw le) then
    match witState d (fst w) p sn with
    | Err e => raise e w
    | Ok wits =>
        match indexOf (cg_key c) wits with
        | Some i => addWig (rc_qb rc) p said (cg_raw c) i w
        | None => wr (addRct p said c) w
        end
    end
  else ok w.
(** eventing.py:4519-4547: one witness indexed signature *)
Definition recWiger (E : env) (rc : rconf) (p said : N) (local : bool) (le : evt) (wits : list N) (g : siger) : act unit :=
  match nth_error wits (N.to_nat (sg_index g)) with
  | None => ok
  | Some wk =>
      if transf E wk then ok else
      if ownBad rc wk p local then ok else
      if vrfy E wk (sg_raw g) (e_raw le) then wra (putWigs p said [g]) else ok
  end.
(** eventing.py:4594-4602: signatures of a group, checked with the keys of the receiptor *)
Definition recSigs (E : env) (p dig : N) (o : src) (raw : bytes) (keys : list N) (gs : list siger) : act unit :=
  each (fun g =>
    match nth_error keys (N.to_nat (sg_index g)) with
    | None => raise ValidationError
    | Some ky => if vrfy E ky (sg_raw g) raw then wr (addVrc p dig o g) else ok
    end) gs.
(** eventing.py:4549-4602 and 4604-4657: one transferable group, of tsgs or of rsgs; stored under
    [ldig], the last event at sn *)
Definition recTsg (E : env) (rc : rconf) (d : acc) (p sn said ldig : N) (local : bool) (now : N) (le : evt) (t : tsg) : act unit :=
  fun w =>
  if ownBad rc (t_pre t) p local then raise ValidationError w else
  match klast (kels d (t_pre t)) (t_sn t) with
  | None => seqa (escrowT now p sn said t) (raise UnverifiedTransferableReceiptError) w
  | Some sdig =>
      match evts (fst w) (t_pre t) sdig with
      | None => raise AttributeError w
      | Some se =>
          if negb (e_said se =? t_dig t) then raise ValidationError w else
          if isnil (e_keys se) then raise ValidationError w else
          recSigs E p ldig (t_pre t, t_sn t, t_dig t) (e_raw le) (e_keys se) (t_sigs t) w
      end
  end.
(** eventing.py:4444-4680 processReceipt.  The event is looked up by the said that the receipt
    names (4478) and then compared with that same said (4480). *)
Definition processReceipt (E : env) (rc : rconf) (d : acc) (m : rmsg) : act unit :=
  let p := rm_pre m in let sn := rm_sn m in let said := rm_said m in
  let now := rm_now m in let local := rm_local m in
  fun w =>
  match klast (kels d p) sn with
  | Some ldig =>
      match evts (fst w) p said with
      | None => raise AttributeError w
      | Some le =>
          if negb (e_said le =? said) then raise ValidationError w else
          seqa (each (recCigar E rc d p sn said local le) (rm_cigars m))
            (fun w => match witState d (fst w) p sn with
                      | Err e => raise e w
                      | Ok wits =>
                          seqa (each (recWiger E rc p said local le wits) (rm_wigers m))
                            (seqa (each (recTsg E rc d p sn said ldig local now le) (rm_tsgs m))
                                  (each (recTsg E rc d p sn said ldig local now le) (rm_rsgs m))) w
                      end) w
      end
  | None =>
      seqa (if isnil (rm_cigars m) then ok else escrowU E now p sn said (rm_cigars m))
        (seqa (if isnil (rm_tsgs m) then ok else escrowTRs now p sn said (rm_tsgs m))
          (seqa (if isnil (rm_wigers m) then ok else escrowUW now p sn said (rm_wigers m))
            (raise UnverifiedReceiptError))) w
  end.

(** ** Receipts attached to an event *)
(** the event the attachments are taken to be about: by first seen number when the event is a
    replay (4854-4857, 4936-4940), else the last one at sn *)
Definition attachedTo (d : acc) (p sn : N) (firner : option N) : option N :=
  match firner with
  | Some fn => nth_error (fels d p) (N.to_nat fn)
  | None => klast (kels d p) sn
  end.
(** eventing.py:4872-4905.  4893-4895 look for the text of the key in a list of Prefixer, so no
    receipt is promoted to a witness signature. *)
Definition attCigar (E : env) (rc : rconf) (d : acc) (p sn ldig : N) (local : bool) (e : evt) (c : cigar) : act unit :=
  fun w =>
  if transf E (cg_key c) then ok w else
  if ownBad rc (cg_key c) p local then ok w else
  if vrfy E (cg_key c) (cg_raw c) (e_raw e) then
    match witState d (fst w) p sn with
    | Err ex => raise ex w
    | Ok _ => wr (addRct p ldig c) w
    end
  else ok w.
(** eventing.py:4828-4905 processAttachedReceiptCouples *)
Definition attachedCouples (E : env) (rc : rconf) (d : acc) (e : evt) (cs : list cigar) (firner : option N)
    (local : bool) (now : N) : act unit :=
  match attachedTo d (e_pre e) (e_sn e) firner with
  | None => seqa (escrowU E now (e_pre e) (e_sn e) (e_said e) cs) (raise UnverifiedReceiptError)
  | Some ldig =>
      if negb (e_said e =? ldig) then raise ValidationError else
      each (attCigar E rc d (e_pre e) (e_sn e) ldig local e) cs
  end.
(** eventing.py:4990-5003: unlike in receipt messages, a bad signature raises *)
Definition attSigs (E : env) (p dig : N) (o : src) (raw : bytes) (keys : list N) (gs : list siger) : act unit :=
  each (fun g =>
    match nth_error keys (N.to_nat (sg_index g)) with
    | None => raise ValidationError
    | Some ky => if vrfy E ky (sg_raw g) raw then wr (addVrc p dig o g) else raise ValidationError
    end) gs.
(** eventing.py:4942-5031: one group *)
Definition attTsg (E : env) (rc : rconf) (d : acc) (e : evt) (ldig : option N) (local : bool) (now : N) (t : tsg) : act unit :=
  let esc := seqa (escrowT now (e_pre e) (e_sn e) (e_said e) t) (raise UnverifiedTransferableReceiptError) in
  fun w =>
  if ownBad rc (t_pre t) (e_pre e) local then raise ValidationError w else
  match ldig, kget d (fst w) (t_pre t) with
  | Some dig, Some _ =>
      if negb (e_said e =? dig) then raise ValidationError w else
      match klast (kels d (t_pre t)) (t_sn t) with
      | None => esc w
      | Some sdig =>
          match evts (fst w) (t_pre t) sdig with
          | None => raise AttributeError w
          | Some se =>
              if negb (e_said se =? t_dig t) then raise ValidationError w else
              if isnil (e_keys se) then raise ValidationError w else
              attSigs E (e_pre e) (e_said e) (t_pre t, t_sn t, t_dig t) (e_raw e) (e_keys se) (t_sigs t) w
          end
      end
  | _, _ => esc w
  end.
(** eventing.py:4908-5031 processAttachedReceiptSigGroups *)
Definition attachedGroups (E : env) (rc : rconf) (d : acc) (e : evt) (ts : list tsg) (firner : option N)
    (local : bool) (now : N) : act unit :=
  each (attTsg E rc d e (attachedTo d (e_pre e) (e_sn e) firner) local now) ts.

(** ** Receipt escrows *)
(** eventing.py:7136-7167: the witnesses of an event in the partial witness escrow; None when
    its key state is not there yet *)
Definition pweWits (d : acc) (x : aux) (e : evt) : res (option (list N)) :=
  if isIncept (e_ilk e) then
    raise_if (negb (len (oset (e_wits e)) =? len (e_wits e))) ValidationError (Ok (Some (e_wits e)))
  else if isRot (e_ilk e) then
    match kget d x (e_pre e) with
    | None => Ok None
    | Some k =>
        let witset := oset (k_wits k) in
        let cutset := oset (e_cuts e) in
        let addset := oset (e_adds e) in
        raise_if (negb (len cutset =? len (e_cuts e))) ValidationError (
        raise_if (negb (leqb (inter witset cutset) cutset)) ValidationError (
        raise_if (negb (len addset =? len (e_adds e))) ValidationError (
        raise_if (negb (isnil (inter cutset addset))) ValidationError (
        (* 7165 reads self.wits, which Kevery does not have *)
        raise_if (negb (isnil (inter witset addset))) AttributeError (
        Ok (Some (addNs (diff witset cutset) addset)))))))
    end
  else match kget d x (e_pre e) with None => Err KeyError | Some k => Ok (Some (k_wits k)) end.

(** eventing.py:7097-7199 _processEscrowFindUnver.  The row of .pwes with the receipt's said, if
    any; then the signature of the receipt as a witness signature of that event *)
Inductive rsig := RWig (g : siger) | RCig (c : cigar).
Definition findUnver (E : env) (rc : rconf) (d : acc) (p sn said : N) (s : rsig) (w : wst) : wst * res bool :=
  let x := fst w in
  if negb (etab_mem (p, sn, said) (pwes x)) then (w, Ok false) else
  match evts x p said with
  | None => (w, Err AttributeError)
  | Some e =>
      match pweWits d x e with
      | Err ex => (w, Err ex)
      | Ok None => (w, Ok false)
      | Ok (Some wits) =>
          match s with
          | RCig c =>
              match indexOf (cg_key c) wits with
              | None => (w, Ok false)
              | Some i =>
                  match mkWig (rc_qb rc) (cg_raw c) i with
                  | Err ex => (w, Err ex)
                  | Ok g => if vrfy E (cg_key c) (cg_raw c) (e_raw e)
                            then ((putWigs p (e_said e) [g] x, snd w), Ok true)
                            else (w, Err ValidationError)
                  end
              end
          | RWig g =>
              match nth_error wits (N.to_nat (sg_index g)) with
              | None => (w, Err ValidationError)
              | Some ky => if vrfy E ky (sg_raw g) (e_raw e)
                           then ((putWigs p (e_said e) [g] x, snd w), Ok true)
                           else (w, Err ValidationError)
              end
          end
      end
  end.

(** dates of the three escrows: 4129-4131 *)
Definition rtimeout : N := 3600.
Definition stale (x : aux) (now p said : N) : bool :=
  match dtss x p said with None => true | Some dt => rtimeout <? now - dt end.

(** eventing.py:6680-6737, one row of .uwes *)
Definition unUW (E : env) (rc : rconf) (d : acc) (now : N) (w : wst) (row : N * N * uwe) : wst :=
  let '(p, sn, (said, g)) := row in
  let drop (w : wst) : wst := (fst w, set_uwes (tab_rem uwe_eqb row (uwes (snd w))) (snd w)) in
  if stale (fst w) now p said then drop w else
  match findUnver E rc d p sn said (RWig g) w with
  | (w, Ok true) => drop w
  | (w, Ok false) => w
  | (w, Err _) => drop w
  end.

(** eventing.py:6820-6866: the event is not in the partial witness escrow *)
Definition unNTacc (E : env) (rc : rconf) (d : acc) (p sn said : N) (c : cigar) : act unit :=
  fun w =>
  match klast (kels d p) sn with
  | None => raise UnverifiedReceiptError w
  | Some dig =>
      match evts (fst w) p dig with
      | None => raise ValidationError w
      | Some e =>
          if negb (said =? e_said e) then raise ValidationError w else
          if negb (vrfy E (cg_key c) (cg_raw c) (e_raw e)) then raise ValidationError w else
          match kget d (fst w) (e_pre e) with
          | None => raise UnverifiedReceiptError w
          | Some k =>
              match indexOf (cg_key c) (k_wits k) with
              | Some i => addWig (rc_qb rc) p (e_said e) (cg_raw c) i w
              | None => wr (addRct p (e_said e) c) w
              end
          end
      end
  end.
(** eventing.py:6780-6890, one row of .ures *)
Definition unNT (E : env) (rc : rconf) (d : acc) (now : N) (w : wst) (row : N * N * ure) : wst :=
  let '(p, sn, (said, c)) := row in
  let drop (w : wst) : wst := (fst w, set_ures (tab_rem ure_eqb row (ures (snd w))) (snd w)) in
  if stale (fst w) now p said then drop w else
  match findUnver E rc d p sn said (RCig c) w with
  | (w, Ok true) => drop w
  | (w, Ok false) =>
      match unNTacc E rc d p sn said c w with
      | (w, Err UnverifiedReceiptError) => w
      | (w, _) => drop w
      end
  | (w, Err _) => drop w
  end.

(** eventing.py:7251-7330: one quintuple *)
Definition unTacc (E : env) (d : acc) (p sn said : N) (o : src) (g : siger) : act unit :=
  let '(sp, ssn, sd) := o in
  fun w =>
  match klast (kels d p) sn with
  | None => raise UnverifiedTransferableReceiptError w
  | Some dig =>
      match evts (fst w) p dig with
      | None => raise ValidationError w
      | Some e =>
          if negb (said =? e_said e) then raise ValidationError w else
          match klast (kels d sp) ssn with
          | None => raise UnverifiedTransferableReceiptError w
          | Some sdig =>
              match evts (fst w) sp sdig with
              | None => raise AttributeError w
              | Some se =>
                  if negb (e_said se =? sd) then raise ValidationError w else
                  if isnil (e_keys se) then raise ValidationError w else
                  match nth_error (e_keys se) (N.to_nat (sg_index g)) with
                  | None => raise ValidationError w
                  | Some ky =>
                      if vrfy E ky (sg_raw g) (e_raw e) then wr (addVrc p (e_said e) o g) w
                      else raise ValidationError w
                  end
              end
          end
      end
  end.
(** eventing.py:7244-7352, one row of .vres *)
Definition unT (E : env) (rc : rconf) (d : acc) (now : N) (w : wst) (row : N * N * vre) : wst :=
  let '(p, sn, (said, o, g)) := row in
  let drop (w : wst) : wst := (fst w, set_vres (tab_rem vre_eqb row (vres (snd w))) (snd w)) in
  if stale (fst w) now p said then drop w else
  match unTacc E d p sn said o g w with
  | (w, Err UnverifiedTransferableReceiptError) => w
  | (w, _) => drop w
  end.

(** ** Kevery with receipts *)
Definition rdb : Type := db * rdbs.
Definition split (s : rdb) : acc * wst := let '((d, x), r) := s in (d, (x, r)).
Definition join (d : acc) (w : wst) : rdb := ((d, fst w), snd w).

(** eventing.py:6027-6045 processEscrows up to the duplicitous escrow (7359) and queries *)
Inductive rpass := REv (q : pass) | RUW | RNT | RT.
Definition runPass (E : env) (rc : rconf) (now : N) (s : rdb) (q : rpass) : rdb :=
  let '(d, w) := split s in
  match q with
  | REv q => (unescrow E (rc_conf rc) now q (fst s), snd s)
  | RUW => join d (fold_left (unUW E rc d now) (uwes (snd w)) w)
  | RNT => join d (fold_left (unNT E rc d now) (ures (snd w)) w)
  | RT => join d (fold_left (unT E rc d now) (vres (snd w)) w)
  end.
Definition rescrows (E : env) (rc : rconf) (now : N) (s : rdb) : rdb :=
  fold_left (runPass E rc now) [REv POO; RUW; RNT; RT; REv PPD; REv PPW; REv PPS] s.

(** core/parsing.py:1385-1411: an event with its receipts; 1421-1431: a receipt message *)
Record emsg := mkEmsg { em_msg : msg; em_firner : option N; em_cigars : list cigar; em_rsgs : list tsg }.
Definition dispatchEvt (E : env) (rc : rconf) (m : emsg) (s : rdb) : rdb * res unit :=
  let e := m_evt (em_msg m) in
  if isnil (m_sigers (em_msg m)) then (s, Err ValidationError) else
  match processEvent E (rc_conf rc) (em_msg m) (fst s) with
  | (dx, Err ex) => ((dx, snd s), Err ex)
  | ((d, x), Ok _) =>
      let '(w, r) :=
        seqa (if isnil (em_cigars m) then ok
              else attachedCouples E rc d e (em_cigars m) (em_firner m) (m_local (em_msg m)) (m_now (em_msg m)))
          (if isnil (em_rsgs m) then ok
           else attachedGroups E rc d e (em_rsgs m) (em_firner m) (m_local (em_msg m)) (m_now (em_msg m)))
          (x, snd s) in
      (join d w, r)
  end.
Definition dispatchRct (E : env) (rc : rconf) (m : rmsg) (s : rdb) : rdb * res unit :=
  if isnil (rm_cigars m) && isnil (rm_wigers m) && isnil (rm_tsgs m) && isnil (rm_rsgs m)
  then (s, Err ValidationError) else
  let '(d, w) := split s in
  let '(w, r) := processReceipt E rc d m w in (join d w, r).

(** ** Executions *)
Inductive rop := REvent (m : emsg) | RReceipt (m : rmsg) | REscrows (now : N) | RRestart.
Definition rstep (E : env) (rc : rconf) (s : rdb) (o : rop) : rdb :=
  match o with
  | REvent m => fst (dispatchEvt E rc m s)
  | RReceipt m => fst (dispatchRct E rc m s)
  | REscrows now => rescrows E rc now s
  | RRestart => (restart (fst s), snd s)
  end.
Definition rrun (E : env) (rc : rconf) (ops : list rop) (s : rdb) : rdb := fold_left (rstep E rc) ops s.
Definition rdbs0 : rdbs := mkRdbs (fun _ _ => None) (fun _ _ => None) [] [] [].
Definition rdb0 : rdb := (db0, rdbs0).
