(** Request authentication (KRAM): core/kraming.py Kramer (77-2159).

    Simplifications, common to the whole file.
    - Identifiers, digests, keys and signatures are texts.  Signature verification and the
      transferability of a key are parameters ([kenv]).
    - The receiver's key event logs are given by [kview]: the current key state of an
      identifier (db.kevers) and the last event at a sequence number with the digests of its
      seals (db.kels.getLast, db.evts.get).  It may be different at each call.
    - Times are numbers of microseconds and exact; the code compares floating point
      milliseconds.  Lags are whole milliseconds.  Every date time of a message parses.
    - Attachments that do not authenticate, the rewriting of the attachments handed on with an
      admitted message, cues and logging are dropped.
    - Sub-databases are association lists; a key is the text of its parts joined by dots.
      Pruning visits entries in order of insertion instead of key order. *)
From Verif Require Import Prelude B64Model SubsModel ThModel JsonModel Lex RpModel.
Open Scope N_scope.

(** recording.py CacheTypeRecord: drift, short, long and exchange lags, pruning lags *)
Record ctyp := mkCt { c_d : N; c_sl : N; c_ll : N; c_xl : N; c_psl : N; c_pll : N; c_pxl : N }.

(** a message: .pre, .ilk, .said, .route, .stamp, .raw, protocol version at least 2, its
    version text (Verser.verToB64) and its x field *)
Record kmsg := mkMsg { m_pre : bytes; m_ilk : bytes; m_said : bytes; m_route : option bytes; m_dt : option N;
                       m_raw : bytes; m_v2 : bool; m_ver : bytes; m_x : option bytes }.

(** authenticating attachments: kwa['sigers'], ['cigars'], ['lsgs'], ['tsgs'], ['sscs'], ['ssts'] *)
Record katt := mkAtt { a_sigers : list siger; a_cigars : list cigar; a_lsgs : list (bytes * list siger);
                       a_tsgs : list group; a_sscs : list (N * bytes); a_ssts : list (bytes * (N * bytes)) }.

(** a key state: kever.sner.num, kever.serder.said, kever.verfers, kever.tholder *)
Record kst := mkKst { kv_sn : N; kv_said : bytes; kv_keys : list bytes; kv_th : tholder }.
Record kview := mkKview { kev : bytes -> option kst; evt : bytes -> N -> option (bytes * option (list bytes)) }.
Record kenv := mkKenv { ktrans : bytes -> bool; kvrfy : bytes -> bytes -> bytes -> bool }.

(** recording.py MsgCacheRecord 470-493 and TxnMsgCacheRecord 496-520; [h_xdt] is used by the
    latter only *)
Record hcache := mkH { h_mdt : N; h_xdt : N; h_d : N; h_ml : N; h_pml : N; h_xl : N; h_pxl : N }.

(** db.kramCTYP, kramMSGC, kramTMSC, kramPMKM, kramPMKS, kramPMSK *)
Record kdb := mkKdb { kctyp : list (bytes * ctyp); msgc : list (bytes * hcache); tmsc : list (bytes * hcache);
  pmkm : list (bytes * kmsg); pmks : list (bytes * list siger); pmsk : list (bytes * (N * bytes)) }.

(** the exceptions of kraming.py, by class *)
Inductive kexn : Set := MissingSenderKeyState | MissingAuthAttachment | KramErr | KramConfigErr
| AttributeErr | ValueErr.
(** what a call to kramit comes to: the message is returned, None is returned, or an exception *)
Inductive kout := Admit | Drop | Raise (e : kexn).

(** separator of the database keys *)
Definition dot : N := 46.
(** kering.py Ilks.xip and exn *)
Definition ilkXip : bytes := s2b "xip".
Definition ilkExn : bytes := s2b "exn".

(** kraming.py:267-311 _fetchCacheType: the entry for type and route, else for the type, else
    the default.  The scan of the branch is a lookup of the two keys it can match. *)
Definition fetchCacheType (d : kdb) (ilk : bytes) (route : option bytes) : option ctyp :=
  let exact := match route with
               | Some (x :: r) => dget (kctyp d) (ilk ++ s2b ".R." ++ x :: r)
               | _ => None
               end in
  match exact with
  | Some c => Some c
  | None => match dget (kctyp d) ilk with
            | Some c => Some c
            | None => dget (kctyp d) (s2b "~")
            end
  end.

(** kraming.py:314-347 _hasSeals, after _normalizeSenderSeals 378-413 *)
Definition senderSeals (pre : bytes) (a : katt) : list (N * bytes) :=
  a_sscs a ++ map snd (filter (fun t => beq (fst t) pre) (a_ssts a)).
Definition hasSeals (pre : bytes) (a : katt) : bool :=
  match senderSeals pre a with [] => false | _ => true end.

(** kraming.py:350-376 _hasSigs, after _normalizeSenderTlsgs 416-441 *)
Definition senderSigers (pre : bytes) (a : katt) : list siger :=
  a_sigers a ++ List.concat (map snd (filter (fun t => beq (fst t) pre) (a_lsgs a))).
Definition hasSigs (pre : bytes) (a : katt) : bool :=
  match senderSigers pre a with
  | _ :: _ => true
  | [] => existsb (fun c => beq (c_key c) pre) (a_cigars a) || existsb (fun g => beq (g_pre g) pre) (a_tsgs a)
  end.

Section Kram.
  Variable env : kenv.

  (** kraming.py:716-780 _validateSenderSeal: the last seal reference of the sender; None when
      MissingSenderKeyStateError is raised *)
  Definition validateSenderSeal (v : kview) (m : kmsg) (a : katt) : option bool :=
    match rev (senderSeals (m_pre m) a) with
    | [] => Some false
    | (sn, dig) :: _ =>
        match evt v (m_pre m) sn with
        | None => None
        | Some (sdig, ev) =>
            if negb (beq sdig dig) then Some false
            else match ev with
                 | None => None
                 | Some seals => Some (memB (m_said m) seals)
                 end
        end
    end.

  (** kraming.py:628-714 _verifyAttachedSigs: the signatures verified, or None when a signature
      couple of a nontransferable sender verifies (then none are returned) *)
  Definition verifyAttached (k : kst) (m : kmsg) (a : katt) : bool * list siger :=
    if existsb (fun c => negb (ktrans env (c_key c)) && beq (m_pre m) (c_key c)
                         && kvrfy env (c_key c) (c_raw c) (m_raw m)) (a_cigars a)
    then (true, [])
    else
      let current := filter (fun g => beq (g_pre g) (m_pre m) && (g_sn g =? kv_sn k) && beq (g_dig g) (kv_said k)) (a_tsgs a) in
      let pool := senderSigers (m_pre m) a ++ List.concat (map g_sigs current) in
      let vs := fst (verifySigs bytes (kvrfy env) (m_raw m) pool (kv_keys k)) in
      (match vs with [] => false | _ => true end, vs).

  (** kraming.py:32-40 AuthTypes, 470-527 _resolveAuthType: the type and whether the seal has
      been validated *)
  Inductive auth := SealRef | SingleKey | MultiKey.
  Definition bySigs (k : kst) : auth := if len (kv_keys k) =? 1 then SingleKey else MultiKey.
  Definition resolveAuthType (v : kview) (k : kst) (m : kmsg) (a : katt) : auth * bool :=
    if hasSeals (m_pre m) a then
      if hasSigs (m_pre m) a then
        match validateSenderSeal v m a with
        | Some true => (SealRef, true)
        | _ => (bySigs k, false)
        end
      else (SealRef, false)
    else (bySigs k, false).

  (** kraming.py:1038, 1269: keys of the caches *)
  Definition pkey (m : kmsg) : bytes := joinb dot [m_pre m; m_said m].
  Definition tkey (m : kmsg) (x : bytes) : bytes := joinb dot [m_pre m; x; m_said m].

  (** kraming.py:1022-1031: the exchange identifier, None for a message that is not in an exchange *)
  Definition exchangeId (m : kmsg) : option bytes :=
    let x := if beq (m_ilk m) ilkXip then Some (m_said m)
             else if beq (m_ilk m) ilkExn && m_v2 m then m_x m else None in
    match x with Some [] => None | _ => x end.

  (** writes of one sub-database *)
  Definition setPmkm (d : kdb) t : kdb := mkKdb (kctyp d) (msgc d) (tmsc d) t (pmks d) (pmsk d).
  Definition setPmks (d : kdb) t : kdb := mkKdb (kctyp d) (msgc d) (tmsc d) (pmkm d) t (pmsk d).
  Definition setPmsk (d : kdb) t : kdb := mkKdb (kctyp d) (msgc d) (tmsc d) (pmkm d) (pmks d) t.
  Definition setMsgc (d : kdb) t : kdb := mkKdb (kctyp d) t (tmsc d) (pmkm d) (pmks d) (pmsk d).
  Definition setTmsc (d : kdb) t : kdb := mkKdb (kctyp d) (msgc d) t (pmkm d) (pmks d) (pmsk d).
  Definition setCtyp (d : kdb) t : kdb := mkKdb t (msgc d) (tmsc d) (pmkm d) (pmks d) (pmsk d).

  (** stored signatures of a pending message *)
  Definition sigsAt (d : kdb) (k : bytes) : list siger := match dget (pmks d) k with Some l => l | None => [] end.

  (** kraming.py:1038-1138 and 1269-1371: a message whose cache entry [h] exists *)
  Definition onCached (v : kview) (mdt : N) (m : kmsg) (a : katt) (h : hcache) (d : kdb) : kdb * kout :=
    let pk := pkey m in
    let partial := match dget (pmkm d) pk with Some _ => true | None => false end in
    if negb (h_mdt h <? mdt) && negb partial then (d, Drop)
    else if hasSeals (m_pre m) a && negb (hasSigs (m_pre m) a) then (d, Drop)
    else match kev v (m_pre m) with
    | None => (d, Raise MissingSenderKeyState)
    | Some k =>
        match (if hasSeals (m_pre m) a && hasSigs (m_pre m) a then validateSenderSeal v m a else Some false) with
        | None => (d, Raise MissingSenderKeyState)
        | Some true => (d, Drop)
        | Some false =>
            if len (kv_keys k) =? 1 then (d, Drop)
            else
              let '(ok, vs) := verifyAttached k m a in
              if negb ok then (d, Drop)
              else
                let stored := dget (pmsk d) pk in
                let same := match stored with
                            | Some (sn, said) => (sn =? kv_sn k) && beq said (kv_said k)
                            | None => true
                            end in
                if negb same then (d, Drop)
                else
                  let old := sigsAt d pk in
                  let new := filter (fun s => negb (existsb (N.eqb (sg_index s)) (map sg_index old))) vs in
                  let d1 := match new with
                            | [] => d
                            | _ =>
                                let d1 := setPmks d (dset (pmks d) pk (addSigs old new)) in
                                let d2 := setPmkm d1 (dput (pmkm d1) pk m) in
                                setPmsk d2 (dput (pmsk d2) pk (kv_sn k, kv_said k))
                            end in
                  match old ++ new with
                  | [] => (d1, Drop)
                  | all => (d1, if satisfy (kv_th k) (map sg_index all) then Admit else Drop)
                  end
        end
    end.

  (** kraming.py:1140-1255 and 1373-1550: a message without a cache entry.  [xw] is the check of
      the exchange window, [pin] records the entry. *)
  Definition onFresh (v : kview) (now mdt : N) (m : kmsg) (a : katt)
                     (xw : ctyp -> bool) (pin : hcache -> kdb -> kdb) (xdt : N) (d : kdb) : kdb * kout :=
    match fetchCacheType d (m_ilk m) (m_route m) with
    | None => (d, Raise KramErr)
    | Some c =>
        match kev v (m_pre m) with
        | None => (d, Raise MissingSenderKeyState)
        | Some k =>
            let '(ty, sealOk) := resolveAuthType v k m a in
            let ml := match ty with MultiKey => c_ll c | _ => c_sl c end in
            let pml := match ty with MultiKey => c_pll c | _ => c_psl c end in
            if negb ((now <=? mdt + (c_d c + ml) * 1000) && (mdt <=? now + c_d c * 1000)) then (d, Drop)
            else if negb (xw c) then (d, Drop)
            else
              let h := mkH mdt xdt (c_d c) ml pml (c_xl c) (c_pxl c) in
              match ty with
              | SealRef =>
                  if sealOk || match validateSenderSeal v m a with Some true => true | _ => false end
                  then (pin h d, Admit) else (d, Drop)
              | SingleKey =>
                  if fst (verifyAttached k m a) then (pin h d, Admit) else (d, Drop)
              | MultiKey =>
                  let '(ok, vs) := verifyAttached k m a in
                  if negb ok then (d, Drop)
                  else
                    let d1 := pin h d in
                    if satisfy (kv_th k) (map sg_index vs) then (d1, Admit)
                    else
                      let d2 := setPmkm d1 (dput (pmkm d1) (pkey m) m) in
                      let d3 := setPmks d2 (dset (pmks d2) (pkey m) (addSigs (sigsAt d2 (pkey m)) vs)) in
                      (setPmsk d3 (dset (pmsk d3) (pkey m) (kv_sn k, kv_said k)), Drop)
              end
        end
    end.

  (** koming.py Komer.getTopItemIter: the entry with the least key among those whose key starts
      with the joined keys (no separator is appended) *)
  Fixpoint topFirst {V} (top : bytes) (l : list (bytes * V)) : option (bytes * V) :=
    match l with
    | [] => None
    | kv :: l' =>
        let r := topFirst top l' in
        if startswith top (fst kv) then
          match r with
          | Some b => if bltb (fst b) (fst kv) then Some b else Some kv
          | None => Some kv
          end
        else r
    end.

  (** kraming.py:972-1550 kramit *)
  Definition kramit (v : kview) (now : N) (m : kmsg) (a : katt) (d : kdb) : kdb * kout :=
    match m_dt m with
    | None => (d, Drop)
    | Some mdt =>
        if negb (hasSeals (m_pre m) a) && negb (hasSigs (m_pre m) a) then (d, Raise MissingAuthAttachment)
        else match exchangeId m with
        | None =>
            match dget (msgc d) (pkey m) with
            | Some h => onCached v mdt m a h d
            | None => onFresh v now mdt m a (fun _ => true)
                        (fun h d => setMsgc d (dset (msgc d) (pkey m) h)) 0 d
            end
        | Some x =>
            match dget (tmsc d) (tkey m x) with
            | Some h => onCached v mdt m a h d
            | None =>
                let xdt := if beq (m_ilk m) ilkXip then Some mdt
                           else match topFirst (joinb dot [m_pre m; x]) (tmsc d) with
                                | Some (_, h) => Some (h_xdt h)
                                | None => None
                                end in
                onFresh v now mdt m a
                  (fun c => match xdt with
                            | Some xd => (xd <=? mdt) && (mdt <=? xd + c_xl c * 1000)
                            | None => false
                            end)
                  (fun h d => setTmsc d (dset (tmsc d) (tkey m x) h))
                  (match xdt with Some xd => xd | None => 0 end) d
            end
        end
    end.

  (** kraming.py:254-263 denial, 953-969 intake *)
  Definition denial (m : kmsg) : bytes :=
    joinb dot [m_ver m; m_ilk m; match m_route m with Some r => r | None => s2b "None" end].
  Definition intake (enabled : bool) (denials : list bytes)
             (v : kview) (now : N) (m : kmsg) (a : katt) (d : kdb) : kdb * kout :=
    if enabled then
      if existsb (fun p => startswith p (denial m)) denials then (d, Admit)
      else kramit v now m a d
    else (d, Admit).

  (** kraming.py:2117-2123 the entries removed with a message *)
  Definition forget (pk : bytes) (d : kdb) : kdb :=
    mkKdb (kctyp d) (msgc d) (tmsc d) (drem (pmkm d) pk) (drem (pmks d) pk) (drem (pmsk d) pk).

  (** kraming.py:2095-2127 _pruneMessages, entry by entry; a key that does not split into two
      parts makes the unpacking of the loop raise ValueError *)
  Fixpoint pruneMessages (now : N) (l : list (bytes * hcache)) (d : kdb) : kdb * option kexn :=
    match l with
    | [] => (d, None)
    | (key, h) :: l' =>
        match splitb dot key with
        | [_; _] =>
            if (now / 1000 <=? h_mdt h / 1000 + h_d h + h_pml h) && (h_mdt h / 1000 <=? now / 1000 + h_d h)
            then pruneMessages now l' d
            else pruneMessages now l' (forget key (setMsgc d (drem (msgc d) key)))
        | _ => (d, Some ValueErr)
        end
    end.

  (** kraming.py:2129-2159 _pruneExchanges *)
  Fixpoint pruneExchanges (now : N) (l : list (bytes * hcache)) (d : kdb) : kdb * option kexn :=
    match l with
    | [] => (d, None)
    | (key, h) :: l' =>
        match splitb dot key with
        | [aid; _; mid] =>
            if (h_xdt h / 1000 <=? now / 1000) && (now / 1000 <=? h_xdt h / 1000 + h_pxl h)
            then pruneExchanges now l' d
            else pruneExchanges now l' (forget (joinb dot [aid; mid]) (setTmsc d (drem (tmsc d) key)))
        | _ => (d, Some ValueErr)
        end
    end.

  (** Pruner.do 2169-2182, one round: the exception of a round ends the doer *)
  Definition prune (now : N) (d : kdb) : kdb * option kexn :=
    let '(d1, e) := pruneMessages now (msgc d) d in
    match e with
    | Some x => (d1, Some x)
    | None => pruneExchanges now (tmsc d1) d1
    end.
End Kram.

(** ** Configuration *)

(** kraming.py:149-191 _parseValidateCtyp *)
Definition ctypOk (c : ctyp) : bool :=
  (0 <? c_sl c) && (c_sl c <=? c_ll c) && (c_ll c <=? c_xl c)
  && (c_sl c <=? c_psl c) && (c_ll c <=? c_pll c) && (c_xl c <=? c_pxl c).

(** an entry of self._pending *)
Record pend := mkPend { pn_sl : N; pn_ll : N; pn_xl : N; pn_start : N; pn_delta : N }.
(** self._kramCTYPCf, self._pending and the database *)
Record kramer := mkKr { k_cf : list (bytes * ctyp); k_pend : list (bytes * pend); k_db : kdb }.

(** kraming.py:1830-1882 _buildCoverageGraph: the pattern of a cache type key; None stands for
    "ANY".  str.partition at the first ".R.". *)
Fixpoint partR (s acc : bytes) : option (bytes * bytes) :=
  match s with
  | [] => None
  | ch :: s' => if startswith (s2b ".R.") s then Some (rev acc, ndrop 3 s) else partR s' (ch :: acc)
  end.
Definition pattern (ctype : bytes) : option bytes * option bytes :=
  if beq ctype (s2b "~") then (None, None)
  else match partR ctype [] with
       | Some (t, r) => (Some t, Some r)
       | None => (Some ctype, None)
       end.
Definition obeq (a b : option bytes) : bool :=
  match a, b with Some x, Some y => beq x y | None, None => true | _, _ => false end.
(** does pattern p cover pattern q: 1927-1934, 2073-2080 *)
Definition covers (p q : option bytes * option bytes) : bool :=
  match fst p with None => true | _ => obeq (fst p) (fst q) end
  && match snd p with None => true | _ => obeq (snd p) (snd q) end.

(** kraming.py:2025-2092 _validateCoverage *)
Definition coverageOk (old new : list (bytes * ctyp)) : bool :=
  forallb (fun o => existsb (fun n => covers (pattern (fst n)) (pattern (fst o))) new) old.

(** min and max of a list *)
Definition minN (l : list N) : N := match l with [] => 0 | x :: l' => fold_left N.min l' x end.
Definition maxN (l : list N) : N := fold_left N.max l 0.
(** kraming.py:1885-1961: the entries of a configuration that cover a pattern *)
Definition coverers (p : option bytes * option bytes) (cf : list (bytes * ctyp)) : list (bytes * ctyp) :=
  filter (fun e => covers (pattern (fst e)) p) cf.

(** kraming.py:1885-1961 _computeCoverageDiff followed by 1964-2022 _computeWorstCaseDelta.
    Sets of cache types are lists in configuration order, so that equality of the two sets is
    equality of their elements both ways. *)
Definition subsetB (a b : list bytes) : bool := forallb (fun x => memB x b) a.
Definition deltaFor (old new : list (bytes * ctyp)) (p : option bytes * option bytes) : N :=
  let oc := coverers p old in
  let nc := coverers p new in
  let isOld := existsb (fun o => obeq (fst (pattern (fst o))) (fst p) && obeq (snd (pattern (fst o))) (snd p)) old in
  let newAccept := minN (map (fun e => c_sl (snd e)) nc) in
  if isOld then
    if subsetB (map fst oc) (map fst nc) && subsetB (map fst nc) (map fst oc) then 0
    else newAccept - minN (map (fun e => c_sl (snd e)) oc)
  else newAccept.
Definition worstDelta (old new : list (bytes * ctyp)) : N :=
  maxN (map (fun e => deltaFor old new (pattern (fst e))) (old ++ new)).

(** kraming.py:1552-1776 changeConfig; [over] is deltaOverride.  A failed check raises before
    anything is changed. *)
Definition changeOne (now : N) (over : option N) (old : list (bytes * ctyp)) (d3 : N)
           (e : bytes * ctyp) (s : kramer) : kramer :=
  let '(ct, n) := e in
  let pin c := setCtyp (k_db s) (dset (kctyp (k_db s)) ct c) in
  match dget old ct with
  | None =>
      match over, d3 with
      | None, 0 => mkKr (k_cf s) (k_pend s) (pin n)
      | _, _ =>
          let delta := match over with Some x => x | None => d3 end in
          mkKr (k_cf s) (dset (k_pend s) ct (mkPend (c_sl n) (c_ll n) (c_xl n) now delta))
            (pin (mkCt (c_d n) (minN (map (fun o => c_sl (snd o)) old)) (minN (map (fun o => c_ll (snd o)) old))
                       (minN (map (fun o => c_xl (snd o)) old)) (N.max (c_psl n) (c_sl n))
                       (N.max (c_pll n) (c_ll n)) (N.max (c_pxl n) (c_xl n))))
      end
  | Some o =>
      if (c_sl n <=? c_sl o) && (c_ll n <=? c_ll o) && (c_xl n <=? c_xl o)
         && (c_psl n <=? c_psl o) && (c_pll n <=? c_pll o) && (c_pxl n <=? c_pxl o)
      then mkKr (k_cf s) (k_pend s)
             (pin (mkCt (c_d o) (c_sl n) (c_ll n) (c_xl n) (c_psl n) (c_pll n) (c_pxl n)))
      else
        let d2 := maxN [c_sl n - c_sl o; c_ll n - c_ll o; c_xl n - c_xl o] in
        let delta := match over with Some x => x | None => N.max d2 d3 end in
        mkKr (k_cf s) (dset (k_pend s) ct (mkPend (c_sl n) (c_ll n) (c_xl n) now delta))
          (pin (mkCt (c_d o) (c_sl o) (c_ll o) (c_xl o) (N.max (c_psl n) (c_sl n))
                     (N.max (c_pll n) (c_ll n)) (N.max (c_pxl n) (c_xl n))))
  end.
Definition changeConfig (now : N) (over : option N) (new : list (bytes * ctyp)) (s : kramer) : kramer * option kexn :=
  let old := k_cf s in
  if match over with Some 0 => true | _ => false end then (s, Some KramConfigErr)
  else if negb (forallb (fun e => ctypOk (snd e)) new) then (s, Some KramConfigErr)
  else if negb (coverageOk old new) then (s, Some KramErr)
  else
    let d3 := worstDelta old new in
    let s1 := fold_left (fun s e => changeOne now over old d3 e s) new s in
    let gone := filter (fun e => match dget new (fst e) with None => true | _ => false end) old in
    let t := fold_left (fun t e => drem t (fst e)) gone (kctyp (k_db s1)) in
    (mkKr new (k_pend s1) (setCtyp (k_db s1) t), None).

(** kraming.py:1779-1827 reconcileConfig; a pending entry whose cache type is no longer in the
    database makes [rec.sl = …] raise AttributeError *)
Fixpoint reconcileLoop (now : N) (l : list (bytes * pend)) (s : kramer) : kramer * option kexn :=
  match l with
  | [] => (s, None)
  | (ct, p) :: l' =>
      if pn_start p + pn_delta p * 1000 <=? now then
        match dget (kctyp (k_db s)) ct with
        | None => (s, Some AttributeErr)
        | Some c =>
            reconcileLoop now l'
              (mkKr (k_cf s) (drem (k_pend s) ct)
                 (setCtyp (k_db s) (dset (kctyp (k_db s)) ct
                    (mkCt (c_d c) (pn_sl p) (pn_ll p) (pn_xl p) (c_psl c) (c_pll c) (c_pxl c)))))
        end
      else reconcileLoop now l' s
  end.
Definition reconcileConfig (now : N) (s : kramer) : kramer * option kexn := reconcileLoop now (k_pend s) s.

(** kraming.py:102-126 __init__ on an existing database: the configured types are pinned, the
    staged changes of the previous process are gone *)
Definition restart (cf : list (bytes * ctyp)) (d : kdb) : option kramer :=
  if forallb (fun e => ctypOk (snd e)) cf
  then Some (mkKr cf [] (setCtyp d (fold_left (fun t e => dset t (fst e) (snd e)) cf (kctyp d))))
  else None.
