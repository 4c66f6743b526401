(** Key store and key manager: app/keeping.py Creators (377-609) and Manager (614-1744), the
    encryption of stored secrets (core/signing.py Encrypter, Decrypter, db/subing.py
    CryptSignerSuber) and the use of the manager by app/habbing.py Hab.rotate (3040-3092).

    Simplifications, common to the whole file.
    - Public keys, prefixes, seeds, salts and digests are texts; [vk], [stretch], [rand],
      [rsalt] and [dig] are the key derivation, the password hash, the random generator and
      the digest, as parameters.
    - A sealed box is the symbolic value [Sealed a x]: it is opened by the seed of the
      identifier [a] and by no other.  [Junk] is a text that no seed opens.
    - Sub-databases are association lists; the order of the keys of an iteration is the order of
      insertion.  Date times of public key lots are dropped.
    - Codes are given as lists: icount copies of icode when icodes is empty. *)
From Verif Require Import Prelude B64Model MatterModel SubsModel ThModel JsonModel.
Open Scope N_scope.

(** a value of the key store that may be encrypted *)
Inductive stored (A : Type) := Plain (x : A) | Sealed (a : bytes) (x : A) | Junk.
Arguments Plain {A} x.
Arguments Sealed {A} a x.
Arguments Junk {A}.

(** keeping.py:46-66 PubLot, 69-82 PreSit, 85-99 PrePrm ([p_salt] None is the empty salt) *)
Record publot := mkLot { l_pubs : list bytes; l_ridx : N; l_kidx : N }.
Record presit := mkSit { t_old : publot; t_new : publot; t_nxt : publot }.
Record preprm := mkPrm { p_pidx : N; p_algo : bytes; p_salt : option (stored bytes); p_stem : bytes; p_tier : bytes }.
Definition lot0 : publot := mkLot [] 0 0.

(** private key of a pair: derivation code and seed (core/signing.py Signer) *)
Definition secret := (bytes * bytes)%type.

(** keeping.py:142-275 Keeper, the sub-databases used by Manager *)
Record ksdb := mkKs {
  g_aeid : option bytes; g_pidx : option N; g_algo : option bytes; g_salt : option (stored bytes); g_tier : option bytes;
  pris : list (bytes * stored secret); pres : list (bytes * bytes); prms : list (bytes * preprm);
  sits : list (bytes * presit); pubs : list (bytes * list bytes) }.
Definition ks0 : ksdb := mkKs None None None None None [] [] [] [] [].

(** writes of one sub-database of Keeper (keeping.py:142-275) *)
Definition setAeid d x := mkKs x (g_pidx d) (g_algo d) (g_salt d) (g_tier d) (pris d) (pres d) (prms d) (sits d) (pubs d).
Definition setPidx d x := mkKs (g_aeid d) x (g_algo d) (g_salt d) (g_tier d) (pris d) (pres d) (prms d) (sits d) (pubs d).
Definition setAlgo d x := mkKs (g_aeid d) (g_pidx d) x (g_salt d) (g_tier d) (pris d) (pres d) (prms d) (sits d) (pubs d).
Definition setSalt d x := mkKs (g_aeid d) (g_pidx d) (g_algo d) x (g_tier d) (pris d) (pres d) (prms d) (sits d) (pubs d).
Definition setTier d x := mkKs (g_aeid d) (g_pidx d) (g_algo d) (g_salt d) x (pris d) (pres d) (prms d) (sits d) (pubs d).
Definition setPris d x := mkKs (g_aeid d) (g_pidx d) (g_algo d) (g_salt d) (g_tier d) x (pres d) (prms d) (sits d) (pubs d).
Definition setPres d x := mkKs (g_aeid d) (g_pidx d) (g_algo d) (g_salt d) (g_tier d) (pris d) x (prms d) (sits d) (pubs d).
Definition setPrms d x := mkKs (g_aeid d) (g_pidx d) (g_algo d) (g_salt d) (g_tier d) (pris d) (pres d) x (sits d) (pubs d).
Definition setSits d x := mkKs (g_aeid d) (g_pidx d) (g_algo d) (g_salt d) (g_tier d) (pris d) (pres d) (prms d) x (pubs d).
Definition setPubs d x := mkKs (g_aeid d) (g_pidx d) (g_algo d) (g_salt d) (g_tier d) (pris d) (pres d) (prms d) (sits d) x.

(** sub-database rem *)
Definition krem {V} (l : list (bytes * V)) (k : bytes) : list (bytes * V) := filter (fun kv => negb (beq k (fst kv))) l.

(** keeping.py:114-122 riKey: b'%s.%032x' *)
Definition riKey (pre : bytes) (ri : N) : bytes := pre ++ 46 :: hexpad 32 ri.

(** Manager: the database, and in memory .encrypter (its aeid), .decrypter (its seed) and .seed;
    [m_rnd] counts the draws of the random generator *)
Record mgr := mkMgr { ks : ksdb; m_enc : option bytes; m_dec : option bytes; m_seed : bytes; m_rnd : N }.

(** Programs: every committed write appends the database it leaves to the trace, so the states in
    which a process can die are the initial one and those of the trace. *)
Definition M (A : Type) := mgr -> list ksdb * (mgr * res A).
Definition ret {A} (a : A) : M A := fun m => ([], (m, Ok a)).
Definition raise {A} (e : exn) : M A := fun m => ([], (m, Err e)).
Definition bindM {A B} (p : M A) (f : A -> M B) : M B :=
  fun m => let '(t1, (m1, r)) := p m in
           match r with
           | Ok a => let '(t2, o) := f a m1 in (t1 ++ t2, o)
           | Err e => (t1, (m1, Err e))
           end.
Definition lift {A} (r : res A) : M A := fun m => ([], (m, r)).
Definition reads {A} (f : mgr -> A) : M A := fun m => ([], (m, Ok (f m))).
Definition write (f : ksdb -> ksdb) : M unit :=
  fun m => let d := f (ks m) in ([d], (mkMgr d (m_enc m) (m_dec m) (m_seed m) (m_rnd m), Ok tt)).
Definition memory (f : mgr -> mgr) : M unit := fun m => ([], (f m, Ok tt)).
Definition guard (b : bool) (e : exn) : M unit := if b then raise e else ret tt.
Notation "x <~ e ;; f" := (bindM e (fun x => f)) (at level 61, e at next level, right associativity).
Notation "' p <~ e ;; f" := (bindM e (fun p => f)) (at level 61, p pattern, e at next level, right associativity).

(** Python loops *)
Fixpoint forM {A} (l : list A) (f : A -> M unit) : M unit :=
  match l with [] => ret tt | x :: r => _ <~ f x ;; forM r f end.
Fixpoint mapM {A B} (l : list A) (f : A -> M B) : M (list B) :=
  match l with [] => ret [] | x :: r => y <~ f x ;; ys <~ mapM r f ;; ret (y :: ys) end.

(** put of a sub-database: does not overwrite, tells whether it wrote *)
Definition putM {V} (sel : ksdb -> list (bytes * V)) (upd : ksdb -> list (bytes * V) -> ksdb) (k : bytes) (v : V) : M bool :=
  m <~ reads (fun m => m) ;;
  match dget (sel (ks m)) k with
  | Some _ => ret false
  | None => _ <~ write (fun d => upd d (dset (sel d) k v)) ;; ret true
  end.
Definition pinM {V} (sel : ksdb -> list (bytes * V)) (upd : ksdb -> list (bytes * V) -> ksdb) (k : bytes) (v : V) : M unit :=
  write (fun d => upd d (dset (sel d) k v)).
Definition remM {V} (sel : ksdb -> list (bytes * V)) (upd : ksdb -> list (bytes * V) -> ksdb) (k : bytes) : M unit :=
  write (fun d => upd d (krem (sel d) k)).

(** keeping.py:42-43; MtrDex seed codes (coring.py:235, 244, 251) *)
Definition Randy : bytes := s2b "randy".
Definition Salty : bytes := s2b "salty".
Definition EdSeed : bytes := s2b "A".
Definition SeedDex : list bytes := [EdSeed; s2b "J"; s2b "Q"].
Definition TierLow : bytes := s2b "low".

(** The cryptography used by the manager *)
Record kcfg := mkCfg {
  (** Signer.verfer.qb64 of a seed (signing.py:103-130), by seed code and transferability *)
  vk : bytes -> bytes -> bool -> bytes;
  (** Verfer(qb64=pub).transferable *)
  trans : bytes -> bool;
  (** Salter.stretch (signing.py:399-435): salt, path, tier, temp, seed code *)
  stretch : bytes -> bytes -> bytes -> bool -> bytes -> bytes;
  (** random seeds of RandyCreator and random salts of Salter() *)
  rand : N -> bytes;
  rsalt : N -> bytes;
  (** Diger(ser=pub, code=dcode).qb64 *)
  dig : bytes -> bytes -> bytes;
  (** Encrypter(verkey=aeid).verifySeed(seed) (signing.py:771-784) *)
  seedOk : bytes -> bytes -> bool }.

Section Ks.
Variable c : kcfg.

(** ** Secrets *)
(** signing.py:786-836 encrypt(prim=signer): only Ed25519 seeds *)
Definition encSecret (enc : option bytes) (s : secret) : res (stored secret) :=
  match enc with
  | None => Ok (Plain s)
  | Some a => if beq (fst s) EdSeed then Ok (Sealed a s) else Err InvalidValueError
  end.
(** encrypt(ser=salt, code=X25519_Cipher_Salt): the cipher of a text that is not a salt is cut to the
    raw size of the code (coring.py:1017), so it cannot be opened *)
Definition encSalt (enc : option bytes) (s : stored bytes) : stored bytes :=
  match enc with
  | None => s
  | Some a => match s with Plain x => Sealed a x | _ => Junk end
  end.
(** Decrypter.decrypt (signing.py:914-1010): a text that is not a cipher has no cipher code *)
Definition opened {A} (seed : bytes) (s : stored A) : res A :=
  match s with
  | Plain _ => Err InvalidCodeError
  | Sealed a x => if seedOk c a seed then Ok x else Err ValueError
  | Junk => Err ValueError
  end.

(** Signer of a pair: secret and public key *)
Definition signer := (secret * bytes)%type.
Definition mkSigner (code seed : bytes) (tr : bool) : res signer :=
  if memB code SeedDex then Ok ((code, seed), vk c code seed tr) else Err ValueError.

(** subing.py:1806-1838 CryptSignerSuber.get *)
Definition getPri (pub : bytes) : M (option signer) :=
  m <~ reads (fun m => m) ;;
  match dget (pris (ks m)) pub with
  | None => ret None
  | Some s =>
      '(cd, sd) <~ lift (match m_dec m with
                    | Some seed => opened seed s
                    | None => match s with Plain x => Ok x | _ => Err ValueError end
                    end) ;;
      sg <~ lift (mkSigner cd sd (trans c pub)) ;; ret (Some sg)
  end.
(** subing.py:1764-1782 put, 1785-1802 pin *)
Definition putPri (enc : option bytes) (sg : signer) : M unit :=
  v <~ lift (encSecret enc (fst sg)) ;; _ <~ putM pris setPris (snd sg) v ;; ret tt.

(** keeping.py:906-916 salt getter, 919-929 setter *)
Definition getSalt : M (option (stored bytes)) :=
  m <~ reads (fun m => m) ;;
  match m_dec m with
  | Some seed => match g_salt (ks m) with
                 | Some s => x <~ lift (opened seed s) ;; ret (Some (Plain x))
                 | None => raise EmptyMaterialError
                 end
  | None => ret (g_salt (ks m))
  end.
Definition setSaltM (s : stored bytes) : M unit :=
  m <~ reads (fun m => m) ;; write (fun d => setSalt d (Some (encSalt (m_enc m) s))).

(** ** Creators: keeping.py:425-553, 556-607 *)
Inductive creator := CRandy | CSalty (salt stem tier : bytes).
Definition crSalt cr := match cr with CRandy => None | CSalty s _ _ => Some s end.
Definition crStem cr : bytes := match cr with CRandy => [] | CSalty _ s _ => s end.
Definition crTier cr : bytes := match cr with CRandy => [] | CSalty _ _ t => t end.

(** fresh random value *)
Definition draw : M N :=
  m <~ reads m_rnd ;; _ <~ memory (fun s => mkMgr (ks s) (m_enc s) (m_dec s) (m_seed s) (m + 1)) ;; ret m.

(** Creatory(algo).make(salt, stem, tier); Salter(qb64=None) draws a salt, Salter of a text that is
    not a salt raises *)
Definition mkCreator (algo : option bytes) (salt : option (stored bytes)) (stem : bytes) (tier : option bytes) : M creator :=
  match algo with
  | Some a =>
      if beq a Randy then ret CRandy
      else if beq a Salty then
        s <~ (match salt with
              | None => n <~ draw ;; ret (rsalt c n)
              | Some (Plain s) => ret s
              | Some _ => raise ValueError
              end) ;;
        ret (CSalty s stem (match tier with Some t => t | None => TierLow end))
      else raise ValueError
  | None => raise ValueError
  end.

(** keeping.py:545-547 path: "{}{:x}{:x}".format(stem, ridx, kidx + i) *)
Definition pathOf (stem : bytes) (pidx ridx kidx : N) : bytes :=
  (match stem with [] => hexstr pidx | _ => stem end) ++ hexstr ridx ++ hexstr kidx.

(** keeping.py:446-466, 522-553 create *)
Fixpoint create (cr : creator) (codes : list bytes) (pidx ridx kidx : N) (tr temp : bool) : M (list signer) :=
  match codes with
  | [] => ret []
  | code :: rest =>
      seed <~ (match cr with
               | CRandy => n <~ draw ;; ret (rand c n)
               | CSalty salt stem tier => ret (stretch c salt (pathOf stem pidx ridx kidx) tier temp code)
               end) ;;
      sg <~ lift (mkSigner code seed tr) ;;
      sgs <~ create cr rest pidx ridx (kidx + 1) tr temp ;;
      ret (sg :: sgs)
  end.

(** ** Manager *)
Definition isEmpty (b : bytes) : bool := match b with [] => true | _ => false end.
Definition aeidOf (d : ksdb) : bytes := match g_aeid d with Some a => a | None => [] end.

(** keeping.py:786-844 updateAeid *)
Definition updateAeid (aeid seed : bytes) : M unit :=
  m <~ reads (fun m => m) ;;
  let cur := aeidOf (ks m) in
  _ <~ guard (negb (isEmpty cur)
              && (isEmpty (m_seed m) || match m_enc m with Some a => negb (seedOk c a (m_seed m)) | None => true end)) AuthError ;;
  _ <~ (if isEmpty aeid then memory (fun s => mkMgr (ks s) None (m_dec s) (m_seed s) (m_rnd s))
        else if negb (beq aeid cur) then
          _ <~ memory (fun s => mkMgr (ks s) (Some aeid) (m_dec s) (m_seed s) (m_rnd s)) ;;
          guard (isEmpty seed || negb (seedOk c aeid seed)) AuthError
        else ret tt) ;;
  salt <~ getSalt ;;
  _ <~ (match salt with Some s => setSaltM s | None => ret tt end) ;;
  m1 <~ reads (fun m => m) ;;
  _ <~ (match m_dec m1 with
        | None => ret tt
        | Some old =>
            _ <~ forM (prms (ks m1)) (fun kv =>
                   match p_salt (snd kv) with
                   | None => ret tt
                   | Some s =>
                       x <~ lift (opened old s) ;;
                       let p := snd kv in
                       pinM prms setPrms (fst kv)
                         (mkPrm (p_pidx p) (p_algo p) (Some (encSalt (m_enc m1) (Plain x))) (p_stem p) (p_tier p))
                   end) ;;
            forM (pris (ks m1)) (fun kv =>
                   '(cd, sd) <~ lift (opened old (snd kv)) ;;
                   sg <~ lift (mkSigner cd sd (trans c (fst kv))) ;;
                   v <~ lift (encSecret (m_enc m1) (fst sg)) ;;
                   pinM pris setPris (fst kv) v)
        end) ;;
  _ <~ write (fun d => setAeid d (Some aeid)) ;;
  memory (fun s => mkMgr (ks s) (m_enc s) (if isEmpty seed then None else Some seed) seed (m_rnd s)).

(** keeping.py:711-784 setup on an opened key store, with [salt] given; .seed is that of the constructor *)
Definition setup (aeid : bytes) (pidx : N) (algo salt tier : bytes) : M unit :=
  d <~ reads ks ;;
  _ <~ (match g_pidx d with None => write (fun d => setPidx d (Some pidx)) | Some _ => ret tt end) ;;
  _ <~ (match g_algo d with None => write (fun d => setAlgo d (Some algo)) | Some _ => ret tt end) ;;
  s <~ getSalt ;;
  _ <~ (match s with None => setSaltM (Plain salt) | Some _ => ret tt end) ;;
  _ <~ (match g_tier d with None => write (fun d => setTier d (Some tier)) | Some _ => ret tt end) ;;
  m <~ reads (fun m => m) ;;
  if isEmpty (aeidOf (ks m)) then updateAeid aeid (m_seed m)
  else
    _ <~ memory (fun s => mkMgr (ks s) (Some (aeidOf (ks s))) (m_dec s) (m_seed s) (m_rnd s)) ;;
    _ <~ guard (isEmpty (m_seed m) || negb (seedOk c (aeidOf (ks m)) (m_seed m))) AuthError ;;
    memory (fun s => mkMgr (ks s) (m_enc s) (Some (m_seed s)) (m_seed s) (m_rnd s)).

(** parameters of incept *)
Record iargs := mkIargs { a_icodes : list bytes; a_ncodes : list bytes; a_dcode : bytes; a_algo : option bytes;
                          a_salt : option bytes; a_stem : bytes; a_tier : option bytes; a_rooted : bool;
                          a_transferable : bool; a_temp : bool }.

(** [verfer.qb64 for verfer in verfers] *)
Definition pubsOf (sgs : list signer) : list bytes := map snd sgs.

(** keeping.py:951-1084 incept *)
Definition incept (a : iargs) : M (list bytes * list bytes) :=
  d <~ reads ks ;;
  let algo := match a_algo a with Some x => Some x | None => if a_rooted a then g_algo d else None end in
  salt <~ (match a_salt a with
           | Some s => ret (Some (Plain s))
           | None => if a_rooted a then getSalt else ret None
           end) ;;
  let tier := match a_tier a with Some x => Some x | None => if a_rooted a then g_tier d else None end in
  pidx <~ lift (match g_pidx d with Some p => Ok p | None => Err TypeError end) ;;
  cr <~ mkCreator algo salt (a_stem a) tier ;;
  _ <~ guard (match a_icodes a with [] => true | _ => false end) ValueError ;;
  isigners <~ create cr (a_icodes a) pidx 0 0 (a_transferable a) (a_temp a) ;;
  nsigners <~ create cr (a_ncodes a) pidx 1 (len (a_icodes a)) (a_transferable a) (a_temp a) ;;
  let digers := map (dig c (a_dcode a)) (pubsOf nsigners) in
  enc <~ reads m_enc ;;
  let pp := mkPrm pidx (match algo with Some x => x | None => [] end)
              (match crSalt cr with Some s => Some (encSalt enc (Plain s)) | None => None end) (crStem cr) (crTier cr) in
  let ps := mkSit lot0 (mkLot (pubsOf isigners) 0 0) (mkLot (pubsOf nsigners) 1 (len (a_icodes a))) in
  let pre := match isigners with (_, p) :: _ => p | [] => [] end in
  b <~ putM pres setPres pre pre ;; _ <~ guard (negb b) ValueError ;;
  b <~ putM prms setPrms pre pp ;; _ <~ guard (negb b) ValueError ;;
  _ <~ write (fun d => setPidx d (Some (pidx + 1))) ;;
  b <~ putM sits setSits pre ps ;; _ <~ guard (negb b) ValueError ;;
  _ <~ forM isigners (putPri enc) ;;
  _ <~ putM pubs setPubs (riKey pre 0) (pubsOf isigners) ;;
  _ <~ forM nsigners (putPri enc) ;;
  _ <~ putM pubs setPubs (riKey pre 1) (pubsOf nsigners) ;;
  ret (pubsOf isigners, digers).

(** keeping.py:1131-1136 loop of move; the table has finitely many keys *)
Fixpoint movePubs (fuel : nat) (old new : bytes) (i : N) : M unit :=
  match fuel with
  | O => ret tt
  | S f =>
      d <~ reads ks ;;
      match dget (pubs d) (riKey old i) with
      | None => ret tt
      | Some pl =>
          b <~ putM pubs setPubs (riKey new i) pl ;; _ <~ guard (negb b) ValueError ;;
          movePubs f old new (i + 1)
      end
  end.
Definition has {V} (l : list (bytes * V)) (k : bytes) : bool := match dget l k with Some _ => true | None => false end.
(** keeping.py:1087-1144 move *)
Definition move (old new : bytes) : M unit :=
  if beq old new then ret tt else
  d <~ reads ks ;;
  _ <~ guard (negb (has (pres d) old)) ValueError ;;
  _ <~ guard (has (pres d) new) ValueError ;;
  oldprm <~ lift (match dget (prms d) old with Some p => Ok p | None => Err ValueError end) ;;
  _ <~ guard (has (prms d) new) ValueError ;;
  oldsit <~ lift (match dget (sits d) old with Some p => Ok p | None => Err ValueError end) ;;
  _ <~ guard (has (sits d) new) ValueError ;;
  b <~ putM prms setPrms new oldprm ;; _ <~ guard (negb b) ValueError ;;
  _ <~ remM prms setPrms old ;;
  b <~ putM sits setSits new oldsit ;; _ <~ guard (negb b) ValueError ;;
  _ <~ remM sits setSits old ;;
  _ <~ movePubs (S (List.length (pubs d))) old new 0 ;;
  _ <~ pinM pres setPres old new ;;
  b <~ putM pres setPres new new ;; guard (negb b) ValueError.

(** keeping.py:1201-1210, 1723-1732: the private keys of the public keys *)
Definition verfersOf (ps : list bytes) : M (list bytes) :=
  mapM ps (fun pub =>
    m <~ reads (fun m => m) ;;
    _ <~ guard (negb (isEmpty (aeidOf (ks m))) && match m_dec m with None => true | Some _ => false end) DecryptError ;;
    o <~ getPri pub ;;
    match o with None => raise ValueError | Some sg => ret (snd sg) end).

(** parameters of rotate *)
Record rargs := mkRargs { r_ncodes : list bytes; r_dcode : bytes; r_transferable : bool; r_temp : bool; r_erase : bool }.

(** keeping.py:1147-1256 rotate *)
Definition rotate (pre : bytes) (a : rargs) : M (list bytes * list bytes) :=
  d <~ reads ks ;;
  pp <~ lift (match dget (prms d) pre with Some p => Ok p | None => Err ValueError end) ;;
  ps <~ lift (match dget (sits d) pre with Some p => Ok p | None => Err ValueError end) ;;
  _ <~ guard (match l_pubs (t_nxt ps) with [] => true | _ => false end) ValueError ;;
  let old := t_old ps in
  let new := t_nxt ps in
  verfers <~ verfersOf (l_pubs new) ;;
  m <~ reads (fun m => m) ;;
  salt <~ (match p_salt pp with
           | None => ret None
           | Some s =>
               if negb (isEmpty (aeidOf d)) then
                 match m_dec m with
                 | None => raise DecryptError
                 | Some seed => x <~ lift (opened seed s) ;; ret (Some (Plain x))
                 end
               else match s with Plain x => ret (Some (Plain x)) | _ => raise ValueError end
           end) ;;
  cr <~ mkCreator (Some (p_algo pp)) salt (p_stem pp) (Some (p_tier pp)) ;;
  let ridx := l_ridx new + 1 in
  let kidx := l_kidx (t_nxt ps) + len (l_pubs new) in
  signers <~ create cr (r_ncodes a) (p_pidx pp) ridx kidx (r_transferable a) (r_temp a) ;;
  let digers := map (dig c (r_dcode a)) (pubsOf signers) in
  let nxt := mkLot (pubsOf signers) ridx kidx in
  _ <~ pinM sits setSits pre (mkSit (t_new ps) new nxt) ;;
  _ <~ forM signers (putPri (m_enc m)) ;;
  _ <~ putM pubs setPubs (riKey pre ridx) (pubsOf signers) ;;
  _ <~ (if r_erase a then forM (l_pubs old) (fun p => remM pris setPris p) else ret tt) ;;
  ret (verfers, digers).

(** keeping.py:1665-1744 replay *)
Definition replay (pre dcode : bytes) (advance erase : bool) : M (list bytes * list bytes) :=
  d <~ reads ks ;;
  _ <~ lift (match dget (prms d) pre with Some p => Ok p | None => Err ValueError end) ;;
  ps <~ lift (match dget (sits d) pre with Some p => Ok p | None => Err ValueError end) ;;
  ps' <~ (if advance then
            let new := t_nxt ps in
            match dget (pubs d) (riKey pre (l_ridx new + 1)) with
            | None => raise IndexError
            | Some l => ret (mkSit (t_new ps) new (mkLot l (l_ridx new + 1) (l_kidx new + len (l_pubs new))))
            end
          else ret ps) ;;
  verfers <~ verfersOf (l_pubs (t_new ps')) ;;
  let digers := map (dig c dcode) (l_pubs (t_nxt ps')) in
  _ <~ (if advance then
          _ <~ pinM sits setSits pre ps' ;;
          if erase then forM (l_pubs (t_old ps)) (fun p => remM pris setPris p) else ret tt
        else ret tt) ;;
  ret (verfers, digers).

(** keeping.py:1574-1639 loop of ingest over the given secrets *)
Fixpoint ingestLoop (enc : option bytes) (iridx : N) (tr : bool) (pre : bytes) (secrecies : list (list secret)) (ridx kidx : N) : M (N * N) :=
  match secrecies with
  | [] => ret (ridx, kidx)
  | cs :: rest =>
      csigners <~ mapM cs (fun s => lift (mkSigner (fst s) (snd s) tr)) ;;
      _ <~ forM csigners (putPri enc) ;;
      let lot := mkLot (pubsOf csigners) ridx kidx in
      _ <~ putM pubs setPubs (riKey pre ridx) (pubsOf csigners) ;;
      _ <~ (if ridx =? iridx - 1 then
              pinM sits setSits pre (mkSit (if iridx =? 0 then lot0 else lot) lot0 lot0)
            else ret tt) ;;
      _ <~ (if ridx =? iridx then
              d <~ reads ks ;;
              match dget (sits d) pre with
              | None => raise ValueError
              | Some ps => pinM sits setSits pre (mkSit (t_old ps) lot (t_nxt ps))
              end
            else ret tt) ;;
      _ <~ (if ridx =? iridx + 1 then
              d <~ reads ks ;;
              match dget (sits d) pre with
              | None => raise ValueError
              | Some ps => pinM sits setSits pre (mkSit (t_old ps) (t_new ps) lot)
              end
            else ret tt) ;;
      ingestLoop enc iridx tr pre rest (ridx + 1) (kidx + len cs)
  end.

(** keeping.py:1487-1662 ingest with a salty creator over the root salt.  [cs0 :: rest] are the secrets;
    an empty list leaves pre unbound (UnboundLocalError), here ValueError.  The next keys are stored
    without encrypter (1648). *)
Definition ingest (secrecies : list (list secret)) (iridx : N) (ncodes : list bytes) (stem : bytes) (tr temp : bool) : M bytes :=
  _ <~ guard (len secrecies <? iridx) ValueError ;;
  d <~ reads ks ;;
  salt <~ getSalt ;;
  pidx <~ lift (match g_pidx d with Some p => Ok p | None => Err TypeError end) ;;
  cr <~ mkCreator (Some Salty) salt stem (g_tier d) ;;
  enc <~ reads m_enc ;;
  match secrecies with
  | (s0 :: ss) :: rest =>
      sg0 <~ lift (mkSigner (fst s0) (snd s0) tr) ;;
      _ <~ mapM ss (fun s => lift (mkSigner (fst s) (snd s) tr)) ;;
      let pre := snd sg0 in
      let pp := mkPrm pidx Salty (match crSalt cr with Some s => Some (encSalt enc (Plain s)) | None => None end) (crStem cr) (crTier cr) in
      b <~ putM pres setPres pre pre ;; _ <~ guard (negb b) ValueError ;;
      b <~ putM prms setPrms pre pp ;; _ <~ guard (negb b) ValueError ;;
      _ <~ write (fun d => setPidx d (Some (pidx + 1))) ;;
      '(ridx, kidx) <~ ingestLoop enc iridx tr pre secrecies 0 0 ;;
      nsigners <~ create cr ncodes pidx ridx kidx tr temp ;;
      _ <~ forM nsigners (putPri None) ;;
      _ <~ putM pubs setPubs (riKey pre ridx) (pubsOf nsigners) ;;
      _ <~ (if ridx =? iridx + 1 then
              d <~ reads ks ;;
              match dget (sits d) pre with
              | None => raise ValueError
              | Some ps => pinM sits setSits pre (mkSit (t_old ps) (t_new ps) (mkLot (pubsOf nsigners) ridx kidx))
              end
            else ret tt) ;;
      ret pre
  | _ => raise ValueError
  end.

(** keeping.py:1368-1387 the signers of sign and decrypt *)
Definition signersOf (ps : list bytes) : M (list signer) :=
  mapM ps (fun pub =>
    m <~ reads (fun m => m) ;;
    _ <~ guard (negb (isEmpty (aeidOf (ks m))) && match m_dec m with None => true | Some _ => false end) DecryptError ;;
    o <~ getPri pub ;;
    match o with None => raise ValueError | Some sg => ret sg end).

(** habbing.py:3056-3090 Hab.rotate: [valid] tells whether BaseHab.rotate accepts the event made of
    the keys.  On failure the situation of the keys is restored and the exception re-raised. *)
Definition habRotate (pre : bytes) (a : rargs) (valid : list bytes -> list bytes -> bool) : M (list bytes * list bytes) :=
  d <~ reads ks ;;
  let before := dget (sits d) pre in
  vd <~ (fun m => let '(t, (m1, r)) := replay pre (r_dcode a) true false m in
                  match r with
                  | Err IndexError => let '(t2, o) := rotate pre (mkRargs (r_ncodes a) (r_dcode a) (r_transferable a) (r_temp a) false) m1 in (t ++ t2, o)
                  | _ => (t, (m1, r))
                  end) ;;
  match before with
  | None => raise AttributeError
  | Some ps =>
      if valid (fst vd) (snd vd) then
        _ <~ forM (l_pubs (t_old ps)) (fun p => remM pris setPris p) ;; ret vd
      else _ <~ pinM sits setSits pre ps ;; raise ValidationError
  end.

(** A process that restarts on a database: Manager(ks=ks, seed=seed) and .setup with the given defaults *)
Definition restart (d : ksdb) (seed aeid : bytes) (rnd : N) (pidx : N) (algo salt tier : bytes) : mgr * res unit :=
  snd (setup aeid pidx algo salt tier (mkMgr d None None seed rnd)).
End Ks.
