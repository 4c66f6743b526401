(** Event builders and habitats: core/eventing.py incept (563-686), rotate (716-869), interact
    (908-953), the checks of core/serdering.py SerderKERI._verify (2217-2293) on what they build,
    app/keeping.py Manager.sign (1360-1440), app/habbing.py BaseHab.incept, rotate, interact, sign
    (1057-1485) and Hab.incept, Hab.rotate (2864-3092).

    Simplifications, common to the whole file.
    - The key store is that of KsModel and the key event database that of KelModel.  The former holds
      texts, the latter numbers: [nm] numbers a text and [tx] gives the text back.  Witnesses are
      numbers throughout.
    - Serialization and digest of an event are the parameters [dump] and [hash], applied to the
      event with an empty raw and, where they are computed, a said and a prefix of 0.
    - sn, toad and counts are not negative.  Kind, version and framing of the message, saving of the
      habitat's name and reading of the configuration file are dropped.  The set of local prefixes is
      that of [conf], so it does not change in the course of a call.
    - Hab.incept without given secrets ([secrecies]); group and Signify habitats are not modelled. *)
From Verif Require Import Prelude B64Model MatterModel SubsModel ThModel JsonModel SerModel KsModel KelModel.
Open Scope N_scope.

(** External functions *)
Record hcfg := mkHcfg {
  hk : kcfg; he : env;
  nm : bytes -> N;
  tx : N -> bytes;
  (** Matter(qb64=text).code *)
  code_of : bytes -> option bytes;
  (** serialization of an event, and the digest of its serialization with dummied saids by digest code *)
  dump : evt -> bytes;
  hash : bytes -> evt -> bytes;
  (** Signer.sign with a private key, and the qb64 of the signature with an index and the same ondex *)
  sig_of : secret -> bytes -> bytes;
  qb_of : N -> bytes -> bytes }.

Section Hb.
Variable h : hcfg.

(** ** Event builders *)
(** serdering.py:1130-1260 makify: said over the dummied event, then raw *)
Definition withPre (p : N) (e : evt) : evt :=
  mkEvt (e_raw e) (e_said e) p (e_sn e) (e_ilk e) (e_prior e) (e_kt e) (e_keys e) (e_nt e) (e_ndigs e) (e_bt e)
    (e_wits e) (e_cuts e) (e_adds e) (e_estOnly e) (e_dnd e) (e_delpre e) (e_seals e) (e_vn e).
Definition withSaid (raw : bytes) (s : N) (e : evt) : evt :=
  mkEvt raw s (e_pre e) (e_sn e) (e_ilk e) (e_prior e) (e_kt e) (e_keys e) (e_nt e) (e_ndigs e) (e_bt e)
    (e_wits e) (e_cuts e) (e_adds e) (e_estOnly e) (e_dnd e) (e_delpre e) (e_seals e) (e_vn e).
Definition makify (t : evt) : evt :=
  let s := nm h (hash h (s2b "E") t) in withSaid (dump h (withSaid [] s t)) s t.

(** toad of incept (616-629) and rotate (826-839) *)
Definition toadOf (toad : option N) (wits : list N) : res N :=
  match toad with
  | Some n => Ok n
  | None => if isnil wits then Ok 0 else ample (len wits) None true
  end.
Definition badToad (toad : N) (wits : list N) : bool :=
  if isnil wits then negb (toad =? 0) else (toad <? 1) || (len wits <? toad).
Definition isZero (t : tholder) : bool := match t with TNum n => n <? 1 | TWt _ => false end.
Definition isOne (t : tholder) : bool := match t with TNum n => n =? 1 | TWt _ => false end.

(** parameters of incept other than keys and digests *)
Record inArgs := mkInArgs {
  b_isith : option sith; b_nsith : option sith; b_toad : option N; b_wits : list N; b_estOnly : bool; b_dnd : bool;
  b_data : list seal; b_code : option bytes; b_delpre : option bytes }.

(** serdering.py:2217-2293 on an inception event; [pre] is the text of its prefix *)
Definition verifyInc (pre : bytes) (keys : list bytes) (e : evt) (delpre : option bytes) : res unit :=
  match code_of h pre with
  | None => Err ValidationError
  | Some cd =>
      raise_if (negb (memB cd (match delpre with None => PreDex | Some _ => DigDex end))) ValidationError (
      raise_if (memB cd PreNonDigDex && negb (len keys =? 1)) ValidationError (
      raise_if (memB cd PreNonDigDex && negb (isOne (e_kt e))) ValidationError (
      raise_if (memB cd PreNonDigDex && negb (beq pre (hd [] keys))) ValidationError (
      raise_if (memB cd NonTransDex && negb (isnil (e_ndigs e))) ValidationError (
      raise_if (memB cd NonTransDex && negb (isnil (e_wits e))) ValidationError (
      raise_if (memB cd NonTransDex && negb (isnil (e_seals e))) ValidationError (
      match delpre with
      | None => Ok tt
      | Some dp => match code_of h dp with
                   | None => Err ValidationError
                   | Some dc => raise_if (negb (memB dc PreDex)) ValidationError (Ok tt)
                   end
      end)))))))
  end.

(** eventing.py:563-686 incept and delcept: the prefix text and the event.  The thresholds are written as
    .sith and parsed again by the receiver, which gives them back (C12). *)
Definition inceptB (keys ndigs : list bytes) (a : inArgs) : res (bytes * evt) :=
  t <- processSith (match b_isith a with Some s => s | None => SInt (N.max 1 (cdiv (len keys) 2)) end) ;;
  raise_if (isZero t) ValueError (
  raise_if (len keys <? thsize t) ValueError (
  nt <- processSith (match b_nsith a with Some s => s | None => SInt (cdiv (len ndigs) 2) end) ;;
  raise_if (len ndigs <? thsize nt) ValueError (
  let wits := b_wits a in
  raise_if (negb (len (oset wits) =? len wits)) ValueError (
  toad <- toadOf (b_toad a) wits ;;
  raise_if (badToad toad wits) ValueError (
  let dg := match b_code a with Some c => memB c DigDex | None => false end in
  let i0 := match b_delpre a with
            | None => if negb dg && (len keys =? 1) then hd [] keys else []
            | Some _ => []
            end in
  (* the code of the prefix: given, or that of the text in place, or the default *)
  let cd := match (match b_code a with Some c => if memB c PreDex then Some c else None | None => None end) with
            | Some c => c
            | None => match i0 with
                      | [] => s2b "E"
                      | _ => match code_of h i0 with Some c => c | None => s2b "E" end
                      end
            end in
  let e0 := mkEvt [] 0 0 0 (match b_delpre a with None => Icp | Some _ => Dip end) None t (map (nm h) keys) nt
              (map (nm h) ndigs) toad wits [] [] (b_estOnly a) (b_dnd a) (option_map (nm h) (b_delpre a)) (b_data a) 1 in
  let pre := if memB cd DigDex then hash h cd e0 else i0 in
  let e := makify (withPre (nm h pre) e0) in
  _ <- verifyInc pre keys e (b_delpre a) ;;
  Ok (pre, e)))))).

(** parameters of rotate other than prefix, keys, digests, prior event and witnesses *)
Record rotArgs := mkRotArgs {
  r_isith : option sith; r_nsith : option sith; r_toad : option N; r_cuts : list N; r_adds : list N; r_data : list seal }.

(** serdering.py:2217-2293 on a later event *)
Definition verifyLater (pre : bytes) (e : evt) : res unit :=
  match code_of h pre with
  | None => Err ValidationError
  | Some cd =>
      raise_if (negb (memB cd (if ilk_eqb (e_ilk e) Drt then DigDex else PreDex))) ValidationError (
      raise_if (isRot (e_ilk e) && memB cd NonTransDex && negb (isnil (e_ndigs e))) ValidationError (
      raise_if (isRot (e_ilk e) && memB cd NonTransDex && negb (isnil (e_seals e))) ValidationError (Ok tt)))
  end.

(** eventing.py:716-869 rotate, and deltate with [drt] *)
Definition rotateB (drt : bool) (pre : bytes) (keys : list bytes) (dig : N) (sn : N) (ndigs : list bytes) (wits : list N)
    (a : rotArgs) : res evt :=
  raise_if (sn <? 1) ValueError (
  t <- processSith (match r_isith a with Some s => s | None => SInt (N.max 1 (cdiv (len keys) 2)) end) ;;
  raise_if (isZero t) ValueError (
  raise_if (len keys <? thsize t) ValueError (
  nt <- processSith (match r_nsith a with Some s => s | None => SInt (cdiv (len ndigs) 2) end) ;;
  raise_if (len ndigs <? thsize nt) ValueError (
  let witset := oset wits in let cutset := oset (r_cuts a) in let addset := oset (r_adds a) in
  raise_if (negb (len witset =? len wits)) ValueError (
  raise_if (negb (len cutset =? len (r_cuts a))) ValueError (
  raise_if (negb (leqb (inter witset cutset) cutset)) ValueError (
  raise_if (negb (len addset =? len (r_adds a))) ValueError (
  raise_if (negb (isnil (inter witset addset))) ValueError (
  raise_if (negb (isnil (inter cutset addset))) ValueError (
  let newits := addNs (diff witset cutset) addset in
  raise_if (negb (len newits + len (r_cuts a) =? len wits + len (r_adds a))) ValueError (
  toad <- toadOf (r_toad a) newits ;;
  raise_if (badToad toad newits) ValueError (
  let e := makify (mkEvt [] 0 (nm h pre) sn (if drt then Drt else Rot) (Some dig) t (map (nm h) keys) nt
             (map (nm h) ndigs) toad [] (r_cuts a) (r_adds a) false false None (r_data a) 1) in
  _ <- verifyLater pre e ;;
  Ok e)))))))))))).

(** eventing.py:908-953 interact *)
Definition interactB (pre : bytes) (dig sn : N) (data : list seal) : res evt :=
  raise_if (sn <? 1) ValueError (
  let e := makify (mkEvt [] 0 (nm h pre) sn Ixn (Some dig) (TNum 0) [] (TNum 0) [] 0 [] [] [] false false None data 1) in
  _ <- verifyLater pre e ;;
  Ok e).

(** ** Signing *)
(** keeping.py:1407-1440: signature j has index j and ondex j *)
Fixpoint sigersFrom (ser : bytes) (j : N) (sgs : list signer) : list siger :=
  match sgs with
  | [] => []
  | sg :: r => let raw := sig_of h (fst sg) ser in mkSigerO (qb_of h j raw) j raw (Some j) :: sigersFrom ser (j + 1) r
  end.
(** keeping.py:1360-1440 Manager.sign with verfers; it writes nothing *)
Definition mgrSign (m : mgr) (ser : bytes) (ps : list bytes) : res (list siger) :=
  sgs <- snd (snd (signersOf (hk h) ps m)) ;; Ok (sigersFrom ser 0 sgs).

(** ** Habitats *)
(** The state of a node: key manager and key event database *)
Definition node := (mgr * db)%type.

(** self.kvy.processEvent(serder, sigers): habbing.py:194 local, no receipts, no seal *)
Definition ownMsg (now : N) (e : evt) (sg : list siger) : msg := mkMsg e sg [] None false true now None.
(** the try of habbing.py:1388-1396, 1443-1452, 2992-2999: MissingSignatureError passes, [wrap] is raised for others *)
Definition ownEvent (cf : conf) (now : N) (e : evt) (sg : list siger) (wrap : exn) (dx : db) : db * res unit :=
  match processEvent (he h) cf (ownMsg now e sg) dx with
  | (dx', Ok _) => (dx', Ok tt)
  | (dx', Err MissingSignatureError) => (dx', Ok tt)
  | (dx', Err _) => (dx', Err wrap)
  end.

(** parameters of Hab.incept *)
Record habArgs := mkHabArgs {
  g_args : inArgs; g_icount : N; g_icode : bytes; g_ncount : option N; g_dcode : bytes; g_halgo : option bytes;
  g_hsalt : option bytes; g_htier : option bytes; g_transferable : bool; g_stem : bytes; g_temp : bool }.

(** habbing.py:1057-1130 BaseHab.incept: the default thresholds are those of the builder, written in hex *)
Definition baseIncept (keys ndigs : list bytes) (a : inArgs) : res (bytes * evt) :=
  t <- processSith (match b_isith a with Some s => s | None => SHex (hexstr (N.max 1 (cdiv (len keys) 2))) end) ;;
  nt <- processSith (match b_nsith a with Some s => s | None => SHex (hexstr (cdiv (len ndigs) 2)) end) ;;
  inceptB keys ndigs (mkInArgs (Some (sithOf t)) (Some (sithOf nt)) (b_toad a) (b_wits a) (b_estOnly a) (b_dnd a)
                        (b_data a) (b_code a) (b_delpre a)).

(** habbing.py:2929-2937, 2950-2960: what Hab.incept asks of the key manager, and of BaseHab.incept *)
Definition keyArgs (g : habArgs) : iargs :=
  let ncount := if g_transferable g then match g_ncount g with Some n => n | None => g_icount g end else 0 in
  mkIargs (repeat (g_icode g) (N.to_nat (g_icount g))) (repeat EdSeed (N.to_nat ncount)) (g_dcode g) (g_halgo g) (g_hsalt g)
    (g_stem g) (g_htier g) true (g_transferable g) (g_temp g).
Definition eventArgs (g : habArgs) : inArgs :=
  let a := g_args g in
  mkInArgs (b_isith a)
    (if g_transferable g then match b_nsith a with Some s => Some s | None => b_isith a end else Some (SHex (s2b "0")))
    (b_toad a) (b_wits a) (b_estOnly a) (b_dnd a) (b_data a)
    (if g_transferable g then b_code a else Some (s2b "B")) (b_delpre a).

(** habbing.py:2864-3016 Hab.incept: returns the new prefix *)
Definition habIncept (cf : conf) (now : N) (g : habArgs) (nd : node) : node * res bytes :=
  let '(m, dx) := nd in
  let '(_, (m1, r)) := KsModel.incept (hk h) (keyArgs g) m in
  match r with
  | Err x => ((m1, dx), Err x)
  | Ok (verfers, digers) =>
      match baseIncept verfers digers (eventArgs g) with
      | Err x => ((m1, dx), Err x)
      | Ok (pre, e) =>
          let '(_, (m2, r2)) := KsModel.move (hd [] verfers) pre m1 in
          match r2 with
          | Err x => ((m2, dx), Err x)
          | Ok _ =>
              match mgrSign m2 (e_raw e) verfers with
              | Err x => ((m2, dx), Err x)
              | Ok sg => let '(dx', r3) := ownEvent cf now e sg ConfigurationError dx in
                         ((m2, dx'), match r3 with Ok _ => Ok pre | Err x => Err x end)
              end
          end
      end
  end.

(** indices of the next digests that the keys match, habbing.py:1352-1356 *)
Definition matched (ndigs : list N) (keys : list bytes) : list N :=
  map snd (filter (fun di => existsb (fun v => commits (he h) (fst di) (nm h v)) keys)
                  (combine ndigs (map N.of_nat (seq 0 (List.length ndigs))))).

(** what a habitat call returns: the event message with its signatures *)
Definition sent := (evt * list siger)%type.

(** habbing.py:1275-1398 BaseHab.rotate for the keys and digests handed out by the key manager *)
Definition baseRotate (cf : conf) (now : N) (pre : bytes) (keys ndigs : list bytes) (a : rotArgs) (m : mgr) (dx : db)
  : db * res sent :=
  match kget (fst dx) (snd dx) (nm h pre) with
  | None => (dx, Err AttributeError)
  | Some k =>
      let isith := match r_isith a with Some s => s | None => sithOf (k_nt k) end in
      let nsith := match r_nsith a with Some s => s | None => isith end in
      let toad := match r_toad a with
                  | Some n => Some n
                  | None => if isnil (r_cuts a) && isnil (r_adds a) then Some (k_toad k) else None
                  end in
      match (t <- processSith isith ;; nt <- processSith nsith ;;
             raise_if (negb (satisfy (k_nt k) (matched (k_ndigs k) keys))) ValidationError (
             rotateB (match k_delpre k with Some _ => true | None => false end) pre keys (e_said (k_evt k)) (k_sn k + 1) ndigs
               (k_wits k) (mkRotArgs (Some (sithOf t)) (Some (sithOf nt)) toad (r_cuts a) (r_adds a) (r_data a)))) with
      | Err x => (dx, Err x)
      | Ok e =>
          match mgrSign m (e_raw e) keys with
          | Err x => (dx, Err x)
          | Ok sg => let '(dx', r) := ownEvent cf now e sg ValidationError dx in
                     (dx', match r with Ok _ => Ok (e, sg) | Err x => Err x end)
          end
      end
  end.

(** habbing.py:3018-3092 Hab.rotate *)
Definition habRotate (cf : conf) (now : N) (pre : bytes) (ncount : option N) (temp : bool) (a : rotArgs) (nd : node)
  : node * res sent :=
  let '(m, dx) := nd in
  match kget (fst dx) (snd dx) (nm h pre) with
  | None => (nd, Err AttributeError)
  | Some k =>
      let n := match ncount with Some n => n | None => len (k_ndigs k) end in
      let before := dget (sits (ks m)) pre in
      let '(_, (m0, r0)) := replay (hk h) pre (s2b "E") true false m in
      let '(m1, r) := match r0 with
                      | Err IndexError =>
                          snd (KsModel.rotate (hk h) pre (mkRargs (repeat EdSeed (N.to_nat n)) (s2b "E") true temp false) m0)
                      | _ => (m0, r0)
                      end in
      match r with
      | Err x => ((m1, dx), Err x)
      | Ok (verfers, digers) =>
          match baseRotate cf now pre verfers digers a m1 dx with
          | (dx', Err x) =>
              match before with
              | Some ps => ((fst (snd (pinM sits setSits pre ps m1)), dx'), Err x)
              | None => ((m1, dx'), Err AttributeError)
              end
          | (dx', Ok msg) =>
              match before with
              | Some ps => ((fst (snd (forM (l_pubs (t_old ps)) (fun p => remM pris setPris p) m1)), dx'), Ok msg)
              | None => ((m1, dx'), Err AttributeError)
              end
          end
      end
  end.

(** habbing.py:1400-1454 interact *)
Definition habInteract (cf : conf) (now : N) (pre : bytes) (data : list seal) (nd : node) : node * res sent :=
  let '(m, dx) := nd in
  match kget (fst dx) (snd dx) (nm h pre) with
  | None => (nd, Err AttributeError)
  | Some k =>
      match interactB pre (e_said (k_evt k)) (k_sn k + 1) data with
      | Err x => (nd, Err x)
      | Ok e =>
          match mgrSign m (e_raw e) (map (tx h) (k_keys k)) with
          | Err x => (nd, Err x)
          | Ok sg => let '(dx', r) := ownEvent cf now e sg ValidationError dx in
                     ((m, dx'), match r with Ok _ => Ok (e, sg) | Err x => Err x end)
          end
      end
  end.
End Hb.
