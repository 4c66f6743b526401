(** What the theorems on event builders and habitats talk about. *)
From Verif Require Import Prelude B64Model MatterModel SubsModel ThModel ThSpec JsonModel KsModel KsSpec KelModel KelSpec OoSpec HbModel.
Open Scope N_scope.

(** codes of identifier prefixes, of digests and of non transferable keys *)
Definition prefixCodes : list bytes :=
  map s2b ["B"; "D"; "E"; "F"; "G"; "H"; "I"; "0D"; "0E"; "0F"; "0G"; "1AAA"; "1AAB"; "1AAC"; "1AAD"; "1AAE"; "1AAI"; "1AAJ"]%string.
Definition fixedCodes : list bytes := map s2b ["B"; "1AAA"; "1AAC"; "1AAI"]%string.

(** What is assumed of the external functions: a public key is a number and back, the key pair tells
    whether it is transferable, a signature verifies with the public key of its private key, the digest of a key
    commits to it, signatures with different indices have different texts, and texts with a prefix code are prefixes,
    transferable unless their code says otherwise. *)
Record coherent (h : hcfg) : Prop := mkCoherent {
  co_text : forall cd sd tr, tx h (nm h (vk (hk h) cd sd tr)) = vk (hk h) cd sd tr;
  co_trans : forall cd sd tr, trans (hk h) (vk (hk h) cd sd tr) = tr;
  co_sign : forall cd sd tr ser, vrfy (he h) (nm h (vk (hk h) cd sd tr)) (sig_of h (cd, sd) ser) ser = true;
  co_commit : forall dc pub, commits (he h) (nm h (dig (hk h) dc pub)) (nm h pub) = true;
  co_qb : forall i j a b, qb_of h i a = qb_of h j b -> i = j;
  co_valid : forall t cd, code_of h t = Some cd -> In cd prefixCodes -> validPre (he h) (nm h t) = true;
  co_transf : forall t cd, code_of h t = Some cd -> In cd prefixCodes -> (transf (he h) (nm h t) = false <-> In cd fixedCodes) }.

(** The numbers 0, 1, ..., n - 1 *)
Definition upTo (n : N) : list N := map N.of_nat (seq 0 (N.to_nat n)).

(** All signatures of a message verify with [keys], no text occurs twice, and their indices meet [th]. *)
Definition fullySigned (E : env) (keys : list N) (th : tholder) (raw : bytes) (sg : list siger) : Prop :=
  NoDup (map sg_qb64 sg) /\ Forall (verified E keys raw) sg /\ satisfy th (map sg_index sg) = true.
(** They were made by keys that [ndigs] commits to, at positions that meet [nt]. *)
Definition fullyExposed (E : env) (keys ndigs : list N) (nt : tholder) (sg : list siger) : Prop :=
  exists os, Forall2 (fun s o => sg_ondex s = Some o /\
    exists dg ky, nth_error ndigs (N.to_nat o) = Some dg /\ nth_error keys (N.to_nat (sg_index s)) = Some ky /\
                  commits E dg ky = true) sg os /\ satisfy nt os = true.
(** Enough witnesses signed. *)
Definition fullyWitnessedBy (E : env) (wits : list N) (toad : N) (raw : bytes) (wg : list siger) : Prop :=
  NoDup (map sg_qb64 wg) /\ Forall (verified E wits raw) wg /\ toad <= len wg.

(** the node has no key state of the prefix *)
Definition unknown (dx : db) (p : N) : Prop := kevers (fst dx) p = None /\ states (fst dx) p = None.

(** The witnesses after cutting and adding *)
Definition witsAfter (wits cuts adds : list N) : list N := filter (fun w => negb (existsb (N.eqb w) cuts)) wits ++ adds.

(** ** Logs that a controller builds *)
(** What the controller keeps of the log so far: the last event and what is in force. *)
Record view := mkView {
  v_evt : evt; v_keys : list N; v_kt : tholder; v_ndigs : list N; v_nt : tholder; v_wits : list N; v_toad : N; v_estOnly : bool }.
(** Every event is made by one of the builders for the prefix text [pre], with the number after that of the last event,
    its said, and the witnesses in force; it is signed and witnessed in full.  Inception and rotation are not delegated. *)
Inductive builtLog (h : hcfg) (pre : bytes) : view -> list msg -> Prop :=
| bl_incept : forall keys ndigs a e m, inceptB h keys ndigs a = Ok (pre, e) -> b_delpre a = None -> m_evt m = e ->
    fullySigned (he h) (e_keys e) (e_kt e) (e_raw e) (m_sigers m) ->
    fullyWitnessedBy (he h) (b_wits a) (e_bt e) (e_raw e) (m_wigers m) ->
    builtLog h pre (mkView e (map (nm h) keys) (e_kt e) (map (nm h) ndigs) (e_nt e) (b_wits a) (e_bt e) (b_estOnly a)) [m]
| bl_rotate : forall v ms keys ndigs a e m, builtLog h pre v ms -> v_ndigs v <> [] ->
    rotateB h false pre keys (e_said (v_evt v)) (e_sn (v_evt v) + 1) ndigs (v_wits v) a = Ok e -> m_evt m = e ->
    fullySigned (he h) (e_keys e) (e_kt e) (e_raw e) (m_sigers m) ->
    fullyExposed (he h) (e_keys e) (v_ndigs v) (v_nt v) (m_sigers m) ->
    fullyWitnessedBy (he h) (witsAfter (v_wits v) (r_cuts a) (r_adds a)) (e_bt e) (e_raw e) (m_wigers m) ->
    builtLog h pre (mkView e (map (nm h) keys) (e_kt e) (map (nm h) ndigs) (e_nt e)
                      (witsAfter (v_wits v) (r_cuts a) (r_adds a)) (e_bt e) (v_estOnly v)) (ms ++ [m])
| bl_interact : forall v ms data e m, builtLog h pre v ms -> v_ndigs v <> [] -> v_estOnly v = false ->
    interactB h pre (e_said (v_evt v)) (e_sn (v_evt v) + 1) data = Ok e -> m_evt m = e ->
    fullySigned (he h) (v_keys v) (v_kt v) (e_raw e) (m_sigers m) ->
    fullyWitnessedBy (he h) (v_wits v) (v_toad v) (e_raw e) (m_wigers m) ->
    builtLog h pre (mkView e (v_keys v) (v_kt v) (v_ndigs v) (v_nt v) (v_wits v) (v_toad v) (v_estOnly v)) (ms ++ [m]).
(** The key state is the one that the controller has in view. *)
Definition asViewed (v : view) (k : kever) : Prop :=
  k_evt k = v_evt v /\ k_sn k = e_sn (v_evt v) /\ k_keys k = v_keys v /\ k_tholder k = v_kt v /\ k_ndigs k = v_ndigs v /\
  k_nt k = v_nt v /\ k_wits k = v_wits v /\ k_toad k = v_toad v /\ k_estOnly k = v_estOnly v.

(** ** Habitats *)
(** The current keys in the key store are the keys of the key state, and the digests of the next keys in the
    key store are the next digests of the key state. *)
Definition inStep (h : hcfg) (pre : bytes) (m : mgr) (dx : db) : Prop :=
  exists ps k dc, dget (sits (ks m)) pre = Some ps /\ keyState dx (nm h pre) = Some k /\
    k_keys k = map (nm h) (l_pubs (t_new ps)) /\ k_ndigs k = map (fun p => nm h (dig (hk h) dc p)) (l_pubs (t_nxt ps)).

(** the same key state, up to what a restart forgets *)
Definition sameKeyState (a b : option kever) : Prop :=
  match a, b with Some x, Some y => same_state x y | None, None => True | _, _ => False end.

(** An explicit current threshold of a rotation weighs as many keys as there are. *)
Definition weighsAll (a : rotArgs) (dx : db) (p : N) : Prop :=
  forall s t k, r_isith a = Some s -> processSith s = Ok t -> keyState dx p = Some k -> covers t (len (k_ndigs k)).

(** Histories of the habitat with prefix [pre]: its inception, accepted; rotations and interactions, whatever
    comes of them; and anything else that leaves the situation of its keys and its key state alone, such as
    calls on other habitats, messages from others, restarts.  New keys never collide with earlier ones. *)
Inductive habhist (h : hcfg) (cf : conf) (pre : bytes) : mgr -> db -> Prop :=
| hh_incept : forall m dx now g m' dx', fhist (hk h) m -> In (nm h pre) (c_prefixes cf) -> ~ In (nm h pre) (c_groups cf) ->
    unknown dx (nm h pre) -> habIncept h cf now g (m, dx) = ((m', dx'), Ok pre) -> keyState dx' (nm h pre) <> None ->
    freshKeys (ks m) (ks (fst (snd (KsModel.incept (hk h) (keyArgs g) m)))) -> habhist h cf pre m' dx'
| hh_rotate : forall m dx now ncount temp a m' dx' r, habhist h cf pre m dx ->
    habRotate h cf now pre ncount temp a (m, dx) = ((m', dx'), r) -> weighsAll a dx (nm h pre) ->
    freshKeys (ks m) (ks m') -> habhist h cf pre m' dx'
| hh_interact : forall m dx now data m' dx' r, habhist h cf pre m dx ->
    habInteract h cf now pre data (m, dx) = ((m', dx'), r) -> habhist h cf pre m' dx'
| hh_other : forall m dx m' dx', habhist h cf pre m dx -> fhist (hk h) m' ->
    dget (sits (ks m')) pre = dget (sits (ks m)) pre -> sameKeyState (keyState dx (nm h pre)) (keyState dx' (nm h pre)) ->
    habhist h cf pre m' dx'.

(** No keys wait to be rotated to: the key manager has to make [n] new ones, and does, ending in [m1]. *)
Definition makesKeys (h : hcfg) (pre : bytes) (n : N) (temp : bool) (m m1 : mgr) : Prop :=
  exists t vd, replay (hk h) pre (s2b "E") true false m = ([], (m, Err IndexError)) /\
    KsModel.rotate (hk h) pre (mkRargs (repeat EdSeed (N.to_nat n)) (s2b "E") true temp false) m = (t, (m1, Ok vd)).
