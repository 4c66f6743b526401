(** Out of band introductions, app/oobiing.py:141-198 OobiResource, 199-237 OobiRequestHandler, 288-650 Oobiery,
    653-739 Authenticator, with app/httping.py:240-295 Clienter.

    Simplifications, common to the whole file.
    - urllib.parse, Schemer(raw=), SerderKERI(raw=) and the making of a client are parameters.
    - Texts are their UTF-8 bytes; letters other than those of ASCII have no case.
    - Role and endpoint of a record are left out, nobody reads them.  Dates are seconds.
    - The stream of an answer is handed to the parser, which raises nothing; it is only noted here.  The update of
      the contact is noted, too, and raises nothing.
    - A database is a list of entries in the order of the keys.  Every write is a transaction, and [tr] has the
      databases after each of them, the latest first. *)
From Verif Require Import Prelude ThModel JsonModel DbModel Lex.
Open Scope N_scope.

(** recording.py:213-225 OobiRecord; the state is resolved (true), failed (false) or None *)
Record obr := mkO { o_alias : option bytes; o_said : option bytes; o_cid : option bytes; o_date : N; o_state : option bool; o_urls : list bytes }.
Definition table (V : Type) := list (bytes * V).
(** koming.py pin: set the value of a key *)
Fixpoint tpin {V} (k : bytes) (v : V) (t : table V) : table V :=
  match t with
  | [] => [(k, v)]
  | (k', v') :: r => if beq k k' then (k, v) :: r else if bltb k k' then (k, v) :: t else (k', v') :: tpin k v r
  end.
(** koming.py put: only if there is none *)
Definition tput {V} (k : bytes) (v : V) (t : table V) : table V := match dget t k with Some _ => t | None => tpin k v t end.
(** koming.py rem *)
Definition trem {V} (k : bytes) (t : table V) : table V := filter (fun e => negb (beq k (fst e))) t.
(** lmdb.BadValsizeError *)
Definition badKey (k : bytes) : bool := isnil k || (511 <? len k).

(** basing.py:1137-1177 and the schemas; the contacts that were named: prefix, alias and URL *)
Record db := mkD { oobis : table obr; coobi : table obr; eoobi : table obr; roobi : table obr; moobi : table obr;
  schema : table bytes; named : list (bytes * bytes * bytes) }.
Definition db0 : db := mkD [] [] [] [] [] [] [].
Definition u_oobis d x := mkD x (coobi d) (eoobi d) (roobi d) (moobi d) (schema d) (named d).
Definition u_coobi d x := mkD (oobis d) x (eoobi d) (roobi d) (moobi d) (schema d) (named d).
Definition u_eoobi d x := mkD (oobis d) (coobi d) x (roobi d) (moobi d) (schema d) (named d).
Definition u_roobi d x := mkD (oobis d) (coobi d) (eoobi d) x (moobi d) (schema d) (named d).
Definition u_moobi d x := mkD (oobis d) (coobi d) (eoobi d) (roobi d) x (schema d) (named d).
Definition u_schema d x := mkD (oobis d) (coobi d) (eoobi d) (roobi d) (moobi d) x (named d).
Definition u_named d x := mkD (oobis d) (coobi d) (eoobi d) (roobi d) (moobi d) (schema d) x.
(** an answer of a server: status, the headers Content-Type and KERI-AID, body *)
Record resp := mkR { status : N; ctype : option bytes; r_aid : option bytes; body : bytes }.
(** in memory: the clients with their answers; the cues; the streams handed to the parser *)
Record mem := mkM { clients : list (bytes * list resp); cues : list (option bool * bytes); fed : list (bytes * bytes) }.
Definition mem0 : mem := mkM [] [] [].
Record st := mkS { D : db; M : mem; tr : list db }.
(** one transaction *)
Definition wr (f : db -> db) (s : st) : st := mkS (f (D s)) (M s) (f (D s) :: tr s).
Definition setc (url : bytes) (l : list resp) (s : st) : st := mkS (D s) (mkM (dset (clients (M s)) url l) (cues (M s)) (fed (M s))) (tr s).
Definition cue (o : obr) (url : bytes) (s : st) : st := mkS (D s) (mkM (clients (M s)) (cues (M s) ++ [(o_state o, url)]) (fed (M s))) (tr s).
Definition feed (url x : bytes) (s : st) : st := mkS (D s) (mkM (clients (M s)) (cues (M s)) (fed (M s) ++ [(url, x)])) (tr s).

(** a step: the state after it, and whether it raised *)
Definition out := (st * res unit)%type.
Definition good (s : st) : out := (s, Ok tt).
Definition andThen (o : out) (f : st -> out) : out := match snd o with Ok _ => f (fst o) | Err _ => o end.
(** for e in l *)
Fixpoint each {X} (f : X -> st -> out) (l : list X) (s : st) : out :=
  match l with [] => good s | x :: l => andThen (f x s) (each f l) end.

(** a reply message as SerderKERI reads it: its type, its route, and of its attributes aid and urls *)
Record rpy := mkY { y_ilk : bytes; y_route : bytes; y_aid : option bytes; y_urls : option (list bytes) }.
(** urlparse with parse_qs, the path and the first name; whether Clienter.request gives a client; Schemer(raw=).said;
    SerderKERI(raw=) *)
Record env := mkE { urlp : bytes -> res (bytes * option bytes); clientOk : bytes -> bool; schemer : bytes -> res bytes; serder : bytes -> res rpy }.

(** except ValueError, with its subclasses *)
Definition isValue (e : exn) : bool := match e with ValueError | UnicodeError | BinasciiError => true | _ => false end.
(** except ValidationError, with those of its subclasses that there are *)
Definition isValidation (e : exn) : bool :=
  match e with
  | ValidationError | MissingFieldError | ExtraFieldError | AlternateFieldError | DerivationError | EmptyListError
  | MissingSignatureError | MissingWitnessSignatureError | MissingDelegationError | OutOfOrderError | LikelyDuplicitousError
  | UnverifiedWitnessReceiptError | UnverifiedReceiptError | UnverifiedTransferableReceiptError | UnverifiedReplyError
  | MissingAnchorError | MissingRegistryError | MisfitEventSourceError | MissingDelegableApprovalError
  | OutOfOrderKeyStateError | MissingDestinationError => true
  | _ => false
  end.

(** ** Kinds of URLs *)
Inductive target := TSelf | TCid (cid : bytes) | TData (said : bytes) | TWell (cid : bytes) | TNone.
Definition lower (s : bytes) : bytes := map (fun x => if (65 <=? x) && (x <=? 90) then x + 32 else x) s.
Definition isOobi (s : bytes) : bool := beq (lower s) (s2b "oobi").
(** ending.py:57 WOOBI_RE: any character but a newline stands for the dot *)
Definition well (p : bytes) : option bytes :=
  match p with
  | 47 :: ch :: r =>
      let cid := skipn 21 r in
      if negb (ch =? 10) && beq (firstn 21 r) (s2b "well-known/keri/oobi/") && negb (isnil cid) && negb (existsb (N.eqb 47) cid) then Some cid else None
  | _ => None
  end.
(** oobiing.py:450-486 with ending.py:55-57 *)
Definition pathKind (p : bytes) : target :=
  if beq p (s2b "/oobi") then TSelf else
  match splitb 47 p with
  | [[]; x; c; r] => if isOobi x && negb (isnil c) && negb (isnil r) then TCid c else match well p with Some c => TWell c | None => TNone end
  | [[]; x; c; r; e] => if isOobi x && negb (isnil c) && negb (isnil r) && negb (isnil e) then TCid c else match well p with Some c => TWell c | None => TNone end
  | [[]; x; c] => if isOobi x && negb (isnil c) then TData c else match well p with Some c => TWell c | None => TNone end
  | _ => match well p with Some c => TWell c | None => TNone end
  end.

Section E.
Variable E : env.

(** oobiing.py:620-630 request *)
Definition request (url : bytes) (o : obr) (s : st) : out :=
  if clientOk E url then
    good (wr (fun d => u_coobi d (tpin url o (coobi d))) (wr (fun d => u_oobis d (trem url (oobis d))) (setc url [] s)))
  else good (wr (fun d => u_oobis d (trem url (oobis d))) s).

Definition w_alias (o : obr) (name : option bytes) : obr :=
  mkO (match o_alias o with Some a => Some a | None => name end) (o_said o) (o_cid o) (o_date o) (o_state o) (o_urls o).
Definition w_cid (o : obr) (c : bytes) : obr := mkO (o_alias o) (o_said o) (Some c) (o_date o) (o_state o) (o_urls o).
Definition w_said (o : obr) (c : bytes) : obr := mkO (o_alias o) (Some c) (o_cid o) (o_date o) (o_state o) (o_urls o).
Definition w_date (o : obr) (t : N) : obr := mkO (o_alias o) (o_said o) (o_cid o) t (o_state o) (o_urls o).
Definition w_state (o : obr) (b : bool) : obr := mkO (o_alias o) (o_said o) (o_cid o) (o_date o) (Some b) (o_urls o).
Definition w_urls (o : obr) (l : list bytes) : obr := mkO (o_alias o) (o_said o) (o_cid o) (o_date o) (o_state o) l.

(** for (url,), ...: a key with the separator ">" in it has more than one part, and cannot be unpacked *)
Definition two (url : bytes) : bool := existsb (N.eqb 62) url.
(** oobiing.py:438-489 processOobis, one entry *)
Definition oneOobi (x : bytes * obr) (s : st) : out :=
  let '(url, o) := x in
  if two url then (s, Err ValueError) else
  let resolved := match dget (roobi (D s)) url with Some f => match o_state f with Some true => true | _ => false end | None => false end in
  let retried := match dget (eoobi (D s)) url with Some _ => true | None => false end in
  if resolved && retried then good (wr (fun d => u_oobis d (trem url (oobis d))) s)
  else
    match urlp E url with
    | Err e => if isValue e then good s else (s, Err e)
    | Ok (path, name) =>
        match pathKind path with
        | TSelf => request url (w_alias o name) s
        | TCid c | TWell c => request url (w_alias (w_cid o c) name) s
        | TData c => request url (w_said o c) s
        | TNone => good s
        end
    end.
Definition processOobis (s : st) : out := each oneOobi (oobis (D s)) s.

(** obr.state = ...; coobi.rem; roobi.put *)
Definition finish (url : bytes) (o : obr) (b : bool) (s : st) : st :=
  wr (fun d => u_roobi d (tput url (w_state o b) (roobi d))) (wr (fun d => u_coobi d (trem url (coobi d))) s).
(** roobi.put before the cue, which shows the state *)
Definition finishCue (url : bytes) (o : obr) (b : bool) (s : st) : st := cue (w_state o b) url (finish url o b s).
(** oobiing.py:634-641, the loop *)
Definition putOne (o : obr) (now : N) (murl : bytes) (s : st) : out :=
  if badKey murl then (s, Err KeyError)
  else good (wr (fun d => u_oobis d (tput murl (mkO (o_alias o) None (o_cid o) now None []) (oobis d))) s).
(** oobiing.py:632-650 processMultiOobiRpy, then the cue of 590 *)
Definition multi (url : bytes) (o : obr) (y : rpy) (now : N) (s : st) : out :=
  match y_aid y with
  | None => (s, Err KeyError)
  | Some cid =>
      if negb match o_cid o with Some c => beq cid c | None => false end then good (cue o url s)
      else
        match y_urls y with
        | None => (s, Err KeyError)
        | Some urls =>
            let o := w_urls o urls in
            andThen (each (putOne o now) urls s) (fun s =>
            good (cue o url (wr (fun d => u_moobi d (tput url o (moobi d))) (wr (fun d => u_coobi d (trem url (coobi d))) s))))
        end
  end.
Definition cesr (ct : bytes) : bool := existsb (beq ct) [s2b "application/cesr"; s2b "application/json+cesr"; s2b "application/cesr+json"].
(** schemer.said == obr.said: pin and resolved, or failed *)
Definition schemed (url : bytes) (o : obr) (raw said : bytes) (s : st) : bool * st :=
  if match o_said o with Some x => beq said x | None => false end
  then (true, wr (fun d => u_schema d (tpin said raw (schema d))) s) else (false, s).
(** oobiing.py:491-590 processClients, one entry *)
Definition oneClient (now : N) (x : bytes * obr) (s : st) : out :=
  let '(url, o) := x in
  if two url then (s, Err ValueError) else
  match dget (clients (M s)) url with
  | None => request url o s
  | Some [] => good s
  | Some (r :: rs) =>
      let s := setc url rs s in
      if status r =? 404 then
        good (wr (fun d => u_eoobi d (tpin url o (eoobi d))) (wr (fun d => u_coobi d (trem url (coobi d))) s))
      else if negb (status r =? 200) then good (finishCue url o false s)
      else
        match ctype r with
        | None => (s, Err KeyError)
        | Some ct =>
            if cesr ct then
              let s := feed url (body r) s in
              let o := match r_aid r with Some c => w_cid o c | None => o end in
              let s := match o_alias o, o_cid o with
                       | Some a, Some c => if isnil c then s else wr (fun d => u_named d (named d ++ [(c, a, url)])) s
                       | _, _ => s
                       end in
              good (finishCue url o true s)
            else if beq ct (s2b "application/schema+json") then
              match schemer E (body r) with
              | Ok said => let '(b, s) := schemed url o (body r) said s in good (finishCue url o b s)
              | Err e => if isValue e || isValidation e then good (finishCue url o false s) else (s, Err e)
              end
            else if startswith ct (s2b "application/json") then
              match schemer E (body r) with
              | Ok said => let '(b, s) := schemed url o (body r) said s in good (finish url o b s)
              | Err e =>
                  if isValue e || isValidation e then
                    match serder E (body r) with
                    | Err e => if isValue e then good (finish url o false s) else (s, Err e)
                    | Ok y =>
                        if negb (beq (y_ilk y) (s2b "rpy")) then good (finishCue url o false s)
                        else if beq (y_route y) (s2b "/oobi/witness") || beq (y_route y) (s2b "/oobi/controller") then multi url o y now s
                        else good (finishCue url o false s)
                    end
                  else (s, Err e)
              end
            else good (finishCue url o false s)
        end
  end.
Definition processClients (now : N) (s : st) : out := each (oneClient now) (coobi (D s)) s.

(** oobiing.py:610-618 processRetries *)
Definition oneRetry (now : N) (x : bytes * obr) (s : st) : out :=
  let '(url, o) := x in
  if two url then (s, Err ValueError) else
  if o_date o + 30 <? now then
    good (wr (fun d => u_oobis d (tpin url (w_date o now) (oobis d))) (wr (fun d => u_eoobi d (trem url (eoobi d))) s))
  else good s.
Definition processRetries (now : N) (s : st) : out := each (oneRetry now) (eoobi (D s)) s.

(** oobiing.py:596-603: None when one of them is not done, or whether all are resolved *)
Fixpoint all (t : table obr) (urls : list bytes) : option bool :=
  match urls with
  | [] => Some true
  | u :: urls =>
      match dget t u with
      | None => None
      | Some f => match all t urls with
                  | None => None
                  | Some b => Some (match o_state f with Some false => false | _ => b end)
                  end
      end
  end.
(** oobiing.py:592-608 processMOOBIs *)
Definition oneMoobi (x : bytes * obr) (s : st) : out :=
  let '(url, o) := x in
  if two url then (s, Err ValueError) else
  match all (roobi (D s)) (o_urls o) with None => good s | Some b => good (finish url o b s) end.
Definition processMOOBIs (s : st) : out := each oneMoobi (moobi (D s)) s.

(** oobiing.py:429-436 processFlows *)
Definition flows (now : N) (s : st) : out :=
  andThen (processOobis s) (fun s => andThen (processClients now s) (fun s => andThen (processRetries now s) processMOOBIs)).

(** what happens: a user (oobiing.py:173-184) or anybody (212-237) loads an OOBI; an introduction is accepted
    (401-402); a server answers; a pass; a crash in a pass, after [k] transactions *)
Inductive ev := Load (url : bytes) (alias : option bytes) (now : N) | Intro (cid url : bytes) (now : N) | Answer (url : bytes) (r : resp)
| Pass (now : N) | Crash (k : nat) (now : N).
(** An exception in a pass ends the program, and with it its memory. *)
Definition step (s : st) (e : ev) : st :=
  match e with
  | Load u a now => if badKey u then s else wr (fun d => u_oobis d (tpin u (mkO a None None now None []) (oobis d))) s
  | Intro c u now => if badKey u then s else wr (fun d => u_oobis d (tput u (mkO None None (Some c) now None []) (oobis d))) s
  | Answer u r => match dget (clients (M s)) u with None => s | Some l => setc u (l ++ [r]) s end
  | Pass now => match flows now (mkS (D s) (M s) []) with (s', Ok _) => s' | (s', Err _) => mkS (D s') mem0 [] end
  | Crash k now => mkS (nth k (D s :: rev (tr (fst (flows now (mkS (D s) (M s) []))))) (D s)) mem0 []
  end.
Definition init : st := mkS db0 mem0 [].
Definition run (es : list ev) : st := fold_left step es init.
End E.

(** ** Well known authentication, oobiing.py:653-739 Authenticator *)
(** woobi, mfa, rmfa (with the result) and wkas; clients, where one may be None; the identifiers with key states *)
Record au := mkA { woobi : table (option bytes); mfa : table (option bytes); rmfa : table (option bytes * bool); wkas : list (bytes * bytes);
  acl : list (bytes * option (list N)); kevers : list bytes }.
Section A.
Variable E : env.
(** oobiing.py:666-671 request *)
Definition arequest (u : bytes) (c : option bytes) (a : au) : au :=
  mkA (trem u (woobi a)) (tpin u c (mfa a)) (rmfa a) (wkas a) (dset (acl a) u (if clientOk E u then Some [] else None)) (kevers a).
(** oobiing.py:700-716 processWoobis, one entry *)
Definition oneWoobi (x : bytes * option bytes) (a : au) : au * res unit :=
  let '(u, c) := x in
  if two u then (a, Err ValueError) else
  match urlp E u with
  | Err e => (a, Err e)
  | Ok (path, _) =>
      match well path with
      | Some cid => if existsb (beq cid) (kevers a) then (arequest u (Some cid) a, Ok tt) else (a, Ok tt)
      | None => (mkA (trem u (woobi a)) (mfa a) (rmfa a) (wkas a) (acl a) (kevers a), Ok tt)
      end
  end.
(** oobiing.py:718-739 processMultiFactorAuth, one entry.  200 >= status <= 399 is status <= 200 *)
Definition oneMfa (x : bytes * option bytes) (a : au) : au * res unit :=
  let '(u, c) := x in
  if two u then (a, Err ValueError) else
  match dget (acl a) u with
  | None => (arequest u c a, Ok tt)
  | Some None => (a, Err AttributeError)
  | Some (Some []) => (a, Ok tt)
  | Some (Some (stat :: rs)) =>
      let okay := (stat <=? 200) && (stat <=? 399) in
      let wk := if okay then match c with Some c => wkas a ++ [(c, u)] | None => wkas a end else wkas a in
      (mkA (woobi a) (trem u (mfa a)) (tpin u (c, okay) (rmfa a)) wk (dset (acl a) u (Some rs)) (kevers a), Ok tt)
  end.
Fixpoint aeach {X} (f : X -> au -> au * res unit) (l : list X) (a : au) : au * res unit :=
  match l with [] => (a, Ok tt) | x :: l => match f x a with (a', Ok _) => aeach f l a' | (a', Err e) => (a', Err e) end end.
(** oobiing.py:694-698 processFlows *)
Definition aflows (a : au) : au * res unit :=
  match aeach oneWoobi (woobi a) a with
  | (a, Err e) => (a, Err e)
  | (a, Ok _) => aeach oneMfa (mfa a) a
  end.
Inductive aev := ALoad (u : bytes) | AKnown (cid : bytes) | AAnswer (u : bytes) (stat : N) | APass.
Definition astep (a : au) (e : aev) : au :=
  match e with
  | ALoad u => if badKey u then a else mkA (tpin u None (woobi a)) (mfa a) (rmfa a) (wkas a) (acl a) (kevers a)
  | AKnown c => mkA (woobi a) (mfa a) (rmfa a) (wkas a) (acl a) (c :: kevers a)
  | AAnswer u n => match dget (acl a) u with Some (Some l) => mkA (woobi a) (mfa a) (rmfa a) (wkas a) (dset (acl a) u (Some (l ++ [n]))) (kevers a) | _ => a end
  | APass => match aflows a with (a', Ok _) => a' | (a', Err _) => mkA (woobi a') (mfa a') (rmfa a') (wkas a') [] (kevers a') end
  end.
Definition ainit : au := mkA [] [] [] [] [] [].
Definition arun (es : list aev) : au := fold_left astep es ainit.
End A.
