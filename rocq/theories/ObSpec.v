(** What OOBIs are for, in words of the API: which answers make one resolved, and when one is on its way. *)
From Verif Require Import Prelude ThModel ObModel.
Open Scope N_scope.

(** the URL asks for the data with this said: its path is /oobi/said *)
Definition asksFor (E : env) (url said : bytes) : Prop :=
  exists p name x, urlp E url = Ok (p, name) /\ p = 47 :: x ++ 47 :: said /\ said <> [] /\ ~ In 47 x /\ ~ In 47 said.
(** the server has answered with this *)
Definition answered (es : list ev) (url : bytes) (r : resp) : Prop := In (Answer url r) es /\ status r = 200.
(** the content types of streams *)
Definition stream (r : resp) : Prop :=
  ctype r = Some (s2b "application/cesr") \/ ctype r = Some (s2b "application/json+cesr") \/ ctype r = Some (s2b "application/cesr+json").
(** a good answer: a stream; the schema that was asked for; or a reply with URLs all of which have good answers *)
Inductive fine (E : env) (es : list ev) : bytes -> Prop :=
| f_stream : forall url r, answered es url r -> stream r -> fine E es url
| f_schema : forall url r said, answered es url r -> schemer E (body r) = Ok said -> asksFor E url said -> fine E es url
| f_multi : forall url r y urls, answered es url r -> serder E (body r) = Ok y -> y_ilk y = s2b "rpy" -> y_urls y = Some urls ->
    (forall u, In u urls -> fine E es u) -> fine E es url.

(** the record of results says resolved, failed, or anything *)
Definition says (d : db) (url : bytes) (b : bool) : Prop := exists o, dget (roobi d) url = Some o /\ o_state o = Some b.
Definition done (d : db) (url : bytes) : Prop := exists o, dget (roobi d) url = Some o.
(** the OOBI is in one of the databases *)
Definition kept (d : db) (url : bytes) : Prop :=
  dget (oobis d) url <> None \/ dget (coobi d) url <> None \/ dget (eoobi d) url <> None \/ dget (moobi d) url <> None \/ dget (roobi d) url <> None.
(** loaded, by somebody *)
Definition loaded (es : list ev) (url : bytes) : Prop := (exists a now, In (Load url a now) es) \/ exists c now, In (Intro c url now) es.
(** a request has been sent, and there is no answer yet *)
Definition asked (s : st) (url : bytes) : Prop := dget (coobi (D s)) url <> None /\ dget (clients (M s)) url = Some [].
(** URLs that Clienter and the patterns take *)
Definition usable (E : env) (url : bytes) : Prop :=
  clientOk E url = true /\ ~ In 62 url /\ badKey url = false /\ exists p name, urlp E url = Ok (p, name) /\ pathKind p <> TNone.
(** an answer that ends it: not a 404, and no reply with URLs *)
Definition final (E : env) (r : resp) : Prop :=
  status r <> 404 /\ (ctype r <> None) /\ forall y, serder E (body r) = Ok y -> y_ilk y <> s2b "rpy".
(** an answer that nobody has thought of: JSON, but neither schema nor message, and SerderKERI does not say so
    with a ValueError *)
Definition poison (E : env) (r : resp) : Prop :=
  status r = 200 /\ ctype r = Some (s2b "application/json") /\ schemer E (body r) = Err ValidationError /\
  exists e, serder E (body r) = Err e /\ isValue e = false.
(** start, pass, the server answers, pass; the databases after that, and whether one of the passes raised *)
Definition round (E : env) (now : N) (u : bytes) (r : resp) (d : db) : db * bool :=
  match flows E now (mkS d mem0 []) with
  | (s, Err _) => (D s, true)
  | (s, Ok _) => match flows E now (step E s (Answer u r)) with (s, Err _) => (D s, true) | (s, Ok _) => (D s, false) end
  end.
Fixpoint rounds (E : env) (now : N) (u : bytes) (r : resp) (n : nat) (d : db) : db :=
  match n with O => d | S n => rounds E now u r n (fst (round E now u r d)) end.
(** a pass raises *)
Definition raises (E : env) (s : st) (now : N) : Prop := exists e, snd (flows E now (mkS (D s) (M s) [])) = Err e.
