# Formal model of keripy in Coq

This directory holds a Coq (Rocq 8.16.1) model of parts of WebOfTrust/keripy
(`/repo`, pinned) and machine-checked proofs of the properties listed in
`properties.jsonl`. `MANIFEST.json` maps each property to its theorems and says
for every property what is proved, what is missing and what is refuted.

Contents: 1 layout; 2 plan per property; 3 trusted base; 4 what is modelled and
what is not; 5 findings; 6 wrong programs; 7 what `Print Assumptions` lists.

## 1. Layout

For every area `X` there are several files in `rocq/theories/`:

* `XModel.v`  - executable Gallina functions, one per Python function, each with
  a comment citing file and lines in `/repo` and the simplifications made;
* `XSpec.v`   - small independent specification vocabulary (only where the
  property cannot be stated with standard list/number vocabulary);
* `XProofs.v` and further files - lemmas;
* `XThms.v`   - the final statements as lemmas with their proofs, and the
  concrete cases;
* `XProps.v`  - the final theorems, each closed by `exact` of the lemma of the
  same name and followed by `Print Assumptions`, with examples showing that the
  hypotheses are met by a concrete non-trivial case.

Python exceptions are values (`Err e`), never silently totalised. Where the
faithful model violates the English property there is a theorem with suffix
`_refuted` exhibiting the counterexample, and a theorem of the strongest true
variant (suffix `_partial` if the variant misses part of the property).

| Area | Files | Properties |
|------|-------|-----------|
| Base64 integers and codecs | `B64*` | C07, C43 |
| Matter | `Matter*` | C01-C04, C41 |
| Number, Seqner, Tagger, Bexter | `Subs*` | C06, C08, C48 |
| Indexer, Siger | `Idx*` | C05, C41 |
| Counter, enclose | `Ctr*` | C39, C42 |
| Version strings, cold start | `Ver*` | C09, C47 |
| Tholder, ample, verifySigs | `Th*` | C10-C13 |
| Serder, SerderKERI, Saider | `Json*`, `Ser*` | C09, C37, C49 |
| Key event logs | `Kel*` | C14-C26, C40, C44, C45 |
| Out of order delivery | `Oo*` | C23 |
| LMDB sub-databases | `Lex`, `Db*` | C27-C31, C46 |
| Key store and manager | `Ks*` | C32, C33, C50, C51 |
| Reply messages | `Rp*` | C34, C52 |
| Receipts | `Rc*` | C58-C61 |
| Request authentication (KRAM) | `Kr*` | C35, C53, C54 |
| Transaction event logs | `Tl*` | C36 |
| Credential verification | `Vc*` | C62-C66 |
| Stream parser | `Ps*` | C38, C56, C57 |
| messagize | `Mz*` | C55 |
| Field maps: Mapper, Compactor, Aggor | `Cp*` | C67-C71 |
| ACDC messages: SerderACDC | `Ac*` | C72-C74 |
| Exchange messages: Exchanger, IpexHandler | `Ex*` | C75-C80 |
| Native field maps: Mapper, Labeler, Decimer | `Nm*` | C81-C85 |
| Native KERI messages: Serder in the CESR kind, Dater, Pather, Verser, Ilker, Traitor, Sealer | `Nk*` | C86-C91 |
| Structures: Structor, Sealer, Blinder, Mediar, blinding and unblinding | `Bl*` | C92-C94 |
| Replay of first seen logs: clonePreIter, cloneAllPreIter, clean | `Cl*` | C95, C96 |
| Event builders and habitats: incept, rotate, interact, Hab.incept, Hab.rotate | `Hb*` | C97-C99 |
| Mailboxes: Mailboxer, MailboxIterable, Poller | `Mb*` | C100-C103 |
| Browser back end: WebDBer | `Wb*` | C104, C105 |
| Group proposals: Multiplexor | `Mx*` | C106, C107 |
| Completion of group and delegated events: Counselor, Anchorer | `Co*` | C108-C110 |
| HTTP Signature header and the check of requests | `Sg*` | C111, C112 |
| Contacts and notices, signed at rest | `Og*` | C113-C116 |
| OOBIs and well known authentication | `Ob*` | C117-C119 |
| Notices of transaction states | `Ts*` | C120-C122 |
| Queries for logs and key states | `Qy*` | C123-C125 |
| Adjudication of watchers' key states | `Wa*` | C126-C128 |
| Completion of transaction events | `Rg*` | C129-C131 |
| Receipts signed by a witness | `Wn*` | C132-C135 |
| Gathering of receipts | `Gr*` | C136-C138 |
| Signals to the controller | `Sq*` | C139-C140 |
| Queries and waiting for answers | `Qn*` | C141-C142 |
| Receipts gathered in the background | `Wx*` | C143 |
| Annotations of streams | `An*` | C144 |
| Configuration files | `Cf*` | C145 |
| Making credentials | `Mk*` | C146 |
| Messengers to witnesses | `Tm*` | C147 |

## 2. Plan per property

| Id | What is modelled | How it is proved |
|----|------------------|------------------|
| C01-C04, C41 | Matter code tables, `_infil/_binfil/_exfil/_bexfil`, CPython base64 decoder as state machine | algebra on sextets/bytes, table facts by computation over the whole table, induction on lists |
| C05 | Indexer tables and codec | same |
| C06, C48 | Number / Seqner / onKey hex encodings | positional numeral lemmas, induction on digits |
| C07, C43 | helping.py Base64 integers | induction |
| C08 | Bexter, Tagger | sextet algebra |
| C09, C47 | versify/deversify/rematch/smell, sniff | regex as explicit matcher; case analysis |
| C10-C12 | verifySigs, Tholder | lists and rationals (Q); refutation where the code counts repeats |
| C13 | ample | linear arithmetic |
| C14-C25, C40, C44, C45 | Kever and Kevery as a state machine over the sub-databases; signatures and digests are parameters | invariants by induction over arbitrary histories of messages, escrow sweeps and restarts |
| C23 | the same machine | convergence: every escrow pass makes progress on the longest accepted prefix |
| C26 | KeyStateRecord save/reload | round trip + congruence of step |
| C27-C31, C46 | LMDB as sorted finite map of byte keys, the On/IoSet/IoDup methods on cursors | refinement to map of lists |
| C32, C33, C50, C51 | keeping.Manager with database writes as atomic steps, sealed boxes as symbolic values | invariants, crash = prefix of the write list |
| C58-C61 | processReceipt, attached receipts, the three receipt escrows, on top of the Kevery of C14 | invariants over histories; a receipt in escrow is kept by every step |
| C34, C52 | Revery.acceptReply and the reply handlers with their escrow | invariants over histories |
| C35, C53, C54 | Kramer caches, windows, configuration changes, pruning | invariants over histories with time |
| C36 | Tever/Tevery with escrows and restart | invariants over histories |
| C62-C66 | Verifier.processCredential, verifyChain, saveCredential and the three escrows, on top of the Tevery of C36 | invariants over histories; progress of every pass along the graph of edges |
| C67-C71 | Mapper, Compactor, Aggor of mapping.py with hash and serializations as parameters, JSON as instance | the loop of compact is shown to compute a bottom-up fold (`roll`); induction over trees; collision extraction |
| C72-C74 | SerderACDC of serdering.py on top of the Serder and field map models | accepted messages yield a record of facts; sections one by one through C67, C69, C71; JSON read-back for redactions |
| C75-C80 | Exchanger of peer/exchanging.py with its escrow, stored signatures and attachments, and IpexHandler; key event logs given as a view that may change between calls | histories of deliveries and escrow visits; every outcome of processEvent is nothing, waiting or saved; invariants over histories; C78 by an invariant over the parts |
| C81-C85 | Labeler, Decimer and the native half of Mapper (core/mapping.py) on top of the models of Matter, Bexter, Tagger and Counter | reading inverts writing by induction on the value; binding follows from reading back with dummies; ending by a bound on calls that every primitive and every counter decreases |
| C86-C91 | _dumps and _loads of KERI messages, the native branch of _inhale (core/serdering.py) and the primitives only used there | every field reader inverts its writer on well formed values; an accepted message is the enclosure of its fields, so that equal blanked serializations give equal fields one by one; ending because every reader shortens its frame |
| C92-C94 | Structor and its classes from values, text and binary, saids, groups, blind and unblind (core/structing.py) | every primitive that was read or made is read again from what it writes, so that the concatenation of fields is injective; search of unblind by induction on the candidates; groups by the framing of counters |
| C95, C96 | the messages cloned from a reachable database and their processing by another node (db/basing.py, core/eventing.py) | induction on the history of the source: what it accepted with the signatures of the time is accepted by the receiver with those of the end; messages of other identifiers do not matter |
| C97-C99 | the builders with the checks of SerderKERI, the habitat calls over the key store of `Ks*` and the key event database of `Kel*` (core/eventing.py, app/habbing.py) | invariant that joins key store and key state; every call is taken apart into what the key manager hands out, what is built, how it is signed and how it is processed |
| C100-C103 | mailbox over the database of `Db*`, its stream and the event stream format, poller and director as a transition system with crashes (app/storing.py, app/indirecting.py, app/forwarding.py, core/parsing.py) | invariant that ties what was stored, is in flight, was noted and arrived, for every schedule; progress by running the client to the end of its input |
| C104, C105 | WebDBer method by method over a sorted list of items with a dirty mark, its hexadecimal JSON records, flush and open (db/webdbing.py), beside LMDBer of `Db*` (db/dbing.py) | each method agrees with LMDBer on every state that histories reach, by the invariants of `Db*`; round trip of the records; invariant that an unmarked store is what its record says, for every history with crashes |
| C106, C107 | Multiplexor.validate, add and _replayApproved with its handler and with the storing of proposals (app/grouping.py, peer/exchanging.py), over sets of proposals and submitters | invariants over all histories: what is recorded has come, what is merged has a local proposal with the same identity, what is recorded beside a local proposal has been merged; a second invariant for histories that begin with a bad copy |
| C108-C110 | Counselor and Anchorer with their escrows, messages and cues (app/grouping.py, app/delegating.py), the rest of the agent as operations that fill the database | invariants over all histories for what every escrow entry implies; invariants of lost, stuck and jammed states for the refutations; progress by following one entry through two passes |
| C111, C112 | signature, designature (end/ending.py) and SignatureValidationComponent (app/httping.py) on texts; Siger and Cigar as parameters | a group is a list of name and value; splitting undoes joining, each name is found and taken out once; the check by induction over the keys |
| C113-C116 | BaseOrganizer (app/organizing.py), Noter and Notifier (app/notifying.py): every operation as the list of its transactions, over the stores of `Db*`; JSON and signatures as parameters | an invariant for all contacts but a set of broken ones, kept by operations, enlarged by a crash, shrunk by rem; entries of one contact are together in the order of keys |
| C117-C119 | Oobiery and Authenticator (app/oobiing.py): the five databases of OOBIs, the clients in memory, passes as lists of transactions, crashes between them; servers, urllib, schemas and messages as parameters | an invariant over histories for what is stored; frames for all other URLs, so that each URL can be followed alone through the loops of a pass |
| C120-C122 | the two handlers of /tsn replies and the Broker with its five escrows; acceptReply and its stores from `Rp*`; key states and transaction logs as views that may change at each call | a relation of how a handler ends, lifted to passes and histories by an invariant with a parameter; frames of one notice through the loops of a pass |
| C123-C125 | processQuery, its escrow and its pass, and the handover by the parser, on the key event processing of `Kel*` and the replay of `Cl*`; cues are collected | an invariant of the stored queries over histories, a frame of one waiting query through passes; C125 by the replay theorem C95 |
| C126-C128 | diffState, adjudicate and performAdjudications on the records of `Rp*`; random.choice and the reading of records are parameters | the judgement by cases over the watchers; the records by an invariant over the histories of `Rp*` |
| C129-C131 | Registrar and the completion of credentials as lists of single writes, a crash being a beginning of the list followed by loss of memory; key event logs, receipts, transaction logs and group completion are a world that may differ at each call | invariants over all histories, one write at a time; stuck states by invariants over all continuations |
| C132-C135 | ReceiptEnd of a witness and the receipt cues, on top of the model of Kevery (`KelModel`); receipts are the identifier, number and digest they name | invariant over all histories that cues and receipts are for accepted events; order of numbers in the first seen log by induction over single changes |
| C136-C138 | Receiptor.receipt and catchup against a world of endpoints and answers: what is sent in order, which signatures are held, whether it ends, waits or raises | induction over the witnesses asked and those sent to |
| C139-C140 | Signaler and SignalIterable as turns of doers that share a deck; the expiry as a machine that is left and entered at each yield; deque iterators with the count of changes that makes them raise | invariant over all histories: identities, newest of a key, what the pass found; induction over the turns of a pass |
| C141-C142 | the query doers of app/querying.py turn by turn against what is known at each turn, with the one message of their WitnessInquisitor | induction over turns, invariant that deck and log queriers come from arrived notices |
| C143 | WitnessReceiptor.receiptDo for one message, against the list of stored receipts found at each turn | induction over turns and over positions of the witness list |
| C144 | annot and denot of core/annotating.py on code points, over any codec of primitives | every reader returns lines whose text is what it took off the stream; stripping lemmas for denot |
| C145 | Configer.put and get, with the contents of the disk at each point of put, over any codec | case analysis, prefixes of what is written |
| C146 | credential of vc/proving.py on ordered dicts, over any values and digest | lookup lemmas for setting and merging |
| C147 | TCP and HTTP messengers and WitnessPublisher of app/agenting.py as steps of putting, turns and network | invariants over all step sequences |
| C37, C49 | Serder/SerderKERI/Saider with the hash as parameter | round trip; collision extraction |
| C38, C56, C57 | Parser as a resumable command tree over a growing buffer | simulation between chunkings; measure for termination |
| C39, C42 | Counter tables/codec, enclose | as C01 |
| C55 | messagize against the parser model | each group written is read back; induction over lists and over the tree of nested messages |

## 3. Trusted base

* Coq 8.16.1 kernel (`coqc`, including the `vm_compute` conversion). No kernel
  check is switched off, no axiom is declared, no plugin is used.
* `Print Assumptions` of every theorem prints "Closed under the global context"
  (section 7). The standard library file `Coq.ssr.ssrunder`, which other library
  files load, contains seven axioms (`Under_rel`, `Under_rel_from_rel`,
  `Under_relE`, `Over_rel`, `over_rel`, `over_rel_done`, `under_rel_done`); no
  theorem depends on them.
* The reading of the Python source: the definitions cite the lines they model.
  Nothing checks mechanically that a definition agrees with the cited lines;
  wrong programs (section 6) only check that the theorems notice edits.
* The behaviour of libraries, given as parameters over which the theorems
  quantify, or as small explicit models:
  - digest and signature verification, key derivation, random numbers: arbitrary
    functions (parameters). Where a theorem needs collision freedom it says so
    by exhibiting the colliding inputs;
  - sealed boxes (`pysodium`): symbolic (`Sealed a x` is opened by the seed of
    `a` only), in `KsModel.v`;
  - LMDB: a sorted list of entries with atomic transactions (`DbModel.v`);
    a crash happens between transactions;
  - `base64`: CPython's decoder, modelled as its state machine (`B64Model.v`);
  - `re`: VEREX as an explicit matcher (`VerModel.v`);
  - `json.dumps`: modelled (`JsonModel.v`); `json.loads`, `cbor2`, `msgpack`: parameters;
  - floating point: `ample` and times of KRAM are exact numbers instead of floats.
* Fuel: functions that loop in Python and are not structurally recursive carry a
  fuel argument in the parser model only (`msgP`, `attLoop`, `turn`, `parseF`);
  running out of it is the separate answer `None`/`stuck`, never a result, and the
  theorems give a bound from which on the answer no longer depends on it
  (`exists n0, forall n >= n0`).

## 4. What is modelled and what is not

| Source file | Modelled | Not modelled |
|-------------|----------|--------------|
| `help/helping.py` | 256-388 Base64 integers, sextets, code conversion; `sceil` | dates, dicts, other helpers |
| `kering.py` | 17-328 version strings, cold start; `ExtractionError` family | command line errors |
| `core/coring.py` | Matter tables, constructors and codecs 663-1514; Seqner, Number, Tagger, Bexter; Diger; Saider; Tholder 4229-4717; digest codes | Dater, Verser, Texter beyond their bytes, Labeler, Noncer, Pather, Decimer; cryptography of Verfer, Cigar |
| `core/indexing.py` | tables, codecs, Siger | signing |
| `core/counting.py` | tables of both versions, codec, enclose, byteCount/byteSize, genus version counters | Codens beyond those named |
| `core/serdering.py` | Serder, SerderKERI and SerderACDC (version 2 section compaction): `_validate`, `_verify`, `_compute`, makify, `_inhale`/`_exhale` for JSON, CBOR, MGPK; reap | CESR native serialization (a parameter there, see the native KERI messages) |
| `core/eventing.py` | ample, verifySigs, validateSigs, state, messagize; Kever 1940-4087 complete; Kevery processEvent and the escrows of events, fetch helpers; receipts 4444-5031 with their escrows; reply handlers 5056-5540; queries 5543-5660 with their escrow and pass (`Qy*`) | processMsg dispatch but of queries, cues but of queries |
| `core/parsing.py` | extraction: groups, messages, all attachment methods, errors, both versions, both domains | `piped` mode; dispatch of an extracted message to its handler (1315-1540) but of queries for key events |
| `core/routing.py` | Router.dispatch, Revery with escrow, route templates | |
| `core/kraming.py` | Kramer: intake, kramit, pruning, configuration changes, restart | rewriting of attachments, cues |
| `core/structing.py` | the kinds of bonds; Structor, Sealer, Blinder and Mediar from values, from text and from binary, makify and verify, enclose and extract, makeUUID, blind and unblind | structures of the caller's own casts, data=, saids=, verify=False and the rest of the module; in the model of native messages Sealer is a table of its own |
| `core/signing.py` | Encrypter/Decrypter symbolically, Salter.stretch as a parameter | cryptography |
| `core/mapping.py` | Mapper (saids, verify), Compactor (trace, compact), Aggor (make, verify, disclose) for JSON, CBOR, MGPK | native serialization (a parameter), expand and partials |
| `core/scheming.py` | | JSON schema |
| `db/dbing.py` | 110-276 key forms; On, IoSet, OnIoSet, IoDup, OnIoDup methods | Val/Vals plain methods, file handling |
| `db/subing.py` | put/pin/add/rem/get shapes through the dbing methods they call; CryptSignerSuber | Komer serialisation, typed subers |
| `db/basing.py` | the sub-databases used by Kever/Kevery, statedict, fullyWitnessed, clonePreIter, cloneEvtMsg, cloneAllPreIter and clean for key events | migrations, the copying of other databases in clean, endorsements of non witnesses in clones |
| `app/keeping.py` | Creators, Manager incept/rotate/replay/ingest/move/updateAeid/setup/sign key selection | actual signing, Keeper file handling |
| `app/habbing.py`, `core/eventing.py` builders | incept, delcept, rotate, deltate, interact with SerderKERI._verify; BaseHab and Hab incept, rotate, interact, sign | given secrets, group and Signify habitats, Habery, configuration, reply and query messages of a habitat; exact serialization and digest of the built events (parameters) |
| `vdr/eventing.py` | Tever, Tevery events and escrows, rbdict, replies /tsn | processQuery |
| `vdr/verifying.py` | Verifier.processCredential, verifyChain, saveCredential, escrows | query, resolver of schema text (a parameter), cues |
| `peer/exchanging.py` | Exchanger.processEvent, escrow, logEvent, complete, cloneMessage, verify | building messages (exchange, serializeMessage, nesting), lead/addHandler |
| `vc/protocoling.py` | IpexHandler.verify, response | building of IPEX messages, notification text |
| `core/mapping.py` native Mapper, `core/coring.py` Labeler, Decimer | _exhale, _serialize, _inhale, _deserialize, qb2, construction from raw and qb2 (native kind); Labeler from label and text; Decimer from numbers | floats inside maps, int()/str() digit limit, recursion limit, characters outside ASCII when a text is tried as a primitive |
| `core/serdering.py` native KERI messages, `core/structing.py` Sealer, `core/coring.py` Dater, Pather, Verser, Ilker, Traitor | _dumps and _loads for the KERI protocol, the CESR branch of _inhale, the seven types of seals, construction from values and from streams | native ACDC messages (a parameter), smellage given by the caller, Serdery.reap, Pather.resolve and its other forms, Dater from datetime objects |
| `app/storing.py`, `app/indirecting.py`, `app/forwarding.py`, mailbox queries of `core/parsing.py` and `core/eventing.py` | Mailboxer, MailboxIterable, Poller.eventDo, MailboxDirector.processPollIter, ForwardHandler.handle, the mbx route of processQuery | Respondant, Poster, HTTP, time limits, hio |
| `db/webdbing.py` | the methods of WebDBer on values, ordinals and sets, iterators, open, open_db, flush, close, _serialize_records, _deserialize_records | str and memoryview arguments, values of None, laziness of iterators, the version of the database, pyscript.storage itself (it keeps what sync wrote) |
| `app/grouping.py` | Multiplexor.validate, add, _replayApproved, MultisigNotificationHandler, logEvent as the commands use it, Counselor | Multiplexor.get, the parser that takes the merged messages, the builders of proposals, the queries that the Counselor sends |
| `app/delegating.py` | Anchorer | the messages it sends; the pre-events that other commands wait for; removing a publisher that is not running is taken to succeed |
| `end/ending.py`, `app/httping.py` | signature, designature, SignatureValidationComponent | siginput, desiginput, the endpoints; the other helpers for requests |
| `app/organizing.py` | update, replace, set, unset, rem, get, list, findExact | images, find, values, regular expressions |
| `app/notifying.py` | Noter, Notifier without signals, DicterSuber for notices | Dicter, Notice as JSON |
| `app/oobiing.py` | Oobiery.processFlows with all it calls, loading by user, message and introduction, Authenticator | OobiResource as HTTP, the parser and the contacts behind it, roles and endpoints of records |
| `db/escrowing.py` | Broker | removeState (only called when a removal raises) |
| `app/watching.py` | diffState, Adjudicator | the doer, logging |
| `vdr/credentialing.py` | Registrar incept, issue, revoke, complete, the three escrows; Credentialer issue, complete and its escrow | registries and making of their events, creation of credentials, the doers |
| `app/indirecting.py` | ReceiptEnd on_post, on_get; Hab.receipt and the receipt cues of `app/habbing.py` | HTTP, parsing of requests, the write of the own receipt, other endpoints |
| `app/agenting.py` | Receiptor receipt, catchup | HTTP, TOTP headers, scheme introductions, Receiptor get and the doers around them |
| `app/signaling.py` | Signaler push, expireDo; SignalIterable | attributes, formatting of events, end of a stream after its time, endpoints |
| `app/querying.py` | SeqNoQuerier, AnchorQuerier, LogQuerier, KeyStateNoticer recur; WitnessInquisitor.msgDo of `app/agenting.py` as one query | choice of endpoint, messengers, telquery |
| `app/agenting.py` | WitnessReceiptor.receiptDo for one message | delegation chain, introductions, messengers |
| `core/annotating.py` | annot, denot | wording of comments; reading of primitives is a parameter |
| `app/configing.py` | Configer.put, get | serialisation is a parameter; opening, closing, ConfigerDoer |
| `vc/proving.py` | credential up to SerderACDC | values, digest and time are parameters |
| `app/agenting.py` | TCPMessenger, TCPStreamMessenger, HTTPMessenger, WitnessPublisher as queues with counts | connections, parsing of answers, headers |
| everything else | | `app/*` agents and command line, rest of `peer/`, rest of `vdr/credentialing`, `end/`, `demo/` |

Common simplifications (each also stated at its definition): identifiers, keys and
digests are opaque where the property does not concern their text; cues and logging
are dropped; sub-databases keyed by opaque texts are finite maps (their byte level
is the subject of the `Db` area); a call is atomic with respect to other calls (the
code is single threaded with cooperative generators, and only the parser's
generators suspend inside a call).

## 5. Findings

Places where the faithful model violates the English property. Each has a theorem
with the suffix `_refuted` showing a concrete case, unless marked (read): seen when
reading, not made a theorem.

Codecs
* `+` and `/` are accepted as aliases of `-` and `_` in primitives, so text is not canonical (`C03_text_canonical_refuted`); soft characters of special codes are not checked (`C03_soft_unchecked_refuted`).
* A stream that ends inside the soft part of some codes is not reported as shortage (`C41_truncation_refuted`).
* Table entries `0z`, `1z`, `4z` of Indexer are unusable (`C05_test_codes_refuted`).
* `Number.huge` does not sort numerically (`C06_huge_sorts_refuted`); `intToB64(i, 0)` is empty (`C07_zero_length_refuted`); `Bexter` with escaping off loses a leading A (`C08_bext_unescaped_refuted`).
* A version 1 counter that would need a big code it does not have escapes as KeyError (`C39_v1_promotion_refuted`).
* (read) `coring.py:1264` constructs `InvalidCodeSizeError` without raising it; tests such as `first[0] == b'\xf8'` compare an int with bytes; `Matter(code='b', soft=...)` without raw is accepted but has no `.qb64`; `Decimer` decodes `1e+20` as `1e-20`; `Pather.strip` uses `remove` by value.

Thresholds and signatures
* One key listed under two derivation codes counts twice for numeric thresholds (`C10_double_count_refuted`, `C14_distinct_refuted`, `C20_distinct_refuted`, `C54_double_count_refuted`).
* An index beyond the weights raises, so satisfaction is not monotone (`C11_monotone_refuted`); `thold=` is not validated (`C12_out_of_range_refuted`).

Messages
* A said field holding another primitive than a digest is accepted unchecked (`C37_nondigest_said_refuted`); an inception's said does not bind the derivation code of its prefix (`C37_prefix_code_refuted`); an Ed448 signature code passes as identifier (`C49_signature_prefix_refuted`).
* (read) `serdering.py:720` is a chained comparison; `self.ilk in (Ilks.dip)` is a substring test; makify changes the caller's map.

Key event logs
* An event in the out of order escrow is dropped after 1200 s, and since the date of its first delivery stays on record, delivering it again out of order is of no use (`C23_late_refuted`, `C23_redelivery_refuted`).
* `C15_superseding_refuted`, `C18_superseded_refuted`, `C19_recovery_refuted`, `C21_undelegated_refuted`, `C22_refuted`, `C24_final_refuted`, `C25_drt_refuted`, `C26_cues_refuted`, `C26_unpinned_refuted`, `C40_resurrection_refuted`, `C44_readback_refuted`, `C45_twice_refuted`: recovery by delegated rotation, `drt` on identifiers that are not delegated, first seen numbering after recovery, reloaded key states without cues, repeated logging of duplicates (see the comments at the theorems).
* (read) `bossn.Ilk` raises AttributeError; `kels.getLast` beyond the current sn after recovery; `escrowLDEvent` calls `db.addLde`, which does not exist; out of order escrow stores unverified signatures and does not pass the seal on reprocessing; misfit and delegable escrows are never reprocessed.

Receipts
* A receipt of a superseded event with transferable signatures is filed under the event that superseded it (`C58_misfiled_refuted`: `processReceipt` looks the event up by the said in the receipt, so its stale check is vacuous); receipts of events that are only in escrow are recorded (`C58_unaccepted_refuted`); a witness receipt that waited gets the index of the witness in the current list (`C58_witness_index_refuted`).
* The check against receipts in the node's own name is not made for receipts that waited (`C60_escrowed_refuted`).
* `C61_rotation_refuted` (`eventing.py:7165` reads `self.wits`, which Kevery does not have), `C61_superseded_refuted`, `C61_witness_signature_refuted`, `C61_last_event_groups_refuted`: early receipts that are lost.
* (read) `processAttachedReceiptCouples` compares a text with a Prefixer, so attached witness receipts never become witness signatures; the date a receipt leaves for an unknown event also starts the time limit of the event's own escrows.

Databases
* `C28_extended_key_refuted`, `C30_extended_key_refuted`, `C31_extended_key_refuted`: a key that continues another one by separator and hexadecimal digits mixes with its entries; `C29_repeated_value_refuted`, `C29_ordinal_refuted`, `C29_backwards_refuted`, `C30_empty_value_refuted`, `C46_append_refuted`, `C46_backwards_refuted`.
* (read) `basing.py:1292` and `1003` use the same subkey `tsgs.` for two sub-databases; `getIoSetLastItem` ignores its separator argument; pin is two transactions.

Key manager
* `C32_path_collision_refuted`, `C32_failed_rotate_refuted`; crash points: `C33_rotate_crash_refuted`, `C33_hab_crash_refuted`, `C33_move_crash_refuted`, `C33_incept_crash_refuted`; encryption: `C50_late_encryption_refuted`, `C50_ingest_refuted`, `C50_change_crash_refuted`, `C50_refused_change_refuted`, `C50_seed_alone_refuted`; `C51_retry_count_refuted`.

Replies
* `C34_rollback_after_timeout_refuted`, `C34_rollback_by_stranger_refuted`, `C34_rollback_single_as_group_refuted`, `C34_rollback_bad_group_refuted`, `C34_rollback_trim_refuted`, `C34_rollback_resigned_refuted`, `C34_superseded_keys_refuted`, `C34_key_state_rollback_refuted`.
* (read) `UntrustedKeyStateSource` (`eventing.py:5351`) is constructed, not raised; the route `/end/role/addition` is taken as `add`.

KRAM
* `C35_multikey_replay_refuted`, `C35_late_completion_refuted`, `C35_seal_then_sign_refuted`, `C35_exchange_lag_refuted`, `C35_exchange_ahead_refuted`, `C35_clock_back_refuted`, `C35_pruner_ended_refuted`; `C53_*_refuted`; `C54_group_after_interaction_refuted`.

Transaction event logs
* `C36_foreign_revocation_refuted`, `C36_foreign_issuance_refuted`, `C36_registry_log_polluted_refuted`, `C36_rotation_lost_refuted`, `C36_unaccepted_rotation_refuted`, `C36_backer_counted_twice_refuted`, `C36_no_signature_refuted`, `C36_two_seals_refuted`, `C36_wrong_anchor_kept_refuted`, `C36_revoked_twice_refuted`, `C36_escrow_doubles_refuted`, `C36_waiting_event_dropped_refuted`, `C36_partially_backed_stuck_refuted`.
* (read) `processQuery` for `tsn` passes a keyword that `vcState` does not have; `escrowOOEvent` without an anchor raises after storing.

Credentials
* The issuer field of a credential is never compared with the controller of the registry, and `vcState` ignores which registry the issuance named (`C63_issuer_refuted`, `C63_registry_refuted`).
* A credential that waits is stored before it is checked and not replaced by the variant that passes (`C62_variant_refuted`, `C62_hidden_issuee_refuted`: a compact variant hides the issuee, so the default operator becomes NI2I).
* The anchor is overwritten by any later delivery and never checked (`C65_anchor_changed_refuted`).
* A salted edge section ends in TypeError and an edge section given by its SAID in ValidationError, so such credentials are dropped (`C64_private_edges_refuted`).

Messengers to witnesses
* TCPMessenger.idle and TCPStreamMessenger.idle do not look at the queue, unlike HTTPMessenger.idle: with messages waiting they say idle before the first turn and after each message (`C147_tcp_refuted`).
* WitnessPublisher counts a request of an identifier that is not local as posted but never cues it, so it is never idle again (`C147_publisher_refuted`).

Making credentials
* credential merges the data over recipient and nonce: data with a name `i` replace the recipient given, and with `u` the nonce that blinds the subject, without error (`C146_recipient_refuted`). Data named `d` are lost to the digest (`C146_digest_refuted`).

Configuration files
* Configer.put truncates the file before it serialises the data: if that raises, or the extension is not known, the old configuration is gone and get gives an empty one without error (`C145_failed_refuted`).
* put writes in place: a crash after the truncation leaves an empty file, which get takes for an empty configuration (`C145_crash_refuted`).

Annotations of streams
* annot has `pass` for a stream in binary form and takes nothing off it, so its loop never ends (`C144_stream_refuted`).
* annot raises ExtractionError if anything follows the first message, though it loops over the stream and is described as annotating one (`C144_stream_refuted`).

Receipts gathered in the background
* WitnessReceiptor.receiptDo takes the stored receipts by position in the witness list, but the table returns them in the order of arrival: unless they arrived in the order of the list, a witness is sent its own receipt and lacks that of another (`C143_order_refuted`).
* It waits for as many receipts as there are current witnesses: one silent witness, or an earlier event with another number of witnesses, keeps all receipts from all witnesses, blocks later messages, and there is no time-out (`C143_missing_refuted`, `C143_queue_refuted`).
* Completeness is a count of signatures: two different signatures of one witness count for two witnesses (`C143_cued_refuted`).

Queries and waiting for answers
* SeqNoQuerier.recur and AnchorQuerier.recur return before running their inquisitor while the identifier is not known, so the query that would make it known is never sent, even with witnesses given (`C142_unknown_refuted`).
* WitnessInquisitor.msgDo drops a query when identifier, endpoint or location are not known at that turn, with only a log entry; who made it waits for ever (`C142_dropped_refuted`).
* KeyStateNoticer compares numbers only: a notice of another event at a number that the log has reached ends it as success (`C141_digest_refuted`).
* KeyStateNoticer removes its inquisitor at every notice ahead of the log; at the second that raises if hio refuses to remove a doer that is gone (`C141_second_refuted`; hio is not in the repository, so this is a parameter of the model).

Signals to the controller
* Signaler.expireDo yields inside the loop over the deck. A push or a read at such a yield changes the deck and the loop raises RuntimeError at its next turn; the doer ends and nothing expires any more (`C140_disturbed_refuted`). With one signal waiting every second turn is such a yield.
* A signal that expireDo found too old and that push replaces before the end of the pass makes `signals.remove` raise ValueError (`C140_replaced_refuted`).
* SignalIterable reads `sig.id`, which does not exist, for a signal without topic: it and the signals taken before it are lost (`C139_topic_refuted`). No caller in the repository pushes without topic.
* A signal that replaces another takes its place, ahead of signals pushed before it (`C139_order_refuted`).
* The behaviour of deque iterators and of `deque.remove` is that of CPython and is trusted.

Gathering of receipts
* Receiptor.receipt sends gathered receipts only to witnesses that answered 200; one that answered 202 because it has the event in escrow gets none of them, though they are what it waits for (`C136_late_refuted`).
* Receiptor.receipt catches added witnesses up for `rot` only, not for `drt`, though it introduces the added witnesses of both later (`C136_delegated_refuted`).
* Receiptor.receipt waits for each witness in turn without limit: one that does not answer keeps the ones after it from being asked and all from being sent receipts (`C137_silent_refuted`). An added witness without endpoint raises out of catchup before anybody gets the event; elsewhere a missing endpoint is logged and skipped (`C137_endpoint_refuted`).
* Receiptor.receipt reports every witness that answered 200, also if the answer had no receipt or one that does not verify (`C138_reported_refuted`).

Receipts signed by a witness
* ReceiptEnd.on_post does not look at the outcome of processing the posted event: for an identifier that the witness knows and witnesses it signs a receipt of any event, forged, unsigned or duplicitous (`C132_post_refuted`), so it signs two different events at one number (`C133_post_refuted`).
* ReceiptEnd.on_get with a digest answers with a receipt that names number zero (`C134_said_refuted`), also for events in escrow, with witness signatures that were never verified (`C134_escrow_refuted`).
* Receipt cues are in memory only: an event accepted just before a restart gets no receipt, also not when it is sent again (`C135_restart_refuted`).
* ReceiptEnd.receipts is never filled, so an event that was receipted in answer to a post is receipted again when it arrives on another way first; harmless.

Completion of transaction events
* Registrar.complete asks WitnessPublisher.sent for the registry or credential only: a revocation is reported complete before it is sent, once the issuance was (`C129_early_refuted`).
* Each escrow removes an entry before it adds it to the next: a crash in between loses the event for good (`C130_crash_refuted`).
* That the Receiptor is through is known from its cues in memory only: after a restart an event that waits for receipts stays there though they are all in (`C130_restart_refuted`), and what was complete is reported incomplete (`C130_forgotten_refuted`).
* Receipts of all current witnesses are waited for, not the threshold: one witness that is down, or a rotation of witnesses, keeps the event for ever (`C130_down_refuted`).
* For single identifiers the anchor given is ignored and the newest own event recorded; `ancs.put` never overwrites, so that stays (`C131_between_refuted`).

Adjudication of watchers' key states
* Two watchers ahead of the own log at different numbers have different digests, and so are reported as duplicitous though they follow one log (`C126_heights_refuted`).
* A watcher with another event below the own newest number is only reported as lagging (`C126_fork_behind_refuted`); a notice of such an event, or of another event at a number the own log has, is refused and leaves no record (`C127_late_fork_refuted`).
* Without any answer from a watcher the state is reported consistent (`C126_silent_refuted`); with too few ahead there is no cue at all, also none of those that lag (`C126_few_refuted`).
* ksns is keyed by the digest of the event alone, and a source that names itself a witness in its own notice is let in: a stranger overwrites the records that knas of honest watchers point to, which gives a false update or a ValueError in every adjudication (`C127_shared_refuted`).
* An unknown identifier (KeyError) or a threshold above the number of watchers (ValueError) ends the pass over the requests and leaves through the doer (`C128_stop_refuted`).

Queries
* The parser (version 1) reads `exts['source']`, which MsgParseDom does not have, so a query signed only by keys of non transferable identifiers ends in a KeyError and is dropped (`C124_nontrans_refuted`). In version 2 it is answered at once or, when early, lost: escrowQueryNotFoundEvent reads `source.qb64b` of None (`C124_nontrans_early_refuted`).
* The signatures of queries are never verified, not at arrival and not from the escrow (`C123_unsigned_refuted`).
* A query for a log from a first seen number that is not reached is consumed without answer or escrow (`C124_beyond_refuted`).
* A query with `s` waits until the newest event has its receipts, though the event asked for has them (`C124_receipts_refuted`).
* The date of an escrowed query is put once per querier and said and never removed: the same query, sent again after the time limit, is dropped by the next pass (`C124_again_refuted`).
* Only the delegator's log is sent along, not that of the delegator's delegator (`C125_nested_refuted`), and an unknown delegator raises KeyError and drops the query (`C125_boss_refuted`).
* Not in the model: Habitat.processCuesIter reads `cue["data"]` of a reply cue (habbing.py:2755), while Kevery pushes none for key states (eventing.py:5634); Tevery.processQuery is not modelled.

Transaction state notices
* A notice for a credential in an unknown registry is put into the escrow before anything is verified. With a dot in the identifier of the credential its key reads back as four parts, `for (typ, pre, aid), diger in` raises, and processEscrows ends there, in every pass from then on: no other notice is ever recorded from the later escrows (`C122_dots_refuted`). The sender needs no signature.
* osaider is the digest of the transaction event, not the said of the notice, so acceptReply never finds a date to compare with. For registries the check against the Tever is left; for credentials nothing is, and an old notice "issued" that is sent again replaces "revoked" (`C121_credential_refuted`). A notice for credentials may name a registry (`C121_route_refuted`).
* The issuer and the backers of a registry are read from the notice itself, also when the receiver has the registry: any source that names itself passes the check of sources (`C120_source_refuted`).
* The hour of the escrow counts from the date in the notice; a notice older than that which lacks something is dropped by the first pass (`C122_old_refuted`).
* Entries leave the escrow, but date, notice and signatures stay: removeState is only called when the removal raised (`C122_left_refuted`).
* For an unknown issuer of a credential the query asks for the source of the notice (`C122_query_refuted`).

OOBIs
* A URL with the character > is a key that reads back as two parts, so `for (url,), obr in` raises in every pass, after every restart. Anybody can load one with an exchange message /oobis, and no OOBI is resolved from then on (`C118_separator_refuted`).
* An answer application/json that is neither a schema nor a message makes SerderKERI raise ShortageError or the like, which is not caught; the OOBI is requested again after the restart, and it starts over (`C118_poison_refuted`).
* oobis.rem comes before coobi.pin, and coobi.rem before roobi.put: a crash in between loses the OOBI (`C118_lost_refuted`). A URL without client is dropped without a record (`C118_dropped_refuted`).
* roobi.put does not overwrite: once failed, an OOBI stays failed even when a later request succeeds (`C118_again_refuted`).
* There is no time limit for a server that does not answer (`C118_silent_refuted`); a reply for another identifier leaves the request open for ever (`C118_mismatch_refuted`); a URL that matches no pattern stays loaded for ever (`C118_unmatched_refuted`).
* The header KERI-AID of the answer replaces the identifier of the URL, and with it the owner of the alias (`C117_alias_refuted`). An empty stream counts as resolved (`C117_empty_refuted`).
* `200 >= status <= 399` is status <= 200: other answers of success are failures (`C119_success_refuted`). The body is not looked at, and the dot in the pattern is not escaped (`C119_dot_refuted`).

Contacts and notices
* A field with a dot in its name is stored, and from then on list, find and findExact raise ValueError for all contacts (`C113_dot_refuted`).
* update with a value that is no text raises after signature and data are written (`C113_value_refuted`).
* rem trims all fields whose keys begin with the prefix: rem of the empty text, or of a prefix that begins another, takes other contacts out of list (`C113_begins_refuted`).
* The signature of a contact does not cover its prefix, so data and signature can be copied to another prefix (`C114_swap_refuted`); the fields that list shows are not signed (`C114_list_refuted`).
* update writes the signature before the data, in two transactions: after a crash in between the contact can be neither read nor updated (`C114_crash_refuted`). set removes the contact before it writes it (`C114_lost_refuted`).
* rem of a notice removes index and signature before the notice: after a crash in between the list of notices raises for ever (`C116_rem_refuted`); a crash in mar has the same effect (`C116_mark_refuted`).
* getNotes with an end before its start gives everything from the start on (`C115_range_refuted`).

HTTP Signature header
* Two signatures with the same index, or by the same key, end up as one (`C111_same_refuted`).
* Texts are written as they are: a signer with a quote and a semicolon in it adds signatures to the header (`C111_text_refuted`), and blanks are dropped.
* A request must be signed by all current keys; the signing threshold of the controller is not looked at (`C112_threshold_refuted`).
* A request with no Signature header, or one that cannot be read, raises in the check rather than being answered with 401 (`C112_raises_refuted`).

Completion of group and delegated events
* The Counselor notes the digest it was started with, while it looks only for some event with that number: with no witnesses, a start for a digest that was never accepted is reported complete (`C108_superseded_refuted`).
* Receipts are counted against the witnesses of the latest key state, not those of the event: an event without one receipt is reported complete once a later event has dropped the witnesses (`C108_witnesses_refuted`).
* gpse.rem removes all events of a group when one of them moves on: a second event that was started before the first was accepted is lost (`C110_second_refuted`).
* The entry is removed before Anchorer.delegation raises for a delegator whose log is not there yet: the event is lost (`C110_delegator_refuted`).
* The member with the first key waits for a cue that is kept in memory only: after a crash between the message and the cue it waits forever (`C110_crash_refuted`).
* The elected member is the one with the least index among the signatures that a member has, so that two members may both be elected (`C110_twice_refuted`).
* One delegation of an identifier without witnesses and without a proxy raises in every pass of the Anchorer, before anything else is looked at (`C110_proxy_refuted`).

Group proposals
* In proposals of the first version the identity is the field `d` of the block of embedded messages, which nobody recomputes. When the local member has approved a block, any other block that carries the same text in `d` is parsed as local input at once, without a notice (`C106_block_refuted`).
* Neither validate nor add asks whether the sender is a member of the group: strangers take part, and their copies are merged (`C106_stranger_refuted`).
* One copy whose block has a field map that is no message, or that is signed by an unindexed signature, makes _replayApproved raise. The loop over all copies stops there, before the own proposal is recorded: the own commands fail, and no copy for this block is ever merged (`C107_poison_refuted`).

Browser back end
* appendOnIoSetVals and, for a non-empty key, remOnAllIoSet change the items without marking the sub-database as dirty. flush skips it, so the appended sets are lost and the removed ones come back at the next start, unless something else marks it (`C105_append_refuted`, `C105_removal_refuted`).
* close(clear=True) empties the memory and writes nothing: the next open finds everything (`C105_clear_refuted`).
* flush writes one sub-database after the other: a crash in between leaves them at different times (`C105_atomic_refuted`).
* The back ends differ: for empty keys LMDB answers False where the other raises KeyError, and putOnVal stores under an empty key (`C104_empty_key_refuted`); getOnItem of an empty value finds nothing on LMDB (`C104_empty_value_refuted`); reading backwards raises ValueError on LMDB where the other finds nothing (`C104_backwards_refuted`); with keys that continue one another putIoSetVals overwrites a value where LMDB refuses (`C104_extended_key_refuted`).

Mailboxes
* A mailbox decodes each message as text when it is read. One message that is not UTF-8, such as a forwarded event in CBOR or MGPK, raises in the stream before anything is sent, at every connection: the recipient never gets another message from this mailbox, on no topic (`C101_poison_refuted`).
* The topic of a forwarded message is chosen by its sender. A topic that continues another with a dot and a number lies among the entries of the other one: it hides later messages, or makes every later storeMsg of the other topic raise (`C101_topic_name_refuted`).
* Poller.eventDo notes the number of a message in the database when it has queued it in memory. A crash before it is parsed loses it for good (`C102_crash_refuted`).
* Queries are answered whoever signed them; the signatures are not verified (`C103_owner_refuted`).
* MailboxIterable adds the number of messages read to its index instead of continuing after the last number. Where an index entry has no message, because the server died between the two writes of storeMsg, messages are sent again (`C100_half_refuted`).
* After delTopic of the last entry its number is given again, and a client that has noted it never gets the message (`C100_removed_refuted`).
* A message with an empty line is cut there (`C100_line_refuted`).
* Mailboxer.appendToTopic calls append with a keyword it does not take and always raises TypeError. Poller drops the queue it is given as argument (`msgs` of its constructor). Both are in the model or outside it as such and no theorem is stated.

Event builders and habitats
* rotate compares the intersection of witnesses and cuts, in the order of the witnesses, with the cuts as ordered sets, which are equal only in the same order: cuts among the witnesses listed in another order raise (`C97_cut_order_refuted`).
* Hab.rotate and Hab.incept swallow MissingSignatureError, also when all keys of the habitat have signed. With a weighted threshold for fewer keys than there are they return normally although nothing is accepted; after a rotation the key store has moved on and the log has not, and the following rotation raises (`C98_short_weights_refuted`, `C98_short_inception_refuted`).
* A next threshold of zero is accepted together with next keys, and no set of signatures meets it: the identifier can never be rotated (`C98_zero_next_refuted`).
* The keys made for a rotation that is refused stay in the key store and are used by the next rotation, whatever number of keys it asks for: after a refused rotation with a smaller number a plain rotation raises, each time (`C99_repeat_refuted`).
* An inception that is refused leaves the first key registered, and with the salty algorithm the corrected call derives the same key and raises (`C99_incept_repeat_refuted`).

Replay of first seen logs
* A delegated event whose anchoring interaction was superseded by a rotation of the delegator stays accepted at nodes that saw the interaction in time and is never accepted by a node that replays the logs later, even with passes over the escrows: the logs of honest nodes differ for good (`C95_delegated_refuted`).
* A controller accepts its own events before its witnesses receipt them; a clone of its log taken then is escrowed by others (`C95_party_refuted`).
* A signature that arrives with an event that goes to an escrow is recorded before it is verified, and cloneEvtMsg sends it on with the verified ones (`C95_unverified_refuted`).
* In cloned mode the first seen dates of the source are taken over for inceptions and rotations; Kever.update does not pass the dater on for interactions, which get the time of the receiver (`C95_dates_refuted`).
* Baser.clean says that it only copies habitats that verified, but it copies the key state records as they are before it tests for them: an own identifier whose event lacks receipts loses its log in the copy, and still counts as verified, with the old key state (`C96_own_refuted`).
* Baser.clean processes the identifiers once in the order of their prefixes and makes no pass over the escrows: a delegated identifier with a prefix before its delegator's loses its log although all that it takes is there (`C96_delegated_refuted`).
* The Kevery of Baser.clean is not in cloned mode: all first seen dates become the time of cleaning (`C96_dates_refuted`).

Structures and blinded states
* Structor.enclose promotes a group of more than 16380 characters to a large count code, and Structor.extract does not know any large code: KeyError (`C94_big_refuted`).
* Structor.extract does not compare the length of the group with its count: a stream cut off between two structures gives a shorter list without notice (`C94_truncated_refuted`).
* The said of a blinded state and of a media value are digests over the same kind of concatenation: one text can be read as either, with the same said (`C92_kinds_refuted`).
* By reading only: unblind ignores `raw=` when no `salt=` is given; it appends the empty value to the lists of its caller; enclose of an empty list fails with AttributeError, as the default clan is a string there.

Native KERI messages
* _dumps skips a seal that Sealer does not know, or cannot express, without any notice: events with different seals get the same serialization and said, and the seals are gone when the event is read (`C87_dropped_seal_refuted`).
* Seals of the same type that follow each other and take more than 4095 quadlets are written with a large count code that _loads does not know: such an event can be made and signed but never read (`C88_many_seals_refuted`).
* Elements of lists of primitives are concatenated without a check, so that a list cut elsewhere has the same serialization (`C88_list_refuted`); a sequence number with leading zeros comes back without them (`C88_leading_zero_refuted`).
* Dater cuts off whatever follows 32 characters (`C89_date_refuted`), Pather turns hyphens of a route without slashes into slashes (`C89_route_refuted`).
* _inhale deletes the message from a binary stream before it converts it to text: it then reads what follows the message instead (`C91_stripped_refuted`, `C91_stream_refuted`).
* By reading only: Serdery.reap refers to `labeler.fullsize`, an attribute that does not exist, for native messages that are field maps.

Native field maps
* Decimer replaces the decimal point only: the plus sign of repr(1e16) = '1e+16' is decoded like a minus sign, so that 1e16 is stored as 1e-16 (`C81_large_float_refuted`).
* A text that as a whole parses as a primitive is replaced by that primitive's text; '+' and '/' are accepted by the Base64 decoder and come back as '-' and '_', with the same SAID (`C82_base64_text_refuted`, `C83_same_said_refuted`).
* The soft part of such a primitive is not checked, so that native text need not be Base64 and has no binary form (`C84_text_not_base64_refuted`).
* The SAID of a map that was read is verified on its own serialization: longer codes than needed and repeated labels are accepted (`C83_octets_refuted`), nested groups may count more than there is (`C85_nested_count_refuted`).
* By reading only: a text with a special code followed by characters outside ASCII raises InvalidCodeSizeError when it is written; a label that ends in a newline passes the pattern for labels and then always fails.

Exchange messages
* An AttributeError raised anywhere inside the verification of a behavior is taken for a missing verification, and the message is saved and handled (`C75_failed_verification_refuted`).
* Signatures of superseded key states are accepted, and for identifiers that are a transferable key a couple with that key is accepted without looking at the log (`C75_superseded_keys_refuted`, `C75_couple_of_transferable_refuted`).
* escrowPSEvent pins the attachments of a message before anything is verified, also when the message is saved already (`C76_attachments_refuted`).
* esigs.rem(dig) names no key of the signature groups and removes nothing: groups of an escrowed delivery, verified or not, stay and make cloneMessage fail and later deliveries of the message wait for ever (`C77_bogus_group_refuted`, `C78_foreign_group_refuted`).
* Stored couples are read back as pairs, of which verify asks the attribute verfer: AttributeError. No message with an unindexed signature can be cloned (`C77_couple_refuted`), also if the couple only came along with groups, where it is not even verified before it is stored (`C77_unverified_couple_refuted`).
* That AttributeError leaves IpexHandler.verify, and Exchanger takes it for a missing method and goes on: an IPEX answer to a message with a couple is saved and handled without verification, whatever its verb and however often (`C80_couple_refuted`); a stranger's answer with a couple to any message lifts the limit of one answer (`C80_couple_answer_refuted`).
* ESSR attachments are not escrowed, so that an ESSR message that has to wait is lost (`C78_essr_refuted`).
* A message already saved is handled again at every delivery (`C79_once_refuted`).
* The verb of the prior is the last part of its normalized route, whatever comes before (`C80_other_route_refuted`), and the last message to name a prior is its answer, whoever sent it and whatever its route (`C80_blocked_refuted`).

ACDC messages
* A section without `d` of its own enters the digested form as it is, nested maps with saids included, so that hiding one of these changes the SAID of the credential (`C72_loose_section_refuted`).
* Aggregate elements without `d` are not bound by the credential's SAID (`C73_unsaided_element_refuted`).
* The SAID shown inside a disclosed section of a credential, and the one at the head of the aggregate of an `agg` message, are never compared with the content (`C74_credential_section_refuted`, `C74_aggregate_message_refuted`).
* (read) makify takes the message type from the given field map (`t`), not from the ilk parameter, when it decides about compacting; with no field map given this is an AttributeError.

Field maps
* A label with a dot above a nested map that has a SAID makes `Compactor.compact` loop for ever (`C68_dotted_label_refuted`).
* An element of an aggregate without `d` contributes null: it is not bound and cannot be hidden (`C70_unsaided_element_refuted`, `C71_unsaided_element_refuted`); `verifyDisclosure([])` raises IndexError (`C70_empty_disclosure_refuted`).
* (read) `mapping.py:631` refers to an unbound `l` (NameError) for a SAID field with a code that is not a digest; leafers and partials are not passed `strict`; blank nested SAIDs follow the code of the top-level one; a top-level `d` that is a map is silently replaced.

Parser and messagize
* `C38_framed_split_refuted`, `C38_bare_groups_refuted`, `C38_bare_message_refuted`, `C38_after_group_refuted` (after a group the generator reads an unframed stream as framed), `C56_loops_refuted` (a malformed counter such as `-A!!` makes `parse` loop for ever), `C56_broken_counter_refuted`, `C57_flush_refuted`, `C57_enclosed_refuted`, `C55_many_signatures_refuted`, `C55_bonds_refuted`, `C55_last_v1_refuted`.
* (read) `framed=True` is the default also for TCP streams; `parsing.py:836` is `svrsn == None`, a comparison; version 1 has no `FixBodyGroup`, which ends in AttributeError; an attachment group inside an attachment group is silently skipped; a generic group whose first message is not enclosed in a group of its own is dropped, because its first bytes are read as a counter (`parsing.py:827`); `NonNativeBodyGroup` ignores its count; queries of version 1 without last signature groups end in KeyError (`parsing.py:1456`); `nest.encode()` in messagize is unused, so nested messages given as str fail.

## 6. Wrong programs

`seeded/LOG.jsonl` records every attempt: the definition edited in a scratch copy,
the edit, the claim it breaks, the theorems that failed and the theorems tightened
because of it. The edits are the kind of slip a maintainer could make (a check
dropped, a comparison off by one, two fields exchanged, a write forgotten, an error
swallowed). Edits that are harmless or corrections are logged as such.

## 7. What `Print Assumptions` lists

The command follows every theorem in the `XProps.v` files. For each of the theorems
below it prints `Closed under the global context`.

| File | Theorems |
|------|----------|
| `AcProps.v` | C72_said_of_compact_form, C72_redaction_accepted_partial, C72_made_same_said, C73_said_binds_partial, C73_json, C74_section_said_partial, C72_loose_section_refuted, C73_unsaided_element_refuted, C74_credential_section_refuted, C74_aggregate_message_refuted |
| `AnProps.v` | C144_back, C144_message, C144_lines, C144_stream_refuted |
| `B64Props.v` | C07_int_round_trip, C07_int_text_length, C07_text_round_trip, C07_rejects_other_text, C07_code_prefix_round_trip, C07_code_binary_value, C07_nab_agrees, C07_zero_length_refuted |
| `BlProps.v` | C03_reread, C92_said_is_digest, C92_layouts, C92_binding, C92_kinds_refuted, C93_blinds, C93_values, C93_unblind_sound, C93_unblind_same, C93_unblind_complete, C93_blind_unblind, C93_unblind_none, C93_unblind_total, C94_encloses, C94_round_trip_partial, C94_binary_round_trip_partial, C94_big_refuted, C94_extract_sound_partial, C94_extract_binary_sound_partial, C94_truncated_refuted, C94_ends |
| `CfProps.v` | C145_back, C145_closed, C145_failed_refuted, C145_crash_refuted, C145_crash_partial, C145_setting |
| `ClProps.v` | C95_all_cloned, C95_signed, C95_replay_partial, C95_resume_partial, C95_dates_partial, C95_delegated_refuted, C95_party_refuted, C95_unverified_refuted, C95_dates_refuted, C96_clean_partial, C96_own_refuted, C96_delegated_refuted, C96_dates_refuted |
| `CoProps.v` | C108_complete_partial, C108_stays, C108_superseded_refuted, C108_witnesses_refuted, C109_anchored, C110_group_partial, C110_elected_partial, C110_twice_refuted, C110_second_refuted, C110_delegator_refuted, C110_crash_refuted, C110_proxy_refuted |
| `CpProps.v` | C67_same_compact_form, C67_same_compact_form_json, C67_compact_verifies, C67_compact_form, C68_ends_partial, C68_dotted_label_refuted, C69_said_binds, C69_json, C69_mapper_binds, C69_made_verifies, C70_disclosure_verifies_partial, C70_unsaided_element_refuted, C70_disclose_verified, C70_empty_disclosure_refuted, C71_aggregate_binds_partial, C71_unsaided_element_refuted |
| `CtrProps.v` | C39_text_round_trip, C39_binary_round_trip, C39_canonical, C39_promotion, C39_code_of_counter, C39_v1_promotion_refuted, C42_enclose_frames, C42_benclose_frames, C42_enclose_total, C42_unaligned, C43_ver_round_trip, C43_ver_exact, C43_genus_version |
| `DbProps.v` | C27_split, C27_order, C27_injective, C28_ordered_sets_partial, C28_extended_key_refuted, C29_ordered_duplicates_partial, C29_repeated_value_refuted, C29_ordinal_refuted, C29_backwards_refuted, C30_ordinals_partial, C30_extended_key_refuted, C30_empty_value_refuted, C31_isolation_partial, C31_ordinal_isolation_partial, C31_duplicates_isolation_partial, C31_extended_key_refuted, C46_history_partial, C46_append_refuted, C46_backwards_refuted, C47_branch |
| `ExProps.v` | C75_saved_signed, C75_handled_signed, C75_announced_signed, C75_every_group, C76_saved_stays, C77_clone_partial, C78_parts_partial, C79_at_most_delivered, C80_answers_partial, C80_one_answer_partial, C80_one_saved_partial, C75_failed_verification_refuted, C75_superseded_keys_refuted, C75_couple_of_transferable_refuted, C76_attachments_refuted, C77_bogus_group_refuted, C77_couple_refuted, C77_unverified_couple_refuted, C78_essr_refuted, C78_foreign_group_refuted, C79_once_refuted, C80_other_route_refuted, C80_blocked_refuted, C80_couple_refuted, C80_couple_answer_refuted |
| `GrProps.v` | C136_spread_partial, C138_report, C138_held, C138_reported_refuted, C137_through_partial, C136_all, C136_late_refuted, C136_catchup, C136_delegated_refuted, C137_silent_refuted, C137_endpoint_refuted, C137_again |
| `HbProps.v` | C97_built_accepted, C97_cut_order_refuted, C98_in_step_partial, C98_incepted, C98_interact, C98_rotate, C98_short_weights_refuted, C98_short_inception_refuted, C98_zero_next_refuted, C99_rotate_refused, C99_repeat_refuted, C99_incept_repeat_refuted |
| `IdxProps.v` | C05_text_round_trip, C05_binary_round_trip, C05_domains_agree, C05_text_prefix_free, C05_text_canonical, C05_accepts, C05_no_truncation, C05_test_codes_refuted, C10_double_count_refuted |
| `KelProps.v` | C14_accepted_signed, C14_log_signed, C15_exposed, C15_log_exposed_partial, C16_chain, C44_readback_partial, C17_append_only, C17_ordinals, C45_once_partial, C18_attaches, C18_first_seen_wins_partial, C19_wellformed, C19_delta_partial, C20_witnessed_partial, C21_sealed_partial, C22_rejected_no_effect_partial, C24_lawful, C24_final_partial, C25_idempotent_partial, C26_reload_partial, C40_no_resurrection_partial, C14_distinct_refuted, C15_superseding_refuted, C44_readback_refuted, C45_twice_refuted, C18_superseded_refuted, C21_undelegated_refuted, C22_refuted, C26_unpinned_refuted, C24_final_refuted, C40_resurrection_refuted, C19_recovery_refuted, C20_distinct_refuted, C25_drt_refuted, C26_cues_refuted |
| `KrProps.v` | C54_authentic, C35_timely, C35_timely_now, C35_once_partial, C54_scope, C54_signed_admitted, C54_sealed_admitted, C35_multikey_replay_refuted, C35_late_completion_refuted, C35_seal_then_sign_refuted, C35_exchange_ahead_refuted, C35_exchange_lag_refuted, C35_clock_back_refuted, C54_double_count_refuted, C54_group_after_interaction_refuted, C35_pruner_ended_refuted, C53_not_wider_at_once, C53_increase_delayed, C53_increase_applied, C53_removed_type_refuted, C53_mixed_change_refuted, C53_removed_while_staged_refuted, C53_stale_increase_refuted, C53_restart_refuted |
| `KsProps.v` | C32_rotation_chain, C32_keys_held, C32_positions, C32_next_position, C32_path_injective, C32_path_collision_refuted, C32_failed_rotate_refuted, C33_keys_survive_partial, C33_other_identifiers, C33_rotate_crash_refuted, C33_hab_crash_refuted, C33_incept_crash_refuted, C33_move_crash_refuted, C50_at_rest, C50_crash_sealed, C50_readable, C50_change_keeps, C50_late_encryption_refuted, C50_ingest_refuted, C50_change_crash_refuted, C50_refused_change_refuted, C50_seed_alone_refuted, C51_refused_restores, C51_retry_same_keys, C51_retry_count_refuted |
| `MatterProps.v` | C01_text_round_trip, C01_constructor_content, C01_text_layout, C02_binary_round_trip, C03_binary_canonical, C03_text_canonical_partial, C03_text_accepted_shape, C03_text_injective_partial, C03_text_canonical_refuted, C03_soft_unchecked_refuted, C04_composability, C41_truncation_partial, C41_truncation_refuted |
| `MbProps.v` | C100_arrival_partial, C100_once_partial, C100_progress_partial, C100_read, C100_wire, C100_half_refuted, C100_removed_refuted, C100_line_refuted, C101_isolation_partial, C101_poison_refuted, C101_topic_name_refuted, C102_handed_partial, C102_crash_refuted, C103_owner_refuted |
| `MkProps.v` | C146_data, C146_fields, C146_recipient_partial, C146_recipient_refuted, C146_digest_refuted |
| `MxProps.v` | C106_approved_partial, C106_content_partial, C106_block_refuted, C106_stranger_refuted, C107_merged_partial, C107_notice_partial, C107_poison_refuted |
| `MzProps.v` | C55_round_trip_partial, C55_stream_partial, C55_many_signatures_refuted, C55_bonds_refuted, C55_last_v1_refuted |
| `NkProps.v` | C86_accepted, C87_said_commits, C87_tamper_evident, C87_dropped_seal_refuted, C88_read_back_partial, C88_of_field_map_partial, C88_reread, C88_injective_partial, C88_leading_zero_refuted, C88_list_refuted, C88_many_seals_refuted, C89_date_round_trip_partial, C89_route_round_trip_partial, C89_date_refuted, C89_route_refuted, C90_reading_ends, C91_binary_partial, C91_stripped_refuted, C91_stream_refuted |
| `NmProps.v` | C81_int_round_trip, C81_int_refused, C81_float_round_trip_partial, C81_large_float_refuted, C82_round_trip_partial, C82_refused_partial, C82_base64_text_refuted, C83_injective_partial, C83_said_binds_partial, C83_same_said_refuted, C83_octets_refuted, C84_binary_partial, C84_text_not_base64_refuted, C85_reading_ends, C85_nested_count_refuted |
| `ObProps.v` | C117_schema, C117_resolved, C117_empty_refuted, C117_alias_refuted, C118_asks, C118_restart, C118_ends_partial, C118_stays_done, C118_retry, C118_kept_partial, C118_lost_refuted, C118_dropped_refuted, C118_again_refuted, C118_silent_refuted, C118_mismatch_refuted, C118_unmatched_refuted, C118_separator_refuted, C118_poison_refuted, C119_confirmed, C119_success_refuted, C119_dot_refuted, C119_client_refuted |
| `OgProps.v` | C113_read_partial, C113_list_partial, C113_find_partial, C113_dot_refuted, C113_id_refuted, C113_value_refuted, C113_begins_refuted, C113_blank_refuted, C114_genuine, C114_swap_refuted, C114_list_refuted, C114_others, C114_heals, C114_crash_refuted, C114_lost_refuted, C115_notes, C115_pages, C115_range_refuted, C116_add, C116_others, C116_rem_refuted, C116_mark_refuted, C116_stuck_refuted |
| `OoProps.v` | C23_converges_partial, C23_any_order_partial, C23_initial_part_partial, C23_late_refuted, C23_redelivery_refuted |
| `PsProps.v` | C38_chunks_partial, C38_framed_partial, C38_framed_split_refuted, C38_bare_groups_refuted, C38_bare_message_refuted, C57_flush_refuted, C57_enclosed_refuted, C57_recovers_partial, C57_group_partial, C38_bare_before_group_partial, C38_after_group_refuted, C56_ends_partial, C56_broken_counter_refuted, C56_loops_refuted |
| `QnProps.v` | C141_seqno, C141_anchor, C141_notice_partial, C141_cues, C141_digest_refuted, C141_second_refuted, C142_seqno_partial, C142_unknown_refuted, C142_dropped_refuted, C141_ends |
| `QyProps.v` | C123_answers, C123_unsigned_refuted, C124_prompt_partial, C124_waits_partial, C124_done_partial, C124_expires, C124_nontrans_refuted, C124_nontrans_early_refuted, C124_beyond_refuted, C124_receipts_refuted, C124_again_refuted, C125_verifies_partial, C125_resume_partial, C125_nested_refuted, C125_boss_refuted |
| `RcProps.v` | C58_receipts_are_genuine, C58_trans_signed_partial, C58_trans_receipts_are_genuine_partial, C58_misfiled_refuted, C58_unaccepted_refuted, C58_witness_index_refuted, C59_receipt_changes_no_log, C59_logs_signed_with_receipts, C59_append_only_with_receipts, C60_own_receipts_partial, C60_escrowed_refuted, C61_early_receipt_kept_partial, C61_early_trans_receipt_kept_partial, C61_rotation_refuted, C61_superseded_refuted, C61_witness_signature_refuted, C61_last_event_groups_refuted |
| `RgProps.v` | C129_complete_partial, C129_own_partial, C129_credential, C129_early_refuted, C130_progress_partial, C130_group_partial, C130_log_partial, C130_kept_partial, C130_crash_refuted, C130_restart_refuted, C130_down_refuted, C130_forgotten_refuted, C131_single_partial, C131_group_partial, C131_origin, C131_between_refuted |
| `RpProps.v` | C52_authentic, C52_sweep, C52_one_delivery, C52_newer_single_recorded, C52_newer_state_recorded, C34_no_rollback_partial, C52_key_state_notice, C34_rollback_after_timeout_refuted, C34_rollback_by_stranger_refuted, C34_rollback_single_as_group_refuted, C34_rollback_bad_group_refuted, C34_rollback_trim_refuted, C34_rollback_resigned_refuted, C34_superseded_keys_refuted, C34_key_state_rollback_refuted |
| `SerProps.v` | C37_accepted, C37_said_commits, C37_tamper_evident, C09_accepted_size, C09_made_size, C37_made_verifies, C37_read_back, C37_reread, C37_saidify_verifies, C37_saider_binds, C49_inception_binds, C49_prefix_commits, C49_nontransferable, C37_nondigest_said_refuted, C49_signature_prefix_refuted, C37_prefix_code_refuted |
| `SgProps.v` | C111_round_trip_partial, C111_merge, C111_kinds, C111_same_refuted, C111_text_refuted, C111_empty_refuted, C112_signed, C112_goes_partial, C112_threshold_refuted, C112_raises_refuted |
| `SqProps.v` | C139_once, C139_origin, C139_pushed, C139_kept_partial, C139_read, C139_newest, C139_order_partial, C139_topic_refuted, C139_order_refuted, C140_pass_partial, C140_disturbed_refuted, C140_replaced_refuted |
| `SubsProps.v` | C06_number_round_trip, C06_number_range, C06_number_smallest, C06_huge_round_trip, C06_onkey_sorts, C06_huge_sorts_refuted, C08_tag_round_trip, C08_tag_rejects, C08_bext_round_trip, C08_bext_unescaped_partial, C08_bext_unescaped_refuted, C08_bext_rejects |
| `ThProps.v` | C13_default_quorum, C13_given_quorum, C13_no_witness, C11_numeric, C11_weighted, C11_empty, C11_monotone, C11_set_only, C11_satisfiable, C11_monotone_refuted, C12_limen_round_trip, C12_sith_round_trip, C12_thold_kept, C12_out_of_range_refuted, C10_verified, C10_returned, C10_weighted_distinct, C10_numeric_distinct_partial, C10_none_verified |
| `TlProps.v` | C36_anchored, C36_one_controller, C36_log_shape, C36_append_only, C36_stored, C36_revoked_final, C36_issued_once, C36_revoked_meaning, C36_revoked_by_issuer_partial, C36_backed_partial, C36_rotation_backed, C36_registry_survives_restart, C36_registry_opens, C36_issue_accepted, C36_revoke_accepted, C36_waits_for_anchor_partial, C36_foreign_revocation_refuted, C36_foreign_issuance_refuted, C36_registry_log_polluted_refuted, C36_revoked_twice_refuted, C36_rotation_lost_refuted, C36_unaccepted_rotation_refuted, C36_no_signature_refuted, C36_backer_counted_twice_refuted, C36_escrow_doubles_refuted, C36_waiting_event_dropped_refuted, C36_wrong_anchor_kept_refuted, C36_partially_backed_stuck_refuted, C36_two_seals_refuted |
| `TmProps.v` | C147_tcp_partial, C147_tcp_refuted, C147_http, C147_publisher_partial, C147_publisher_refuted |
| `TsProps.v` | C120_recorded_partial, C120_source_refuted, C121_registry_partial, C121_credential_refuted, C121_route_refuted, C122_prompt_partial, C122_escrowed_partial, C122_waits_partial, C122_recorded_partial, C122_old_refuted, C122_dots_refuted, C122_left_refuted, C122_query_refuted |
| `VcProps.v` | C62_saved_grounded, C62_saved_kept, C62_variant_refuted, C62_hidden_issuee_refuted, C63_issued_somewhere_partial, C63_issuer_refuted, C63_registry_refuted, C64_supplied_are_saved, C64_escrows_run_to_end, C64_private_edges_refuted, C65_anchor_sent_partial, C65_anchor_changed_refuted, C66_indexes_exact |
| `VerProps.v` | C09_round_trip, C09_canonical, C09_never_misread, C09_smell, C09_smell_sound, C09_smell_stable, C48_sniff_total, C48_messages, C48_counters |
| `WaProps.v` | C126_report, C126_members, C126_returns_partial, C126_heights_refuted, C126_fork_behind_refuted, C126_silent_refuted, C126_few_refuted, C127_said_partial, C127_update_partial, C127_duplicity_partial, C127_shared_refuted, C127_late_fork_refuted, C128_all_partial, C128_drained_partial, C128_stop_refuted |
| `WbProps.v` | C104_single, C104_sets_partial, C104_ordinals_partial, C104_nsets_partial, C104_empty_key_refuted, C104_empty_value_refuted, C104_backwards_refuted, C104_extended_key_refuted, C105_flush_partial, C105_crash_partial, C105_append_refuted, C105_removal_refuted, C105_clear_refuted, C105_atomic_refuted |
| `WnProps.v` | C132_origin_partial, C132_cues_partial, C132_answer, C132_accepted_partial, C132_unknown, C132_post_refuted, C133_rotation_partial, C133_post_refuted, C134_number_partial, C134_found, C134_said_refuted, C134_escrow_refuted, C134_witness, C135_cued_partial, C135_receipted_partial, C135_handled, C135_restart_refuted |
| `WxProps.v` | C143_order_partial, C143_order_refuted, C143_submitted, C143_cued_partial, C143_cued_refuted, C143_missing_refuted, C143_again_partial, C143_queue_partial, C143_queue_refuted |
