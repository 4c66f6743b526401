{"id": "C01", "title": "Qualified primitive text round trip", "statement": "Any primitive built from a (code, raw) pair that Matter accepts has a text form .qb64 of exactly the size declared for its code, and reading that text back, even with arbitrary bytes following it in the stream, yields the same code, soft part and raw value and consumes exactly that many characters.", "quantifier": "every code in the Matter size table, every raw byte string, every variable size, every following stream content", "why_tests_cant": "raw values range over unbounded byte strings and the pad/lead arithmetic depends on length mod 3; tests sample a few raws per code", "anchors": ["src/keri/core/coring.py:Matter.__init__,_infil,_exfil", "src/keri/help/helping.py:intToB64,b64ToInt"]}
{"id": "C02", "title": "Qualified primitive binary round trip and text/binary agreement", "statement": "For every primitive, the binary form .qb2 is the Base64 decoding of .qb64, reading .qb2 back (with any trailing bytes) yields the same code and raw, and len(qb64)*3 = len(qb2)*4.", "quantifier": "every code in the Matter size table, every raw byte string and trailing stream", "why_tests_cant": "same unbounded domain as C01, with separate bit-shift code paths for text and binary", "anchors": ["src/keri/core/coring.py:Matter._binfil,_bexfil", "src/keri/help/helping.py:codeB64ToB2,codeB2ToB64,nabSextets"]}
{"id": "C03", "title": "Accepted text primitives are canonical", "statement": "If Matter(qb64=t) is accepted, re-encoding the resulting primitive gives back the consumed characters of t: two different texts never decode to the same primitive.", "quantifier": "every character string t", "why_tests_cant": "needs a statement about all strings including adversarial ones (non zero pad bits, non zero lead bytes, alternate alphabet characters)", "anchors": ["src/keri/core/coring.py:Matter._exfil,_infil"]}
{"id": "C04", "title": "Text/binary composability of primitive streams", "statement": "Concatenating the text forms of any sequence of primitives and converting en bloc to binary equals concatenating their binary forms, and vice versa; the concatenated text parses back into exactly that sequence.", "quantifier": "every finite list of primitives", "why_tests_cant": "quantifies over unbounded sequences", "anchors": ["src/keri/core/coring.py:Matter", "src/keri/help/helping.py:codeB64ToB2"]}
{"id": "C05", "title": "Indexed signature round trip", "statement": "For every signature code (the test entries 0z, 1z and 4z excluded) an indexed signature built from (code, raw, index, ondex) that Indexer accepts reads back from its text and its binary form with the same code, index, ondex and raw, with any trailing stream, consuming exactly its declared size.", "quantifier": "every code in the Indexer size table, every raw, every index and ondex", "why_tests_cant": "indices range over 64^ms values per code and raws are arbitrary", "anchors": ["src/keri/core/indexing.py:Indexer.__init__,_infil,_binfil,_exfil,_bexfil"]}
{"id": "C06", "title": "Ordinal encoding is invertible and order preserving", "statement": "Number/Seqner encodings (num hex, huge, short..) recover the exact integer, reject integers out of range, pick the smallest code able to hold the value, and the fixed width forms used as database keys sort lexicographically exactly as the integers sort numerically.", "quantifier": "every non-negative integer up to 2^128-1 and every pair of them", "why_tests_cant": "2^128 values", "anchors": ["src/keri/core/coring.py:Number,Seqner", "src/keri/db/dbing.py:onKey,snKey,splitOnKey"]}
{"id": "C07", "title": "Base64 integer and code conversions are mutually inverse", "statement": "b64ToInt(intToB64(i, l)) = i for all i and l >= 1, the text has length max(l, number of base 64 digits), intToB64(b64ToInt(s), len(s)) = s, codeB2ToB64(codeB64ToB2(s), len(s)) = s and nabSextets agrees with codeB64ToB2 on the prefix.", "quantifier": "every non-negative integer, every length, every Base64 string", "why_tests_cant": "unbounded integers and strings", "anchors": ["src/keri/help/helping.py:intToB64,intToB64b,b64ToInt,codeB64ToB2,codeB2ToB64,nabSextets"]}
{"id": "C08", "title": "Bext and tag conversions are lossless", "statement": "Encoding a Base64-safe string as StrB64 (Bexter, default escaping) or as a Tag (Tagger) and decoding gives back the same string.", "quantifier": "every string over the Base64 alphabet", "why_tests_cant": "unbounded strings; mid-pad handling depends on length mod 4 and on leading characters", "anchors": ["src/keri/core/coring.py:Bexter._rawify,_derawify,Tagger"]}
{"id": "C09", "title": "Version string round trip and size field integrity", "statement": "deversify(versify(proto,pvrsn,kind,size,gvrsn)) returns the same values for every size that fits the field; a version string is only recognised if it has the exact layout for its major version; the size field written by serialization equals the serialized length.", "quantifier": "every protocol, version, kind and size, every candidate byte string", "why_tests_cant": "2^24 / 64^4 sizes and arbitrary candidate strings", "anchors": ["src/keri/kering.py:versify,deversify,rematch,smell", "src/keri/core/serdering.py:Serder"]}
{"id": "C10", "title": "Signing thresholds count distinct keys", "statement": "An integer threshold of k is satisfied only if valid signatures by at least k distinct keys of the event's key list are attached.", "quantifier": "every threshold, key list and attached list of indexed signatures, including repeated or re-coded signatures", "why_tests_cant": "attachment lists are attacker controlled and unbounded", "anchors": ["src/keri/core/eventing.py:verifySigs,validateSigs", "src/keri/core/coring.py:Tholder._satisfy_numeric"]}
{"id": "C11", "title": "Weighted thresholds are exactly AND-of-clauses of fractional sums", "statement": "A weighted threshold is satisfied by a set of key indices iff in every clause the weights at the satisfied positions sum to at least one; the answer does not depend on order or repetition of indices and never flips to false when further valid indices are added; nested weights count once when their own inner sum reaches one.", "quantifier": "every weighted threshold expression (flat and nested), every list of indices", "why_tests_cant": "unbounded clause structures with exact rational arithmetic", "anchors": ["src/keri/core/coring.py:Tholder._process,_satisfy_weighted"]}
{"id": "C12", "title": "Threshold expression round trip", "statement": "The sith, limen and thold representations of a signing threshold describe the same threshold: building a Tholder from any of the representations emitted by another Tholder gives one satisfied by the same index sets.", "quantifier": "every valid threshold expression", "why_tests_cant": "unbounded expressions; the limen form goes through Bext text with custom separators", "anchors": ["src/keri/core/coring.py:Tholder._process,limen,sith,_oldsatisfy"]}
{"id": "C13", "title": "Ample witness threshold guarantees overlap", "statement": "For n witnesses ample(n) returns a threshold m such that any two sets of m witnesses overlap in more than f faulty witnesses where n >= 3f+1 and m <= n - f, so two honest-quorum receipts of conflicting events cannot both exist.", "quantifier": "every number of witnesses n (and every explicit fault bound f)", "why_tests_cant": "all n", "anchors": ["src/keri/core/eventing.py:ample"]}
{"id": "C14", "title": "Accepted events are signed by the required keys", "statement": "Whenever an event enters an AID's accepted log, the attached signatures included verified signatures by the controlling keys satisfying the signing threshold in force (the event's own keys and threshold for establishment events, the current keys for interactions).", "quantifier": "every message sequence in any order with any attachments", "why_tests_cant": "acceptance must be impossible along every path including escrow reprocessing", "anchors": ["src/keri/core/eventing.py:Kever.incept,update,valSigsWigsDel", "Kevery.processEvent,processEscrows"]}
{"id": "C15", "title": "Pre-rotation commitment is enforced", "statement": "A rotation is accepted only if verified signatures by keys whose digests were committed in the prior establishment event satisfy the prior next threshold.", "quantifier": "every reachable key state and every rotation message", "why_tests_cant": "adversarial choice of new keys, order and ondex values", "anchors": ["src/keri/core/eventing.py:Kever.rotate,exposeds,valSigsWigsDel"]}
{"id": "C16", "title": "Accepted log is a hash chain with consecutive sequence numbers", "statement": "The current key state's event is reached from the inception by following prior digests, each step decreasing sn by exactly one; sn of the state equals the sn of its last event.", "quantifier": "every history of processed messages", "why_tests_cant": "induction over unbounded histories including recovery", "anchors": ["src/keri/core/eventing.py:Kever.update,rotate,logEvent"]}
{"id": "C17", "title": "First-seen log is append only, gapless and never revised", "statement": "Once an event is given first-seen ordinal n for an AID, that entry never changes or disappears, ordinals are consecutive from 0, and the recorded ordinal/date of an event is written once per acceptance.", "quantifier": "every history of processed messages and escrow passes", "why_tests_cant": "unbounded histories", "anchors": ["src/keri/core/eventing.py:Kever.logEvent", "src/keri/db/basing.py:Baser.fels,fons,dtss"]}
{"id": "C18", "title": "First seen wins: superseding only by a legal recovery rotation", "statement": "Two different events at the same sequence number are both accepted only if the later one is a rotation recovering from interaction events (or a delegated superseding rotation); an accepted rotation or inception is never superseded by a non-delegated event, and nothing at or before the last establishment event changes.", "quantifier": "every history and adversarial event order", "why_tests_cant": "depends on the arrival order of arbitrarily many conflicting events", "anchors": ["src/keri/core/eventing.py:Kever.update,rotate", "Kevery.processEvent"]}
{"id": "C19", "title": "Witness list and threshold are well formed in every key state", "statement": "In every key state the witness list has no duplicates, equals the prior list minus cuts plus adds, and the witness threshold lies in 1..n (or is 0 when there are no witnesses).", "quantifier": "every reachable key state", "why_tests_cant": "induction over unbounded rotations", "anchors": ["src/keri/core/eventing.py:Kever.incept,deriveBacks,rotate"]}
{"id": "C20", "title": "Witness threshold counts distinct witnesses", "statement": "An event is accepted by a non-witness, non-controller node only if at least toad distinct witnesses of the event's witness list have valid signatures attached.", "quantifier": "every history and adversarial attachments", "why_tests_cant": "attachments are attacker controlled", "anchors": ["src/keri/core/eventing.py:Kever.valSigsWigsDel", "verifySigs"]}
{"id": "C21", "title": "Delegated establishment events need the delegator's anchoring seal", "statement": "A delegated inception or rotation is accepted by a non-delegator only if an accepted event in the delegator's log carries a seal with the delegated event's pre, sn and said.", "quantifier": "every history of both logs in any order", "why_tests_cant": "interaction of two unbounded logs", "anchors": ["src/keri/core/eventing.py:Kever.validateDelegation,fetchDelegatingEvent"]}
{"id": "C22", "title": "Rejected and escrowed events do not alter accepted state", "statement": "Processing an event that raises (invalid, out of order, partially signed, partially witnessed, undelegated, stale) leaves every key state, accepted log and first-seen log unchanged.", "quantifier": "every reachable state and every message", "why_tests_cant": "every error path of the acceptance procedure", "anchors": ["src/keri/core/eventing.py:Kevery.processEvent", "Kever.escrow*"]}
{"id": "C23", "title": "Out of order arrival converges", "statement": "Delivering a complete, valid log in any order, followed by enough escrow passes, produces the same key state as in-order delivery.", "quantifier": "every permutation of every valid log", "why_tests_cant": "n! schedules for unbounded n", "anchors": ["src/keri/core/eventing.py:Kevery.processEscrowOutOfOrders,processEvent"]}
{"id": "C24", "title": "Configuration traits and non-transferability are enforced for ever", "statement": "After an inception with establishment-only trait no interaction event is ever accepted; an AID whose state is non-transferable (no next keys) never accepts another event; a do-not-delegate delegator is never accepted as anchoring.", "quantifier": "every history", "why_tests_cant": "unbounded histories", "anchors": ["src/keri/core/eventing.py:Kever.update,incept,validateDelegation"]}
{"id": "C25", "title": "Duplicates are idempotent", "statement": "Re-processing an already accepted event (not escrowed, same said) changes neither key state nor first-seen log.", "quantifier": "every reachable state, every already accepted event", "why_tests_cant": "unbounded histories", "anchors": ["src/keri/core/eventing.py:Kevery.processEvent"]}
{"id": "C26", "title": "Key state survives reload", "statement": "Persisting the key state record and reloading it from the database yields a key state indistinguishable from the in-memory one for all subsequent processing.", "quantifier": "every reachable key state (crash/restart at any message boundary)", "why_tests_cant": "all states and continuations", "anchors": ["src/keri/core/eventing.py:Kever.state,reload", "src/keri/db/basing.py:Baser.reload"]}
{"id": "C27", "title": "Ordinal keys sort and split correctly", "statement": "splitOnKey(onKey(k,n)) = (k,n) and for a fixed k, onKey(k,n) < onKey(k,m) iff n < m; keys of different k never collide.", "quantifier": "every key, every ordinal up to 2^128-1", "why_tests_cant": "2^128 ordinals, arbitrary keys containing separators", "anchors": ["src/keri/db/dbing.py:onKey,splitOnKey,suffix,unsuffix,dgKey,splitKey"]}
{"id": "C28", "title": "Insertion ordered sets behave as ordered sets", "statement": "After any sequence of put/add/pin/remove operations at a key, reading the key returns the values added and not since removed, each once, in the order of their (re)insertion; last returns the final one; count is their number.", "quantifier": "every sequence of operations, values and keys", "why_tests_cant": "unbounded op sequences over a sorted byte store with hidden ordinal suffixes", "anchors": ["src/keri/db/dbing.py:LMDBer.putIoSetVals,addIoSetVal,pinIoSetVals,remIoSet,remIoSetVal,getIoSetItemIter", "src/keri/db/subing.py:IoSetSuber"]}
{"id": "C29", "title": "Insertion ordered duplicates behave as ordered sets", "statement": "Same as C28 for the dupsort based IoDup store with value proems.", "quantifier": "every sequence of operations, values and keys", "why_tests_cant": "unbounded op sequences", "anchors": ["src/keri/db/dbing.py:LMDBer.putIoDupVals,addIoDupVal,delIoDupVal,getIoDupVals,getIoDupValLast", "src/keri/db/subing.py:IoDupSuber"]}
{"id": "C30", "title": "Append gives the next ordinal", "statement": "appendOnVal stores at one plus the largest ordinal in use at the key (0 if none), never overwriting, and reading back all ordinals at the key returns the values in ordinal order.", "quantifier": "every sequence of appends, puts and removes at any keys", "why_tests_cant": "unbounded op sequences; cursor edge cases at ends of the store and neighbouring keys", "anchors": ["src/keri/db/dbing.py:LMDBer.appendOnVal,putOnVal,remOn,getOnAllItemIter"]}
{"id": "C31", "title": "Operations at one key never touch another key", "statement": "Every database operation at key k leaves all values at every other apparent key unchanged.", "quantifier": "every store, every pair of different keys", "why_tests_cant": "arbitrary keys, including keys that are extensions of each other", "anchors": ["src/keri/db/dbing.py:LMDBer"]}
{"id": "C32", "title": "Key manager rotation discipline", "statement": "After incept and any number of rotates, the keys returned as current by a rotation are exactly those whose digests were published as next by the previous call; private keys for current and next positions are held; no key position index is reused.", "quantifier": "every sequence of incept/rotate/replay calls with any counts and salts", "why_tests_cant": "unbounded sequences", "anchors": ["src/keri/app/keeping.py:Manager.incept,rotate,move"]}
{"id": "C33", "title": "Key manager crash safety", "statement": "If the process dies between any two database writes of incept or rotate, on restart the manager can still sign for the published current keys and can still rotate to the published next keys.", "quantifier": "every crash point of every operation in every history", "why_tests_cant": "crash points multiply with histories", "anchors": ["src/keri/app/keeping.py:Manager.incept,rotate"]}
{"id": "C34", "title": "Best-available-data replies are monotone", "statement": "An accepted reply for a route and AID is only ever replaced by a validly signed reply by the same AID that is later (by key state sn, then date time); replaying an older reply never rolls back the data, in any order of delivery.", "quantifier": "every sequence of replies and signatures in any order", "why_tests_cant": "all orders of unbounded message sets", "anchors": ["src/keri/core/routing.py:Revery.processReply,acceptReply,updateReply,removeReply,escrowReply,processEscrowReply", "src/keri/core/eventing.py:Kevery.processReplyEndRole,processReplyLocScheme,processReplyAddWatched,processReplyKeyStateNotice"]}
{"id": "C35", "title": "Replay and timeliness of KRAM protected messages", "statement": "A message admitted by KRAM is never admitted a second time, and messages with a date time outside the configured window are never admitted.", "quantifier": "every sequence of messages and clock values, including cache pruning at any point", "why_tests_cant": "schedules of pruning versus arrival", "anchors": ["src/keri/core/kraming.py:Kramer"]}
{"id": "C36", "title": "Transaction event log integrity", "statement": "In a credential registry, a credential is issued at most once, a revocation only follows its issuance, is final, and each accepted event is anchored in the issuer's key event log with matching seal.", "quantifier": "every sequence of TEL events in any order", "why_tests_cant": "unbounded histories with anchors", "anchors": ["src/keri/vdr/eventing.py:Tever,Tevery"]}
{"id": "C37", "title": "Self addressing identifiers are verified over the exact content", "statement": "A serialization accepted with verification has a said equal to the digest of the same serialization with its said fields replaced by dummy characters; changing any other byte breaks verification unless a digest collision occurs.", "quantifier": "every message content", "why_tests_cant": "unbounded content", "anchors": ["src/keri/core/coring.py:Saider", "src/keri/core/serdering.py:Serder.verify,_verify,makify"]}
{"id": "C38", "title": "Stream framing independence", "statement": "Parsing a byte stream of messages with attachments yields the same sequence of extracted messages however the stream is split into chunks.", "quantifier": "every stream and every chunking", "why_tests_cant": "exponentially many chunkings", "anchors": ["src/keri/core/parsing.py:Parser.msgParsator,extract", "src/keri/core/counting.py:Counter"]}
{"id": "C39", "title": "Count code round trip", "statement": "Every counter built from (code, count) reads back from text and binary with the same code and count, and counts above the small-code capacity are promoted to the big code or rejected.", "quantifier": "every counter code, every count", "why_tests_cant": "64^5 counts, two versions of tables", "anchors": ["src/keri/core/counting.py:Counter"]}
{"id": "C40", "title": "Superseding recovery does not resurrect old keys", "statement": "After a recovery rotation at sn k, no event signed only by the superseded interaction branch can extend the log; subsequent events must chain from the rotation.", "quantifier": "every history", "why_tests_cant": "unbounded histories", "anchors": ["src/keri/core/eventing.py:Kever.update,rotate,Kevery.processEvent"]}
{"id": "C41", "title": "Truncated primitives are reported, never misread", "statement": "Reading any proper prefix of a primitive's text never yields a primitive, and is reported as a shortage of stream bytes so that the caller waits for more.", "quantifier": "every primitive and every truncation point", "why_tests_cant": "every length of every code, including cuts inside the code itself", "anchors": ["src/keri/core/coring.py:Matter._exfil"]}
{"id": "C42", "title": "Enclosing a stream in a group counter frames it exactly", "statement": "Counter.enclose puts in front of a stream a counter which, when read, gives exactly the length of the enclosed stream, so that the enclosed stream can be split off from whatever follows; streams that are not 24 bit aligned are refused; every aligned stream of less than 4*64^5 characters can be enclosed. Same for the binary domain.", "quantifier": "every stream, every group code, every following stream", "why_tests_cant": "lengths and contents are unbounded; promotion to the big code happens at 16384 characters", "anchors": ["src/keri/core/counting.py:Counter.enclose,byteCount"]}
{"id": "C43", "title": "Genus version code round trip", "statement": "Every protocol genus version (major below 64, minor below 4096) converts to three Base64 characters and back unchanged; the genus version counter of a supported version reads back as that version.", "quantifier": "every version", "why_tests_cant": "262144 versions", "anchors": ["src/keri/core/counting.py:Counter.verToB64,b64ToVer,makeGVC"]}
{"id": "C44", "title": "Accepted log reads back", "statement": "Reading the last stored event at each sequence number from 0 to the current one returns exactly the hash chain that leads to the current key state, including after superseding recoveries.", "quantifier": "every history of processed messages, every sequence number", "why_tests_cant": "Requires relating the per sequence number store to the key state after arbitrary interleavings of recoveries; tests read back a few fixed logs.", "anchors": ["src/keri/db/basing.py:Baser.kels", "src/keri/core/eventing.py:Kever.logEvent", "src/keri/core/eventing.py:Kever.rotate"]}
{"id": "C45", "title": "No event is first seen twice", "statement": "An accepted event never receives a second first-seen ordinal.", "quantifier": "every history, including redelivery of superseded events", "why_tests_cant": "Needs all redelivery orders of all accepted and superseded events.", "anchors": ["src/keri/core/eventing.py:Kever.logEvent", "src/keri/core/eventing.py:Kevery.processEvent", "src/keri/db/basing.py:Baser.fels"]}
{"id": "C46", "title": "Ordered sets by ordinal", "statement": "Ordinal numbered ordered sets: adding puts a value last in the set at (key, ordinal) unless it is there, append creates the set at the ordinal after the last one in use, removal removes exactly the values named; reading all, last ones, and both backwards yields exactly the stored values in ordinal and insertion order, starting at the ordinal asked for.", "quantifier": "every history of operations on any keys and ordinals", "why_tests_cant": "Cursor arithmetic over neighbouring keys and two nested ordinal suffixes; unit tests use two or three keys.", "anchors": ["src/keri/db/dbing.py:LMDBer.putOnIoSetVals,addOnIoSetVal,appendOnIoSetVals,remOnAllIoSet,getOnAllIoSetItemIter,getOnAllIoSetLastItemIter,getOnAllIoSetItemBackIter,getOnAllIoSetLastItemBackIter", "src/keri/db/subing.py:OnIoSetSuber"]}
{"id": "C47", "title": "Branch operations select exactly the keys with the prefix", "statement": "Iterating, counting and deleting a branch of the database concerns exactly the entries whose key starts with the given bytes, wherever they lie in the database; delete reports whether there were any.", "quantifier": "every database content, every prefix", "why_tests_cant": "Depends on cursor positions in a sorted store of any content.", "anchors": ["src/keri/db/dbing.py:LMDBer.getTopItemIter,cntTop,remTop", "src/keri/db/subing.py:SuberBase.getTopItemIter,trim"]}
{"id": "C48", "title": "Cold start tells the encodings apart", "statement": "Looking at the first byte of a stream, sniff always gives one of the four statuses; JSON, CBOR and MGPK maps are reported as messages, every count code in text form as text and every count code in binary form as binary, whatever follows.", "quantifier": "every first byte, every counter, every following stream", "why_tests_cant": "all counters and streams", "anchors": ["src/keri/kering.py:sniff,ColdDex", "src/keri/core/counting.py:Counter"]}
{"id": "C49", "title": "Identifiers are self certifying", "statement": "An inception accepted with verification has an identifier that is the digest of the inception's own content, or is its only key under a threshold of one; delegated inceptions always have digest identifiers; an identifier with a non transferable code is only accepted in events without next keys, witnesses and seals; two accepted inceptions of one digest identifier have the same content unless a digest collides.", "quantifier": "every byte string offered as inception, every digest function, every key and threshold field", "why_tests_cant": "An attacker chooses the bytes; the claim is about all of them and all digest values", "anchors": ["src/keri/core/serdering.py:SerderKERI._verify", "src/keri/core/serdering.py:Serder._verify"]}
{"id": "C50", "title": "Secrets are encrypted at rest", "statement": "In a key store created with an authentication identifier every stored private key and salt is encrypted for the current authentication identifier at all times, also if the process dies in the middle of a call, and remains usable with the matching seed; changing the identifier keeps every key.", "quantifier": "all histories of calls, failures, crash points, restarts and changes of the authentication identifier", "why_tests_cant": "a test inspects the store after a few chosen calls; a plaintext key left by one failing call or crash point goes unnoticed", "anchors": ["src/keri/app/keeping.py Manager.updateAeid, setup, incept, rotate, ingest", "src/keri/core/signing.py Encrypter, Decrypter", "src/keri/db/subing.py CryptSignerSuber"]}
{"id": "C51", "title": "A refused rotation can be retried", "statement": "If the event made by a rotation of a local identifier is refused, the key positions of all identifiers and all private keys are as before, and a later attempt proposes the same current keys and the same next keys.", "quantifier": "all states of the key manager reachable by any history, all parameters of both attempts, any validation outcome", "why_tests_cant": "tests exercise one refusal; the claim ranges over all states and parameters", "anchors": ["src/keri/app/habbing.py Hab.rotate", "src/keri/app/keeping.py Manager.replay, rotate"]}
{"id": "C52", "title": "Recorded replies are authentic, newer ones are recorded", "statement": "Every role authorization, location, watched identifier or key state notice a receiver has recorded is what some received reply with a matching said says, signed by the identifier it speaks for (a nontransferable key, or signatures reaching the threshold of one of its establishment events); and a correctly signed reply newer than the recorded one is recorded.", "quantifier": "every sequence of replies, attachments, key states and escrow sweeps, with any signatures, good or bad", "why_tests_cant": "forged, partial and reordered attachments over unbounded histories", "anchors": ["src/keri/core/routing.py:Revery.processReply,acceptReply,processEscrowReply", "src/keri/core/eventing.py:Kevery.processReplyEndRole,processReplyLocScheme,processReplyAddWatched,processReplyKeyStateNotice"]}
{"id": "C53", "title": "Configuration changes of the request window do not open replay windows", "statement": "Changing the configured lags of a message type never widens what is admitted at once; a wider window takes effect only after the increase has passed, and then exactly as configured; no change makes an already admitted message admissible again.", "quantifier": "every old and new configuration, every time of change, every sequence of changes, restarts and messages", "why_tests_cant": "the staging arithmetic interacts with pruning over arbitrary lags and times", "anchors": ["src/keri/core/kraming.py:Kramer.changeConfig,reconcileConfig,_loadConfig"]}
{"id": "C54", "title": "Admitted requests are authentic, timely signed ones are admitted", "statement": "Every message admitted by KRAM is sealed by an event of its sender's log, or signed by its nontransferable sender, or signed by its sender's current keys up to their threshold, with signatures that arrived with copies of the message; and a fresh message inside its window that is sealed or fully signed is admitted.", "quantifier": "every sequence of deliveries with any attachments, prunings and configuration changes", "why_tests_cant": "forged, partial and repeated attachments over unbounded histories", "anchors": ["src/keri/core/kraming.py:Kramer.kramit,_verifySignatures,_validateSenderSeal"]}
{"id": "C55", "title": "Messages travel with their attachments", "statement": "Whatever messagize writes for a message and its signatures, receipts, seals and nested messages, a parser reading it hands over exactly this message with exactly these attachments, each in its place and in order, once, and is left ready for the next message; a stream of such messages gives them all, however it is cut into chunks.", "quantifier": "every message body, every list of attachments of each kind, every nesting of messages, both protocol versions, every framing option, every chunking", "why_tests_cant": "all combinations and sizes of attachment groups (with the change to big group codes), nesting to any depth, every cutting of the stream", "anchors": ["src/keri/core/eventing.py:messagize", "src/keri/core/parsing.py:Parser.msgParsator,_extractor", "src/keri/core/structing.py:Structor.enclose"]}
{"id": "C56", "title": "Parsing a buffer comes to an end", "statement": "Parser.parse on any byte string returns after finitely many steps with the byte string used up, whatever the bytes are.", "quantifier": "every byte string, every start version", "why_tests_cant": "unbounded inputs, most of them malformed; a hang is not observable by a finite test", "anchors": ["src/keri/core/parsing.py:Parser.parse,allParsator,groupParsator,msgParsator"]}
{"id": "C57", "title": "Errors are contained", "statement": "A malformed or unverifiable message does not keep the messages that come before or after it from being extracted, whatever is wrong with it.", "quantifier": "every malformed message, every stream of messages around it", "why_tests_cant": "unbounded malformed inputs and contexts", "anchors": ["src/keri/core/parsing.py:Parser.parsator,groupParsator,msgParsator"]}
{"id": "C58", "title": "Receipts on record are genuine", "statement": "Every receipt a node has on record for an event is a signature on that very event by the receiptor it names: by the non transferable key itself, or by a key of the accepted establishment event named in the receipt.", "quantifier": "every sequence of events with attached receipts, receipt messages, escrow processing and restarts, with any signatures, good or bad", "why_tests_cant": "forged, misdirected and early receipts in unbounded histories with recoveries", "anchors": ["src/keri/core/eventing.py:Kevery.processReceipt,processAttachedReceiptCouples,processAttachedReceiptSigGroups,processEscrowUnverNonTrans,processEscrowUnverTrans"]}
{"id": "C59", "title": "Receipts change no log", "statement": "Processing a receipt message changes no key event log, key state, stored event or controller signature and removes no receipt; in executions with receipts of any kind all accepted events are chained and signed and logs only grow.", "quantifier": "every state, every receipt message, every interleaving with events and escrow processing", "why_tests_cant": "all states and all interleavings", "anchors": ["src/keri/core/eventing.py:Kevery.processReceipt,processEscrowUnverWitness,processEscrowUnverNonTrans,processEscrowUnverTrans"]}
{"id": "C60", "title": "No receipts in the name of the node from outside", "statement": "A node that checks its sources records a receipt by one of its own identifiers only if it comes from a local source and is not about an event of its own.", "quantifier": "every state, every receipt message and event with receipts, every history", "why_tests_cant": "an attacker chooses when to replay which receipt", "anchors": ["src/keri/core/eventing.py:Kevery.processReceipt,processAttachedReceiptCouples,processAttachedReceiptSigGroups"]}
{"id": "C61", "title": "Early receipts are not lost", "statement": "A genuine receipt that arrives before its event is on record after the escrow processing that follows the acceptance of the event, if this happens within the time limit.", "quantifier": "every state, every interleaving of other events, receipts, escrow processing and restarts in between", "why_tests_cant": "all orders of arrival and all contents of the escrows", "anchors": ["src/keri/core/eventing.py:Kevery.escrowUReceipt,escrowTRGroups,escrowUWReceipt,processEscrowUnverNonTrans,processEscrowUnverTrans,processEscrowUnverWitness,_processEscrowFindUnver"]}
{"id": "C62", "title": "Saved credentials are grounded", "statement": "Every credential a verifier has saved was valid when it was saved: its registry known, its issuance on record, its schema known and satisfied, and every edge leading to a credential saved before it, found by the verifier, not revoked at that time, and respecting the operators of the edge (issuer to issuee by default). It stays saved and what is returned for its SAID does not change.", "quantifier": "every history of credentials, registry events, schemas and escrow processing in any order, every graph of edges, every operator list", "why_tests_cant": "chains of unbounded depth and arbitrary arrival orders, with revocations in between", "anchors": ["src/keri/vdr/verifying.py:Verifier.processCredential,verifyChain,saveCredential", "src/keri/vdr/eventing.py:Tever.vcState"]}
{"id": "C63", "title": "Credentials are issued by their issuer", "statement": "A saved credential was issued in the registry it names, by an event anchored in the key event log of the issuer it names.", "quantifier": "every history of credentials and registry events, from any senders", "why_tests_cant": "an attacker chooses the registry, the issuer and the order of messages", "anchors": ["src/keri/vdr/verifying.py:Verifier.processCredential", "src/keri/vdr/eventing.py:Tever.vcState,Tever.update"]}
{"id": "C64", "title": "Credentials may arrive in any order", "statement": "Credentials that are acceptable together, given to a verifier in any order relative to each other, to their schemas and to the events of their registries, are all saved after as many escrow passes as there are credentials, within the time limits; no escrow pass is aborted by what is waiting.", "quantifier": "every order of arrival, every acyclic graph of edges, every other content of the escrows", "why_tests_cant": "all interleavings of arrivals and passes for graphs of any size", "anchors": ["src/keri/vdr/verifying.py:Verifier.processEscrows,_processEscrow,escrowMRE,escrowMCE,escrowMSE"]}
{"id": "C65", "title": "The recorded anchor of a credential is its anchor", "statement": "The anchor recorded with a credential refers to the event that issued it and is not changed by later deliveries.", "quantifier": "every history of deliveries of the credential with arbitrary anchors", "why_tests_cant": "an attacker chooses what to redeliver and when", "anchors": ["src/keri/vdr/verifying.py:Verifier.processCredential,saveCredential,escrowMRE,escrowMCE,escrowMSE"]}
{"id": "C66", "title": "Credentials are found by issuer, schema and subject", "statement": "The credentials listed for an issuer, a schema or a subject are exactly the saved credentials with this issuer, schema or subject.", "quantifier": "every history, every issuer, schema and subject", "why_tests_cant": "all histories with repeated deliveries and escrow processing", "anchors": ["src/keri/vdr/verifying.py:Verifier.saveCredential", "src/keri/vdr/eventing.py:Reger"]}
{"id": "C67", "title": "The SAID of a field map does not depend on what is disclosed", "statement": "However much of a field map with nested SAIDs is disclosed, compacting it yields the same compact map with the same SAID: replacing any of the nested maps that have a SAID by that SAID changes nothing. The compact map's SAID verifies.", "quantifier": "every field map of any depth and width whose labels above nested SAIDs have no dots (with dots compacting may not end, see C68), every choice of nested maps that are replaced by their SAIDs, every digest algorithm, JSON and any other serialization that does not fail", "why_tests_cant": "trees of any shape with exponentially many partial disclosures each", "anchors": ["src/keri/core/mapping.py:Compactor.compact,Compactor._trace,Compactor.getTail,Compactor.getMad,Mapper._exhale"]}
{"id": "C68", "title": "Compacting ends", "statement": "Compacting a field map ends, for every field map.", "quantifier": "every field map", "why_tests_cant": "a test cannot tell a loop from a long run, nor cover all label texts", "anchors": ["src/keri/core/mapping.py:Compactor.compact,Compactor._trace"]}
{"id": "C69", "title": "The SAID of a field map binds its content", "statement": "Two field maps whose compact forms have the same SAID agree wherever both disclose something, or the digest algorithm collides on two given inputs. A map made with its SAID verifies, and two verified maps with the same SAID are the same.", "quantifier": "every pair of field maps at every degree of disclosure, with labels as in C67", "why_tests_cant": "ranges over all pairs of field maps", "anchors": ["src/keri/core/mapping.py:Mapper.__init__,Mapper._computeSaid,Mapper._verify,Compactor.compact"]}
{"id": "C70", "title": "Selective disclosure verifies", "statement": "Whatever elements of an aggregate are selected, what is disclosed consists of those elements and the SAIDs of the others, and verifies against the aggregate's SAID; verification of anything else answers rather than raising.", "quantifier": "every aggregate, every selection of indices", "why_tests_cant": "exponentially many selections for lists of any length", "anchors": ["src/keri/core/mapping.py:Aggor.disclose,Aggor.verifyDisclosure,Aggor._verify,Aggor.makify"]}
{"id": "C71", "title": "An aggregate binds its elements", "statement": "Two aggregates or disclosures that verify with the same aggregate SAID have the same elements as far as both disclose them, or the digest algorithm collides.", "quantifier": "every pair of lists of elements", "why_tests_cant": "ranges over all pairs of lists", "anchors": ["src/keri/core/mapping.py:Aggor._verify,Aggor._compute,Aggor.verifyDisclosure"]}
{"id": "C72", "title": "A credential keeps its SAID whatever is disclosed", "statement": "The SAID of an accepted ACDC credential of version 2 is the digest of its most compact form, in which every section that has a SAID is replaced by it. Any redaction of an accepted credential, hiding whole sections, nested maps of sections or elements of the aggregate behind their SAIDs, is accepted with the same SAID once the size in its version string is adapted. A credential made in compact form has the same SAID as the same credential made in full.", "quantifier": "every accepted credential, every choice of what is hidden in its sections, every digest algorithm", "why_tests_cant": "exponentially many redactions of trees of any shape", "anchors": ["src/keri/core/serdering.py:SerderACDC.makify,SerderACDC._verify,SerderACDC._compute"]}
{"id": "C73", "title": "The SAID of an ACDC message binds its content", "statement": "Two accepted ACDC messages with the same SAID have the same fields with the same values but for the version string, in the sections of a credential as far as both disclose them, or the digest algorithm collides on two given inputs.", "quantifier": "every pair of accepted messages at every degree of disclosure", "why_tests_cant": "ranges over all pairs of messages", "anchors": ["src/keri/core/serdering.py:SerderACDC._verify,SerderACDC._compute,src/keri/core/mapping.py:Compactor.compact,Aggor"]}
{"id": "C74", "title": "A section message shows the section's SAID", "statement": "The SAID shown in the section of an accepted ACDC section message is the SAID of that section: it is the text that stands for the section in the most compact form of the credential.", "quantifier": "every accepted section message", "why_tests_cant": "ranges over all sections of any shape", "anchors": ["src/keri/core/serdering.py:SerderACDC._verify,SerderACDC._compute"]}
{"id": "C75", "title": "Exchange messages are accepted only if signed by their sender", "statement": "An exchange (exn) message is saved, announced as saved or given to the behavior registered for its route only if it was delivered and was signed by its sender according to the receiver's key event logs at that time, with an external attachment matching the digest it announces, and with the approval of the behavior.", "quantifier": "every history of deliveries with any attachments, under any key event logs, interleaved with visits of the escrow at any time", "why_tests_cant": "ranges over all histories, attachments and key states", "anchors": ["src/keri/peer/exchanging.py:Exchanger.processEvent,Exchanger.processEscrowPartialSigned", "src/keri/db/basing.py:Baser.resolveVerifiers"]}
{"id": "C76", "title": "A saved exchange message stays as it was saved", "statement": "Once an exchange message is saved under its SAID, it stays there and counts as complete, whatever is delivered later; so do its attachments.", "quantifier": "every state reached by a history, every continuation", "why_tests_cant": "ranges over all continuations", "anchors": ["src/keri/peer/exchanging.py:Exchanger.logEvent,Exchanger.escrowPSEvent,Exchanger.complete"]}
{"id": "C77", "title": "A saved exchange message can be read back with its signatures", "statement": "A saved exchange message can be read back by its SAID as long as the key event logs it was accepted under are there: the stored signatures verify.", "quantifier": "every history, every saved message", "why_tests_cant": "ranges over all histories of deliveries of the message with different signatures", "anchors": ["src/keri/peer/exchanging.py:cloneMessage,verify,Exchanger.logEvent"]}
{"id": "C78", "title": "An exchange message that arrives in parts is accepted", "statement": "A message delivered several times, each time with some of the signatures of its sender, or before the sender's key state is known, is saved and handled in the next escrow pass within the timeout in which the collected signatures are enough by the receiver's logs, with everything it was delivered with and independently of other messages.", "quantifier": "every split of the signatures over deliveries, in any order, interleaved with any actions on other messages", "why_tests_cant": "ranges over all orders and splits", "anchors": ["src/keri/peer/exchanging.py:Exchanger.escrowPSEvent,Exchanger.processEscrowPartialSigned"]}
{"id": "C79", "title": "An exchange message is handled once for each delivery at most", "statement": "The behavior of a route is given a message at most as often as it was delivered; a message is handled once.", "quantifier": "every history", "why_tests_cant": "ranges over all histories", "anchors": ["src/keri/peer/exchanging.py:Exchanger.processEvent,Exchanger.processEscrowPartialSigned"]}
{"id": "C80", "title": "IPEX messages form a conversation", "statement": "A saved IPEX message without prior is an apply, offer or grant. One with a prior answers a saved message whose verb allows this answer (offer an apply, agree an offer, grant an agree, admit a grant, spurn any but admit), and a message has at most one answer, given by the party entitled to it.", "quantifier": "every history in which an IPEX handler is registered for its six routes", "why_tests_cant": "ranges over all histories with competing answers", "anchors": ["src/keri/vc/protocoling.py:IpexHandler.verify,IpexHandler.response,PreviousRoutes", "src/keri/peer/exchanging.py:Exchanger.logEvent"]}
{"id": "C81", "title": "Numbers survive native serialization", "statement": "A number given to Decimer is read back from its primitive as the same number, int as int and float as float; different numbers have different primitives; a number is refused only for its size.", "quantifier": "every int, every float", "why_tests_cant": "ranges over all numbers", "anchors": ["src/keri/core/coring.py:Decimer"]}
{"id": "C82", "title": "A native field map comes back from its serialization", "statement": "What Mapper writes for a field map in the native (CESR) kind is Base64 text in whole groups of four, and is read back as the same map, also from the front of a longer stream. A map whose labels are names is refused only for its size.", "quantifier": "every field map of any depth with any texts and numbers, strict labels or not, every stream behind it", "why_tests_cant": "ranges over all field maps and texts, including those that look like primitives", "anchors": ["src/keri/core/mapping.py:Mapper._exhale,Mapper._serialize,Mapper._inhale,Mapper._deserialize", "src/keri/core/coring.py:Labeler"]}
{"id": "C83", "title": "The SAID of a native field map commits to the map", "statement": "Different field maps have different native serializations, and two native field maps with the same verified SAID are the same map written with the same octets, unless the digest function has a collision.", "quantifier": "every pair of field maps, every digest function", "why_tests_cant": "ranges over all pairs", "anchors": ["src/keri/core/mapping.py:Mapper.__init__,Mapper._verify,Mapper._exhale,Mapper._inhale"]}
{"id": "C84", "title": "The binary form of a native field map is equivalent to its text", "statement": "The binary form of a native field map is three quarters as long as its text, converts back to the text, and is read back as the same map.", "quantifier": "every field map, every stream behind it", "why_tests_cant": "ranges over all field maps", "anchors": ["src/keri/core/mapping.py:Mapper.qb2,Mapper.__init__"]}
{"id": "C85", "title": "Reading a native field map ends", "statement": "Reading any octets as a native field map ends with a map or an exception after at most about two calls for each octet, and counts of nested groups are those of what they hold.", "quantifier": "every sequence of octets, text or binary", "why_tests_cant": "ranges over all octets, well formed or not", "anchors": ["src/keri/core/mapping.py:Mapper._inhale,Mapper._deserialize"]}
{"id": "C86", "title": "An accepted native message is self consistent", "statement": "A KERI message in the native (CESR) kind that Serder accepts is exactly the serialization of its own field map: it has the fields of its type in their order and no hidden octets, its version string states its protocol, versions, kind and size, and its said is the digest of the serialization with the digests in self addressing fields blanked out. The octets behind it in a text stream are left alone.", "quantifier": "every stream, every digest function, every message type", "why_tests_cant": "ranges over all octet streams", "anchors": ["src/keri/core/serdering.py:Serder._inhale,Serder._loads,Serder._dumps,Serder._verify,Serder._compute"]}
{"id": "C87", "title": "The said of a native message commits to the message", "statement": "Two accepted native KERI messages with the same said are the same message, octet for octet, unless the digest function has a collision.", "quantifier": "every pair of accepted messages, every digest function", "why_tests_cant": "ranges over all pairs of messages", "anchors": ["src/keri/core/serdering.py:Serder._inhale,Serder._dumps,Serder._verify,Serder._compute"]}
{"id": "C88", "title": "A native message comes back from its serialization", "statement": "A native KERI message made from its fields is read back as the same message from the front of any stream, and reading is idempotent: the serialization of an accepted message is accepted as that message.", "quantifier": "every message type, every field map, every stream behind it", "why_tests_cant": "ranges over all field maps, thresholds, seals and streams", "anchors": ["src/keri/core/serdering.py:Serder._dumps,Serder._loads,Serder._inhale,SerderKERI", "src/keri/core/structing.py:Sealer", "src/keri/core/coring.py:Tholder,Number,Verser,Ilker,Traitor"]}
{"id": "C89", "title": "Dates and routes survive native serialization", "statement": "A date and time in the ISO 8601 form that KERI uses, given to Dater, and a route given to Pather come back from their primitives, also from the front of a stream, so that different ones have different primitives.", "quantifier": "every date and time, every route, every stream behind them", "why_tests_cant": "ranges over all texts", "anchors": ["src/keri/core/coring.py:Dater,Pather"]}
{"id": "C90", "title": "Reading a native message ends", "statement": "Reading any octets as a native KERI message ends with a field map or an exception, whatever counts and codes they contain.", "quantifier": "every sequence of octets, every pair of versions", "why_tests_cant": "ranges over all octets, well formed or not", "anchors": ["src/keri/core/serdering.py:Serder._loads"]}
{"id": "C91", "title": "The binary form of a native message is equivalent to its text", "statement": "The binary form of a native KERI message is three quarters as long as its text, converts back to it, and is read as the same message, alone or in front of other messages, stripped from its stream or not.", "quantifier": "every message, every stream behind it", "why_tests_cant": "ranges over all messages and streams", "anchors": ["src/keri/core/serdering.py:Serder._inhale,Serder.__init__"]}
{"id": "C92", "title": "The said of a blinded state or media value commits to it", "statement": "The said of a blinder or a mediar, however it was obtained, is the digest of its other fields, and two of them with the same said are the same structure of the same kind, unless the digest function has a collision.", "quantifier": "every pair of structures made from values or read from text or binary, every digest function", "why_tests_cant": "ranges over all pairs of structures and streams", "anchors": ["src/keri/core/structing.py:Structor,Structor.makify,Structor.verify,Blinder,Mediar"]}
{"id": "C93", "title": "A blinded state can be unblinded, and only to what was blinded", "statement": "Whoever has the uuid, or the salt and sequence number, and lists of candidates that contain the blinded values gets the blinded state back from unblind. What unblind returns has the said looked for and is the state that was blinded under it; None means that no candidate has that said.", "quantifier": "every salt, sequence number, credential, state and anchoring event, every list of candidates, every digest function", "why_tests_cant": "ranges over all values and lists", "anchors": ["src/keri/core/structing.py:Blinder.makeUUID,Blinder.blind,Blinder.unblind,Blinder.uuid,Blinder.acdc,Blinder.state,Blinder.bsn,Blinder.bd"]}
{"id": "C94", "title": "Groups of structures survive enclosing and extracting", "statement": "A list of seals, blinded states or media values of one kind that is enclosed in a counted group is extracted as the same list from the front of any stream, in text and in binary. What is extracted was checked as if read alone and is all that the group holds, a cut off group is refused, and extracting ends.", "quantifier": "every list, every stream", "why_tests_cant": "ranges over all lists and streams", "anchors": ["src/keri/core/structing.py:Structor.enclose,Structor.extract,Structor"]}
{"id": "C95", "title": "Replaying a first seen log reproduces the log and key state", "statement": "The clone of an identifier's first seen log from a number on leaves no accepted event out, keeps their order and numbers, and sends every event with enough verified signatures. A receiver that knows nothing of the identifier, or has the log as far as the source once had it, ends with the same log, the same superseded events and the same key state as the source, with the dates of the source if it is in cloned mode.", "quantifier": "every history of source and receiver, every number to start from, every mode of the receiver", "why_tests_cant": "ranges over all histories of two nodes", "anchors": ["src/keri/db/basing.py:Baser.clonePreIter,Baser.cloneEvtMsg", "src/keri/core/eventing.py:Kevery.processEvent,Kever.logEvent"]}
{"id": "C96", "title": "Cleaning a database keeps what can be verified", "statement": "Cleaning a database replaces it by a copy in which every identifier has the log, key state and dates it had before; an identifier of which the log cannot be verified again is not reported as known.", "quantifier": "every history of the database, every set of identifiers", "why_tests_cant": "ranges over all histories and sets of identifiers", "anchors": ["src/keri/db/basing.py:Baser.clean,Baser.cloneAllPreIter"]}
{"id": "C97", "title": "What the event builders make is accepted", "statement": "A log that a controller makes for a prefix with incept, rotate and interact, with the right numbers and prior digests, and has signed and witnessed in full, is accepted event by event by everyone who has nothing of the prefix yet, and leaves them with the keys, thresholds, next digests, witnesses and seals that the controller gave to the builders. The builders take every list of witnesses to cut that is among the witnesses.", "quantifier": "every sequence of calls of the builders with all their arguments, every receiver that is not party to the identifier", "why_tests_cant": "ranges over all logs and arguments", "anchors": ["src/keri/core/eventing.py:incept,rotate,interact,Kever,Kevery.processEvent", "src/keri/core/serdering.py:SerderKERI._verify"]}
{"id": "C98", "title": "The key store and the key event log of a habitat stay in step", "statement": "After any sequence of calls of a habitat, returning or raising, the current keys in its key store are the keys of its key state and the next keys in its key store are those that its key state commits to. An interaction is accepted unless the identifier is not transferable or for establishment only, and a rotation without arguments is accepted as long as there are next keys.", "quantifier": "every history of a habitat, every argument of its calls", "why_tests_cant": "ranges over all histories", "anchors": ["src/keri/app/habbing.py:Hab.incept,Hab.rotate,BaseHab.incept,BaseHab.rotate,BaseHab.interact,BaseHab.sign", "src/keri/app/keeping.py:Manager.incept,Manager.rotate,Manager.replay,Manager.move,Manager.sign"]}
{"id": "C99", "title": "A call on a habitat that raises can be repeated", "statement": "A rotation that raises leaves the key state, the key event log and the current and next keys as they were. A call that would have succeeded before another one raised succeeds after it.", "quantifier": "every history of a habitat, every argument of its calls", "why_tests_cant": "ranges over all histories and arguments", "anchors": ["src/keri/app/habbing.py:Hab.incept,Hab.rotate"]}
{"id": "C100", "title": "Every message put into a mailbox reaches its poller, in order", "statement": "For every interleaving of messages stored, connections made, served, broken and given up, and crashes of the client, the messages of a topic that reach the poller are the stored ones, they arrive for the first time in the order in which they were stored and without a gap, and each arrives once unless the client died. Once the client connects and reads what it is served, every message stored before has arrived.", "quantifier": "every history of a mailbox server and a polling client, every set of topics and messages", "why_tests_cant": "ranges over all interleavings and crash points", "anchors": ["src/keri/app/storing.py:Mailboxer.storeMsg,Mailboxer.cloneTopicIter,Mailboxer.getTopicMsgs,Mailboxer.delTopic", "src/keri/app/indirecting.py:MailboxIterable,Poller.eventDo"]}
{"id": "C101", "title": "Topics and mailboxes do not disturb each other", "statement": "What is stored under one topic of one recipient changes nothing of what is read of any other topic or recipient, and a message that nobody can read does not keep other messages from arriving.", "quantifier": "every mailbox, every message and topic name a sender can choose", "why_tests_cant": "ranges over all contents and senders", "anchors": ["src/keri/app/forwarding.py:ForwardHandler.handle", "src/keri/app/storing.py:Mailboxer", "src/keri/app/indirecting.py:MailboxIterable"]}
{"id": "C102", "title": "What a poller has fetched is processed", "statement": "Every message that a poller has taken from a mailbox is handed to the parser once and in order, also when the client dies in between.", "quantifier": "every history of polling, handing over and crashes", "why_tests_cant": "ranges over all crash points", "anchors": ["src/keri/app/indirecting.py:Poller.eventDo,MailboxDirector.processPollIter"]}
{"id": "C103", "title": "A mailbox is read by its owner only", "statement": "A query for a mailbox is answered only if it is signed by the identifier whose mailbox it is.", "quantifier": "every query message and every set of attached signatures", "why_tests_cant": "ranges over all messages and signatures", "anchors": ["src/keri/core/parsing.py:Parser", "src/keri/core/eventing.py:Kevery.processQuery"]}
{"id": "C104", "title": "Both database back ends behave alike", "statement": "Every sequence of calls on a sub-database, with the same arguments, leaves the same entries and gives the same answers and exceptions on the LMDB back end and on the browser back end.", "quantifier": "every history of calls on single values, ordinal numbered values, insertion ordered sets and ordinal numbered sets, every key and value", "why_tests_cant": "ranges over all histories and arguments of two implementations", "anchors": ["src/keri/db/webdbing.py:WebDBer", "src/keri/db/dbing.py:LMDBer"]}
{"id": "C105", "title": "What the browser back end has flushed survives", "statement": "After a flush has returned, the next start finds every sub-database as it was at the flush, and what was cleared or removed is gone. A crash during a flush leaves either all changes or none.", "quantifier": "every history of opening, calls, flushes, crashes and restarts, every crash point within a flush", "why_tests_cant": "ranges over all histories and crash points", "anchors": ["src/keri/db/webdbing.py:WebDBer.open,WebDBer.flush,WebDBer.close,WebDBer.open_db,SubDb,_serialize_records,_deserialize_records"]}
{"id": "C106", "title": "Only what a local member has proposed is merged into a group", "statement": "An event or message that other participants of a group send inside a proposal is handed to local processing only if a local identifier has proposed the same event or message, and only if it comes from a participant.", "quantifier": "every history of arriving proposals, own proposals and new local identifiers; every sender, content and order", "why_tests_cant": "ranges over all histories and adversarial proposals", "anchors": ["src/keri/app/grouping.py:Multiplexor.add,Multiplexor.validate,Multiplexor._replayApproved,MultisigNotificationHandler"]}
{"id": "C107", "title": "Proposals of all participants come together", "statement": "Once a local identifier and another participant have proposed the same event, the copy of the other participant, with its signatures, has been handed to local processing, whichever came first and whatever came in between. Until the local identifier has proposed it, each copy leaves a notice for the user.", "quantifier": "every history of arriving proposals, own proposals and new local identifiers; every order", "why_tests_cant": "ranges over all orders of arrival", "anchors": ["src/keri/app/grouping.py:Multiplexor.add,Multiplexor._replayApproved,MultisigNotificationHandler", "src/keri/peer/exchanging.py:Exchanger.processEvent,Exchanger.logEvent,cloneMessage"]}
{"id": "C108", "title": "A group event is reported complete only when it is", "statement": "When the coordinator of a group reports an event with a given number and digest as complete, that event has been accepted, every witness of it has sent a receipt and, if it is delegated, the delegator has sealed it. A report stays true whatever happens later.", "quantifier": "every history of starts, accepted events, signatures, receipts, seals, passes, answers and crashes", "why_tests_cant": "ranges over all histories and crash points", "anchors": ["src/keri/app/grouping.py:Counselor.start,Counselor.complete,Counselor.processEscrows"]}
{"id": "C109", "title": "A delegation is reported complete only when the delegator has approved the event", "statement": "When the delegation of an event is reported complete, the event has been accepted with that digest, its delegator has sealed exactly this number and digest, and at an earlier time it had as many receipts of different witnesses as the identifier had witnesses.", "quantifier": "every history of delegations, accepted events, receipts, seals, passes, publications and crashes", "why_tests_cant": "ranges over all histories and crash points", "anchors": ["src/keri/app/delegating.py:Anchorer.delegation,Anchorer.complete,Anchorer.processEscrows"]}
{"id": "C110", "title": "A group or delegated event that is started is completed", "statement": "When a member has started an event of a group, the event has been accepted and all receipts have come, the event is reported complete after finitely many passes and answers of witnesses, also after a crash. Exactly one of the members who started it sends it to the witnesses. A delegation does not keep others from completing.", "quantifier": "every history before, every other entry in the escrows, every set of members", "why_tests_cant": "liveness over all histories, schedules and crash points", "anchors": ["src/keri/app/grouping.py:Counselor.processPartialSignedEscrow,Counselor.processDelegateEscrow,Counselor.processPartialWitnessEscrow", "src/keri/app/delegating.py:Anchorer.processPartialWitnessEscrow", "src/keri/app/agenting.py:Receiptor.witDo"]}
{"id": "C111", "title": "Signatures survive the HTTP Signature header", "statement": "Whatever list of signages is put into a Signature header, reading the header gives the same signages back, each signature under its name and nothing else. Headers that a server has merged with a comma are read as the signages of all of them.", "quantifier": "every list of signages, every signature, name and text; every pair of header texts", "why_tests_cant": "ranges over all contents", "anchors": ["src/keri/end/ending.py:signature,designature"]}
{"id": "C112", "title": "Only requests that the controller has signed reach their endpoint", "statement": "A request reaches its endpoint only if its Signature header has, for each current key of the controller, a signature of the request that this key verifies. A request with signatures that satisfy the signing threshold of the controller reaches it, and every other request is answered as unauthorized.", "quantifier": "every header, request and key state", "why_tests_cant": "ranges over all headers and key states", "anchors": ["src/keri/app/httping.py:SignatureValidationComponent.process_request,SignatureValidationComponent.validate", "src/keri/end/ending.py:designature"]}
{"id": "C113", "title": "Contacts are read as they were written", "statement": "After any history of update, replace, set, unset and rem, reading a contact gives exactly the fields it was last given, list gives every contact once with the same fields, and findExact gives exactly the contacts with that text in that field.", "quantifier": "every history of operations, every prefix, field and value", "why_tests_cant": "ranges over all histories and contents", "anchors": ["src/keri/app/organizing.py:BaseOrganizer.update,BaseOrganizer.replace,BaseOrganizer.set,BaseOrganizer.unset,BaseOrganizer.rem,BaseOrganizer.get,BaseOrganizer.list,BaseOrganizer.findExact"]}
{"id": "C114", "title": "Contacts cannot be forged and survive crashes", "statement": "Somebody who can write to the database but cannot sign does not change what reading, listing and finding contacts gives. A crash during an operation on one contact leaves all other contacts as they were, and this contact as it was before or after.", "quantifier": "every history of operations, crashes and writes by others; every crash point", "why_tests_cant": "ranges over all crash points and adversarial writes", "anchors": ["src/keri/app/organizing.py:BaseOrganizer", "src/keri/app/habbing.py:Signator.sign,Signator.verify"]}
{"id": "C115", "title": "Notices are listed completely and in order", "statement": "After any history of adding, marking and removing notices, each operation has answered whether it did something, the list has every notice that was added and not removed once, by time, marked as read or not, and reading page by page gives the same list.", "quantifier": "every history of operations, every time and content, every range", "why_tests_cant": "ranges over all histories and ranges", "anchors": ["src/keri/app/notifying.py:Notifier.add,Notifier.rem,Notifier.mar,Notifier.getNotes,Notifier.getNoteCnt,Noter"]}
{"id": "C116", "title": "Notices survive crashes", "statement": "After a crash during an operation on one notice the list of notices can be read, it is the list from before or after the operation, and all later operations work.", "quantifier": "every history, every crash point, every later history", "why_tests_cant": "ranges over all crash points", "anchors": ["src/keri/app/notifying.py:Notifier.add,Notifier.rem,Notifier.mar,Notifier.getNotes,Noter.add,Noter.rem,Noter.update"]}
{"id": "C117", "title": "An OOBI counts as resolved only on a good answer", "statement": "A schema is stored only under its own digest and only when a server answered with it to a URL that asks for that digest. An OOBI is recorded as resolved only when its server answered with status 200 and a stream, the schema asked for, or a reply whose URLs are all resolved in turn.", "quantifier": "every history of loading, answers, passes and crashes; every server", "why_tests_cant": "ranges over all histories and all answers of servers that are not trusted", "anchors": ["src/keri/app/oobiing.py:Oobiery.processOobis,Oobiery.processClients,Oobiery.processMOOBIs,Oobiery.processMultiOobiRpy"]}
{"id": "C118", "title": "Every loaded OOBI goes on until it is resolved or failed", "statement": "An OOBI that was loaded is never lost: it is requested, requested again after a restart or after thirty seconds when it was not found, and once there is an answer it is recorded as resolved or failed. What other OOBIs or servers do does not keep it from that.", "quantifier": "every history, crash point and answer; every URL", "why_tests_cant": "ranges over all crash points and schedules", "anchors": ["src/keri/app/oobiing.py:Oobiery.processFlows,Oobiery.request,Oobiery.processRetries,Oobiery.scoobiDo,OobiRequestHandler"]}
{"id": "C119", "title": "Well known authentication is noted only when it is confirmed", "statement": "A URL is noted as an authentication of an identifier only if it is a well known URL of that identifier, the identifier is known, and the server answered with success; answers of success are noted.", "quantifier": "every history of loading, key states, answers and passes", "why_tests_cant": "ranges over all histories and answers", "anchors": ["src/keri/app/oobiing.py:Authenticator.processWoobis,Authenticator.processMultiFactorAuth,Authenticator.request"]}
{"id": "C120", "title": "A recorded transaction state was said by a source that may say it", "statement": "When a transaction state of a registry or credential is recorded for a source, the source signed a notice that says so, the receiver's own log has that event at that number, and the source is the issuer, one of the registry's backers or the issuer's witnesses, or one of the receiver's watchers.", "quantifier": "every history of notices, escrow passes and sweeps, under any growth of the logs", "why_tests_cant": "ranges over all histories, sources and schedules of escrows", "anchors": ["src/keri/vdr/eventing.py:Tevery.processReplyRegistryTxnState,Tevery.processReplyCredentialTxnState", "src/keri/db/escrowing.py:Broker.updateReply"]}
{"id": "C121", "title": "A recorded transaction state does not go back", "statement": "Once a state of a registry or credential is recorded for a source, receiving older notices of that source again does not replace it by an earlier state.", "quantifier": "every history, including notices that are received again", "why_tests_cant": "ranges over all replays and orders", "anchors": ["src/keri/vdr/eventing.py:Tevery.processReplyRegistryTxnState,Tevery.processReplyCredentialTxnState", "src/keri/db/escrowing.py:Broker.current"]}
{"id": "C122", "title": "A transaction state notice that comes early waits and is recorded in the end", "statement": "A signed notice that comes before the issuer, the registry or the event is known is kept and the missing part is asked for; it waits as long as it is missing and the hour is not over, and once all is there the next pass records it. Other notices do not keep it from that, and what is refused is removed.", "quantifier": "every notice, every state of the escrows, every sequence of passes", "why_tests_cant": "ranges over all orders of arrival and all contents of the escrows", "anchors": ["src/keri/db/escrowing.py:Broker.escrowStateNotice,Broker.processEscrowState", "src/keri/vdr/eventing.py:Tevery.processEscrows"]}
{"id": "C123", "title": "Answers to queries have what was asked", "statement": "Each answer to a query goes to the identifier that sent it, is made only when what the query asks for is there (known identifier, event with the named seal, or number reached, with enough witness receipts), and contains the whole log from the number asked for with the delegator's log, the current key state, or the topics asked for.", "quantifier": "every history of key events, queries and passes over waiting queries", "why_tests_cant": "ranges over all histories, orders and query contents", "anchors": ["src/keri/core/eventing.py:Kevery.processQuery", "src/keri/core/parsing.py:Parser.msgParsator"]}
{"id": "C124", "title": "A query that comes early is answered once it can be", "statement": "A query for something that is not there yet waits; as soon as it is there, and the time limit is not over, the next pass answers it, once; other queries and events do not keep it from that.", "quantifier": "every history of key events, queries and passes within the time limit", "why_tests_cant": "ranges over all orders of arrival and all contents of the escrow", "anchors": ["src/keri/core/eventing.py:Kevery.processQuery,Kevery.escrowQueryNotFoundEvent,Kevery.processQueryNotFound"]}
{"id": "C125", "title": "An answer to a query suffices to verify the identifier", "statement": "Who does not know an identifier, or has the first part of its log, and processes the messages of the answer to a query for its log, ends up with the same key state and logs as the answering node had.", "quantifier": "every history of the answering node, every state of the receiver, every log", "why_tests_cant": "ranges over all logs and pairs of nodes", "anchors": ["src/keri/core/eventing.py:Kevery.processQuery", "src/keri/db/basing.py:Baser.clonePreIter"]}
{"id": "C126", "title": "An adjudication reports what the recorded states say", "statement": "An adjudication compares the key states on record from the current watchers of an identifier with the own one: it reports duplicity exactly if a watcher has another event at the own number or watchers that are ahead differ; an update exactly if all that are ahead agree and are as many as the threshold says; nothing if they are too few; lag if one is behind; else consistency.  Each report lists the watchers and what they told.", "quantifier": "every database content, threshold, number of watchers, and choice among those ahead", "why_tests_cant": "ranges over all numbers of watchers and all recorded states", "anchors": ["src/keri/app/watching.py:Adjudicator.adjudicate,diffState"]}
{"id": "C127", "title": "What is reported of a watcher is what it said", "statement": "A watcher counts in an adjudication only if the controller has engaged it, signed, and with the key state that it has itself signed and sent; what other watchers, witnesses or strangers send does not change that; a fork that a watcher has told of is reported.", "quantifier": "every history of replies and passes over the escrow", "why_tests_cant": "ranges over all histories and all senders", "anchors": ["src/keri/app/watching.py:Adjudicator.adjudicate", "src/keri/core/eventing.py:Kevery.processReplyKeyStateNotice,Kevery.updateKeyState", "src/keri/core/eventing.py:Kevery.processReplyAddWatched"]}
{"id": "C128", "title": "Every request for an adjudication gets its report", "statement": "All requests that wait are worked off in order, each with its report; one that cannot be answered does not keep the others waiting.", "quantifier": "every list of requests and database content", "why_tests_cant": "ranges over all lists of requests", "anchors": ["src/keri/app/watching.py:Adjudicator.performAdjudications"]}
{"id": "C129", "title": "A registry or credential event reported complete is anchored, receipted and sent", "statement": "An issuance, revocation or registry inception is reported complete only if it was asked for, its anchoring key event is receipted by all witnesses (or completed by the group), it is in the transaction log, and it has been sent to the witnesses; a credential completes only after its event.", "quantifier": "every history of calls, worlds around them, crashes after any write, and restarts", "why_tests_cant": "ranges over all histories and crash points", "anchors": ["src/keri/vdr/credentialing.py:Registrar.complete,processWitnessEscrow,processMultisigEscrow,processDisseminationEscrow", "src/keri/vdr/credentialing.py:Credentialer.processCredentialMissingSigEscrow,complete", "src/keri/app/agenting.py:WitnessPublisher.sent"]}
{"id": "C130", "title": "A registry or credential event asked for gets complete and stays so", "statement": "Once its anchor is receipted or completed by the group and the event is in its log, the next pass records it and it is reported complete after it is published; no crash, restart or missing witness makes it hang, and what is complete stays complete.", "quantifier": "every history of calls, crashes after any write, and restarts", "why_tests_cant": "ranges over all schedules and crash points", "anchors": ["src/keri/vdr/credentialing.py:Registrar.processEscrows,incept,issue,revoke", "src/keri/app/agenting.py:Receiptor.receiptDo,WitnessPublisher.sendDo"]}
{"id": "C131", "title": "A transaction event is anchored where its issuer said", "statement": "The anchor recorded for a registry or credential event is the key event that was given for it, and it stays.", "quantifier": "every history of calls, other key events made in between, crashes and restarts", "why_tests_cant": "ranges over all histories and interleavings with other events", "anchors": ["src/keri/vdr/credentialing.py:Registrar.incept,issue,revoke,processMultisigEscrow", "src/keri/vdr/credentialing.py:BaseRegistry.anchorMsg"]}
{"id": "C132", "title": "A witness signs receipts only for events it accepted", "statement": "Every receipt a witness signs, in answer to a posted event or after receiving an event on another way, is for an event that is in its accepted log of that identifier, at the number named.", "quantifier": "every history of messages, posts, escrow passes and restarts at the witness, every content of events and signatures", "why_tests_cant": "ranges over all histories and all forged events", "anchors": ["src/keri/app/indirecting.py:ReceiptEnd.on_post", "src/keri/app/habbing.py:BaseHab.receipt,processCuesIter", "src/keri/core/eventing.py:Kevery.processEvent"]}
{"id": "C133", "title": "A witness does not sign two different events at one number", "statement": "If a witness has signed receipts of two different events of an identifier with the same number, a rotation that recovers from the first is in its accepted log between them.", "quantifier": "every history of messages, posts, escrow passes and restarts at the witness", "why_tests_cant": "ranges over all histories, including those of a controller that signs several versions", "anchors": ["src/keri/app/indirecting.py:ReceiptEnd.on_post", "src/keri/core/eventing.py:Kevery.processEvent"]}
{"id": "C134", "title": "Receipts asked of a witness are those of the accepted event", "statement": "A query for the receipts of an event by number or digest is answered with identifier, number and digest of the accepted event and the verified witness signatures of it.", "quantifier": "every history of the witness and every query", "why_tests_cant": "ranges over all histories and queries", "anchors": ["src/keri/app/indirecting.py:ReceiptEnd.on_get", "src/keri/core/eventing.py:Kevery.fetchWitnessState,receipt"]}
{"id": "C135", "title": "Every event a witness accepts gets its receipt", "statement": "An event that a witness accepts, from a message or later out of an escrow, is receipted once the witness has handled its cues.", "quantifier": "every history of messages, escrow passes, cues handled and restarts at the witness", "why_tests_cant": "ranges over all schedules and restart points", "anchors": ["src/keri/core/eventing.py:Kevery.processEvent,processEscrows", "src/keri/app/habbing.py:BaseHab.processCuesIter", "src/keri/app/indirecting.py:ReceiptEnd.interceptDo"]}
{"id": "C136", "title": "Witnesses get each other's receipts from the controller", "statement": "After a controller has gathered the receipts of an event, every witness of the event has been sent the receipts of all others it holds, and witnesses added by the event have been sent the log before.", "quantifier": "every event type, witness list, set of added witnesses, answers and stored signatures", "why_tests_cant": "ranges over all witness lists and all combinations of answers", "anchors": ["src/keri/app/agenting.py:Receiptor.receipt,catchup", "src/keri/core/eventing.py:Kevery.processReceipt"]}
{"id": "C137", "title": "Gathering receipts gets through although some witnesses fail", "statement": "Gathering the receipts of an event ends with a report, and asks every witness that can be reached, although other witnesses have no endpoint or do not answer.", "quantifier": "every event type, witness list and pattern of failing witnesses", "why_tests_cant": "ranges over all patterns of failures", "anchors": ["src/keri/app/agenting.py:Receiptor.receipt,catchup,httpClient"]}
{"id": "C138", "title": "Witnesses reported as having receipted have receipted", "statement": "The witnesses reported by gathering receipts are those whose valid receipt of the event is held afterwards; signatures held come from answers and verify.", "quantifier": "every witness list, all answers of witnesses, honest or not, all stored signatures", "why_tests_cant": "ranges over all answers, also malformed and forged ones", "anchors": ["src/keri/app/agenting.py:Receiptor.receipt", "src/keri/core/eventing.py:Kevery.processReceipt"]}
{"id": "C139", "title": "A signal reaches one reader once, in order, unless replaced or too old", "statement": "Every signal pushed for the controller is handed to exactly one reader once, in the order pushed, unless a newer one with the same collapse key replaced it or it was older than the timeout.", "quantifier": "every interleaving of pushes, reads by any number of readers and turns of the expiry", "why_tests_cant": "ranges over all interleavings of three kinds of doers", "anchors": ["src/keri/app/signaling.py:Signaler.push,expireDo", "src/keri/app/signaling.py:SignalIterable.__next__"]}
{"id": "C140", "title": "Old signals go on expiring", "statement": "Signals older than the timeout, and only those, are removed again and again, whatever is pushed and read meanwhile.", "quantifier": "every interleaving of pushes, reads and turns of the expiry", "why_tests_cant": "depends on where in a pass another doer gets its turn", "anchors": ["src/keri/app/signaling.py:Signaler.expireDo,push", "src/keri/app/signaling.py:SignalIterable.__next__"]}
{"id": "C141", "title": "A query that is done has brought what was asked for", "statement": "Waiting for a number, a seal or the key state of an identifier ends when, and only when, the local log has it; cues for others are left to them.", "quantifier": "every sequence of turns, arrivals of events, notices and other cues", "why_tests_cant": "ranges over all arrival orders", "anchors": ["src/keri/app/querying.py:SeqNoQuerier.recur,AnchorQuerier.recur,LogQuerier.recur,KeyStateNoticer.recur"]}
{"id": "C142", "title": "A query is sent", "statement": "A query made is sent to somebody who can answer once the identifier or its endpoint is known or if witnesses to ask are given.", "quantifier": "every sequence of turns and every time at which identifier and endpoint become known", "why_tests_cant": "depends on what is known at which turn", "anchors": ["src/keri/app/agenting.py:WitnessInquisitor.msgDo,query", "src/keri/app/querying.py:SeqNoQuerier,AnchorQuerier,KeyStateNoticer"]}
{"id": "C143", "title": "A WitnessReceiptor spreads the receipts it gathers", "statement": "An event given is submitted to every witness, new ones are sent the log before; the receipts that come are sent to all other witnesses, and the message is cued when every witness has receipted.", "quantifier": "every witness list, event type, and order, number and time of arriving receipts", "why_tests_cant": "ranges over all arrival orders and witnesses that stay silent", "anchors": ["src/keri/app/agenting.py:WitnessReceiptor.receiptDo", "src/keri/db/basing.py:Baser.wigs"]}
{"id": "C144", "title": "Annotations come off again", "statement": "For every CESR stream that annot annotates, denot of the result is that stream; and annot comes to an end on every stream.", "quantifier": "every stream, with every count and nesting of lists and seals", "why_tests_cant": "ranges over all streams", "anchors": ["src/keri/core/annotating.py:annot,denot"]}
{"id": "C145", "title": "A configuration survives", "statement": "What Configer.put stored is what get gives, also after opening the file again; a put that fails or is cut short by a crash leaves the old configuration.", "quantifier": "every configuration, format, failure and crash point", "why_tests_cant": "ranges over all crash points and all data", "anchors": ["src/keri/app/configing.py:Configer.put,get"]}
{"id": "C146", "title": "A credential made has what it was made from", "statement": "A credential made from data, issuer, schema, recipient, registry, sources and rules has all of these and nothing else; it names the recipient given, and a private one has nonces.", "quantifier": "every choice of arguments and every data", "why_tests_cant": "ranges over all data, with any names", "anchors": ["src/keri/vc/proving.py:credential"]}
{"id": "C147", "title": "Idle means that all was sent", "statement": "A messenger or publisher says it is idle if and only if it has sent, in order, all that it was given.", "quantifier": "every sequence of messages put, turns, sent buffers and answers", "why_tests_cant": "ranges over all interleavings of putting and sending", "anchors": ["src/keri/app/agenting.py:TCPMessenger,TCPStreamMessenger,HTTPMessenger,WitnessPublisher"]}
