{
 "claims": [
  {
   "property": "C01",
   "status": "proved",
   "theorems": [
    "C01_text_round_trip",
    "C01_constructor_content",
    "C01_text_layout"
   ],
   "note": ""
  },
  {
   "property": "C02",
   "status": "proved",
   "theorems": [
    "C02_binary_round_trip"
   ],
   "note": ""
  },
  {
   "property": "C03",
   "status": "partial",
   "theorems": [
    "C03_reread",
    "C03_binary_canonical",
    "C03_text_canonical_partial",
    "C03_text_accepted_shape",
    "C03_text_injective_partial",
    "C03_text_canonical_refuted",
    "C03_soft_unchecked_refuted"
   ],
   "note": "Canonicality proved for the binary domain and for all text over the URL-safe alphabet; the full claim is refuted (the decoder accepts + and / as aliases, and does not check the soft characters of special codes)."
  },
  {
   "property": "C04",
   "status": "proved",
   "theorems": [
    "C04_composability"
   ],
   "note": ""
  },
  {
   "property": "C05",
   "status": "proved",
   "theorems": [
    "C05_text_round_trip",
    "C05_binary_round_trip",
    "C05_domains_agree",
    "C05_text_prefix_free",
    "C05_text_canonical",
    "C05_accepts",
    "C05_no_truncation",
    "C05_test_codes_refuted"
   ],
   "note": "Proved for every signature code; the table entries 0z, 1z and 4z used by the repository for tests are not usable (C05_test_codes_refuted)."
  },
  {
   "property": "C06",
   "status": "partial",
   "theorems": [
    "C06_number_round_trip",
    "C06_number_range",
    "C06_number_smallest",
    "C06_huge_round_trip",
    "C06_onkey_sorts",
    "C06_huge_sorts_refuted"
   ],
   "note": "Round trip, range, smallest code and ordering of fixed width on-keys are proved; the fixed-width .huge text does not sort in numeric order (C06_huge_sorts_refuted)."
  },
  {
   "property": "C07",
   "status": "proved",
   "theorems": [
    "C07_int_round_trip",
    "C07_int_text_length",
    "C07_text_round_trip",
    "C07_rejects_other_text",
    "C07_code_prefix_round_trip",
    "C07_code_binary_value",
    "C07_nab_agrees",
    "C07_zero_length_refuted"
   ],
   "note": "Proved for l >= 1; intToB64(i, 0) returns the empty string, which b64ToInt rejects (C07_zero_length_refuted)."
  },
  {
   "property": "C08",
   "status": "proved",
   "theorems": [
    "C08_tag_round_trip",
    "C08_tag_rejects",
    "C08_bext_round_trip",
    "C08_bext_unescaped_partial",
    "C08_bext_unescaped_refuted",
    "C08_bext_rejects"
   ],
   "note": "Tags and strings with the default escaping are proved in full; with escaping switched off a leading A is lost when the length is a multiple of four (C08_bext_unescaped_refuted, restricted positive statement C08_bext_unescaped_partial)."
  },
  {
   "property": "C09",
   "status": "proved",
   "theorems": [
    "C09_accepted_size",
    "C09_made_size",
    "C09_round_trip",
    "C09_canonical",
    "C09_never_misread",
    "C09_smell",
    "C09_smell_sound",
    "C09_smell_stable"
   ],
   "note": "Version strings round trip, are canonical and never misread, smell finds exactly the leading one; accepted and made messages (JSON, CBOR, MGPK) state exactly their own length."
  },
  {
   "property": "C10",
   "status": "partial",
   "theorems": [
    "C10_double_count_refuted",
    "C10_verified",
    "C10_returned",
    "C10_weighted_distinct",
    "C10_numeric_distinct_partial",
    "C10_none_verified"
   ],
   "note": "Every accepted signature verifies against the key at its index and weighted thresholds count each index once; for numeric thresholds the same key can count more than once under different derivation codes (C10_double_count_refuted in the indexed signature area), so only C10_numeric_distinct_partial holds."
  },
  {
   "property": "C11",
   "status": "partial",
   "theorems": [
    "C11_numeric",
    "C11_weighted",
    "C11_empty",
    "C11_monotone",
    "C11_set_only",
    "C11_satisfiable",
    "C11_monotone_refuted"
   ],
   "note": "Exact characterisation for numeric and weighted thresholds; monotonicity holds for indices inside the weight list and is refuted beyond it (C11_monotone_refuted)."
  },
  {
   "property": "C12",
   "status": "partial",
   "theorems": [
    "C12_limen_round_trip",
    "C12_sith_round_trip",
    "C12_thold_kept",
    "C12_out_of_range_refuted"
   ],
   "note": "Round trips proved for thresholds accepted from sith or limen; the thold= constructor does not validate weights (C12_out_of_range_refuted)."
  },
  {
   "property": "C13",
   "status": "proved",
   "theorems": [
    "C13_default_quorum",
    "C13_given_quorum",
    "C13_no_witness"
   ],
   "note": ""
  },
  {
   "property": "C14",
   "status": "partial",
   "theorems": [
    "C14_accepted_signed",
    "C14_log_signed",
    "C14_distinct_refuted"
   ],
   "note": "Every accepted event had verified signatures reaching the threshold; each theorem quantifies over histories of the processing functions with external signature verification. Refuted that different signatures are by different keys: two texts of a signature by the same key are both counted (C14_distinct_refuted)."
  },
  {
   "property": "C15",
   "status": "partial",
   "theorems": [
    "C15_exposed",
    "C15_log_exposed_partial",
    "C15_superseding_refuted"
   ],
   "note": "Every rotation that enters exposes keys the current key state commits to, enough for its next threshold (C15_exposed). On the stored log: proved unless an establishment event was superseded by a delegated rotation, which is refuted (C15_superseding_refuted)."
  },
  {
   "property": "C16",
   "status": "proved",
   "theorems": [
    "C16_chain"
   ],
   "note": ""
  },
  {
   "property": "C17",
   "status": "proved",
   "theorems": [
    "C17_append_only",
    "C17_ordinals"
   ],
   "note": ""
  },
  {
   "property": "C18",
   "status": "partial",
   "theorems": [
    "C18_attaches",
    "C18_first_seen_wins_partial",
    "C18_superseded_refuted"
   ],
   "note": "How events attach (C18_attaches) for every state; first seen wins for every log except delegated rotations at the same sn, and with next thresholds that fit their digest lists (refuted otherwise)."
  },
  {
   "property": "C19",
   "status": "partial",
   "theorems": [
    "C19_wellformed",
    "C19_delta_partial",
    "C19_recovery_refuted"
   ],
   "note": "Well-formed witness lists in every reachable key state; the delta of rotations that extend the log. Refuted for recovery rotations: the list is derived from the superseded state (C19_recovery_refuted)."
  },
  {
   "property": "C20",
   "status": "partial",
   "theorems": [
    "C20_witnessed_partial",
    "C20_distinct_refuted"
   ],
   "note": "At least threshold many different verified signatures with witness keys; different texts of one witness signature count twice (C20_distinct_refuted)."
  },
  {
   "property": "C21",
   "status": "partial",
   "theorems": [
    "C21_sealed_partial",
    "C21_undelegated_refuted"
   ],
   "note": "Proved for delegated identifiers; a drt event of an identifier that is not delegated needs no seal (C21_undelegated_refuted)."
  },
  {
   "property": "C22",
   "status": "partial",
   "theorems": [
    "C22_rejected_no_effect_partial",
    "C22_refuted"
   ],
   "note": "For every message and state with next thresholds that fit their digest lists; refuted otherwise, because the Kever is changed before the state record is built (C22_refuted)."
  },
  {
   "property": "C23",
   "status": "partial",
   "theorems": [
    "C23_converges_partial",
    "C23_any_order_partial",
    "C23_initial_part_partial",
    "C23_late_refuted",
    "C23_redelivery_refuted"
   ],
   "note": "For every order, repetition, interleaving with foreign and incomplete messages, passes and restarts within the 1200 s time limit, one pass after the last delivery gives the in-order key state, log and first seen order; at any time the receiver is at an initial part of the log. Missing: delegated logs, recovery rotations, receivers that are parties, weighted thresholds that do not cover their keys. Refuted beyond the time limit and for redelivery after it."
  },
  {
   "property": "C24",
   "status": "partial",
   "theorems": [
    "C24_lawful",
    "C24_final_partial",
    "C24_final_refuted"
   ],
   "note": "The rules set by the inception event are proved for every history. Finality is proved for next thresholds that fit their digest lists; C24_final_refuted shows that it fails otherwise."
  },
  {
   "property": "C25",
   "status": "partial",
   "theorems": [
    "C25_idempotent_partial",
    "C25_drt_refuted"
   ],
   "note": "For all accepted events but delegated rotations, which are accepted again (C25_drt_refuted)."
  },
  {
   "property": "C26",
   "status": "partial",
   "theorems": [
    "C26_reload_partial",
    "C26_unpinned_refuted",
    "C26_cues_refuted"
   ],
   "note": "For all reachable states with next thresholds that fit their digest lists, up to cue deck and remembered version; refuted for both exceptions."
  },
  {
   "property": "C27",
   "status": "proved",
   "theorems": [
    "C27_split",
    "C27_order",
    "C27_injective"
   ],
   "note": ""
  },
  {
   "property": "C28",
   "status": "partial",
   "theorems": [
    "C28_ordered_sets_partial",
    "C28_extended_key_refuted"
   ],
   "note": "Refinement to ordered sets for every history on keys that do not continue one another after a separator and fewer than 2^128 insertions; refuted without the restriction on keys (C28_extended_key_refuted)."
  },
  {
   "property": "C29",
   "status": "partial",
   "theorems": [
    "C29_ordered_duplicates_partial",
    "C29_repeated_value_refuted",
    "C29_ordinal_refuted",
    "C29_backwards_refuted"
   ],
   "note": "Refinement for every history in which the values given to one put or pin are distinct; refuted for repeated values in one call, for the ordinal variant of put (compares with ordinal 0) and for reading backwards from an unused ordinal."
  },
  {
   "property": "C30",
   "status": "partial",
   "theorems": [
    "C30_ordinals_partial",
    "C30_extended_key_refuted",
    "C30_empty_value_refuted"
   ],
   "note": "Refinement for every history on keys that do not continue one another; append raises ValueError otherwise (C30_extended_key_refuted); getOnItem reports empty values as absent."
  },
  {
   "property": "C31",
   "status": "partial",
   "theorems": [
    "C31_isolation_partial",
    "C31_ordinal_isolation_partial",
    "C31_duplicates_isolation_partial",
    "C31_extended_key_refuted"
   ],
   "note": "Isolation proved for ordered sets and ordinal values on keys that do not continue one another and for insertion ordered duplicates on all usable keys; refuted for keys that continue another key by a separator and hexadecimal digits."
  },
  {
   "property": "C32",
   "status": "partial",
   "theorems": [
    "C32_rotation_chain",
    "C32_keys_held",
    "C32_positions",
    "C32_next_position",
    "C32_path_injective",
    "C32_path_collision_refuted",
    "C32_failed_rotate_refuted"
   ],
   "note": "Chain, positions and path injectivity within one identifier proved for all histories; keys at hand proved for histories without key collisions. Refuted: derivation paths of identifiers with different stems can collide, and one identifier then erases the next key of another (C32_path_collision_refuted); a rotation that fails while storing keys disables the identifier (C32_failed_rotate_refuted)."
  },
  {
   "property": "C33",
   "status": "partial",
   "theorems": [
    "C33_keys_survive_partial",
    "C33_other_identifiers",
    "C33_rotate_crash_refuted",
    "C33_hab_crash_refuted",
    "C33_incept_crash_refuted",
    "C33_move_crash_refuted"
   ],
   "note": "Signing with current and next keys survives every crash point (C33_keys_survive_partial), other identifiers are untouched. Missing and refuted: rotating to the published next keys after a crash in rotate, Hab.rotate, move, and repeating an inception after a crash in it."
  },
  {
   "property": "C34",
   "status": "partial",
   "theorems": [
    "C34_no_rollback_partial",
    "C34_rollback_after_timeout_refuted",
    "C34_rollback_by_stranger_refuted",
    "C34_rollback_single_as_group_refuted",
    "C34_rollback_bad_group_refuted",
    "C34_rollback_trim_refuted",
    "C34_rollback_resigned_refuted",
    "C34_superseded_keys_refuted",
    "C34_key_state_rollback_refuted"
   ],
   "note": "No rollback for histories in which every reply is signed under one key state of a transferable signer and sweeps do not drop recorded replies. Refuted in general, with genuine signatures only: drop of a recorded reply by the escrow timeout (by accident or caused by a stranger), single signature presented as a group, refusal after deletion (bad second group, trimming error), replies signed again by newer or by superseded keys, key state notices (compared with the digest of the key event, not the said of the notice)."
  },
  {
   "property": "C35",
   "status": "partial",
   "theorems": [
    "C35_timely",
    "C35_timely_now",
    "C35_once_partial",
    "C35_multikey_replay_refuted",
    "C35_late_completion_refuted",
    "C35_seal_then_sign_refuted",
    "C35_exchange_ahead_refuted",
    "C35_exchange_lag_refuted",
    "C35_clock_back_refuted",
    "C35_pruner_ended_refuted"
   ],
   "note": "Timeliness: every admitted message was inside its window at one of its deliveries, and at admission for single key and sealed messages. Replay: proved for messages admitted at first delivery when pruning lags outlast the windows, the clock does not go back and the configuration stays (C35_once_partial). Refuted otherwise: multi key messages completed from escrow, late completion, pruning lag below long lag, exchange messages, clock set back; a dotted exchange identifier ends pruning."
  },
  {
   "property": "C36",
   "status": "partial",
   "theorems": [
    "C36_anchored",
    "C36_one_controller",
    "C36_log_shape",
    "C36_append_only",
    "C36_stored",
    "C36_revoked_final",
    "C36_issued_once",
    "C36_revoked_meaning",
    "C36_revoked_by_issuer_partial",
    "C36_backed_partial",
    "C36_rotation_backed",
    "C36_registry_survives_restart",
    "C36_registry_opens",
    "C36_issue_accepted",
    "C36_revoke_accepted",
    "C36_waits_for_anchor_partial",
    "C36_foreign_revocation_refuted",
    "C36_foreign_issuance_refuted",
    "C36_registry_log_polluted_refuted",
    "C36_revoked_twice_refuted",
    "C36_rotation_lost_refuted",
    "C36_unaccepted_rotation_refuted",
    "C36_no_signature_refuted",
    "C36_backer_counted_twice_refuted",
    "C36_escrow_doubles_refuted",
    "C36_waiting_event_dropped_refuted",
    "C36_wrong_anchor_kept_refuted",
    "C36_partially_backed_stuck_refuted",
    "C36_two_seals_refuted"
   ],
   "note": "Anchoring, shape, append only, finality of revocation, single issuance, acceptance of well formed events and survival of registries are proved for every history. Refuted: a stranger with a registry of their own can revoke or issue somebody else's credential and write into a registry log (logs are keyed by the credential alone); registry rotations are lost at restart; backers of a rotation never accepted count; out of order escrow doubles at every pass; waiting events can be dropped; partially backed events are never revisited."
  },
  {
   "property": "C37",
   "status": "partial",
   "theorems": [
    "C37_accepted",
    "C37_said_commits",
    "C37_tamper_evident",
    "C37_made_verifies",
    "C37_read_back",
    "C37_reread",
    "C37_saidify_verifies",
    "C37_saider_binds",
    "C37_nondigest_said_refuted",
    "C37_prefix_code_refuted"
   ],
   "note": "JSON, CBOR and MGPK messages of Serder and SerderKERI and Saider on maps without version string: saids that are digests bind the content, made messages verify and (JSON) read back. Refuted: a said field holding another primitive than a digest is accepted unchecked (C37_nondigest_said_refuted); the said of an inception does not bind the derivation code of its identifier (C37_prefix_code_refuted). CESR native serialization is a parameter."
  },
  {
   "property": "C38",
   "status": "partial",
   "theorems": [
    "C38_chunks_partial",
    "C38_framed_partial",
    "C38_framed_split_refuted",
    "C38_bare_groups_refuted",
    "C38_bare_message_refuted",
    "C38_bare_before_group_partial",
    "C38_after_group_refuted"
   ],
   "note": "For messages that announce where they end (sized body with an attachment group, or body and attachments in one group), in text or binary, unframed streams: independent of chunking, also with the beginning of a further message (C38_chunks_partial); framed streams (the default) when chunks consist of whole messages. Refuted: framed streams cut inside a message, attachment groups without an enclosing group, a complete message without attachments at the end of a chunk, a message cut in two after a group of messages on an unframed stream. A message without attachments before a group comes out whole (C38_bare_before_group_partial)."
  },
  {
   "property": "C39",
   "status": "proved",
   "theorems": [
    "C39_text_round_trip",
    "C39_binary_round_trip",
    "C39_canonical",
    "C39_promotion",
    "C39_code_of_counter",
    "C39_v1_promotion_refuted"
   ],
   "note": "Round trips, canonicality and promotion are proved for every code and count; in version 1 a count that needs promotion for a code without a big form escapes as KeyError (C39_v1_promotion_refuted)."
  },
  {
   "property": "C40",
   "status": "partial",
   "theorems": [
    "C40_no_resurrection_partial",
    "C40_resurrection_refuted"
   ],
   "note": "For every history in which no establishment event is superseded by a delegated rotation; C40_resurrection_refuted shows that it fails otherwise."
  },
  {
   "property": "C41",
   "status": "partial",
   "theorems": [
    "C41_truncation_partial",
    "C41_truncation_refuted"
   ],
   "note": "Never misread as a primitive; reported as shortage whenever the whole code is present; refuted for truncation inside the soft part of variable-size codes and special codes."
  },
  {
   "property": "C42",
   "status": "proved",
   "theorems": [
    "C42_enclose_frames",
    "C42_benclose_frames",
    "C42_enclose_total",
    "C42_unaligned"
   ],
   "note": ""
  },
  {
   "property": "C43",
   "status": "proved",
   "theorems": [
    "C43_ver_round_trip",
    "C43_ver_exact",
    "C43_genus_version"
   ],
   "note": ""
  },
  {
   "property": "C44",
   "status": "partial",
   "theorems": [
    "C44_readback_partial",
    "C44_readback_refuted"
   ],
   "note": "For every history in which no establishment event is superseded by a delegated rotation; refuted otherwise (C44_readback_refuted)."
  },
  {
   "property": "C45",
   "status": "partial",
   "theorems": [
    "C45_once_partial",
    "C45_twice_refuted"
   ],
   "note": "For every history in which no establishment event is superseded by a delegated rotation; refuted otherwise (C45_twice_refuted)."
  },
  {
   "property": "C46",
   "status": "partial",
   "theorems": [
    "C46_history_partial",
    "C46_append_refuted",
    "C46_backwards_refuted"
   ],
   "note": "All operations and reads proved for histories whose appended lists have no repetitions; reading backwards raises ValueError for a key in front of all others (C46_backwards_refuted) and append keeps repetitions (C46_append_refuted)."
  },
  {
   "property": "C47",
   "status": "proved",
   "theorems": [
    "C47_branch"
   ],
   "note": ""
  },
  {
   "property": "C48",
   "status": "proved",
   "theorems": [
    "C48_sniff_total",
    "C48_messages",
    "C48_counters"
   ],
   "note": ""
  },
  {
   "property": "C49",
   "status": "partial",
   "theorems": [
    "C49_inception_binds",
    "C49_prefix_commits",
    "C49_nontransferable",
    "C49_signature_prefix_refuted"
   ],
   "note": "Proved for digest and key identifiers; an Ed448 signature code (1AAE) is accepted as identifier without any check (C49_signature_prefix_refuted)."
  },
  {
   "property": "C50",
   "status": "partial",
   "theorems": [
    "C50_at_rest",
    "C50_crash_sealed",
    "C50_readable",
    "C50_change_keeps",
    "C50_late_encryption_refuted",
    "C50_ingest_refuted",
    "C50_change_crash_refuted",
    "C50_refused_change_refuted",
    "C50_seed_alone_refuted"
   ],
   "note": "Proved for stores encrypted from their creation, for all histories and crash points. Refuted: late encryption, ingest, crash in and refusal of a change of authentication identifier, seed without identifier."
  },
  {
   "property": "C51",
   "status": "partial",
   "theorems": [
    "C51_refused_restores",
    "C51_retry_same_keys",
    "C51_retry_count_refuted"
   ],
   "note": "Proved for all histories; the retry ignores the number of next keys asked for (C51_retry_count_refuted)."
  },
  {
   "property": "C52",
   "status": "proved",
   "theorems": [
    "C52_authentic",
    "C52_sweep",
    "C52_one_delivery",
    "C52_newer_single_recorded",
    "C52_newer_state_recorded",
    "C52_key_state_notice"
   ],
   "note": "For all histories of deliveries and escrow sweeps under arbitrary key event logs. Routes of other resources (oobis, transaction states) are not modelled."
  },
  {
   "property": "C53",
   "status": "partial",
   "theorems": [
    "C53_not_wider_at_once",
    "C53_increase_delayed",
    "C53_increase_applied",
    "C53_removed_type_refuted",
    "C53_mixed_change_refuted",
    "C53_removed_while_staged_refuted",
    "C53_stale_increase_refuted",
    "C53_restart_refuted"
   ],
   "note": "Proved for single changes; refuted: removal of a type, mixed changes, removal while staged, stale staged increase, restart."
  },
  {
   "property": "C54",
   "status": "partial",
   "theorems": [
    "C54_authentic",
    "C54_scope",
    "C54_signed_admitted",
    "C54_sealed_admitted",
    "C54_double_count_refuted",
    "C54_group_after_interaction_refuted"
   ],
   "note": "For all histories of deliveries, prunings and configuration changes; one key under two codes counts twice (C54_double_count_refuted) and groups naming the last establishment event are refused after an interaction (C54_group_after_interaction_refuted). Liveness stated for messages carrying only bare signatures or one seal."
  },
  {
   "property": "C55",
   "status": "partial",
   "theorems": [
    "C55_round_trip_partial",
    "C55_stream_partial",
    "C55_many_signatures_refuted",
    "C55_bonds_refuted",
    "C55_last_v1_refuted"
   ],
   "note": "Round trip of every message with any attachments and any tree of nested messages (C55_round_trip_partial) and of streams cut anywhere (C55_stream_partial), for JSON, CBOR and MGPK bodies. Missing: native CESR bodies, stand-alone genus counters inside streams, and what is refuted: more than 4095 quadlets of signatures inside a signature group (C55_many_signatures_refuted), bonds the parser has no method for (C55_bonds_refuted), SealLast bonds in version 1 (C55_last_v1_refuted)."
  },
  {
   "property": "C56",
   "status": "partial",
   "theorems": [
    "C56_ends_partial",
    "C56_broken_counter_refuted",
    "C56_loops_refuted"
   ],
   "note": "Either parse comes to an end with the buffer used up, or it comes to a counter whose reading raises something else than an ExtractionError (C56_ends_partial), and from there it never gets away (C56_broken_counter_refuted; -A!! is such a counter, C56_loops_refuted). Hypotheses on deserialisation: the empty string is no message and TopLevelStreamError is not raised."
  },
  {
   "property": "C57",
   "status": "partial",
   "theorems": [
    "C57_flush_refuted",
    "C57_enclosed_refuted",
    "C57_recovers_partial",
    "C57_group_partial"
   ],
   "note": "A parser of framed streams always gets back to waiting between messages, and whole messages in the next chunk come out (C57_recovers_partial). Refuted within a chunk: an unreadable body, or an unreadable signature inside an attachment group, takes all following messages of the chunk with it. An error inside a group of messages costs at most the rest of the group: C57_group_partial."
  },
  {
   "property": "C58",
   "status": "partial",
   "theorems": [
    "C58_receipts_are_genuine",
    "C58_trans_signed_partial",
    "C58_trans_receipts_are_genuine_partial",
    "C58_misfiled_refuted",
    "C58_unaccepted_refuted",
    "C58_witness_index_refuted"
   ],
   "note": "In full for non transferable receiptors. For transferable ones: genuine for some event of the prefix, and for the event it is filed under when every receipt message names the last event of its sn; refuted otherwise (C58_misfiled_refuted). Receipts of events that were not accepted are recorded too (C58_unaccepted_refuted) and witness signatures can get the wrong index (C58_witness_index_refuted)."
  },
  {
   "property": "C59",
   "status": "proved",
   "theorems": [
    "C59_receipt_changes_no_log",
    "C59_logs_signed_with_receipts",
    "C59_append_only_with_receipts"
   ],
   "note": "For all receipt messages in all states, and all executions with receipts."
  },
  {
   "property": "C60",
   "status": "partial",
   "theorems": [
    "C60_own_receipts_partial",
    "C60_escrowed_refuted"
   ],
   "note": "For receipts recorded when their message is processed; refuted for receipts that waited in escrow (C60_escrowed_refuted)."
  },
  {
   "property": "C61",
   "status": "partial",
   "theorems": [
    "C61_early_receipt_kept_partial",
    "C61_early_trans_receipt_kept_partial",
    "C61_rotation_refuted",
    "C61_superseded_refuted",
    "C61_witness_signature_refuted",
    "C61_last_event_groups_refuted"
   ],
   "note": "For receipts of both kinds within the hour, when no other event competes for the place of the event; for non transferable receiptors also at most 64 witnesses and no change of witnesses by the event. Refuted for rotations that add witnesses, superseded events, witness indexed signatures and groups given by last event."
  },
  {
   "property": "C62",
   "status": "partial",
   "theorems": [
    "C62_saved_grounded",
    "C62_saved_kept",
    "C62_variant_refuted",
    "C62_hidden_issuee_refuted"
   ],
   "note": "For every history and every accepted credential; what is stored for the SAID is the accepted credential when no two variants of one credential are sent, refuted otherwise: the first variant is stored before any check (C62_variant_refuted, C62_hidden_issuee_refuted)."
  },
  {
   "property": "C63",
   "status": "partial",
   "theorems": [
    "C63_issued_somewhere_partial",
    "C63_issuer_refuted",
    "C63_registry_refuted"
   ],
   "note": "Only that some anchored issuance event exists, by the controller of the registry named in that event; neither the issuer nor the registry named in the credential is compared with it (C63_issuer_refuted, C63_registry_refuted)."
  },
  {
   "property": "C64",
   "status": "partial",
   "theorems": [
    "C64_supplied_are_saved",
    "C64_escrows_run_to_end",
    "C64_private_edges_refuted"
   ],
   "note": "Proved for every graph and every order with one variant per SAID; credentials with salted or compact edge sections are never saved (C64_private_edges_refuted)."
  },
  {
   "property": "C65",
   "status": "partial",
   "theorems": [
    "C65_anchor_sent_partial",
    "C65_anchor_changed_refuted"
   ],
   "note": "Only that the recorded anchor came with a delivery of the credential; any later delivery replaces it (C65_anchor_changed_refuted)."
  },
  {
   "property": "C66",
   "status": "proved",
   "theorems": [
    "C66_indexes_exact"
   ],
   "note": "For every history in which a SAID names one credential (no variants)."
  },
  {
   "property": "C67",
   "status": "proved",
   "theorems": [
    "C67_same_compact_form",
    "C67_same_compact_form_json",
    "C67_compact_verifies",
    "C67_compact_form"
   ],
   "note": "Proved for labels without dots above nested SAIDs (otherwise compacting may not end, C68)."
  },
  {
   "property": "C68",
   "status": "partial",
   "theorems": [
    "C68_ends_partial",
    "C68_dotted_label_refuted"
   ],
   "note": "For every map without dots in the labels above nested maps that have a SAID field; with such a dot it never ends (C68_dotted_label_refuted)."
  },
  {
   "property": "C69",
   "status": "proved",
   "theorems": [
    "C69_said_binds",
    "C69_json",
    "C69_mapper_binds",
    "C69_made_verifies"
   ],
   "note": "Proved for serializations that are injective up to the version and said dummies; JSON is shown to be one (C69_json)."
  },
  {
   "property": "C70",
   "status": "partial",
   "theorems": [
    "C70_disclosure_verifies_partial",
    "C70_unsaided_element_refuted",
    "C70_disclose_verified",
    "C70_empty_disclosure_refuted"
   ],
   "note": "For elements that have a SAID field; refuted otherwise, and for empty disclosures (C70_unsaided_element_refuted, C70_empty_disclosure_refuted)."
  },
  {
   "property": "C71",
   "status": "partial",
   "theorems": [
    "C71_aggregate_binds_partial",
    "C71_unsaided_element_refuted"
   ],
   "note": "For elements that have a SAID field; refuted otherwise (C71_unsaided_element_refuted)."
  },
  {
   "property": "C72",
   "status": "partial",
   "theorems": [
    "C72_said_of_compact_form",
    "C72_redaction_accepted_partial",
    "C72_made_same_said",
    "C72_loose_section_refuted"
   ],
   "note": "C72_said_of_compact_form for every serialization but the native one; redactions for JSON (CBOR and MGPK need more of their libraries than is assumed), for sections that have a SAID; a section without one cannot be redacted (C72_loose_section_refuted). Labels above nested SAIDs without dots (C68)."
  },
  {
   "property": "C73",
   "status": "partial",
   "theorems": [
    "C73_said_binds_partial",
    "C73_json",
    "C73_unsaided_element_refuted"
   ],
   "note": "For serializations injective up to the version and said dummies (C73_json), not the native one; aggregate elements without SAID are not bound (C73_unsaided_element_refuted)."
  },
  {
   "property": "C74",
   "status": "partial",
   "theorems": [
    "C74_section_said_partial",
    "C74_credential_section_refuted",
    "C74_aggregate_message_refuted"
   ],
   "note": "For the schema, attribute, edge and rule sections; the SAID of an aggregate section is not compared (C74_aggregate_message_refuted), nor that of a section disclosed in a credential (C74_credential_section_refuted)."
  },
  {
   "property": "C75",
   "status": "partial",
   "theorems": [
    "C75_saved_signed",
    "C75_handled_signed",
    "C75_announced_signed",
    "C75_every_group",
    "C75_failed_verification_refuted",
    "C75_superseded_keys_refuted",
    "C75_couple_of_transferable_refuted"
   ],
   "note": "Signed means: under some key state of the sender in the logs, or with the key that is the sender's identifier. Neither need be the current one (C75_superseded_keys_refuted, C75_couple_of_transferable_refuted); an AttributeError inside the verification of a behavior counts as approval (C75_failed_verification_refuted)."
  },
  {
   "property": "C76",
   "status": "partial",
   "theorems": [
    "C76_saved_stays",
    "C76_attachments_refuted"
   ],
   "note": "Proved for the message; its attachments can be replaced by a delivery that is not accepted (C76_attachments_refuted)."
  },
  {
   "property": "C77",
   "status": "partial",
   "theorems": [
    "C77_clone_partial",
    "C77_bogus_group_refuted",
    "C77_couple_refuted",
    "C77_unverified_couple_refuted"
   ],
   "note": "For histories in which every delivery of the message has enough signatures by the logs at hand. Without that a stranger can prevent it (C77_bogus_group_refuted), as can unverified unindexed signatures (C77_unverified_couple_refuted). Messages with an unindexed signature of their sender can never be read back (C77_couple_refuted)."
  },
  {
   "property": "C78",
   "status": "partial",
   "theorems": [
    "C78_parts_partial",
    "C78_essr_refuted",
    "C78_foreign_group_refuted"
   ],
   "note": "For deliveries with one group of one key state, without external (ESSR) attachment, and behaviors that agree, among arbitrary actions on other messages; lost or blocked otherwise (C78_essr_refuted, C78_foreign_group_refuted)."
  },
  {
   "property": "C79",
   "status": "partial",
   "theorems": [
    "C79_at_most_delivered",
    "C79_once_refuted"
   ],
   "note": "At most once for each delivery is proved, for behaviors whose handling does not fail with MissingSignatureError; once is refuted (C79_once_refuted)."
  },
  {
   "property": "C80",
   "status": "partial",
   "theorems": [
    "C80_answers_partial",
    "C80_one_answer_partial",
    "C80_one_saved_partial",
    "C80_other_route_refuted",
    "C80_blocked_refuted",
    "C80_couple_refuted",
    "C80_couple_answer_refuted"
   ],
   "note": "The order is proved for prior messages with an IPEX route, with at most one answer of an IPEX route, as long as no message comes with unindexed signatures. Once one did, answers are no longer verified (C80_couple_refuted, C80_couple_answer_refuted). Other routes ending in the verb are accepted as prior (C80_other_route_refuted), and messages of other routes or other parties block the answer (C80_blocked_refuted)."
  },
  {
   "property": "C81",
   "status": "partial",
   "theorems": [
    "C81_int_round_trip",
    "C81_int_refused",
    "C81_float_round_trip_partial",
    "C81_large_float_refuted"
   ],
   "note": "Proved for every int and for floats whose repr has no plus sign; floats of 1e16 and more come back as other numbers (C81_large_float_refuted). The text of a float and float() are parameters."
  },
  {
   "property": "C82",
   "status": "partial",
   "theorems": [
    "C82_round_trip_partial",
    "C82_refused_partial",
    "C82_base64_text_refuted"
   ],
   "note": "For maps whose texts, where they are those of a primitive as a whole, are in the URL safe Base64 alphabet; otherwise the text comes back changed (C82_base64_text_refuted). Without floats in maps."
  },
  {
   "property": "C83",
   "status": "partial",
   "theorems": [
    "C83_injective_partial",
    "C83_said_binds_partial",
    "C83_same_said_refuted",
    "C83_octets_refuted"
   ],
   "note": "For the same maps as C82; others share their SAID (C83_same_said_refuted). The octets read are not committed to (C83_octets_refuted)."
  },
  {
   "property": "C84",
   "status": "partial",
   "theorems": [
    "C84_binary_partial",
    "C84_text_not_base64_refuted"
   ],
   "note": "For the same maps as C82 (C84_text_not_base64_refuted)."
  },
  {
   "property": "C85",
   "status": "partial",
   "theorems": [
    "C85_reading_ends",
    "C85_nested_count_refuted"
   ],
   "note": "Ending is proved for every input; counts of nested groups may be too large (C85_nested_count_refuted)."
  },
  {
   "property": "C86",
   "status": "proved",
   "theorems": [
    "C86_accepted"
   ],
   "note": "For messages of the KERI protocol; the native serialization of ACDC messages is a parameter. The digest functions are parameters that return octets of the right size."
  },
  {
   "property": "C87",
   "status": "partial",
   "theorems": [
    "C87_said_commits",
    "C87_tamper_evident",
    "C87_dropped_seal_refuted"
   ],
   "note": "Proved for all accepted messages: identical, or a collision, or inceptions that differ in the derivation code of their identifier only (as in C37_prefix_code_refuted). What a maker gives as seals is not committed to: seals of unknown type are dropped without notice (C87_dropped_seal_refuted)."
  },
  {
   "property": "C88",
   "status": "partial",
   "theorems": [
    "C88_read_back_partial",
    "C88_of_field_map_partial",
    "C88_reread",
    "C88_injective_partial",
    "C88_leading_zero_refuted",
    "C88_list_refuted",
    "C88_many_seals_refuted"
   ],
   "note": "Reading again is proved for all accepted messages. Reading back is proved for well formed field maps (NkSpec.wellFormed); others need not come back (C88_leading_zero_refuted, C88_list_refuted, C88_many_seals_refuted, C87_dropped_seal_refuted, C89_route_refuted)."
  },
  {
   "property": "C89",
   "status": "partial",
   "theorems": [
    "C89_date_round_trip_partial",
    "C89_route_round_trip_partial",
    "C89_date_refuted",
    "C89_route_refuted"
   ],
   "note": "For dates of 32 characters and for routes without newlines that have slashes or no hyphens (C89_date_refuted, C89_route_refuted)."
  },
  {
   "property": "C90",
   "status": "proved",
   "theorems": [
    "C90_reading_ends"
   ],
   "note": ""
  },
  {
   "property": "C91",
   "status": "partial",
   "theorems": [
    "C91_binary_partial",
    "C91_stripped_refuted",
    "C91_stream_refuted"
   ],
   "note": "For a message alone that is not stripped; stripping is refuted (C91_stripped_refuted, C91_stream_refuted)."
  },
  {
   "property": "C92",
   "status": "partial",
   "theorems": [
    "C92_said_is_digest",
    "C92_layouts",
    "C92_binding",
    "C92_kinds_refuted"
   ],
   "note": "Proved within each class; a blinded state and a media value can share their said (C92_kinds_refuted)."
  },
  {
   "property": "C93",
   "status": "proved",
   "theorems": [
    "C93_blinds",
    "C93_values",
    "C93_unblind_sound",
    "C93_unblind_same",
    "C93_unblind_complete",
    "C93_blind_unblind",
    "C93_unblind_none",
    "C93_unblind_total"
   ],
   "note": "Proved for every salt whose stretching gives 32 octets. That the state stays hidden from others is a matter of cryptography and not expressed."
  },
  {
   "property": "C94",
   "status": "partial",
   "theorems": [
    "C94_encloses",
    "C94_round_trip_partial",
    "C94_binary_round_trip_partial",
    "C94_big_refuted",
    "C94_extract_sound_partial",
    "C94_extract_binary_sound_partial",
    "C94_truncated_refuted",
    "C94_ends"
   ],
   "note": "Round trips are proved for groups of at most 16384 characters (12288 octets in binary); all longer ones cannot be extracted (C94_big_refuted). A group cut off between two structures is accepted (C94_truncated_refuted)."
  },
  {
   "property": "C95",
   "status": "partial",
   "theorems": [
    "C95_all_cloned",
    "C95_signed",
    "C95_replay_partial",
    "C95_resume_partial",
    "C95_dates_partial",
    "C95_delegated_refuted",
    "C95_party_refuted",
    "C95_unverified_refuted",
    "C95_dates_refuted"
   ],
   "note": "Replay, resumption and, in cloned mode, the dates of establishment events are proved for undelegated identifiers to whose log neither source nor receiver is party, superseding rotations included. Refuted for delegated identifiers (C95_delegated_refuted), for a source that is party (C95_party_refuted), for dates of interactions in cloned mode (C95_dates_refuted); signatures that no key verifies are sent on (C95_unverified_refuted). Endorsements by others than witnesses are not modelled."
  },
  {
   "property": "C96",
   "status": "partial",
   "theorems": [
    "C96_clean_partial",
    "C96_own_refuted",
    "C96_delegated_refuted",
    "C96_dates_refuted"
   ],
   "note": "Proved for undelegated identifiers to whose log the node is not party. Refuted for its own identifiers without enough receipts (C96_own_refuted), for delegated identifiers sorted before their delegator (C96_delegated_refuted) and for dates (C96_dates_refuted). The databases that are copied as they are, other than the key states, are not modelled."
  },
  {
   "property": "C97",
   "status": "partial",
   "theorems": [
    "C97_built_accepted",
    "C97_cut_order_refuted"
   ],
   "note": "Acceptance is proved for logs of identifiers that are not delegated. Refuted that rotate takes every list of cuts among the witnesses (C97_cut_order_refuted)."
  },
  {
   "property": "C98",
   "status": "partial",
   "theorems": [
    "C98_in_step_partial",
    "C98_incepted",
    "C98_interact",
    "C98_rotate",
    "C98_short_weights_refuted",
    "C98_short_inception_refuted",
    "C98_zero_next_refuted"
   ],
   "note": "Proved for histories in which an explicit current threshold of a rotation weighs as many keys as there are and the inception was accepted; refuted beyond (C98_short_weights_refuted, C98_short_inception_refuted). That the next keys suffice for a rotation is refuted for a next threshold of zero (C98_zero_next_refuted). C98_rotate assumes that the key manager makes new keys. Group and Signify habitats are not modelled."
  },
  {
   "property": "C99",
   "status": "partial",
   "theorems": [
    "C99_rotate_refused",
    "C99_repeat_refuted",
    "C99_incept_repeat_refuted"
   ],
   "note": "The first sentence is proved, as far as in C98; the second is refuted for rotations (C99_repeat_refuted) and inceptions (C99_incept_repeat_refuted)."
  },
  {
   "property": "C100",
   "status": "partial",
   "theorems": [
    "C100_arrival_partial",
    "C100_once_partial",
    "C100_progress_partial",
    "C100_read",
    "C100_wire",
    "C100_half_refuted",
    "C100_removed_refuted",
    "C100_line_refuted"
   ],
   "note": "Proved for messages that are text on one line, keys none of which continues another after a dot, and a server that neither dies while storing nor removes messages; refuted beyond (C100_half_refuted, C100_removed_refuted, C100_line_refuted, C101_poison_refuted). The stream reader is that of the event stream format, as hio is not in the repository. Time, connection set-up and the choice among several witnesses are not modelled."
  },
  {
   "property": "C101",
   "status": "partial",
   "theorems": [
    "C101_isolation_partial",
    "C101_poison_refuted",
    "C101_topic_name_refuted"
   ],
   "note": "Proved for the database of the mailbox and keys none of which continues another after a dot. Refuted for topic names that a sender chooses (C101_topic_name_refuted) and for messages that are not text, such as events in CBOR or MGPK (C101_poison_refuted)."
  },
  {
   "property": "C102",
   "status": "partial",
   "theorems": [
    "C102_handed_partial",
    "C102_crash_refuted"
   ],
   "note": "Proved as long as the client does not die; refuted for a crash between noting the number of a message and handing it over (C102_crash_refuted)."
  },
  {
   "property": "C103",
   "status": "partial",
   "theorems": [
    "C103_owner_refuted"
   ],
   "note": "Refuted: signatures of queries are required and not verified (C103_owner_refuted)."
  },
  {
   "property": "C104",
   "status": "partial",
   "theorems": [
    "C104_single",
    "C104_sets_partial",
    "C104_ordinals_partial",
    "C104_nsets_partial",
    "C104_empty_key_refuted",
    "C104_empty_value_refuted",
    "C104_backwards_refuted",
    "C104_extended_key_refuted"
   ],
   "note": "Proved for non-empty keys none of which continues another after the separator, and within the limits on numbers; refuted for empty keys and empty values, for reading backwards and for keys that continue one another (C104_empty_key_refuted, C104_empty_value_refuted, C104_backwards_refuted, C104_extended_key_refuted). Sub-databases with duplicates (the IoDup and Dup methods) are not in the browser back end."
  },
  {
   "property": "C105",
   "status": "partial",
   "theorems": [
    "C105_flush_partial",
    "C105_crash_partial",
    "C105_append_refuted",
    "C105_removal_refuted",
    "C105_clear_refuted",
    "C105_atomic_refuted"
   ],
   "note": "Proved for histories without appendOnIoSetVals and without remOnAllIoSet of a key, which do not mark the database as changed (C105_append_refuted, C105_removal_refuted). Refuted for clearing (C105_clear_refuted) and for crashes during a flush (C105_atomic_refuted), where C105_crash_partial says what is found instead. The storage is assumed to keep what its sync has written."
  },
  {
   "property": "C106",
   "status": "partial",
   "theorems": [
    "C106_approved_partial",
    "C106_content_partial",
    "C106_block_refuted",
    "C106_stranger_refuted"
   ],
   "note": "Proved that a local proposal with the same identity exists, and with proposals of the second version that it carries the same message. Refuted for the first version, whose identity is a text that nobody verifies (C106_block_refuted), and for strangers (C106_stranger_refuted). Assumes that saids tell proposals apart and that no identifier becomes local after it has sent something."
  },
  {
   "property": "C107",
   "status": "partial",
   "theorems": [
    "C107_merged_partial",
    "C107_notice_partial",
    "C107_poison_refuted"
   ],
   "note": "Proved when all proposals with this identity can be read; refuted otherwise, since one bad copy stops all later own proposals (C107_poison_refuted). What the parser does with the messages is not modelled here. Same assumptions as C106."
  },
  {
   "property": "C108",
   "status": "partial",
   "theorems": [
    "C108_complete_partial",
    "C108_stays",
    "C108_superseded_refuted",
    "C108_witnesses_refuted"
   ],
   "note": "Proved: what must have happened before a report (C108_complete_partial), and that a report stays (C108_stays). Refuted: the digest may be that of no event of the group (C108_superseded_refuted), and the receipts counted are compared with the witnesses of the latest key state (C108_witnesses_refuted)."
  },
  {
   "property": "C109",
   "status": "proved",
   "theorems": [
    "C109_anchored"
   ],
   "note": "For all histories. Witnesses are those of the key state at the time of the pass, as the statement says."
  },
  {
   "property": "C110",
   "status": "partial",
   "theorems": [
    "C110_group_partial",
    "C110_elected_partial",
    "C110_twice_refuted",
    "C110_second_refuted",
    "C110_delegator_refuted",
    "C110_crash_refuted",
    "C110_proxy_refuted"
   ],
   "note": "Proved for events that need no approval of a delegator, of groups whose keys and witnesses stay and that have one event under way, when no pass raises (C110_group_partial), and that somebody is elected when each member has only signatures of members who started it (C110_elected_partial). Refuted: two events under way, delegators not known yet, crashes of the first member, two elected members, and delegations without proxy, which stop all others (C110_second_refuted, C110_delegator_refuted, C110_crash_refuted, C110_twice_refuted, C110_proxy_refuted). Progress of delegations is not proved."
  },
  {
   "property": "C111",
   "status": "partial",
   "theorems": [
    "C111_round_trip_partial",
    "C111_merge",
    "C111_kinds",
    "C111_same_refuted",
    "C111_text_refuted",
    "C111_empty_refuted"
   ],
   "note": "Reading back is proved for at least one signage, different names other than the five of the format, and texts without blanks, commas, semicolons and quotes; the key of an unindexed signature comes back as its name only, and signatures of a kind other than CESR as texts. Refuted beyond (C111_same_refuted, C111_text_refuted, C111_empty_refuted). Merging is proved for all texts."
  },
  {
   "property": "C112",
   "status": "partial",
   "theorems": [
    "C112_signed",
    "C112_goes_partial",
    "C112_threshold_refuted",
    "C112_raises_refuted"
   ],
   "note": "The first sentence is proved for all headers (C112_signed); the second for signatures by all keys (C112_goes_partial) and refuted for fewer that reach the threshold (C112_threshold_refuted); the third is refuted, since headers that are missing or cannot be read raise (C112_raises_refuted). The signature is over json.dumps of the parsed body, which is where the model begins."
  },
  {
   "property": "C113",
   "status": "partial",
   "theorems": [
    "C113_read_partial",
    "C113_list_partial",
    "C113_find_partial",
    "C113_dot_refuted",
    "C113_id_refuted",
    "C113_value_refuted",
    "C113_begins_refuted",
    "C113_blank_refuted"
   ],
   "note": "Proved for texts as values, names of fields without dots other than id, prefixes without dots that do not begin one another, and keys within the limit of LMDB; refuted beyond (C113_dot_refuted, C113_id_refuted, C113_value_refuted, C113_begins_refuted), and contacts without fields are not listed (C113_blank_refuted). Images and regular expressions are not modelled."
  },
  {
   "property": "C114",
   "status": "partial",
   "theorems": [
    "C114_genuine",
    "C114_swap_refuted",
    "C114_list_refuted",
    "C114_others",
    "C114_heals",
    "C114_crash_refuted",
    "C114_lost_refuted"
   ],
   "note": "Reading is proved to give nothing that was not signed in an operation of the history or for another purpose (C114_genuine); refuted that it belongs to this contact (C114_swap_refuted) and for list (C114_list_refuted). Other contacts are proved to be left alone by a crash (C114_others), and rem to repair the one that was hit (C114_heals); refuted that it can be read or is kept (C114_crash_refuted, C114_lost_refuted)."
  },
  {
   "property": "C115",
   "status": "partial",
   "theorems": [
    "C115_notes",
    "C115_pages",
    "C115_range_refuted"
   ],
   "note": "Proved for ids and times without a slash, for all ranges that are not empty; refuted for a range that ends before it begins (C115_range_refuted). Random ids and times are given."
  },
  {
   "property": "C116",
   "status": "partial",
   "theorems": [
    "C116_add",
    "C116_others",
    "C116_rem_refuted",
    "C116_mark_refuted",
    "C116_stuck_refuted"
   ],
   "note": "Proved that a crash in add leaves the list of before or after (C116_add) and that operations on other notices work (C116_others). Refuted for rem, after which the list raises for ever (C116_rem_refuted, for all histories), for mar (C116_mark_refuted), and for later operations on the same notice (C116_stuck_refuted)."
  },
  {
   "property": "C117",
   "status": "partial",
   "theorems": [
    "C117_schema",
    "C117_resolved",
    "C117_empty_refuted",
    "C117_alias_refuted"
   ],
   "note": "Proved for all histories, crashes included (C117_schema, C117_resolved). Refuted that a stream with anything in it was needed (C117_empty_refuted), and that the alias goes to the identifier of the URL (C117_alias_refuted). The parser, schemas and messages are parameters."
  },
  {
   "property": "C118",
   "status": "partial",
   "theorems": [
    "C118_asks",
    "C118_restart",
    "C118_ends_partial",
    "C118_stays_done",
    "C118_retry",
    "C118_kept_partial",
    "C118_lost_refuted",
    "C118_dropped_refuted",
    "C118_again_refuted",
    "C118_silent_refuted",
    "C118_mismatch_refuted",
    "C118_unmatched_refuted",
    "C118_separator_refuted",
    "C118_poison_refuted"
   ],
   "note": "Proved: a pass that does not raise requests every usable OOBI (C118_asks), open requests are sent again after a restart (C118_restart), an answer other than 404 or a reply with URLs ends one (C118_ends_partial), results stay (C118_stays_done), 404s are tried again (C118_retry), and without crashes within a pass nothing is lost (C118_kept_partial). Refuted for such crashes (C118_lost_refuted), URLs without client (C118_dropped_refuted), second tries (C118_again_refuted), silent servers, mismatched replies and odd paths (C118_silent_refuted, C118_mismatch_refuted, C118_unmatched_refuted), and for all OOBIs at once by one URL with > (C118_separator_refuted) or one odd answer (C118_poison_refuted)."
  },
  {
   "property": "C119",
   "status": "partial",
   "theorems": [
    "C119_confirmed",
    "C119_success_refuted",
    "C119_dot_refuted",
    "C119_client_refuted"
   ],
   "note": "Only confirmed URLs are noted (C119_confirmed). Refuted: statuses 201 to 399 count as failures (C119_success_refuted), the dot of the path may be any character (C119_dot_refuted), a URL without client raises again and again (C119_client_refuted)."
  },
  {
   "property": "C120",
   "status": "partial",
   "theorems": [
    "C120_recorded_partial",
    "C120_source_refuted"
   ],
   "note": "Proved over all histories that records come from received and signed notices that agree with the own log, and for credentials that the source is allowed by the own records (C120_recorded_partial). Missing for registries, where issuer and backers are read from the notice: a stranger names itself (C120_source_refuted)."
  },
  {
   "property": "C121",
   "status": "partial",
   "theorems": [
    "C121_registry_partial",
    "C121_credential_refuted",
    "C121_route_refuted"
   ],
   "note": "Proved for registries while logs grow (C121_registry_partial); refuted for credentials, where an old notice received again undoes a revocation (C121_credential_refuted), and for registries by notices for credentials that name them (C121_route_refuted)."
  },
  {
   "property": "C122",
   "status": "partial",
   "theorems": [
    "C122_prompt_partial",
    "C122_escrowed_partial",
    "C122_waits_partial",
    "C122_recorded_partial",
    "C122_old_refuted",
    "C122_dots_refuted",
    "C122_left_refuted",
    "C122_query_refuted"
   ],
   "note": "Proved for nontransferable sources: recorded at once (C122_prompt_partial), kept with a query (C122_escrowed_partial), waiting (C122_waits_partial), recorded by the next pass (C122_recorded_partial). Missing: sources with key event logs. Refuted: the hour counts from the date in the notice (C122_old_refuted), one identifier with a dot stops all passes for ever (C122_dots_refuted), stored notices are never removed (C122_left_refuted), the query for the issuer of a credential asks for the source (C122_query_refuted)."
  },
  {
   "property": "C123",
   "status": "partial",
   "theorems": [
    "C123_answers",
    "C123_unsigned_refuted"
   ],
   "note": "Proved over all histories (C123_answers). Refuted: who sent a query is not known, since its signatures are never verified (C123_unsigned_refuted)."
  },
  {
   "property": "C124",
   "status": "partial",
   "theorems": [
    "C124_prompt_partial",
    "C124_waits_partial",
    "C124_done_partial",
    "C124_expires",
    "C124_nontrans_refuted",
    "C124_nontrans_early_refuted",
    "C124_beyond_refuted",
    "C124_receipts_refuted",
    "C124_again_refuted"
   ],
   "note": "Proved over all histories for signed queries of transferable queriers for whole logs, key states and streams while the delegator is known: answered by the pass (C124_prompt_partial), answered or waiting (C124_waits_partial), gone when answered (C124_done_partial), gone when too old (C124_expires). Refuted: queries with signatures of non transferable keys only (C124_nontrans_refuted, C124_nontrans_early_refuted), numbers not reached (C124_beyond_refuted), a newest event without receipts (C124_receipts_refuted), queries sent again (C124_again_refuted)."
  },
  {
   "property": "C125",
   "status": "partial",
   "theorems": [
    "C125_verifies_partial",
    "C125_resume_partial",
    "C125_nested_refuted",
    "C125_boss_refuted"
   ],
   "note": "Proved for identifiers without delegator and nodes that are no party to it, for the whole log (C125_verifies_partial) and its rest (C125_resume_partial). Refuted: two levels of delegation (C125_nested_refuted), unknown delegators (C125_boss_refuted)."
  },
  {
   "property": "C126",
   "status": "partial",
   "theorems": [
    "C126_report",
    "C126_members",
    "C126_returns_partial",
    "C126_heights_refuted",
    "C126_fork_behind_refuted",
    "C126_silent_refuted",
    "C126_few_refuted"
   ],
   "note": "Proved for all databases (C126_report, C126_members); that an adjudication returns, over all histories (C126_returns_partial), for identifiers without dots and key states in which a digest goes with one identifier and number. Refuted: watchers ahead at different numbers of one log count as duplicity (C126_heights_refuted), a fork below the own newest event counts as lag (C126_fork_behind_refuted), silence counts as consistency (C126_silent_refuted), too few ahead gives no report (C126_few_refuted)."
  },
  {
   "property": "C127",
   "status": "partial",
   "theorems": [
    "C127_said_partial",
    "C127_update_partial",
    "C127_duplicity_partial",
    "C127_shared_refuted",
    "C127_late_fork_refuted"
   ],
   "note": "Proved over all histories under the same conditions: each voice (C127_said_partial), updates (C127_update_partial), duplicity (C127_duplicity_partial). Refuted without the condition on digests: a stranger overwrites what watchers told (C127_shared_refuted); forks told late are refused (C127_late_fork_refuted)."
  },
  {
   "property": "C128",
   "status": "partial",
   "theorems": [
    "C128_all_partial",
    "C128_drained_partial",
    "C128_stop_refuted"
   ],
   "note": "Proved if each adjudication returns (C128_all_partial), which over histories is so for known identifiers and feasible thresholds (C128_drained_partial). Refuted: a request that fails ends the pass (C128_stop_refuted)."
  },
  {
   "property": "C129",
   "status": "partial",
   "theorems": [
    "C129_complete_partial",
    "C129_own_partial",
    "C129_credential",
    "C129_early_refuted"
   ],
   "note": "Proved over all histories with crashes after any write: what was asked, receipts, log and a message about the same credential (C129_complete_partial), the own message if it is the only event of its credential (C129_own_partial), credentials (C129_credential). Refuted that it is the own message (C129_early_refuted). What receipts, logs and group completion mean is taken from the world around."
  },
  {
   "property": "C130",
   "status": "partial",
   "theorems": [
    "C130_progress_partial",
    "C130_group_partial",
    "C130_log_partial",
    "C130_kept_partial",
    "C130_crash_refuted",
    "C130_restart_refuted",
    "C130_down_refuted",
    "C130_forgotten_refuted"
   ],
   "note": "Proved: a pass and publishing complete events that are ready (C130_progress_partial, C130_group_partial, C130_log_partial); nothing is lost by crashes between calls (C130_kept_partial). Refuted: crashes inside a pass (C130_crash_refuted), restarts while waiting (C130_restart_refuted), a missing witness (C130_down_refuted), and after restarts what was complete is not (C130_forgotten_refuted)."
  },
  {
   "property": "C131",
   "status": "partial",
   "theorems": [
    "C131_single_partial",
    "C131_group_partial",
    "C131_origin",
    "C131_between_refuted"
   ],
   "note": "Proved: the anchor given, if newest or of a group (C131_single_partial, C131_group_partial), where every record comes from (C131_origin). Refuted: an event in between is recorded instead (C131_between_refuted). Other writers of the same table are outside."
  },
  {
   "property": "C132",
   "status": "partial",
   "theorems": [
    "C132_origin_partial",
    "C132_cues_partial",
    "C132_answer",
    "C132_accepted_partial",
    "C132_unknown",
    "C132_post_refuted"
   ],
   "note": "Proved over all histories: every receipt is for an accepted or a posted event (C132_origin_partial), accepted without posts (C132_cues_partial); what the endpoint answers (C132_answer, C132_unknown); a posted event that validates is accepted (C132_accepted_partial). Refuted for posted events: the endpoint signs any event of an identifier it witnesses, valid or not (C132_post_refuted)."
  },
  {
   "property": "C133",
   "status": "partial",
   "theorems": [
    "C133_rotation_partial",
    "C133_post_refuted"
   ],
   "note": "Proved without posts: only after a rotation at that number or before (C133_rotation_partial). Refuted for posts (C133_post_refuted)."
  },
  {
   "property": "C134",
   "status": "partial",
   "theorems": [
    "C134_number_partial",
    "C134_found",
    "C134_said_refuted",
    "C134_escrow_refuted",
    "C134_witness"
   ],
   "note": "Proved for queries by number (C134_number_partial, C134_found, C134_witness). Refuted for queries by digest: number zero (C134_said_refuted), events in escrow with unverified signatures (C134_escrow_refuted). That signatures of accepted events verify is C19/C20 of the log."
  },
  {
   "property": "C135",
   "status": "partial",
   "theorems": [
    "C135_cued_partial",
    "C135_receipted_partial",
    "C135_handled",
    "C135_restart_refuted"
   ],
   "note": "Proved over all histories without posts and restarts: receipted or waiting (C135_cued_partial, C135_receipted_partial), and handling the cues receipts all that waits (C135_handled). Refuted for restarts: cues are in memory only and a repeated event is not cued again (C135_restart_refuted)."
  },
  {
   "property": "C136",
   "status": "partial",
   "theorems": [
    "C136_spread_partial",
    "C136_all",
    "C136_late_refuted",
    "C136_catchup",
    "C136_delegated_refuted"
   ],
   "note": "Proved for witnesses that answered 200 (C136_spread_partial), for all if all are honest and reachable (C136_all), that rotations catch added witnesses up first (C136_catchup). Refuted for witnesses that answer otherwise, as 202 for an event they hold back: they are sent nothing (C136_late_refuted), and for delegated rotations, which catch nobody up (C136_delegated_refuted)."
  },
  {
   "property": "C137",
   "status": "partial",
   "theorems": [
    "C137_through_partial",
    "C137_silent_refuted",
    "C137_endpoint_refuted",
    "C137_again"
   ],
   "note": "Proved if the witnesses with endpoint answer (C137_through_partial); rounds can be repeated until one gets through, nothing is lost (C137_again). Refuted for a witness that does not answer (C137_silent_refuted) and an added witness without endpoint (C137_endpoint_refuted)."
  },
  {
   "property": "C138",
   "status": "partial",
   "theorems": [
    "C138_report",
    "C138_held",
    "C138_reported_refuted"
   ],
   "note": "Proved: reported are those that answered 200 (C138_report), where the signatures held come from and that none is lost (C138_held). Refuted: an answer 200 without a valid receipt is reported too (C138_reported_refuted)."
  },
  {
   "property": "C139",
   "status": "partial",
   "theorems": [
    "C139_once",
    "C139_origin",
    "C139_pushed",
    "C139_kept_partial",
    "C139_read",
    "C139_newest",
    "C139_order_partial",
    "C139_topic_refuted",
    "C139_order_refuted"
   ],
   "note": "Proved for all interleavings: at most once over all readers (C139_once), only what was pushed (C139_origin, C139_pushed), no loss but for the reasons named and topics missing (C139_kept_partial, C139_read), one per key and the newest (C139_newest), in order without keys (C139_order_partial). Refuted for signals without topic (C139_topic_refuted) and for the order with keys (C139_order_refuted)."
  },
  {
   "property": "C140",
   "status": "partial",
   "theorems": [
    "C140_pass_partial",
    "C140_disturbed_refuted",
    "C140_replaced_refuted"
   ],
   "note": "Proved for passes nobody disturbs (C140_pass_partial); that only old ones are removed is C139_kept_partial. Refuted for a push or a read during a pass (C140_disturbed_refuted) and for a replacement of one found too old (C140_replaced_refuted)."
  },
  {
   "property": "C141",
   "status": "partial",
   "theorems": [
    "C141_seqno",
    "C141_anchor",
    "C141_notice_partial",
    "C141_cues",
    "C141_digest_refuted",
    "C141_second_refuted",
    "C141_ends"
   ],
   "note": "Proved for numbers (C141_seqno) and seals (C141_anchor) both ways, for key states that a notice came and its number was reached (C141_notice_partial), that it does end (C141_ends), that other cues stay (C141_cues). Refuted for the digest of the notice (C141_digest_refuted) and a second notice ahead (C141_second_refuted, if hio raises on removing a doer twice)."
  },
  {
   "property": "C142",
   "status": "partial",
   "theorems": [
    "C142_seqno_partial",
    "C142_unknown_refuted",
    "C142_dropped_refuted"
   ],
   "note": "Proved when the query of a number is sent (C142_seqno_partial). Refuted for unknown identifiers though witnesses are given (C142_unknown_refuted) and for endpoints or identifiers that become known after the first turn (C142_dropped_refuted)."
  },
  {
   "property": "C143",
   "status": "partial",
   "theorems": [
    "C143_order_partial",
    "C143_order_refuted",
    "C143_submitted",
    "C143_cued_partial",
    "C143_cued_refuted",
    "C143_missing_refuted",
    "C143_again_partial",
    "C143_queue_partial",
    "C143_queue_refuted"
   ],
   "note": "Proved that the event is submitted to all and the log to new witnesses (C143_submitted), that receipts stored in the order of the witness list reach all others (C143_order_partial; C143_again_partial when they are there already), and that a cue means that all receipted if each did once (C143_cued_partial). Refuted for other orders of arrival (C143_order_refuted), for two signatures of one witness (C143_cued_refuted), and while one is missing (C143_missing_refuted), which holds up the messages behind it (C143_queue_refuted; C143_queue_partial otherwise)."
  },
  {
   "property": "C144",
   "status": "partial",
   "theorems": [
    "C144_back",
    "C144_message",
    "C144_lines",
    "C144_stream_refuted"
   ],
   "note": "Proved that denot gives back what annot annotated (C144_back) and that annot ends with it on every well formed message (C144_message), for any codec of primitives that takes just their Base64 characters, and what denot makes of lines (C144_lines). Refuted that annot ends on binary streams and takes more than one message (C144_stream_refuted). The wording of comments is not modelled."
  },
  {
   "property": "C145",
   "status": "partial",
   "theorems": [
    "C145_back",
    "C145_closed",
    "C145_failed_refuted",
    "C145_crash_refuted",
    "C145_crash_partial",
    "C145_setting"
   ],
   "note": "Proved that get gives what was put (C145_back, C145_setting), that a closed file stays as it is (C145_closed), and what a crash leaves (C145_crash_partial). Refuted for puts that fail (C145_failed_refuted) and for crashes (C145_crash_refuted). Serialisation is a parameter."
  },
  {
   "property": "C146",
   "status": "partial",
   "theorems": [
    "C146_data",
    "C146_fields",
    "C146_recipient_partial",
    "C146_recipient_refuted",
    "C146_digest_refuted"
   ],
   "note": "Proved for the data (C146_data), the other fields (C146_fields), and for recipient and nonce if the data have none of the same name (C146_recipient_partial). Refuted for data with i or u (C146_recipient_refuted) and d (C146_digest_refuted). The model ends before SerderACDC."
  },
  {
   "property": "C147",
   "status": "partial",
   "theorems": [
    "C147_tcp_partial",
    "C147_tcp_refuted",
    "C147_http",
    "C147_publisher_partial",
    "C147_publisher_refuted"
   ],
   "note": "Proved for HTTP messengers (C147_http), for TCP messengers with an empty queue (C147_tcp_partial) and publishers for local identifiers (C147_publisher_partial). Refuted for messages in the queue of a TCP messenger (C147_tcp_refuted) and publishers given an identifier that is not local (C147_publisher_refuted)."
  }
 ]
}