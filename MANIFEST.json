{
 "claims": [
  {
   "property": "C01",
   "status": "proved",
   "theorems": [
    "c01_signal_roundtrip",
    "c01_mac_exact"
   ],
   "note": "Exact documented text (independent wire grammar), parse-back, MAC verifies, for all fields and keys. c01_mac_exact: the MAC accepts exactly the messages whose last 8 bytes are the tag."
  },
  {
   "property": "C02",
   "status": "proved",
   "theorems": [
    "c02_prekey_roundtrip"
   ],
   "note": "Exact text and parse-back for every optional/required field."
  },
  {
   "property": "C03",
   "status": "proved",
   "theorems": [
    "c03_senderkey_roundtrip"
   ],
   "note": "Exact text, parse-back and signature verification, for all randomness."
  },
  {
   "property": "C04",
   "status": "proved",
   "theorems": [
    "c04_distribution_roundtrip"
   ],
   "note": "Exact text and parse-back."
  },
  {
   "property": "C05",
   "status": "partial",
   "theorems": [
    "c05_parsers_refuted",
    "c05_parsers_exact"
   ],
   "note": "Decided: REFUTED. A whisper text with version nibble 3 and at most 8 bytes makes NewSignalFromBytes slice out of range (also inside a PreKey message). c05_parsers_exact characterises all crashing inputs and shows the other parsers never crash."
  },
  {
   "property": "C06",
   "status": "proved",
   "theorems": [
    "c06_parsers_accept"
   ],
   "note": "Each parser accepts exactly the texts of an independently defined grammar."
  },
  {
   "property": "C07",
   "status": "proved",
   "theorems": [
    "c07_state_roundtrip",
    "c07_wf_state_roundtrip"
   ],
   "note": "For every state in Go's value ranges whose text is below 2^31 bytes, and with no size hypothesis for every state satisfying the session invariant of C27."
  },
  {
   "property": "C08",
   "status": "proved",
   "theorems": [
    "c08_cbc_inverse",
    "c08_cbc_encrypt_exact"
   ],
   "note": "All key sizes, all plaintexts; ciphertext equals spec CBC of spec padding."
  },
  {
   "property": "C09",
   "status": "proved",
   "theorems": [
    "c09_cbc_decrypt_exact"
   ],
   "note": "Exact result, including that only the last byte is checked."
  },
  {
   "property": "C10",
   "status": "partial",
   "theorems": [
    "c10_caller_buffer_refuted",
    "c10_caller_buffer_exact",
    "c10_no_spare_partial"
   ],
   "note": "Decided: REFUTED. pkcs7pad appends into the caller's spare capacity. c10_caller_buffer_exact gives exactly the bytes overwritten."
  },
  {
   "property": "C11",
   "status": "proved",
   "theorems": [
    "c11_public_key_encoding"
   ],
   "note": ""
  },
  {
   "property": "C12",
   "status": "proved",
   "theorems": [
    "c12_private_key_storage"
   ],
   "note": ""
  },
  {
   "property": "C13",
   "status": "proved",
   "theorems": [
    "c13_agreement_symmetric"
   ],
   "note": "Symmetry uses the X25519 law of CryptoOk (clamped scalars commute)."
  },
  {
   "property": "C14",
   "status": "proved",
   "theorems": [
    "c14_signatures",
    "c14_xeddsa"
   ],
   "note": "Also the exact set of accepted signatures in terms of Ed25519 over the Edwards point of the Montgomery key. c14_xeddsa: the signature is the one of a separate XEdDSA specification, nonce included."
  },
  {
   "property": "C15",
   "status": "proved",
   "theorems": [
    "c15_alternate_identity"
   ],
   "note": ""
  },
  {
   "property": "C16",
   "status": "proved",
   "theorems": [
    "c16_displayed_number"
   ],
   "note": "Also which digits are shown."
  },
  {
   "property": "C17",
   "status": "proved",
   "theorems": [
    "c17_scanned_code",
    "c17_scanned_peer"
   ],
   "note": ""
  },
  {
   "property": "C18",
   "status": "proved",
   "theorems": [
    "c18_iteration_bounds"
   ],
   "note": "Also which digest: exactly it SHA-512 applications."
  },
  {
   "property": "C19",
   "status": "proved",
   "theorems": [
    "c19_chain_determinism"
   ],
   "note": "1:1 and group chains; HKDF equals the RFC 5869 formula."
  },
  {
   "property": "C20",
   "status": "proved",
   "theorems": [
    "c20_consecutive_counters",
    "c20_never_repeated"
   ],
   "note": "Any number of successful EncryptMessage calls on any well-formed device; positions and frames exact, no repetition before the wrap."
  },
  {
   "property": "C21",
   "status": "proved",
   "theorems": [
    "c21_established",
    "c21_matching_keys"
   ],
   "note": "All keys, all randomness, both store kinds; c21_matching_keys states the common root and chain keys. Uses the X25519 commutation law of CryptoOk."
  },
  {
   "property": "C22",
   "status": "partial",
   "theorems": [
    "c22_id_zero_not_named_exact",
    "c22_id_zero_needs_collision_exact",
    "c22_id_zero_usable_refuted",
    "c22_other_ids_usable_partial"
   ],
   "note": "Decided: REFUTED for id 0. The initiator mixes in the one-time key but no frame names it (c22_id_zero_not_named_exact), the responder can accept only if two different MAC keys give one tag (c22_id_zero_needs_collision_exact, universal), and for suitable primitives it never accepts (c22_id_zero_usable_refuted). All other ids work (c22_other_ids_usable_partial)."
  },
  {
   "property": "C23",
   "status": "proved",
   "theorems": [
    "c23_delivered",
    "c23_never_wrong",
    "c23_sendable"
   ],
   "note": "Induction over all histories of the pair: sends, deliveries in any order, losses, duplicates and steps that leave the session alone. Covers the conversation in one session; c23_sendable says which messages are receivable."
  },
  {
   "property": "C24",
   "status": "partial",
   "theorems": [
    "c24_gone_refused_partial",
    "c24_replay_refuted",
    "c24_replay_later_refuted",
    "c24_saved_spends_partial",
    "c24_spent_rejected_partial"
   ],
   "note": "Decided: REFUTED, for every message delivered in order or ahead (the code stores the chain key instead of its successor). Proved restricted form: a message read with a saved key is spent, and spent positions are rejected as duplicates over all later evolutions that keep the chain. Also c24_gone_refused_partial: within every conversation history, a genuine message behind the chain without a saved key is never decrypted again."
  },
  {
   "property": "C25",
   "status": "partial",
   "theorems": [
    "c25_errors_refuted",
    "c25_answers_exact",
    "c25_prekey_answers_partial"
   ],
   "note": "Decided: REFUTED: decryptSignal overwrites its error, so every whisper message no session opens is answered with nil error and no bytes. c25_answers_exact is the exact statement for every fault list; pre-key messages satisfy the property."
  },
  {
   "property": "C26",
   "status": "partial",
   "theorems": [
    "c26_rejected_whisper",
    "c26_error_leaves_session_partial",
    "c26_shared_refuted"
   ],
   "note": "Whisper messages: proved for every store kind, fault and crash point. Pre-key messages on the sharing in-memory store: REFUTED (c26_shared_refuted); for copying stores c26_error_leaves_session_partial."
  },
  {
   "property": "C27",
   "status": "proved",
   "theorems": [
    "c27_session_bytes",
    "c27_session_bounded"
   ],
   "note": "Invariant of all executions: concurrent calls, crashes, failing stores. c27_session_bytes gives the bound in bytes of the storage encoding."
  },
  {
   "property": "C28",
   "status": "proved",
   "theorems": [
    "c28_group_far_refused",
    "c28_far_refused",
    "c28_far_new_chain_refused",
    "c28_limit_accepted",
    "c28_self_unlimited"
   ],
   "note": "Refusal holds for arbitrary primitives and leaves the randomness untouched, which is how \"before any key derivation\" is expressed for an existing chain; a message opening a new chain is refused after the root step."
  },
  {
   "property": "C29",
   "status": "partial",
   "theorems": [
    "c29_encrypt",
    "c29_bundle",
    "c29_prekey",
    "c29_whisper",
    "c29_inmem",
    "c29_session_identity_refuted"
   ],
   "note": "Proved for encryption, bundles, pre-key frames and whisper messages, every fault list. REFUTED for the session peer inside a pre-key frame (c29_session_identity_refuted): only the identity named by the frame is checked."
  },
  {
   "property": "C30",
   "status": "proved",
   "theorems": [
    "c30_unsigned_refused",
    "c30_changed_only_if_signed"
   ],
   "note": "Every fault list and crash point; the whole device state is unchanged."
  },
  {
   "property": "C31",
   "status": "partial",
   "theorems": [
    "c31_unknown_signed_refuted",
    "c31_prekey_panic_exact",
    "c31_whisper_no_panic"
   ],
   "note": "Decided: REFUTED (unknown signed pre-key). c31_prekey_panic_exact gives the only two causes; whisper messages never crash."
  },
  {
   "property": "C32",
   "status": "proved",
   "theorems": [
    "c32_consumed",
    "c32_success_consumes",
    "c32_whisper_keeps"
   ],
   "note": "Every fault list and crash point."
  },
  {
   "property": "C33",
   "status": "proved",
   "theorems": [
    "c33_known_base",
    "c33_call"
   ],
   "note": ""
  },
  {
   "property": "C34",
   "status": "proved",
   "theorems": [
    "c34_promote",
    "c34_promote_old"
   ],
   "note": ""
  },
  {
   "property": "C35",
   "status": "partial",
   "theorems": [
    "c35_archived_refuted",
    "c35_archived_partial"
   ],
   "note": "Decided: REFUTED: an archived session that takes the message for a duplicate hides the one that can read it. c35_archived_partial is the restricted form. The exact rule is C90."
  },
  {
   "property": "C36",
   "status": "proved",
   "theorems": [
    "c36_framing_in_history",
    "c36_framed_until_received",
    "c36_plain_after_received"
   ],
   "note": "Over all histories, and for the ids and base key of the processed bundle."
  },
  {
   "property": "C37",
   "status": "proved",
   "theorems": [
    "c37_writes_own_entries",
    "c37_reads_own_entries"
   ],
   "note": "Writes (also at every crash point) and reads (non-interference form)."
  },
  {
   "property": "C38",
   "status": "partial",
   "theorems": [
    "c38_store_answer_refuted",
    "c38_store_answer_exact",
    "c38_replacement_reported_partial",
    "c38_first_store_partial"
   ],
   "note": "Decided: REFUTED. Store compares pointers, so re-storing the same key from another object answers true. Exact answer proved over all histories; replaced keys are always reported, first stores never."
  },
  {
   "property": "C39",
   "status": "proved",
   "theorems": [
    "c39_identity_map",
    "c39_identity_tofu"
   ],
   "note": "All histories of Store/Clear with arbitrary interleaving of the background deletion."
  },
  {
   "property": "C40",
   "status": "partial",
   "theorems": [
    "c40_encrypt_partial",
    "c40_prekey_partial",
    "c40_whisper_partial",
    "c40_bundle_refuted"
   ],
   "note": "Holds for encryption, pre-key and whisper messages; REFUTED for ProcessPreKeyBundle (plain error), for every bundle and store."
  },
  {
   "property": "C41",
   "status": "partial",
   "theorems": [
    "c41_failed_encrypt_copying_partial",
    "c41_shared_exact",
    "c41_failed_encrypt_refuted"
   ],
   "note": "Decided: REFUTED for the in-memory (sharing) store, c41_failed_encrypt_refuted, with the exact effect c41_shared_exact. Restricted form c41_failed_encrypt_copying_partial holds for a copying store with no failing-after-effect fault."
  },
  {
   "property": "C42",
   "status": "proved",
   "theorems": [
    "c42_group_persisted",
    "c42_group_crash_points",
    "c42_persisted_before_return",
    "c42_crash_points"
   ],
   "note": "One-to-one and group; every store-failure and crash point."
  },
  {
   "property": "C43",
   "status": "partial",
   "theorems": [
    "c43_concurrent_refuted",
    "c43_locked_partial"
   ],
   "note": "Decided: REFUTED universally: for every well-formed device there is an interleaving in which both calls return ciphertexts at the same position. Restricted form proved: c43_locked_partial (overlapping calls are for different peers)."
  },
  {
   "property": "C44",
   "status": "proved",
   "theorems": [
    "c44_exact",
    "c44_delivered_exactly_once",
    "c44_sent_is_genuine",
    "c44_other_calls_keep",
    "c44_other_chains_keep",
    "c44_distributions_keep"
   ],
   "note": "c44_exact gives the result of every arrival in every history; the others remove the mailbox from the statement, link it to what EncryptMessage returns, and show which other calls leave a member's channel alone. Iterations below 2^32-1."
  },
  {
   "property": "C45",
   "status": "proved",
   "theorems": [
    "c45_earlier_unreadable",
    "c45_later_readable"
   ],
   "note": "Earlier iterations: all executions. Later ones: in order always; any other order by c44_exact."
  },
  {
   "property": "C46",
   "status": "proved",
   "theorems": [
    "c46_group_bounded"
   ],
   "note": "Invariant of all executions."
  },
  {
   "property": "C47",
   "status": "proved",
   "theorems": [
    "c47_redistribution"
   ],
   "note": "Exact new record in all four cases."
  },
  {
   "property": "C48",
   "status": "proved",
   "theorems": [
    "c48_heard_only_if_signed",
    "c48_unsigned_ignored"
   ],
   "note": "'Signed' is stated with Ed25519 over the Edwards form of the key, not the model's verifier."
  },
  {
   "property": "C49",
   "status": "proved",
   "theorems": [
    "c49_receivers_cannot_send"
   ],
   "note": "All executions in which no sender key is created for that address and distribution."
  },
  {
   "property": "C50",
   "status": "proved",
   "theorems": [
    "c50_describes",
    "c50_next_message",
    "c50_idempotent",
    "c50_fresh_succeeds"
   ],
   "note": ""
  },
  {
   "property": "C51",
   "status": "partial",
   "theorems": [
    "c51_copying_partial",
    "c51_shared_exact",
    "c51_failed_decrypt_refuted"
   ],
   "note": "Decided: REFUTED on the in-memory (sharing) store: c51_failed_decrypt_refuted, exactly c51_shared_exact. Holds on a copying store (c51_copying_partial)."
  },
  {
   "property": "C52",
   "status": "proved",
   "theorems": [
    "c52_uuid_text"
   ],
   "note": ""
  },
  {
   "property": "C53",
   "status": "proved",
   "theorems": [
    "c53_signed_id_kept"
   ],
   "note": ""
  },
  {
   "property": "C54",
   "status": "proved",
   "theorems": [
    "c54_unexpected_types"
   ],
   "note": ""
  },
  {
   "property": "C55",
   "status": "proved",
   "theorems": [
    "c55_consecutive",
    "c55_never_repeated"
   ],
   "note": ""
  },
  {
   "property": "C56",
   "status": "partial",
   "theorems": [
    "c56_concurrent_senders_refuted",
    "c56_locked_partial"
   ],
   "note": "Decided: REFUTED on every device that can send: nothing locks the record between load and store. Restricted form proved: c56_locked_partial (overlapping calls are for different groups)."
  },
  {
   "property": "C57",
   "status": "partial",
   "theorems": [
    "c57_pinned_partial",
    "c57_race_refuted"
   ],
   "note": "Proved (c57_pinned_partial) for every execution in which no call that may store a key for the address is in flight when the key is pinned. Decided: REFUTED for calls in flight at first use (c57_race_refuted): check and store are not atomic."
  },
  {
   "property": "C58",
   "status": "proved",
   "theorems": [
    "c58_crossing"
   ],
   "note": ""
  },
  {
   "property": "C59",
   "status": "proved",
   "theorems": [
    "c59_no_session_lost"
   ],
   "note": "Successful calls on any store; failing and cut-off calls on stores that return copies."
  },
  {
   "property": "C60",
   "status": "proved",
   "theorems": [
    "c60_size",
    "c60_looks_same",
    "c60_group_size",
    "c60_group_looks_same"
   ],
   "note": ""
  },
  {
   "property": "C61",
   "status": "proved",
   "theorems": [
    "c61_scanned",
    "c61_displayed"
   ],
   "note": "c61_scanned and c61_displayed. The clash is between texts named in the statement (those hashed on the way to the two numbers), not just any two texts, which exist for every hash. How hard it is to find one is not modelled."
  },
  {
   "property": "C62",
   "status": "proved",
   "theorems": [
    "c62_all_or_nothing"
   ],
   "note": "For stores that return copies; a shared store is the subject of C26/C41."
  },
  {
   "property": "C63",
   "status": "proved",
   "theorems": [
    "c63_send_cut",
    "c63_receive_cut"
   ],
   "note": "For stores that return copies."
  },
  {
   "property": "C64",
   "status": "partial",
   "theorems": [
    "c64_redelivered_partial",
    "c64_saved_lost_refuted"
   ],
   "note": "Proved (c64_redelivered_partial) for messages that are not read with a saved key. Decided: REFUTED for saved-key messages (c64_saved_lost_refuted): the session without the key is stored before the plaintext is returned."
  },
  {
   "property": "C65",
   "status": "partial",
   "theorems": [
    "c65_left_behind_refuted"
   ],
   "note": "Decided: REFUTED, universally: whenever the last store call fails the pre-key stays for ever (the session is stored before the pre-key is deleted)."
  },
  {
   "property": "C66",
   "status": "partial",
   "theorems": [
    "c66_concurrent_refuted",
    "c66_missing_ignored_refuted",
    "c66_consumed_needs_collision_exact"
   ],
   "note": "Decided: REFUTED for concurrent messages and for messages that name a key which is gone. Exact form proved: an initiator's message that did use a consumed key is accepted only on a MAC collision."
  },
  {
   "property": "C67",
   "status": "proved",
   "theorems": [
    "c67_side_by_side",
    "c67_pair"
   ],
   "note": ""
  },
  {
   "property": "C68",
   "status": "proved",
   "theorems": [
    "c68_failures_reported"
   ],
   "note": ""
  },
  {
   "property": "C69",
   "status": "proved",
   "theorems": [
    "c69_headers",
    "c69_numbered"
   ],
   "note": ""
  },
  {
   "property": "C70",
   "status": "proved",
   "theorems": [
    "c70_one_by_one",
    "c70_at_rest"
   ],
   "note": ""
  },
  {
   "property": "C71",
   "status": "partial",
   "theorems": [
    "c71_flood_refuted",
    "c71_copying_partial"
   ],
   "note": "Decided: REFUTED on the sharing in-memory store: 41 made-up pre-key messages, which need no secret and are all refused, push every session out of the record (c71_flood_refuted). Proved for stores that return copies: c71_copying_partial."
  },
  {
   "property": "C72",
   "status": "proved",
   "theorems": [
    "c72_in_transit",
    "c72_delivered",
    "c72_bytes_differ",
    "c72_group"
   ],
   "note": ""
  },
  {
   "property": "C73",
   "status": "partial",
   "theorems": [
    "c73_in_order_refuted",
    "c73_exact",
    "c73_late_gone",
    "c73_sent_gone",
    "c73_group_gone"
   ],
   "note": "Decided: REFUTED for the receiver of one-to-one messages. Up to 2001 messages read in order all remain readable from the stored session (c73_in_order_refuted, for every device and chain), because cipher.go stores the chain key of the message just read instead of its successor and the next message saves that key. Exact account in every history: c73_exact. The other parts are proved: overtaken messages are erased when read (c73_late_gone), the sender keeps nothing of what it sent (c73_sent_gone), group members keep nothing of what they read (c73_group_gone)."
  },
  {
   "property": "C74",
   "status": "proved",
   "theorems": [
    "c74_speaker",
    "c74_answers",
    "c74_first"
   ],
   "note": "Reduction for every history and every byte string: c74_speaker for the current session, c74_answers for DecryptMessage on bytes. The HMAC is not assumed unforgeable (no computational assumption is made); the theorem says exactly which tag would have to be forged. c74_answers names the two other ways an answer without error can arise: another session stored for the same address, and the empty answer of bug C25. Plaintexts below 2^62 bytes. c74_first covers the responder before it has a session, for pre-key messages that carry the initiator's identity key, its base key and the ids of the bundle; a message with other ones belongs to another session."
  },
  {
   "property": "C75",
   "status": "proved",
   "theorems": [
    "c75_schedule"
   ],
   "note": "The schedule is written down independently of the model in S_X3dh.v, S_Ratchet.v and S_Schedule.v (RFC 5869 HKDF, HMAC chains, X25519). Conversations as in C23."
  },
  {
   "property": "C76",
   "status": "proved",
   "theorems": [
    "c76_any_bytes",
    "c76_not_accepted",
    "c76_elsewhere"
   ],
   "note": "c76_any_bytes: the step theorem for arbitrary bytes on an established side; together with c63_send_cut (sending) and c76_elsewhere (all other API calls) every call preserves the conversation. c76_not_accepted covers the responder before its first message. Stores that share records are excluded because the property is false there (C26, C71); conversations of a device with its own identity are excluded because the jump limit does not apply to them."
  },
  {
   "property": "C77",
   "status": "partial",
   "theorems": [
    "c77_exact",
    "c77_read_refuted",
    "c77_received_exact",
    "c77_not_yet",
    "c77_sent_safe"
   ],
   "note": "Decided: REFUTED for messages that were read: in every conversation a message that was read in its turn can be decrypted from the device (c77_read_refuted; cause as in C73), and all of the first epoch as long as the responder keeps the pre-keys of the set-up (c77_received_exact). Proved exactly, in both directions: c77_exact says which messages the thief can decrypt at any moment, c77_received_exact that of the epochs received these are the ones the device itself could still decrypt, c77_not_yet the case before the first message arrives, c77_sent_safe that what the device sent is safe. The thief is symbolic (S_Secrecy.v): hashes and encryption are not inverted, a shared secret needs one of its private keys; c77_exact ties each symbolic term to the actual bytes in the session and the messages. Archived sessions are not part of the loot."
  },
  {
   "property": "C78",
   "status": "proved",
   "theorems": [
    "c78_healed"
   ],
   "note": "c78_healed, with the symbolic thief of C77; c77_exact gives the exact set for the epochs before. Passive thief: the conversation after the theft is between the two devices."
  },
  {
   "property": "C79",
   "status": "proved",
   "theorems": [
    "c79_exact",
    "c79_network",
    "c79_healed",
    "c79_two_thefts"
   ],
   "note": "c79_exact gives the set in both directions and ties the terms to the stored bytes; c79_network, c79_healed, c79_two_thefts are its main cases (the last: two thefts together open more than each alone). Symbolic thief of C77; the thieves only listen, they do not take part in the conversation."
  },
  {
   "property": "C80",
   "status": "proved",
   "theorems": [
    "c80_exact",
    "c80_read_safe",
    "c80_joiners",
    "c80_later_dist",
    "c80_sent_safe"
   ],
   "note": "c80_exact (both directions, terms tied to the stored and sent bytes), c80_read_safe, c80_joiners, c80_sent_safe; c80_later_dist: a distribution message made later does open the channel behind what was sent. Symbolic thief as in C77. The fate of a stolen signing key (forgery) is not part of it."
  },
  {
   "property": "C81",
   "status": "proved",
   "theorems": [
    "c81_laws",
    "c81_group",
    "c81_x25519",
    "c81_edbase",
    "c81_edverify",
    "c81_aes",
    "c81_agreement",
    "c81_signature",
    "c81_public_keys"
   ],
   "note": "c81_laws (every law of CryptoOk, no axioms), c81_group, c81_x25519, c81_edbase, c81_edverify (against S_Edwards.v, plain modular arithmetic), c81_aes, c81_agreement, c81_signature (unconditional forms of C08, C13, C14), c81_public_keys. The Go libraries computing these functions is trusted; c81_x25519 speaks of points of the curve other than those with y = 1 or -1; for the twist see C82."
  },
  {
   "property": "C82",
   "status": "proved",
   "theorems": [
    "c82_agreement",
    "c82_points",
    "c82_crash_exact",
    "c82_bundle",
    "c82_stored",
    "c82_ratchet"
   ],
   "note": "c82_agreement (exact, both ways), c82_points (the list is right: 8P = 0), c82_crash_exact (sharpens C31 for the standard primitives), c82_bundle (any store faults), c82_stored and c82_ratchet (all reachable devices). The order of the curve and of its twist are proved in P_Count, P_PrimeEll and P_PrimeTwist. c82_crash_exact describes the crash, it does not excuse it: anyone can send such a message to a device whose policy accepts the identity."
  },
  {
   "property": "C83",
   "status": "proved",
   "theorems": [
    "c83_setup",
    "c83_setup_exact",
    "c83_delivered",
    "c83_never_wrong",
    "c83_sendable",
    "c83_shows",
    "c83_accessors"
   ],
   "note": "c83_setup and c83_setup_exact (set-up), c83_delivered, c83_never_wrong, c83_sendable (conversation), c83_shows and c83_accessors (accessors; the latter for records of any contents). The base key of such sessions is empty, so they lie outside the shape that C05 gives to sessions of the API; the proof shows that only HasSessionState looks at it."
  },
  {
   "property": "C84",
   "status": "proved",
   "theorems": [
    "c84_delivered"
   ],
   "note": "c84_delivered. The member must not already follow that chain with that signing key (a second copy of the distribution message keeps the old state, C44), must trust the peer for receiving, and the group messages are the first 2000 of the key, which is how far a member can read ahead (C45)."
  },
  {
   "property": "C85",
   "status": "proved",
   "theorems": [
    "c85_each",
    "c85_only",
    "c85_delivered",
    "c85_never_wrong",
    "c85_sendable",
    "c85_far"
   ],
   "note": "c85_each, c85_only, c85_delivered, c85_never_wrong, c85_sendable; c85_far shows that beyond 25000 messages of a chain nothing has to be assumed about collisions. Sessions are told apart by their base keys, which along with ratchet keys must be new. A failed attempt on another session may draw a ratchet key, so a call that opens a new epoch needs 32 random bytes per session. 41 is what a record holds; beyond it the oldest sessions are lost (C71)."
  },
  {
   "property": "C86",
   "status": "proved",
   "theorems": [
    "c86_pairs",
    "c86_delivered",
    "c86_never_wrong",
    "c86_sendable"
   ],
   "note": "c86_pairs reduces the network to C85 for every pair; c86_delivered, c86_never_wrong, c86_sendable. No one-time pre-key may be handed out twice, as C66 shows why. Refused messages are only allowed at devices with copying stores: on the shared store they do damage (C71)."
  },
  {
   "property": "C87",
   "status": "proved",
   "theorems": [
    "c87_address_form",
    "c87_addresses",
    "c87_prekey_id",
    "c87_prekey_ids",
    "c87_type_names",
    "c87_types",
    "c87_message_types"
   ],
   "note": "c87_address_form, c87_prekey_id and c87_type_names give the texts; c87_addresses, c87_prekey_ids and c87_types that they are different for different values. Distribution ids: C52. c87_message_types ties the four kinds of message to their names."
  },
  {
   "property": "C88",
   "status": "proved",
   "theorems": [
    "c88_exact",
    "c88_untouched",
    "c88_healed"
   ],
   "note": "c88_exact names every stolen state and message and gives the equivalence; c88_untouched and c88_healed are its corollaries. Symbolic (Dolev-Yao) as in C77-C79. Hypothesis: different sessions have different base keys (fresh random numbers)."
  },
  {
   "property": "C89",
   "status": "proved",
   "theorems": [
    "c89_exact",
    "c89_untouched"
   ],
   "note": "c89_exact: all stolen bytes and messages are values of terms, and the equivalence; c89_untouched is its corollary. Composes C80 and C88 in one term language. Symbolic (Dolev-Yao) as there; one chain at a time: distribution messages of other chains count as plaintexts the thieves know."
  },
  {
   "property": "C90",
   "status": "proved",
   "theorems": [
    "c90_whisper",
    "c90_prekey",
    "c90_one",
    "c90_single",
    "c90_law"
   ],
   "note": "c90_whisper and c90_prekey decide every message for an existing session, both directions; c90_one, c90_single: the answer is unique; c90_law: the side condition holds of Curve25519. The peers of all sessions of the record are trusted, stores do not fail during the call itself (faults and crashes before it are covered); messages that set up a session are C21, C60."
  },
  {
   "property": "C91",
   "status": "proved",
   "theorems": [
    "c91_send_cut",
    "c91_begin_cut",
    "c91_receive_cut",
    "c91_redelivered"
   ],
   "note": "For both kinds of stores. On shared stores `c91_receive_cut` needs a session the device already has, or no record of the sender: otherwise the record may be left with the new session added and nothing read, and `c91_redelivered` shows that the message arriving again repairs this. Messages read with a saved key are not re-delivered in general (C64)."
  },
  {
   "property": "C92",
   "status": "proved",
   "theorems": [
    "c92_accepted",
    "c92_network",
    "c92_delivered"
   ],
   "note": "c92_accepted, c92_network, c92_delivered. The member must not already follow that chain with that signing key, and trusts the sender for receiving; other calls do not touch the chain's entry (C58). The number of members and senders is arbitrary: the theorem is about any two devices, with everything else going on beside them."
  },
  {
   "property": "C93",
   "status": "proved",
   "theorems": [
    "c93_round_trip",
    "c93_sending_keeps"
   ],
   "note": "c93_round_trip, c93_sending_keeps. The conditions on each reading are those of C86 (receivable, fresh ratchet key bytes, no tag collision with another session, trusted); the session of the message is told from others by its base key, which is what the code compares. c93_case is two devices that begin sessions with each other at the same time."
  },
  {
   "property": "C94",
   "status": "proved",
   "theorems": [
    "c94_opened",
    "c94_refused",
    "c94_duplicate",
    "c94_one"
   ],
   "note": "c94_opened, c94_refused, c94_duplicate, c94_one. The stores do not fail here (C51, C68 for failures). 64 bytes at least: every parsed message has them (C06). What is undecryptable is decided by CBC and the last padding byte (C09)."
  },
  {
   "property": "C95",
   "status": "proved",
   "theorems": [
    "c95_send",
    "c95_start",
    "c95_start_real",
    "c95_group_send",
    "c95_announce",
    "c95_learn"
   ],
   "note": "c95_send, c95_start, c95_start_real, c95_group_send, c95_announce, c95_learn. Store failures are answered with errors (C68). c95_start needs our own identity pair to be a key pair. What the successful calls return is C20, C21, C49, C50."
  },
  {
   "property": "C96",
   "status": "proved",
   "theorems": [
    "c96_answers",
    "c96_first",
    "c96_any_bytes",
    "c96_shared",
    "c96_outlasts"
   ],
   "note": "c96_answers (any stores and failures), c96_first, c96_any_bytes (stores that copy), c96_shared (the repository's in-memory stores, which share records; there a pre-key message with a new base key is excluded, and C26 and C71 show what goes wrong with it); c96_outlasts: any number of such calls one after the other, each chosen after all that happened before, with ordinary traffic of the network in between (S_Outlast.v). That a forgery does not exist is a hypothesis about HMAC and is stated as such, with what a forgery is in S_Speak.v and S_Hostile.v. A pre-key message for a new session can be made by anyone with an identity key that the policy trusts; this is by design of X3DH."
  },
  {
   "property": "C97",
   "status": "proved",
   "theorems": [
    "c97_heard",
    "c97_any_bytes",
    "c97_siege",
    "c97_network"
   ],
   "note": "c97_heard, c97_any_bytes, c97_siege; c97_network for a member in a network (C92). That a forged signature does not exist is a hypothesis about the signature scheme and is stated as such (group_forgery in S_GroupAttack.v). Signatures may be malleable: a copy with another valid signature counts as the same message. The bound of 2000 in c97_siege is the number of skipped keys the code keeps (C46)."
  },
  {
   "property": "C98",
   "status": "proved",
   "theorems": [
    "c98_no_crash",
    "c98_prekey",
    "c98_prekey_real",
    "c98_worlds"
   ],
   "note": "c98_no_crash for every answer of the stores, c98_prekey and c98_prekey_real for pre-key messages; c98_worlds says that the answers of every world, with every failure, are among those covered. The panics that remain are the known ones of C31 and C82. Not modelled: a nil SessionStructure inside a State, which no stored bytes decode to. A bundle without identity or signed pre-key is a caller error and is excluded by hypothesis. Messages are those that parse (the length conditions; C05 has the parsers)."
  },
  {
   "property": "C99",
   "status": "proved",
   "theorems": [
    "c99_signal",
    "c99_prekey",
    "c99_distribution",
    "c99_plaintext",
    "c99_senderkey",
    "c99_overlap"
   ],
   "note": "c99_signal, c99_prekey, c99_distribution, c99_plaintext, c99_senderkey: one per kind of message built. The exception for sender-key messages is real at the level of texts: c99_overlap shows two byte strings that read as two kinds. Whether and how often a signature of the library has this form is not decided."
  }
 ]
}