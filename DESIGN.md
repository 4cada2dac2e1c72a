# Formal model of libsignal-go in Rocq: design

The code (`/repo/protocol`) is read as text, never built. Everything below is a
Gallina model of it plus theorems about the model. The only tie between model and
code is the citation (file and lines) on each definition.

## Files (rocq/theories)

* `M_*.v` model: total computable functions, one per Go function, no proofs.
* `S_*.v` specifications: small, written without the model's helpers.
* `R_*.v` the cryptographic primitives written out from their standards (definitions only).
* `P_*.v` proofs and auxiliary lemmas.
* `K_*.v` concrete cases (non-vacuity) and refutation witnesses; `K_Vec*.v` run the model on
  the repository's own test vectors.
* `T_*.v` the property theorems; each is closed from a lemma, with `Print Assumptions`
  beneath and a concrete case meeting its hypotheses beside it.

| area | model | specification | theorems |
|------|-------|---------------|----------|
| wire and storage codecs | M_Proto, M_Message, M_Uuid, M_State | S_Wire, S_Message, S_Uuid, S_State | T_Wire |
| AES-CBC, curve, HKDF, fingerprints, identity store | M_Aes, M_Slice, M_Curve, M_Crypto, M_Ratchet, M_Fingerprint, M_Identity | S_Aes, S_Curve, S_Crypto, S_Ratchet, S_Fingerprint, S_Identity | T_Crypto |
| stores, programs, faults, crashes, interleavings | M_Store | S_Api, S_Shape, S_Isolation | T_Store |
| one-to-one sending | M_Session | S_Send, S_Session | T_Send |
| session set-up and conversations | M_Session | S_X3dh, S_Bundle, S_Conv, S_History | T_Conv |
| records made from agreed parameters, accessors | M_Records | S_Paired, S_PairedView | T_Paired |
| groups set up over one-to-one conversations | M_Session, M_Group | S_Team | T_Team |
| several sessions between the same two devices | M_Session | S_Many | T_Many |
| networks of any number of devices | M_Session, M_Group | S_Net | T_Net |
| thefts in a network | M_Session, M_Ratchet | S_Raid | T_Raid |
| sender keys carried by conversations | M_Session, M_Group, M_Message | S_Carried | T_Carried |
| which session answers a message | M_Session, M_Ratchet, M_State | S_Opening | T_Opening |
| a network under failures and crashes | M_Session, M_Store | S_Net, S_Atomic, S_Spent | T_NetCut |
| groups in a network | M_Session, M_Group | S_Net, S_Team, S_Enrolled | T_Enrolled |
| text forms | M_Text | S_Text | T_Text |
| receiving, trust, pre-keys, archive | M_Session | S_Receive, S_Session | T_Receive |
| groups | M_Group | S_Group, S_GroupMsg | T_Group |
| primitives (SHA-2, HMAC, AES, X25519, Ed25519) | R_Sha, R_Aes, R_Curve, R_Real | S_Crypto, S_Edwards | T_Real |
| keys of small order | R_Curve, M_Session | S_Edwards, S_SmallKeys | T_SmallKeys |

## Model

* Bytes are `list Byte.byte`; `uint32`/`uint8` are `N` with explicit wrap; lengths are `nat`.
* Results are `Ok | Err e | Panic`: a Go panic (nil dereference, slice bound) is a
  value of the model, so "never panics" is a statement about it.
* Cryptographic primitives are fields of a record `Crypto` (HMAC-SHA256, SHA-512, AES
  block, X25519, Edwards base multiplication, Ed25519 verification). The laws used are
  a separate predicate `CryptoOk` (S_Crypto.v: output lengths, AES decrypt-after-encrypt,
  DH symmetry, signature completeness). It is an explicit hypothesis of the theorems that
  use it, not an axiom. `c81_laws` (T_Real.v) proves it, without axioms, for the record
  `real` of the primitives as FIPS 180-4, FIPS 197, RFC 2104, RFC 7748 and RFC 8032 define
  them (R_*.v), so every theorem holds of `real` outright; `toy_ok` (K_Toy.v) is a small
  second instance used in the examples. The curve part goes through the Edwards group law
  (complete addition, associativity, prime order of the base point) and the ladder
  (S_Edwards.v states both in whole numbers). What stays trusted here is that the Go
  libraries compute these functions. HKDF, CBC, PKCS#7, clamping, XEdDSA, the birational map (with field inversion
  modulo the proved prime 2^255-19) and the MAC construction are modelled concretely.
* Protobuf is modelled at the wire level (varints, tags, unknown fields, groups,
  last-one-wins, message merging, proto2 presence, proto3 zero omission).
* Stores: each API function is a tree (`prog`) of store operations. `run p faults w`
  executes it with any pattern of failing store calls (before or after taking effect),
  `crash n` stops it after any number of store calls, `run2 sched` interleaves two callers,
  and `reachable` (S_Api.v) closes over any number of threads, calls, faults and crashes.
  The flag `w_shared` says whether `Load` returns a shared pointer (the in-memory stores)
  or a copy; `OTouch*` mark the writes through such a pointer.
* The trust decision is an arbitrary function `w_policy` of the stored key; `inmem_policy`
  is the in-memory store's.
* Randomness is a byte-string argument (the reader's contents); `io.ReadFull` fails at its end.

## Build-time tests

`K_Vec1.v` to `K_Vec5.v` evaluate the model with `real` on the known-answer tests of the
repository (aes_test.go, keys_test.go, curve25519_test.go, ratchet_test.go,
fingerprint_test.go, scannable_test.go) while they compile; a wrong result stops the build.
They are tests of the model against the code's own expectations, not proofs.

## Simplifications

* Unknown protobuf fields are validated and dropped (protobuf-go keeps them and would
  re-emit them; no modelled message parsed from outside is re-marshalled).
* A write through a shared record pointer is one step (`OTouch*`) at the point of the last
  write before the next store call; Go-level data races inside such a step are not modelled.
* `EOther` carries a short text; error wrapping and texts are not compared.
* The pre-key and signed pre-key records keep only the key pair (the code never reads the rest back).
* Nil ciphertext slices are not distinguished from empty ones.

## Not modelled

Logging; context cancellation; the
nil-reader default (it is just another byte string); sealed-sender protobufs (no Go
code uses them); constant-time behaviour; Go memory/GC; computational security: "a
forged message" is one whose MAC or signature passes the check of the model though the
peer never made it. Secrecy is proved symbolically (C77 to C80, C88, C89; S_Secrecy.v, S_Thefts.v,
S_GroupSecrecy.v, S_Raid.v): terms over
private keys, DH, HMAC and AES-CBC, a thief that may apply them and decrypt with a known
key but not invert them, and a proof that the bytes of every stored session and message
are the values of exactly the terms given to the thief. It is idealised in the usual way
(no key guessing, no algebraic relations of X25519 other than symmetry). In C77 to C79 the
loot contains the current session and the pre-key stores; in C88 also all archived sessions
and all sessions with other devices.

## Trusted base

* Coq 8.16.1 kernel (with `vm_compute`); `coqchk` accepts the whole development.
* The reading of the Go code, and of the documented behaviour of protobuf-go,
  google/uuid, x/crypto/hkdf, filippo.io/edwards25519 and crypto/*.
* Axioms: none. `Print Assumptions` under every theorem of `T_*.v` answers "Closed under
  the global context". `coqchk -o` over everything loaded additionally lists the seven
  parameters of `Coq.ssr.ssrunder.Under_rel` of the standard library (module-type
  fields loaded with `Lia`; used by no theorem).

## Mutation tests

`seeded/LOG.jsonl` records wrong programs: one model definition is edited in a scratch copy,
everything is re-proved with failing proofs admitted, and the property theorems that depend
on an admitted proof count as failed. Mutants marked "fix" repair a defect the theorems
report; there the `_refuted` theorem has to fail.

## Properties

Status and theorems (generated from MANIFEST.json). `_refuted`: the code does not have the
property, witnessed in the model; `_exact`: what it does instead; `_partial`: the restricted
form that holds.

| id | property | status | theorems | remarks |
|----|----------|--------|----------|---------|
| C01 | Whisper message wire round-trip | proved | `c01_signal_roundtrip`, `c01_mac_exact` | Exact documented text (independent wire grammar), parse-back, MAC verifies, for all fields and keys. c01_mac_exact: the MAC accepts exactly the messages whose last 8 bytes are the tag. |
| C02 | Pre-key message wire round-trip | proved | `c02_prekey_roundtrip` | Exact text and parse-back for every optional/required field. |
| C03 | Sender-key message wire round-trip | proved | `c03_senderkey_roundtrip` | Exact text, parse-back and signature verification, for all randomness. |
| C04 | Sender-key distribution message round-trip | proved | `c04_distribution_roundtrip` | Exact text and parse-back. |
| C05 | Message parsers never crash the process | partial | `c05_parsers_refuted`, `c05_parsers_exact` | Decided: REFUTED. A whisper text with version nibble 3 and at most 8 bytes makes NewSignalFromBytes slice out of range (also inside a PreKey message). c05_parsers_exact characterises all crashing inputs and shows the other parsers never crash. |
| C06 | Parsers accept only well-formed current-version messages | proved | `c06_parsers_accept` | Each parser accepts exactly the texts of an independently defined grammar. |
| C07 | Archived session states are restored unchanged | proved | `c07_state_roundtrip`, `c07_wf_state_roundtrip` | For every state in Go's value ranges whose text is below 2^31 bytes, and with no size hypothesis for every state satisfying the session invariant of C27. |
| C08 | CBC decryption inverts CBC encryption | proved | `c08_cbc_inverse`, `c08_cbc_encrypt_exact` | All key sizes, all plaintexts; ciphertext equals spec CBC of spec padding. |
| C09 | CBC decryption rejects malformed input without crashing | proved | `c09_cbc_decrypt_exact` | Exact result, including that only the last byte is checked. |
| C10 | Encryption does not modify the caller's buffer | partial | `c10_caller_buffer_refuted`, `c10_caller_buffer_exact`, `c10_no_spare_partial` | Decided: REFUTED. pkcs7pad appends into the caller's spare capacity. c10_caller_buffer_exact gives exactly the bytes overwritten. |
| C11 | Public key encoding is faithful | proved | `c11_public_key_encoding` |  |
| C12 | Private keys survive storage | proved | `c12_private_key_storage` |  |
| C13 | Key agreement is symmetric | proved | `c13_agreement_symmetric` | Symmetry uses the X25519 law of CryptoOk (clamped scalars commute). |
| C14 | Signatures verify | proved | `c14_signatures`, `c14_xeddsa` | Also the exact set of accepted signatures in terms of Ed25519 over the Edwards point of the Montgomery key. c14_xeddsa: the signature is the one of a separate XEdDSA specification, nonce included. |
| C15 | Alternate-identity claims verify | proved | `c15_alternate_identity` |  |
| C16 | Displayed safety numbers agree on both devices | proved | `c16_displayed_number` | Also which digits are shown. |
| C17 | Scanned safety codes match exactly for the same conversation | proved | `c17_scanned_code`, `c17_scanned_peer` |  |
| C18 | Safety-number iteration count is bounded | proved | `c18_iteration_bounds` | Also which digest: exactly it SHA-512 applications. |
| C19 | Chain keys advance deterministically and identically on both sides | proved | `c19_chain_determinism` | 1:1 and group chains; HKDF equals the RFC 5869 formula. |
| C20 | Consecutive, never repeated message counters | proved | `c20_consecutive_counters`, `c20_never_repeated` | Any number of successful EncryptMessage calls on any well-formed device; positions and frames exact, no repetition before the wrap. |
| C21 | Session establishment agrees (X3DH) | proved | `c21_established`, `c21_matching_keys` | All keys, all randomness, both store kinds; c21_matching_keys states the common root and chain keys. Uses the X25519 commutation law of CryptoOk. |
| C22 | A one-time pre-key with id 0 is usable | partial | `c22_id_zero_not_named_exact`, `c22_id_zero_needs_collision_exact`, `c22_id_zero_usable_refuted`, `c22_other_ids_usable_partial` | Decided: REFUTED for id 0. The initiator mixes in the one-time key but no frame names it (c22_id_zero_not_named_exact), the responder can accept only if two different MAC keys give one tag (c22_id_zero_needs_collision_exact, universal), and for suitable primitives it never accepts (c22_id_zero_usable_refuted). All other ids work (c22_other_ids_usable_partial). |
| C23 | Messages are delivered correctly under any schedule | proved | `c23_delivered`, `c23_never_wrong`, `c23_sendable` | Induction over all histories of the pair: sends, deliveries in any order, losses, duplicates and steps that leave the session alone. Covers the conversation in one session; c23_sendable says which messages are receivable. |
| C24 | A ciphertext is accepted at most once (one-to-one) | partial | `c24_gone_refused_partial`, `c24_replay_refuted`, `c24_replay_later_refuted`, `c24_saved_spends_partial`, `c24_spent_rejected_partial` | Decided: REFUTED, for every message delivered in order or ahead (the code stores the chain key instead of its successor). Proved restricted form: a message read with a saved key is spent, and spent positions are rejected as duplicates over all later evolutions that keep the chain. Also c24_gone_refused_partial: within every conversation history, a genuine message behind the chain without a saved key is never decrypted again. |
| C25 | Undecryptable messages are reported as errors | partial | `c25_errors_refuted`, `c25_answers_exact`, `c25_prekey_answers_partial` | Decided: REFUTED: decryptSignal overwrites its error, so every whisper message no session opens is answered with nil error and no bytes. c25_answers_exact is the exact statement for every fault list; pre-key messages satisfy the property. |
| C26 | A rejected message does not disturb the session | partial | `c26_rejected_whisper`, `c26_error_leaves_session_partial`, `c26_shared_refuted` | Whisper messages: proved for every store kind, fault and crash point. Pre-key messages on the sharing in-memory store: REFUTED (c26_shared_refuted); for copying stores c26_error_leaves_session_partial. |
| C27 | Session memory is bounded | proved | `c27_session_bytes`, `c27_session_bounded` | Invariant of all executions: concurrent calls, crashes, failing stores. c27_session_bytes gives the bound in bytes of the storage encoding. |
| C28 | Far-future messages are refused cheaply | proved | `c28_group_far_refused`, `c28_far_refused`, `c28_far_new_chain_refused`, `c28_limit_accepted`, `c28_self_unlimited` | Refusal holds for arbitrary primitives and leaves the randomness untouched, which is how "before any key derivation" is expressed for an existing chain; a message opening a new chain is refused after the root step. |
| C29 | No traffic with untrusted identities | partial | `c29_encrypt`, `c29_bundle`, `c29_prekey`, `c29_whisper`, `c29_inmem`, `c29_session_identity_refuted` | Proved for encryption, bundles, pre-key frames and whisper messages, every fault list. REFUTED for the session peer inside a pre-key frame (c29_session_identity_refuted): only the identity named by the frame is checked. |
| C30 | Bundles with a bad signature never create a session | proved | `c30_unsigned_refused`, `c30_changed_only_if_signed` | Every fault list and crash point; the whole device state is unchanged. |
| C31 | A pre-key message cannot crash the recipient | partial | `c31_unknown_signed_refuted`, `c31_prekey_panic_exact`, `c31_whisper_no_panic` | Decided: REFUTED (unknown signed pre-key). c31_prekey_panic_exact gives the only two causes; whisper messages never crash. |
| C32 | One-time pre-keys are consumed exactly on success | proved | `c32_consumed`, `c32_success_consumes`, `c32_whisper_keeps` | Every fault list and crash point. |
| C33 | Re-delivered pre-key messages do not reset the session | proved | `c33_known_base`, `c33_call` |  |
| C34 | Promotion loses no session | proved | `c34_promote`, `c34_promote_old` |  |
| C35 | Archived sessions still receive | partial | `c35_archived_refuted`, `c35_archived_partial` | Decided: REFUTED: an archived session that takes the message for a duplicate hides the one that can read it. c35_archived_partial is the restricted form. The exact rule is C90. |
| C36 | Pre-key framing until acknowledged | proved | `c36_framing_in_history`, `c36_framed_until_received`, `c36_plain_after_received` | Over all histories, and for the ids and base key of the processed bundle. |
| C37 | Conversations are isolated | proved | `c37_writes_own_entries`, `c37_reads_own_entries` | Writes (also at every crash point) and reads (non-interference form). |
| C38 | Identity replacement is reported correctly | partial | `c38_store_answer_refuted`, `c38_store_answer_exact`, `c38_replacement_reported_partial`, `c38_first_store_partial` | Decided: REFUTED. Store compares pointers, so re-storing the same key from another object answers true. Exact answer proved over all histories; replaced keys are always reported, first stores never. |
| C39 | Identity store behaves as a map with trust on first use | proved | `c39_identity_map`, `c39_identity_tofu` | All histories of Store/Clear with arbitrary interleaving of the background deletion. |
| C40 | Untrusted identity is reported as such | partial | `c40_encrypt_partial`, `c40_prekey_partial`, `c40_whisper_partial`, `c40_bundle_refuted` | Holds for encryption, pre-key and whisper messages; REFUTED for ProcessPreKeyBundle (plain error), for every bundle and store. |
| C41 | A failed encryption does not consume a message key | partial | `c41_failed_encrypt_copying_partial`, `c41_shared_exact`, `c41_failed_encrypt_refuted` | Decided: REFUTED for the in-memory (sharing) store, c41_failed_encrypt_refuted, with the exact effect c41_shared_exact. Restricted form c41_failed_encrypt_copying_partial holds for a copying store with no failing-after-effect fault. |
| C42 | A returned ciphertext's key is never reused after a crash | proved | `c42_group_persisted`, `c42_group_crash_points`, `c42_persisted_before_return`, `c42_crash_points` | One-to-one and group; every store-failure and crash point. |
| C43 | Concurrent senders never reuse a message key | partial | `c43_concurrent_refuted`, `c43_locked_partial` | Decided: REFUTED universally: for every well-formed device there is an interleaving in which both calls return ciphertexts at the same position. Restricted form proved: c43_locked_partial (overlapping calls are for different peers). |
| C44 | Group messages are delivered exactly once in any order | proved | `c44_exact`, `c44_delivered_exactly_once`, `c44_sent_is_genuine`, `c44_other_calls_keep`, `c44_other_chains_keep`, `c44_distributions_keep` | c44_exact gives the result of every arrival in every history; the others remove the mailbox from the statement, link it to what EncryptMessage returns, and show which other calls leave a member's channel alone. Iterations below 2^32-1. |
| C45 | Late joiners cannot read earlier group messages and can read all later ones | proved | `c45_earlier_unreadable`, `c45_later_readable` | Earlier iterations: all executions. Later ones: in order always; any other order by c44_exact. |
| C46 | Group memory is bounded and chain ids are unique | proved | `c46_group_bounded` | Invariant of all executions. |
| C47 | Re-distribution does not rewind a group chain | proved | `c47_redistribution` | Exact new record in all four cases. |
| C48 | Only the signer can speak in a group | proved | `c48_heard_only_if_signed`, `c48_unsigned_ignored` | 'Signed' is stated with Ed25519 over the Edwards form of the key, not the model's verifier. |
| C49 | Receivers cannot send | proved | `c49_receivers_cannot_send` | All executions in which no sender key is created for that address and distribution. |
| C50 | Distribution message describes the sending state | proved | `c50_describes`, `c50_next_message`, `c50_idempotent`, `c50_fresh_succeeds` |  |
| C51 | A failed group decryption does not disturb the session | partial | `c51_copying_partial`, `c51_shared_exact`, `c51_failed_decrypt_refuted` | Decided: REFUTED on the in-memory (sharing) store: c51_failed_decrypt_refuted, exactly c51_shared_exact. Holds on a copying store (c51_copying_partial). |
| C52 | Distribution IDs survive text encoding | proved | `c52_uuid_text` |  |
| C53 | Pre-key ids survive the signed 32-bit storage field | proved | `c53_signed_id_kept` |  |
| C54 | Unexpected ciphertext types are refused | proved | `c54_unexpected_types` |  |
| C55 | Group sending positions are consecutive and never reused | proved | `c55_consecutive`, `c55_never_repeated` |  |
| C56 | Concurrent group senders do not share an iteration | partial | `c56_concurrent_senders_refuted`, `c56_locked_partial` | Decided: REFUTED on every device that can send: nothing locks the record between load and store. Restricted form proved: c56_locked_partial (overlapping calls are for different groups). |
| C57 | A pinned identity key is never replaced without a trust decision | partial | `c57_pinned_partial`, `c57_race_refuted` | Proved (c57_pinned_partial) for every execution in which no call that may store a key for the address is in flight when the key is pinned. Decided: REFUTED for calls in flight at first use (c57_race_refuted): check and store are not atomic. |
| C58 | Both sides may initiate at the same time | proved | `c58_crossing` |  |
| C59 | No session is lost | proved | `c59_no_session_lost` | Successful calls on any store; failing and cut-off calls on stores that return copies. |
| C60 | A message shows only the padded length of its plaintext | proved | `c60_size`, `c60_looks_same`, `c60_group_size`, `c60_group_looks_same` |  |
| C61 | Equal safety numbers mean equal people and keys | proved | `c61_scanned`, `c61_displayed` | c61_scanned and c61_displayed. The clash is between texts named in the statement (those hashed on the way to the two numbers), not just any two texts, which exist for every hash. How hard it is to find one is not modelled. |
| C62 | Session changes are all or nothing under failures and crashes | proved | `c62_all_or_nothing` | For stores that return copies; a shared store is the subject of C26/C41. |
| C63 | A conversation survives calls that fail or are cut off | proved | `c63_send_cut`, `c63_receive_cut` | For stores that return copies. |
| C64 | A message whose decryption was cut off can be delivered again | partial | `c64_redelivered_partial`, `c64_saved_lost_refuted` | Proved (c64_redelivered_partial) for messages that are not read with a saved key. Decided: REFUTED for saved-key messages (c64_saved_lost_refuted): the session without the key is stored before the plaintext is returned. |
| C65 | No one-time pre-key is left behind | partial | `c65_left_behind_refuted` | Decided: REFUTED, universally: whenever the last store call fails the pre-key stays for ever (the session is stored before the pre-key is deleted). |
| C66 | A one-time pre-key sets up at most one session | partial | `c66_concurrent_refuted`, `c66_missing_ignored_refuted`, `c66_consumed_needs_collision_exact` | Decided: REFUTED for concurrent messages and for messages that name a key which is gone. Exact form proved: an initiator's message that did use a consumed key is accepted only on a MAC collision. |
| C67 | Calls on different conversations do not influence each other | proved | `c67_side_by_side`, `c67_pair` |  |
| C68 | Store failures are reported | proved | `c68_failures_reported` |  |
| C69 | Headers number the messages of a conversation | proved | `c69_headers`, `c69_numbered` |  |
| C70 | Locked calls might as well run one by one | proved | `c70_one_by_one`, `c70_at_rest` |  |
| C71 | Refused messages cannot destroy a session | partial | `c71_flood_refuted`, `c71_copying_partial` | Decided: REFUTED on the sharing in-memory store: 41 made-up pre-key messages, which need no secret and are all refused, push every session out of the record (c71_flood_refuted). Proved for stores that return copies: c71_copying_partial. |
| C72 | Conversations survive the wire | proved | `c72_in_transit`, `c72_delivered`, `c72_bytes_differ`, `c72_group` |  |
| C73 | Keys are erased once their message has been read | partial | `c73_in_order_refuted`, `c73_exact`, `c73_late_gone`, `c73_sent_gone`, `c73_group_gone` | Decided: REFUTED for the receiver of one-to-one messages. Up to 2001 messages read in order all remain readable from the stored session (c73_in_order_refuted, for every device and chain), because cipher.go stores the chain key of the message just read instead of its successor and the next message saves that key. Exact account in every history: c73_exact. The other parts are proved: overtaken messages are erased when read (c73_late_gone), the sender keeps nothing of what it sent (c73_sent_gone), group members keep nothing of what they read (c73_group_gone). |
| C74 | Only the peer can speak in a conversation | proved | `c74_speaker`, `c74_answers`, `c74_first` | Reduction for every history and every byte string: c74_speaker for the current session, c74_answers for DecryptMessage on bytes. The HMAC is not assumed unforgeable (no computational assumption is made); the theorem says exactly which tag would have to be forged. c74_answers names the two other ways an answer without error can arise: another session stored for the same address, and the empty answer of bug C25. Plaintexts below 2^62 bytes. c74_first covers the responder before it has a session, for pre-key messages that carry the initiator's identity key, its base key and the ids of the bundle; a message with other ones belongs to another session. |
| C75 | Every message uses the keys of the X3DH and Double Ratchet schedule | proved | `c75_schedule` | The schedule is written down independently of the model in S_X3dh.v, S_Ratchet.v and S_Schedule.v (RFC 5869 HKDF, HMAC chains, X25519). Conversations as in C23. |
| C76 | A hostile network can only lose, delay, reorder and repeat messages | proved | `c76_any_bytes`, `c76_not_accepted`, `c76_elsewhere` | c76_any_bytes: the step theorem for arbitrary bytes on an established side; together with c63_send_cut (sending) and c76_elsewhere (all other API calls) every call preserves the conversation. c76_not_accepted covers the responder before its first message. Stores that share records are excluded because the property is false there (C26, C71); conversations of a device with its own identity are excluded because the jump limit does not apply to them. |
| C77 | Stealing a device does not reveal messages already exchanged (forward secrecy) | partial | `c77_exact`, `c77_read_refuted`, `c77_received_exact`, `c77_not_yet`, `c77_sent_safe` | Decided: REFUTED for messages that were read: in every conversation a message that was read in its turn can be decrypted from the device (c77_read_refuted; cause as in C73), and all of the first epoch as long as the responder keeps the pre-keys of the set-up (c77_received_exact). Proved exactly, in both directions: c77_exact says which messages the thief can decrypt at any moment, c77_received_exact that of the epochs received these are the ones the device itself could still decrypt, c77_not_yet the case before the first message arrives, c77_sent_safe that what the device sent is safe. The thief is symbolic (S_Secrecy.v): hashes and encryption are not inverted, a shared secret needs one of its private keys; c77_exact ties each symbolic term to the actual bytes in the session and the messages. Archived sessions are not part of the loot. |
| C78 | A conversation recovers after a theft (post-compromise security) | proved | `c78_healed` | c78_healed, with the symbolic thief of C77; c77_exact gives the exact set for the epochs before. Passive thief: the conversation after the theft is between the two devices. |
| C79 | Several thefts and leaked keys give away only what each epoch's keys cover | proved | `c79_exact`, `c79_network`, `c79_healed`, `c79_two_thefts` | c79_exact gives the set in both directions and ties the terms to the stored bytes; c79_network, c79_healed, c79_two_thefts are its main cases (the last: two thefts together open more than each alone). Symbolic thief of C77; the thieves only listen, they do not take part in the conversation. |
| C80 | Stolen sender keys give away only unread and later group messages | proved | `c80_exact`, `c80_read_safe`, `c80_joiners`, `c80_later_dist`, `c80_sent_safe` | c80_exact (both directions, terms tied to the stored and sent bytes), c80_read_safe, c80_joiners, c80_sent_safe; c80_later_dist: a distribution message made later does open the channel behind what was sent. Symbolic thief as in C77. The fate of a stolen signing key (forgery) is not part of it. |
| C81 | The cryptographic laws relied on hold of the standard primitives | proved | `c81_laws`, `c81_group`, `c81_x25519`, `c81_edbase`, `c81_edverify`, `c81_aes`, `c81_agreement`, `c81_signature`, `c81_public_keys` | c81_laws (every law of CryptoOk, no axioms), c81_group, c81_x25519, c81_edbase, c81_edverify (against S_Edwards.v, plain modular arithmetic), c81_aes, c81_agreement, c81_signature (unconditional forms of C08, C13, C14), c81_public_keys. The Go libraries computing these functions is trusted; c81_x25519 speaks of points of the curve other than those with y = 1 or -1; for the twist see C82. |
| C82 | Public keys of small order are refused everywhere | proved | `c82_agreement`, `c82_points`, `c82_crash_exact`, `c82_bundle`, `c82_stored`, `c82_ratchet` | c82_agreement (exact, both ways), c82_points (the list is right: 8P = 0), c82_crash_exact (sharpens C31 for the standard primitives), c82_bundle (any store faults), c82_stored and c82_ratchet (all reachable devices). The order of the curve and of its twist are proved in P_Count, P_PrimeEll and P_PrimeTwist. c82_crash_exact describes the crash, it does not excuse it: anyone can send such a message to a device whose policy accepts the identity. |
| C83 | Sessions made from agreed parameters converse like any other | proved | `c83_setup`, `c83_setup_exact`, `c83_delivered`, `c83_never_wrong`, `c83_sendable`, `c83_shows`, `c83_accessors` | c83_setup and c83_setup_exact (set-up), c83_delivered, c83_never_wrong, c83_sendable (conversation), c83_shows and c83_accessors (accessors; the latter for records of any contents). The base key of such sessions is empty, so they lie outside the shape that C05 gives to sessions of the API; the proof shows that only HasSessionState looks at it. |
| C84 | A group set up over one-to-one conversations works from end to end | proved | `c84_delivered` | c84_delivered. The member must not already follow that chain with that signing key (a second copy of the distribution message keeps the old state, C44), must trust the peer for receiving, and the group messages are the first 2000 of the key, which is how far a member can read ahead (C45). |
| C85 | Several sessions between the same two devices work side by side | proved | `c85_each`, `c85_only`, `c85_delivered`, `c85_never_wrong`, `c85_sendable`, `c85_far` | c85_each, c85_only, c85_delivered, c85_never_wrong, c85_sendable; c85_far shows that beyond 25000 messages of a chain nothing has to be assumed about collisions. Sessions are told apart by their base keys, which along with ratchet keys must be new. A failed attempt on another session may draw a ratchet key, so a call that opens a new epoch needs 32 random bytes per session. 41 is what a record holds; beyond it the oldest sessions are lost (C71). |
| C86 | A network of devices works as if every two of them were alone | proved | `c86_pairs`, `c86_delivered`, `c86_never_wrong`, `c86_sendable` | c86_pairs reduces the network to C85 for every pair; c86_delivered, c86_never_wrong, c86_sendable. No one-time pre-key may be handed out twice, as C66 shows why. Refused messages are only allowed at devices with copying stores: on the shared store they do damage (C71). |
| C87 | Printed addresses, pre-key ids and message types are unambiguous | proved | `c87_address_form`, `c87_addresses`, `c87_prekey_id`, `c87_prekey_ids`, `c87_type_names`, `c87_types`, `c87_message_types` | c87_address_form, c87_prekey_id and c87_type_names give the texts; c87_addresses, c87_prekey_ids and c87_types that they are different for different values. Distribution ids: C52. c87_message_types ties the four kinds of message to their names. |
| C88 | Stolen devices of a network give away only what each session's own keys open | proved | `c88_exact`, `c88_untouched`, `c88_healed` | c88_exact names every stolen state and message and gives the equivalence; c88_untouched and c88_healed are its corollaries. Symbolic (Dolev-Yao) as in C77-C79. Hypothesis: different sessions have different base keys (fresh random numbers). |
| C89 | A group message is exactly as safe as its sender key's carriers | proved | `c89_exact`, `c89_untouched` | c89_exact: all stolen bytes and messages are values of terms, and the equivalence; c89_untouched is its corollary. Composes C80 and C88 in one term language. Symbolic (Dolev-Yao) as there; one chain at a time: distribution messages of other chains count as plaintexts the thieves know. |
| C90 | Decryption answers exactly what the sessions it holds can open | proved | `c90_whisper`, `c90_prekey`, `c90_one`, `c90_single`, `c90_law` | c90_whisper and c90_prekey decide every message for an existing session, both directions; c90_one, c90_single: the answer is unique; c90_law: the side condition holds of Curve25519. The peers of all sessions of the record are trusted, stores do not fail during the call itself (faults and crashes before it are covered); messages that set up a session are C21, C60. |
| C91 | A network survives failures and crashes of any call | proved | `c91_send_cut`, `c91_begin_cut`, `c91_receive_cut`, `c91_redelivered` | For both kinds of stores. On shared stores `c91_receive_cut` needs a session the device already has, or no record of the sender: otherwise the record may be left with the new session added and nothing read, and `c91_redelivered` shows that the message arriving again repairs this. Messages read with a saved key are not re-delivered in general (C64). |
| C92 | Groups work in a network | proved | `c92_accepted`, `c92_network`, `c92_delivered` | c92_accepted, c92_network, c92_delivered. The member must not already follow that chain with that signing key, and trusts the sender for receiving; other calls do not touch the chain's entry (C58). The number of members and senders is arbitrary: the theorem is about any two devices, with everything else going on beside them. |
| C93 | A message and its answer bring both devices to the same session | proved | `c93_round_trip`, `c93_sending_keeps` | c93_round_trip, c93_sending_keeps. The conditions on each reading are those of C86 (receivable, fresh ratchet key bytes, no tag collision with another session, trusted); the session of the message is told from others by its base key, which is what the code compares. c93_case is two devices that begin sessions with each other at the same time. |
| C94 | Group decryption answers exactly what the state it follows can open | proved | `c94_opened`, `c94_refused`, `c94_duplicate`, `c94_one` | c94_opened, c94_refused, c94_duplicate, c94_one. The stores do not fail here (C51, C68 for failures). 64 bytes at least: every parsed message has them (C06). What is undecryptable is decided by CBC and the last padding byte (C09). |
| C95 | Sending and starting succeed whenever they should | proved | `c95_send`, `c95_start`, `c95_start_real`, `c95_group_send`, `c95_announce`, `c95_learn` | c95_send, c95_start, c95_start_real, c95_group_send, c95_announce, c95_learn. Store failures are answered with errors (C68). c95_start needs our own identity pair to be a key pair. What the successful calls return is C20, C21, C49, C50. |
| C96 | A network with an attacker on every line stays a network | proved | `c96_answers`, `c96_first`, `c96_any_bytes`, `c96_shared`, `c96_outlasts` | c96_answers (any stores and failures), c96_first, c96_any_bytes (stores that copy), c96_shared (the repository's in-memory stores, which share records; there a pre-key message with a new base key is excluded, and C26 and C71 show what goes wrong with it); c96_outlasts: any number of such calls one after the other, each chosen after all that happened before, with ordinary traffic of the network in between (S_Outlast.v). That a forgery does not exist is a hypothesis about HMAC and is stated as such, with what a forgery is in S_Speak.v and S_Hostile.v. A pre-key message for a new session can be made by anyone with an identity key that the policy trusts; this is by design of X3DH. |
| C97 | A hostile network can only drop, delay, reorder and repeat group messages | proved | `c97_heard`, `c97_any_bytes`, `c97_siege`, `c97_network` | c97_heard, c97_any_bytes, c97_siege; c97_network for a member in a network (C92). That a forged signature does not exist is a hypothesis about the signature scheme and is stated as such (group_forgery in S_GroupAttack.v). Signatures may be malleable: a copy with another valid signature counts as the same message. The bound of 2000 in c97_siege is the number of skipped keys the code keeps (C46). |
| C98 | Damaged stores cannot crash a call | proved | `c98_no_crash`, `c98_prekey`, `c98_prekey_real`, `c98_worlds` | c98_no_crash for every answer of the stores, c98_prekey and c98_prekey_real for pre-key messages; c98_worlds says that the answers of every world, with every failure, are among those covered. The panics that remain are the known ones of C31 and C82. Not modelled: a nil SessionStructure inside a State, which no stored bytes decode to. A bundle without identity or signed pre-key is a caller error and is excluded by hypothesis. Messages are those that parse (the length conditions; C05 has the parsers). |
| C99 | Message kinds are not confused on the wire | proved | `c99_signal`, `c99_prekey`, `c99_distribution`, `c99_plaintext`, `c99_senderkey`, `c99_overlap` | c99_signal, c99_prekey, c99_distribution, c99_plaintext, c99_senderkey: one per kind of message built. The exception for sender-key messages is real at the level of texts: c99_overlap shows two byte strings that read as two kinds. Whether and how often a signature of the library has this form is not decided. |
