{"id": "C01", "title": "Whisper message wire round-trip", "statement": "Serialising a whisper message built by NewSignal and parsing it back with NewSignalFromBytes succeeds and yields the same version, sender ratchet key, counter, previous counter, ciphertext body and raw bytes; and VerifyMAC of the parsed message accepts exactly the MAC key / sender identity / receiver identity triple it was built with whenever the HMAC values agree.", "quantifier": "every 32-byte ratchet key, every uint32 counter and previous counter, every ciphertext byte string of any length, every MAC key and identity pair", "why_tests_cant": "field values and lengths range over an unbounded space; varint and length encodings change shape at every power of 128", "anchors": ["protocol/message/signal.go:NewSignal", "protocol/message/signal.go:NewSignalFromBytes", "protocol/message/signal.go:VerifyMAC", "protocol/message/mac.go:mac"]}
{"id": "C02", "title": "Pre-key message wire round-trip", "statement": "Serialising a pre-key message built by NewPreKey and parsing it back yields the same version, registration ID, optional one-time pre-key ID (absent stays absent, 0 stays 0), signed pre-key ID, base key, identity key and the same inner whisper message.", "quantifier": "every uint32 id, every presence/absence of the one-time pre-key ID, every key and every inner message", "why_tests_cant": "unbounded field space; presence versus zero-value confusion only shows for particular ids", "anchors": ["protocol/message/prekey.go:NewPreKey", "protocol/message/prekey.go:NewPreKeyFromBytes"]}
{"id": "C03", "title": "Sender-key message wire round-trip", "statement": "Serialising a group sender-key message and parsing it back yields the same version, distribution ID, chain ID, iteration and ciphertext, and its signature verifies under the public key of the signing key that produced it.", "quantifier": "every 128-bit distribution ID, every uint32 chain ID and iteration, every ciphertext, every signing key and randomness", "why_tests_cant": "unbounded field space and a 2^128 ID space rendered as text", "anchors": ["protocol/message/senderkey.go:NewSenderKey", "protocol/message/senderkey.go:NewSenderKeyFromBytes", "protocol/message/senderkey.go:VerifySignature", "protocol/distribution/id.go"]}
{"id": "C04", "title": "Sender-key distribution message round-trip", "statement": "Serialising a sender-key distribution message and parsing it back yields the same version, distribution ID, chain ID, iteration, 32-byte chain key and signing public key.", "quantifier": "every distribution ID, uint32 chain ID and iteration, 32-byte chain key and public key", "why_tests_cant": "unbounded field space", "anchors": ["protocol/message/senderkey.go:NewSenderKeyDistribution", "protocol/message/senderkey.go:NewSenderKeyDistributionFromBytes"]}
{"id": "C05", "title": "Message parsers never crash the process", "statement": "For every byte string received from the network, each of the message parsers (whisper, pre-key, sender-key, sender-key distribution, plaintext) returns a message or an error and never panics.", "quantifier": "every byte string", "why_tests_cant": "a panic may need a particular length and prefix; the input space is infinite", "anchors": ["protocol/message/signal.go:NewSignalFromBytes", "protocol/message/prekey.go:NewPreKeyFromBytes", "protocol/message/senderkey.go", "protocol/message/plaintext.go"]}
{"id": "C06", "title": "Parsers accept only well-formed current-version messages", "statement": "Whenever a parser accepts a byte string, the version nibble is 3, the message's keys are type-0x05 keys with 32 key bytes, chain keys are 32 bytes long, there is room for the MAC or signature trailer, and re-reading the message's raw bytes yields the input unchanged.", "quantifier": "every byte string the parsers accept", "why_tests_cant": "acceptance is over an infinite set of malformed inputs, unknown fields, repeated fields and non-canonical varints", "anchors": ["protocol/message/signal.go", "protocol/message/prekey.go", "protocol/message/senderkey.go", "protocol/curve/public.go:NewPublicKey"]}
{"id": "C07", "title": "Archived session states are restored unchanged", "statement": "A session state that is archived in a record (serialised) and later read back through PreviousStates is equal in every field to the state that was archived: identities, root key, chains, saved message keys, pending pre-key and registration ids.", "quantifier": "every session state with uint32-ranged counters: any number of chains, keys, any lengths", "why_tests_cant": "state space is unbounded; proto3 drops zero/empty values, which is lossy for some field kinds", "anchors": ["protocol/session/record.go:ArchiveCurrentState", "protocol/session/record.go:PreviousStates", "protocol/session/state.go:Bytes"]}
{"id": "C08", "title": "CBC decryption inverts CBC encryption", "statement": "CBCDecrypt(key, iv, CBCEncrypt(key, iv, p)) returns p, for AES keys of every legal size and 16-byte IVs; the ciphertext length is the smallest multiple of 16 strictly greater than the plaintext length.", "quantifier": "every plaintext of every length, every key and IV", "why_tests_cant": "needs every length modulo the block size and every content, including plaintexts that look like padding", "anchors": ["protocol/crypto/aes/aes.go"]}
{"id": "C09", "title": "CBC decryption rejects malformed input without crashing", "statement": "CBCDecrypt never panics; it returns an error exactly when the key length is illegal, the ciphertext is empty or not a multiple of 16, the IV is not 16 bytes, or the last decrypted byte is not in 1..16; otherwise it returns the decrypted blocks minus that many bytes.", "quantifier": "every key, IV and ciphertext byte string", "why_tests_cant": "infinite input space; slice bounds depend on attacker-controlled decrypted bytes", "anchors": ["protocol/crypto/aes/aes.go:CBCDecrypt", "protocol/crypto/aes/aes.go:pkcs7unpad"]}
{"id": "C10", "title": "Encryption does not modify the caller's buffer", "statement": "Encrypting a plaintext slice leaves every byte of the caller's backing array unchanged.", "quantifier": "every plaintext slice, with any spare capacity", "why_tests_cant": "the effect depends on slice capacity and aliasing, which equality on plaintexts does not observe", "anchors": ["protocol/crypto/aes/aes.go:pkcs7pad"]}
{"id": "C11", "title": "Public key encoding is faithful", "statement": "NewPublicKey(k.Bytes()) yields a key equal to k; NewPublicKey accepts exactly the byte strings of length at least 33 whose first byte is 0x05 and depends only on bytes 1..32; Equal holds exactly when the encodings coincide.", "quantifier": "every byte string and every pair of keys", "why_tests_cant": "infinite input space", "anchors": ["protocol/curve/public.go", "protocol/curve/djb_public.go", "protocol/identity/keys.go"]}
{"id": "C12", "title": "Private keys survive storage", "statement": "A private key re-read from its Bytes() has the same bytes, the same public key and the same agreement result with every public key as the original, even though construction clamps the scalar.", "quantifier": "every 32-byte private key and every public key", "why_tests_cant": "2^256 keys; clamping bit patterns matter", "anchors": ["protocol/curve/curve25519/curve25519.go:NewPrivateKey", "protocol/curve/djb_private.go"]}
{"id": "C13", "title": "Key agreement is symmetric", "statement": "For any two private keys, each side's Agreement with the other's public key yields the same 32-byte secret; a key that yields the all-zero secret is rejected with an error.", "quantifier": "every pair of 32-byte private keys, every public key", "why_tests_cant": "2^512 pairs", "anchors": ["protocol/curve/curve25519/curve25519.go:Agreement", "protocol/curve/pair.go"]}
{"id": "C14", "title": "Signatures verify", "statement": "A signature produced by a private key over any messages verifies under the corresponding (Montgomery) public key over the same message bytes, however the bytes are split into parts, whatever the randomness; a signature of length other than 64 is rejected without error.", "quantifier": "every private key, every list of messages, every split, every 64 random bytes", "why_tests_cant": "key sign bit, randomness and message splits are unbounded", "anchors": ["protocol/curve/curve25519/curve25519.go:Sign", "protocol/curve/curve25519/curve25519.go:VerifySignature", "protocol/curve/curve25519/util.go:utoy", "protocol/curve/djb_public.go:VerifySignature"]}
{"id": "C15", "title": "Alternate-identity claims verify", "statement": "SignAlternateIdentity by one identity over another identity's key is accepted by VerifyAlternateIdentity of the first for the second, and the signed byte string determines the claimed key uniquely.", "quantifier": "every pair of identities, all randomness", "why_tests_cant": "unbounded key space", "anchors": ["protocol/identity/keys.go"]}
{"id": "C16", "title": "Displayed safety numbers agree on both devices", "statement": "For any two users with ids and keys, the safety number displayed by one is character-for-character the one displayed by the other, and is 60 decimal digits.", "quantifier": "every id byte string, key pair and permitted iteration count", "why_tests_cant": "depends on lexicographic order of two digests and on zero-padding of every 5-byte chunk", "anchors": ["protocol/fingerprint/fingerprint.go", "protocol/fingerprint/displayable.go", "protocol/fingerprint/encode.go"]}
{"id": "C17", "title": "Scanned safety codes match exactly for the same conversation", "statement": "Compare accepts the code encoded by the other device exactly when versions agree and the two 32-byte digests are the mirror image; a version difference is reported as an error and never as a mismatch or a match.", "quantifier": "every version, every pair of digests, and every scanned byte string", "why_tests_cant": "unbounded digests and arbitrary scanned bytes", "anchors": ["protocol/fingerprint/scannable.go"]}
{"id": "C18", "title": "Safety-number iteration count is bounded", "statement": "Creating a fingerprint fails exactly when the iteration count is less than 2 or greater than 1,000,000; otherwise it succeeds and hashes exactly that many times.", "quantifier": "every uint32 iteration count", "why_tests_cant": "2^32 iteration counts and a loop", "anchors": ["protocol/fingerprint/fingerprint.go:fingerprint"]}
{"id": "C19", "title": "Chain keys advance deterministically and identically on both sides", "statement": "Two holders of the same chain key derive, at every position, the same message keys with the same counter; the n-th successor has index start+n (mod 2^32); a position's keys do not depend on how one got there.", "quantifier": "every chain key and every position", "why_tests_cant": "unbounded number of steps", "anchors": ["protocol/ratchet/keys.go", "protocol/senderkey/keys.go"]}
{"id": "C20", "title": "Consecutive, never repeated message counters", "statement": "In any sequence of successful EncryptMessage calls on a session with no intervening receive, the messages carry the same ratchet key and counters c, c+1, c+2, ..., and each is encrypted under the keys at exactly its counter's position; no position is used twice before the 2^32 wrap.", "quantifier": "every session state, any number of messages, any plaintexts", "why_tests_cant": "arbitrary history length", "anchors": ["protocol/session/cipher.go:EncryptMessage", "protocol/session/state.go:SetSenderChainKey"]}
{"id": "C21", "title": "Session establishment agrees (X3DH)", "statement": "If a client processes a genuine pre-key bundle and encrypts a message, the bundle's owner decrypting that message returns the original plaintext, with or without a one-time pre-key, and both sides then hold matching root and chain keys.", "quantifier": "every key material, every plaintext, with and without one-time pre-key (non-zero id)", "why_tests_cant": "agreement must hold for all keys and randomness", "anchors": ["protocol/session/session.go", "protocol/session/cipher.go"]}
{"id": "C22", "title": "A one-time pre-key with id 0 is usable", "statement": "Session establishment works for every one-time pre-key id that a bundle can carry, including 0.", "quantifier": "every uint32 one-time pre-key id", "why_tests_cant": "a single id out of 2^32 is special", "anchors": ["protocol/session/state.go:SetUnacknowledgedPreKeyMessage", "protocol/session/state.go:UnacknowledgedPreKeyMessages"]}
{"id": "C23", "title": "Messages are delivered correctly under any schedule", "statement": "In a two-party conversation with arbitrary interleaving of sends and deliveries, with reordering, loss, duplication and rejected garbage, every delivered genuine message whose chain is among the five most recent, which is at most 25,000 ahead and whose key has not been consumed or evicted, decrypts to exactly the plaintext that was encrypted.", "quantifier": "every finite schedule of sends and deliveries on both sides, all plaintexts and all fresh ratchet keys", "why_tests_cant": "the set of interleavings is infinite and the ratchets of both sides evolve together", "anchors": ["protocol/session/cipher.go", "protocol/session/state.go", "protocol/ratchet/keys.go"]}
{"id": "C24", "title": "A ciphertext is accepted at most once (one-to-one)", "statement": "Once DecryptMessage has returned the plaintext of a one-to-one message, delivering the same ciphertext again is rejected as a duplicate.", "quantifier": "every session state, message and later history", "why_tests_cant": "replays can come at any later point of any history", "anchors": ["protocol/session/cipher.go:messageKeys", "protocol/session/state.go:SetReceiverChainKey"]}
{"id": "C25", "title": "Undecryptable messages are reported as errors", "statement": "DecryptMessage returns a nil error only if the returned bytes are the authenticated decryption of the given ciphertext under one of the record's session states.", "quantifier": "every record and every whisper or pre-key message", "why_tests_cant": "error paths are many and depend on arbitrary adversarial ciphertexts", "anchors": ["protocol/session/cipher.go:decryptSignal", "protocol/session/cipher.go:decryptPreKey"]}
{"id": "C26", "title": "A rejected message does not disturb the session", "statement": "If no session state of the record accepts a message, the stored session record is unchanged, so later genuine messages still decrypt.", "quantifier": "every record, message, randomness, store kind (copying or sharing)", "why_tests_cant": "arbitrary garbage and arbitrary states; aliasing of the in-memory store", "anchors": ["protocol/session/cipher.go:decryptMessage", "protocol/session/session.go:ProcessPreKey", "protocol/session/store_inmem.go"]}
{"id": "C27", "title": "Session memory is bounded", "statement": "In every reachable record each session state holds at most 5 receiver chains, at most 2,000 saved message keys per chain, and a record at most 40 archived states, whatever the peer sends.", "quantifier": "every history of API calls and every incoming message", "why_tests_cant": "needs an invariant over unbounded histories", "anchors": ["protocol/session/state.go:AddReceiverChain", "protocol/session/state.go:SetMessageKeys", "protocol/session/record.go:ArchiveCurrentState"]}
{"id": "C28", "title": "Far-future messages are refused cheaply", "statement": "A message whose counter is more than 25,000 beyond the receiving chain's index is refused before any key derivation, except in a session with oneself; exactly 25,000 ahead is accepted.", "quantifier": "every chain index and counter in uint32", "why_tests_cant": "boundary in a 2^64 space of pairs", "anchors": ["protocol/session/cipher.go:messageKeys", "protocol/session/group_cipher.go:messageKey"]}
{"id": "C29", "title": "No traffic with untrusted identities", "statement": "EncryptMessage returns a ciphertext, ProcessPreKeyBundle and ProcessPreKey set up a session, and DecryptMessage returns plaintext, only if the identity store trusts the peer's identity key for that address at the time of the check; with the in-memory store this means no different key was stored earlier.", "quantifier": "every store content, record, message and bundle", "why_tests_cant": "all combinations of stored identity, session identity and message identity", "anchors": ["protocol/session/cipher.go", "protocol/session/session.go", "protocol/identity/store_inmem.go"]}
{"id": "C30", "title": "Bundles with a bad signature never create a session", "statement": "ProcessPreKeyBundle changes the stores only if the signed pre-key's signature verifies under the bundle's identity key.", "quantifier": "every bundle and store content", "why_tests_cant": "infinite set of forged signatures", "anchors": ["protocol/session/session.go:ProcessPreKeyBundle"]}
{"id": "C31", "title": "A pre-key message cannot crash the recipient", "statement": "Decrypting any pre-key message, including one naming an unknown signed pre-key or carrying a low-order key, returns a plaintext or an error and never panics.", "quantifier": "every pre-key message and store content", "why_tests_cant": "depends on absent store entries and special curve points", "anchors": ["protocol/session/session.go:processPreKeyV3", "protocol/session/session.go:initializeBobSession"]}
{"id": "C32", "title": "One-time pre-keys are consumed exactly on success", "statement": "Decrypting a pre-key message deletes a one-time pre-key only if the plaintext was obtained and the session was stored, deletes only the id named in the message, and a message for an already known session deletes nothing.", "quantifier": "every pre-key message, store content and store failure point", "why_tests_cant": "crash and failure points at every store call", "anchors": ["protocol/session/cipher.go:decryptPreKey"]}
{"id": "C33", "title": "Re-delivered pre-key messages do not reset the session", "statement": "Processing a pre-key message whose base key belongs to the current or an archived session of the same version leaves the record unchanged and consumes no pre-key.", "quantifier": "every record and message", "why_tests_cant": "all positions in up to 40 archived states", "anchors": ["protocol/session/session.go:processPreKeyV3", "protocol/session/record.go:HasSessionState"]}
{"id": "C34", "title": "Promotion loses no session", "statement": "Promoting a new or an archived state makes it current and archives the previous current state; no other state is lost except the oldest one when 40 are already archived.", "quantifier": "every record and index", "why_tests_cant": "all record sizes and indices", "anchors": ["protocol/session/record.go:PromoteOldState", "protocol/session/record.go:PromoteState"]}
{"id": "C35", "title": "Archived sessions still receive", "statement": "If the current session cannot decrypt a message but some archived session can, DecryptMessage returns that session's plaintext, whatever the other archived sessions contain.", "quantifier": "every record with any number of archived states", "why_tests_cant": "needs particular combinations of several archived states", "anchors": ["protocol/session/cipher.go:decryptMessage"]}
{"id": "C36", "title": "Pre-key framing until acknowledged", "statement": "EncryptMessage returns a pre-key message exactly while the session was initiated locally and no message has been decrypted in it, and a whisper message afterwards; the framing carries the ids and base key of the bundle that was processed.", "quantifier": "every history", "why_tests_cant": "unbounded histories", "anchors": ["protocol/session/cipher.go:EncryptMessage", "protocol/session/state.go:UnacknowledgedPreKeyMessages", "protocol/session/state.go:ClearUnacknowledgedPreKeyMessage"]}
{"id": "C37", "title": "Conversations are isolated", "statement": "No session operation for one address reads or changes the stored session or identity of a different address, and group operations touch only the entry of their sender address and distribution ID.", "quantifier": "every operation, store content and address", "why_tests_cant": "all pairs of addresses", "anchors": ["protocol/session/session.go", "protocol/session/cipher.go", "protocol/session/group_session.go", "protocol/session/store_inmem.go"]}
{"id": "C38", "title": "Identity replacement is reported correctly", "statement": "Storing an identity key returns true exactly when a different key was stored for that address before.", "quantifier": "every history of the identity store and every key", "why_tests_cant": "depends on pointer identity versus value equality, over histories", "anchors": ["protocol/identity/store_inmem.go:Store"]}
{"id": "C39", "title": "Identity store behaves as a map with trust on first use", "statement": "After any sequence of Store and Clear operations, Load returns the last key stored since the last Clear, and a key is trusted exactly when none is stored or the stored one is equal; Clear's background deletion never removes later entries.", "quantifier": "every operation sequence and every interleaving with the background deletion", "why_tests_cant": "unbounded sequences and goroutine interleavings", "anchors": ["protocol/identity/store_inmem.go"]}
{"id": "C40", "title": "Untrusted identity is reported as such", "statement": "Whenever an operation fails because the identity is not trusted, IsErrUntrustedIdentity recognises the error.", "quantifier": "every operation and store content", "why_tests_cant": "all failing paths", "anchors": ["protocol/session/session.go:ProcessPreKeyBundle", "protocol/perrors/errors.go"]}
{"id": "C41", "title": "A failed encryption does not consume a message key", "statement": "If EncryptMessage returns an error, the stored session's sending chain is where it was before the call.", "quantifier": "every store content, failure point and store kind", "why_tests_cant": "depends on store aliasing and failure points", "anchors": ["protocol/session/cipher.go:EncryptMessage", "protocol/session/store_inmem.go"]}
{"id": "C42", "title": "A returned ciphertext's key is never reused after a crash", "statement": "Whenever EncryptMessage (one-to-one or group) returns a ciphertext, the advanced chain key has already been persisted: re-loading the store after a crash at any point never yields a chain position whose ciphertext was already returned.", "quantifier": "every crash or store-failure point", "why_tests_cant": "crash points are not exercised by tests", "anchors": ["protocol/session/cipher.go:EncryptMessage", "protocol/session/group_cipher.go:EncryptMessage"]}
{"id": "C43", "title": "Concurrent senders never reuse a message key", "statement": "Two concurrent EncryptMessage calls on one session never produce two ciphertexts under the same ratchet key and counter.", "quantifier": "every interleaving of the store calls of two concurrent calls", "why_tests_cant": "schedules", "anchors": ["protocol/session/cipher.go:EncryptMessage", "protocol/session/store_inmem.go"]}
{"id": "C44", "title": "Group messages are delivered exactly once in any order", "statement": "After processing a distribution message, a member decrypts the sender's messages in any order, with any duplication and loss: the first delivery of an iteration that is at or after the distribution's iteration, at most 25,000 ahead and not evicted returns the exact plaintext, and every later delivery of it returns ErrDuplicateMessage.", "quantifier": "every delivery sequence, all plaintexts", "why_tests_cant": "infinite set of delivery orders", "anchors": ["protocol/session/group_cipher.go", "protocol/session/group_state.go"]}
{"id": "C45", "title": "Late joiners cannot read earlier group messages and can read all later ones", "statement": "A member who received the distribution message at iteration n never obtains a plaintext for an iteration below n of that chain, and can decrypt every iteration from n on.", "quantifier": "every n, every delivery history", "why_tests_cant": "unbounded histories", "anchors": ["protocol/session/group_session.go", "protocol/session/group_cipher.go"]}
{"id": "C46", "title": "Group memory is bounded and chain ids are unique", "statement": "In every reachable group record there are at most 5 states, no two with the same chain ID, and each holds at most 2,000 saved keys.", "quantifier": "every history of distributions and deliveries", "why_tests_cant": "invariant over unbounded histories", "anchors": ["protocol/session/group_record.go:AddState", "protocol/session/group_state.go:AddMessageKey"]}
{"id": "C47", "title": "Re-distribution does not rewind a group chain", "statement": "Processing a distribution message whose chain ID and signing key are already known keeps the existing state (its position and saved keys); a known chain ID with a different signing key is replaced by the new state; otherwise the new state is added and only the oldest is evicted when there are already 5.", "quantifier": "every record and distribution message", "why_tests_cant": "all record shapes", "anchors": ["protocol/session/group_record.go:AddState"]}
{"id": "C48", "title": "Only the signer can speak in a group", "statement": "Group DecryptMessage returns a plaintext only if the message's signature verifies under the signing key of the stored state with the message's chain ID; a bad signature changes nothing in the store.", "quantifier": "every message and store content", "why_tests_cant": "arbitrary forged messages", "anchors": ["protocol/session/group_cipher.go:DecryptMessage"]}
{"id": "C49", "title": "Receivers cannot send", "statement": "A group record built only from processed distribution messages can never be used by EncryptMessage to produce a message.", "quantifier": "every history of processed distributions", "why_tests_cant": "all histories", "anchors": ["protocol/session/group_cipher.go:EncryptMessage", "protocol/session/group_state.go:PrivateSigningKey"]}
{"id": "C50", "title": "Distribution message describes the sending state", "statement": "NewSenderKeyDistribution describes exactly the chain, iteration, chain key and signing key that the next EncryptMessage will use, is idempotent on an existing record, and chooses a chain ID below 2^31 for a new one.", "quantifier": "every store content and randomness", "why_tests_cant": "all states and random draws", "anchors": ["protocol/session/group_session.go:NewSenderKeyDistribution", "protocol/session/group_cipher.go:EncryptMessage"]}
{"id": "C51", "title": "A failed group decryption does not disturb the session", "statement": "If group DecryptMessage returns an error the stored group record is unchanged.", "quantifier": "every message, record and store kind", "why_tests_cant": "aliasing of the in-memory store and failure after key consumption", "anchors": ["protocol/session/group_cipher.go:DecryptMessage", "protocol/session/store_inmem.go"]}
{"id": "C52", "title": "Distribution IDs survive text encoding", "statement": "Parsing the text form of a distribution ID yields the same ID; the text form has 36 characters; distinct IDs have distinct texts; malformed texts are rejected, never crashing.", "quantifier": "all 2^128 IDs and every byte string", "why_tests_cant": "2^128 values", "anchors": ["protocol/distribution/id.go"]}
{"id": "C53", "title": "Pre-key ids survive the signed 32-bit storage field", "statement": "The signed pre-key ID carried in the pre-key framing is the bundle's ID for every uint32, although it is stored as a signed 32-bit field.", "quantifier": "every uint32", "why_tests_cant": "2^32 values, sign boundary", "anchors": ["protocol/session/state.go:SetUnacknowledgedPreKeyMessage", "protocol/session/state.go:UnacknowledgedPreKeyMessages"]}
{"id": "C54", "title": "Unexpected ciphertext types are refused", "statement": "DecryptMessage on a sender-key or plaintext message returns an error and changes nothing; plaintext content is parsed exactly for byte strings starting with 0xC0.", "quantifier": "every message and store content", "why_tests_cant": "all inputs", "anchors": ["protocol/session/cipher.go:DecryptMessage", "protocol/message/plaintext.go"]}
{"id": "C55", "title": "Group sending positions are consecutive and never reused", "statement": "Successive successful group EncryptMessage calls use consecutive iterations of one chain, each message encrypted under the key of its own iteration and signed with the chain's signing key; with store failures and crashes in between, iterations are strictly increasing, so no message key is used for two returned ciphertexts.", "quantifier": "every sequence of sending attempts, all store-failure and crash points, below 2^32 iterations", "why_tests_cant": "Tests send a handful of messages on a store that never fails; the claim is about every sequence of attempts with a failure at any store call.", "anchors": ["protocol/session/group_session.go:NewSenderKeyDistribution", "protocol/session/group_cipher.go:EncryptMessage"]}
{"id": "C56", "title": "Concurrent group senders do not share an iteration", "statement": "Two concurrent group EncryptMessage calls for one sender and distribution ID never return messages encrypted under the same message key.", "quantifier": "every interleaving of the store calls of two EncryptMessage calls", "why_tests_cant": "A test run exhibits one schedule; the interleaving that breaks it is rarely taken.", "anchors": ["protocol/session/group_session.go:NewSenderKeyDistribution", "protocol/session/group_cipher.go:EncryptMessage"]}
{"id": "C57", "title": "A pinned identity key is never replaced without a trust decision", "statement": "Once the identity store holds a key for an address that the policy pins (refuses any other key), no sequence of API calls, completed, failing, crashed or concurrent, replaces it.", "quantifier": "every device, every set of concurrent calls, every interleaving, store failure and crash", "why_tests_cant": "the replacement needs a particular interleaving of check and store in two calls", "anchors": ["protocol/session/cipher.go:decryptPreKey", "protocol/session/session.go:ProcessPreKey", "protocol/identity/store.go:Store"]}
{"id": "C58", "title": "Both sides may initiate at the same time", "statement": "If two devices process each other's bundles and send before either has received anything, both messages are read, and each device holds both sessions, the one begun by the peer being the current one.", "quantifier": "every pair of devices, bundles, keys, plaintexts, and every store failure while sending", "why_tests_cant": "depends on the order of two calls on two devices", "anchors": ["protocol/session/session.go:ProcessPreKeyBundle", "protocol/session/session.go:ProcessPreKey", "protocol/session/record.go:PromoteState"]}
{"id": "C59", "title": "No session is lost", "statement": "Whatever an API call does, every session stored before it, current or archived, is still stored after it, except that setting up a session may push out the oldest of 40 archived ones.", "quantifier": "every API call, device, address, store failure and crash point", "why_tests_cant": "records with many archived sessions and every failure point", "anchors": ["protocol/session/record.go:ArchiveCurrentState", "protocol/session/record.go:PromoteState", "protocol/session/cipher.go:decrypt"]}
{"id": "C60", "title": "A message shows only the padded length of its plaintext", "statement": "Whenever encryption succeeds, the size of the message produced is a fixed function of its counters, its identifiers and the plaintext length rounded up to the next 16-byte block; the header parses back. Two plaintexts with the same number of whole blocks, sent from the same device state, give messages that agree in everything except the contents of the body and the MAC or signature: same version, ratchet key, counters, identities, ids and sizes. The same holds for group messages, whatever randomness signs them.", "quantifier": "all plaintexts below 2^62 bytes, all well-formed devices, all sessions, all patterns of store failure, all primitives satisfying the length laws, pairwise and group messages", "why_tests_cant": "A test compares a few lengths at small counters; the claim covers every length, every counter (the varint widths change at 2^7, 2^14, ...) and every session state, and it relates two runs of the program.", "anchors": ["protocol/session/cipher.go:EncryptMessage", "protocol/message/signal.go:NewSignal", "protocol/message/prekey.go:NewPreKey", "protocol/message/senderkey.go:NewSenderKey", "protocol/session/group_cipher.go:EncryptMessage", "protocol/crypto/aes/aes.go:CBCEncrypt"]}
{"id": "C61", "title": "Equal safety numbers mean equal people and keys", "statement": "If two devices compare safety numbers made with the same iteration count - by scanning (the comparison answers true) or by reading the 60 digits - and find them equal, then both hold the same two names and the same two identity keys (for the digits: in either order), or two different ones of the texts hashed for these very numbers have SHA-512 digests that agree in their first 32 bytes (scanned) or in the six groups of digits (displayed). So a man in the middle who gave either side another key is seen unless they found such a clash.", "quantifier": "for all names, keys, versions, iteration counts and hash functions", "why_tests_cant": "The claim compares every two pairs of names and keys; a test can only try a few, and cannot tell a clash from an encoding in which two different inputs hash the same text.", "anchors": ["protocol/fingerprint/fingerprint.go", "protocol/fingerprint/displayable.go", "protocol/fingerprint/scannable.go", "protocol/fingerprint/encode.go"]}
{"id": "C62", "title": "Session changes are all or nothing under failures and crashes", "statement": "Whatever store calls fail and wherever an API call is cut off, the stored session of its conversation is either the one before the call or the one a complete successful call leaves.", "quantifier": "every API call, device (copying store), failure pattern and crash point", "why_tests_cant": "every prefix of every call with every failure pattern would have to be run", "anchors": ["protocol/session/cipher.go:EncryptMessage", "protocol/session/cipher.go:DecryptMessage", "protocol/session/session.go:ProcessPreKeyBundle"]}
{"id": "C63", "title": "A conversation survives calls that fail or are cut off", "statement": "If a send or a receive in a conversation fails or is cut off anywhere, both devices are still in a proper conversation: all guarantees about later messages keep holding.", "quantifier": "every conversation history, call, failure pattern and crash point (copying store)", "why_tests_cant": "failures can come at any point of any history", "anchors": ["protocol/session/cipher.go:EncryptMessage", "protocol/session/cipher.go:DecryptMessage"]}
{"id": "C64", "title": "A message whose decryption was cut off can be delivered again", "statement": "If DecryptMessage of a receivable message fails at a store call or is cut off, delivering the message again yields its plaintext.", "quantifier": "every conversation history, message, failure pattern and crash point (copying store)", "why_tests_cant": "the failing point and the history before it vary without bound", "anchors": ["protocol/session/cipher.go:decryptMessage", "protocol/session/state.go:RemoveMessageKeys"]}
{"id": "C65", "title": "No one-time pre-key is left behind", "statement": "After a message has set up a session with a one-time pre-key, the pre-key is removed, at the latest when the message is delivered again.", "quantifier": "every device, message and store failure", "why_tests_cant": "needs a store failure at one particular call and a second delivery", "anchors": ["protocol/session/cipher.go:decryptPreKey", "protocol/session/session.go:processPreKeyV3"]}
{"id": "C66", "title": "A one-time pre-key sets up at most one session", "statement": "No two sessions are set up by messages that name the same one-time pre-key.", "quantifier": "every device, pair of messages and interleaving", "why_tests_cant": "the window between load and delete is hit by few interleavings", "anchors": ["protocol/session/session.go:processPreKeyV3", "protocol/session/cipher.go:decryptPreKey"]}
{"id": "C67", "title": "Calls on different conversations do not influence each other", "statement": "Calls that belong to different conversations (and do not name the same one-time pre-key) give, under any interleaving, the results and stored entries that each would give alone.", "quantifier": "every number of concurrent calls, every interleaving, every store failure and crash", "why_tests_cant": "interleavings of many calls cannot be enumerated", "anchors": ["protocol/session/session.go:Session", "protocol/session/group_session.go:GroupSession"]}
{"id": "C68", "title": "Store failures are reported", "statement": "If a store call made by an API call fails, the API call returns an error.", "quantifier": "every API call, device and failure pattern", "why_tests_cant": "every store call of every path must be made to fail in turn", "anchors": ["protocol/session/cipher.go:EncryptMessage", "protocol/session/cipher.go:DecryptMessage", "protocol/session/group_cipher.go:DecryptMessage"]}
{"id": "C69", "title": "Headers number the messages of a conversation", "statement": "In every history of two devices, every message sent carries version 3, the public ratchet key of its sender's current epoch, its number in that epoch, and as previous counter one less than the number of messages its sender sent in its epoch before (0 if it sent none). No two messages carry the same epoch and number.", "quantifier": "all histories: any number of messages, any order of delivery, replays, rejected messages and store failures in between", "why_tests_cant": "Nothing in the library reads the previous counter, so no test of delivery can notice a wrong one; other implementations rely on it. The claim relates every header to the whole history before it.", "anchors": ["protocol/session/cipher.go:EncryptMessage", "protocol/session/cipher.go:chainKey", "protocol/message/signal.go:NewSignal"]}
{"id": "C70", "title": "Locked calls might as well run one by one", "statement": "If a call starts only while every call in progress belongs to another conversation or group and names another one-time pre-key, then at every moment the calls that have ended, made one after the other in the order in which they ended and with the same store failures, return the same answers, and each call in progress is where it would be if it were made alone afterwards. When no call is in progress, the stores hold the same.", "quantifier": "all sequences of API calls, all interleavings of their store calls, all patterns of store failure, calls abandoned at any point, sharing and copying stores", "why_tests_cant": "Interleavings of unboundedly many calls cannot be enumerated. The claim tells an application exactly which locking the library, which has none, needs.", "anchors": ["protocol/session/cipher.go:EncryptMessage", "protocol/session/cipher.go:DecryptMessage", "protocol/session/session.go:ProcessPreKeyBundle", "protocol/session/group_cipher.go:EncryptMessage", "protocol/session/group_cipher.go:DecryptMessage"]}
{"id": "C71", "title": "Refused messages cannot destroy a session", "statement": "Whatever messages a device refuses, the sessions it has with the sender stay stored, so that messages of these sessions can still be read.", "quantifier": "all devices, all sequences of refused messages, sharing and copying stores", "why_tests_cant": "A test would have to send the one sequence that does the damage: 41 messages with different base keys. The claim is about every sequence.", "anchors": ["protocol/session/cipher.go:decryptPreKey", "protocol/session/session.go:processPreKeyV3", "protocol/session/record.go:PromoteState", "protocol/session/record.go:ArchiveCurrentState", "protocol/session/store_inmem.go:Load"]}
{"id": "C72", "title": "Conversations survive the wire", "statement": "In every conversation of two devices, whatever was sent, lost, reordered or repeated, each message written to bytes and parsed by the receiver is the message that was sent, so decrypting the bytes gives the plaintext; no two messages of a conversation have the same bytes. The same holds for the distribution message of a sender key and the group messages sent under it.", "quantifier": "all conversations of two devices of any length, all orders of delivery, all plaintexts shorter than 2^62 bytes, all group sending runs", "why_tests_cant": "The round trip of one message is testable; that every message of every conversation has fields the parser accepts (counters, previous counters, ids, keys) depends on the whole state of the sender.", "anchors": ["protocol/message/signal.go:NewSignalFromBytes", "protocol/message/prekey.go:NewPreKeyFromBytes", "protocol/message/senderkey.go:NewSenderKeyFromBytes", "protocol/message/senderkey.go:NewSenderKeyDistributionFromBytes", "protocol/session/cipher.go:EncryptMessage"]}
{"id": "C73", "title": "Keys are erased once their message has been read", "statement": "Once DecryptMessage has returned a message's plaintext, the receiver's stored session no longer contains the keys of that message: neither saved nor derivable from a stored chain key. Likewise a sender's session contains no key of a message it has sent, and a group member's stored sender-key state none of a message it has read.", "quantifier": "for all conversations (any interleaving of sends, receipts, losses and re-deliveries), all messages in them, all stored sessions reached", "why_tests_cant": "Key erasure is a property of stored state after every possible order of deliveries; a test can inspect only the orders it tries, and reading a message successfully says nothing about what is left behind.", "anchors": ["protocol/session/cipher.go:messageKeys", "protocol/session/cipher.go:DecryptMessage", "protocol/session/state.go:MessageKeys", "protocol/session/group_cipher.go:DecryptMessage"]}
{"id": "C74", "title": "Only the peer can speak in a conversation", "statement": "In every conversation, whatever bytes an attacker hands to a party (altered, recombined, reflected, made up): if the party's session accepts them, they are a message that the peer sent in this conversation and the plaintext returned is the one the peer gave to EncryptMessage; anything else would be a forgery, that is a valid authentication tag, under a key of the session and for the two identity keys, on a text that the peer never authenticated with that key.", "quantifier": "all conversations of two devices of any length and interleaving, all byte strings offered to either party", "why_tests_cant": "A test can alter some bytes of some messages; that no byte string at all is accepted without breaking the tag, at any point of any conversation, needs a reduction over all inputs and all reachable sessions.", "anchors": ["protocol/message/signal.go:VerifyMAC", "protocol/message/signal.go:NewSignalFromBytes", "protocol/session/cipher.go:decryptMessageSession", "protocol/session/cipher.go:DecryptMessage"]}
{"id": "C75", "title": "Every message uses the keys of the X3DH and Double Ratchet schedule", "statement": "In every conversation there is one ratchet key per epoch such that each message is encrypted and authenticated with exactly the keys which X3DH (with the keys of the bundle) and the Double Ratchet assign to its epoch and counter, for the two identity keys; and at any time both stored sessions hold the root key, ratchet key pair and sending chain key of their epoch.", "quantifier": "all conversations of two devices of any length and interleaving, all messages in them, both sessions at every point", "why_tests_cant": "Two copies of the same implementation agree even if both derive wrong keys; agreement with the published schedule in every reachable epoch is not observable from round trips.", "anchors": ["protocol/ratchet/keys.go:CreateChain", "protocol/ratchet/keys.go:MessageKeys", "protocol/session/session.go:initializeAliceSession", "protocol/session/session.go:initializeBobSession", "protocol/session/cipher.go:chainKey"]}
{"id": "C76", "title": "A hostile network can only lose, delay, reorder and repeat messages", "statement": "Whatever bytes are delivered to a party of an established conversation, at whatever moment, and even if the call handling them is interrupted or its store calls fail, the two devices afterwards are in a state that they could also have reached by the honest messages alone: the unchanged one, or the one after receiving a message that the peer did send. Calls about other conversations and groups never change the conversation. Exceptions are exactly: a forged MAC, a message opened by an archived session, a pre-key message that sets up a new session.", "quantifier": "for all two-party executions (C23's histories), all byte strings delivered to either side, all random bytes with a fresh ratchet key, all store faults and crash points, on stores that copy records; and for all other API calls of either device", "why_tests_cant": "The attacker chooses arbitrary bytes, including frames around genuine messages, truncations and replays, combined with faults; the claim is a simulation between two infinite sets of executions.", "anchors": ["protocol/session/cipher.go:DecryptMessage", "protocol/session/cipher.go:decryptPreKey", "protocol/session/session.go:ProcessPreKey", "protocol/message/signal.go:NewSignalFromBytes", "protocol/message/prekey.go:NewPreKeyFromBytes"]}
{"id": "C77", "title": "Stealing a device does not reveal messages already exchanged (forward secrecy)", "statement": "A thief copies everything stored on one device in the middle of a conversation (session, identity key, pre-keys) and has recorded every message on the network, before and after. Then no message that the device had already sent or read can be decrypted with these. What can be decrypted is only what the protocol cannot avoid: messages not yet received whose keys are kept, the rest of the current epoch of the device, and the peer's next epoch.", "quantifier": "for all two-party executions (C23's histories), all moments of the theft, both devices, all continuations of the conversation, all messages of either party", "why_tests_cant": "The claim is that no computation on the stolen values yields a key, in any execution of unbounded length; a test can only show that one particular computation fails.", "anchors": ["protocol/session/cipher.go:EncryptMessage", "protocol/session/cipher.go:DecryptMessage", "protocol/session/state.go:SetMessageKeys", "protocol/ratchet/keys.go:Next", "protocol/ratchet/keys.go:CreateChain"]}
{"id": "C78", "title": "A conversation recovers after a theft (post-compromise security)", "statement": "If everything stored on a device is copied at some moment and the conversation goes on undisturbed, then from the second epoch after the one the device was in (after each party has answered the other once), no message of either party can be decrypted with what was stolen and all recorded messages.", "quantifier": "for all two-party executions (C23's histories), all moments of the theft, both devices, all continuations, all messages of the later epochs", "why_tests_cant": "The claim quantifies over every derivation from the stolen values and over continuations of any length; tests cannot show that no derivation exists.", "anchors": ["protocol/session/cipher.go:DecryptMessage", "protocol/session/cipher.go:chainKey", "protocol/ratchet/keys.go:CreateChain", "protocol/session/state.go:SetSenderChain"]}
{"id": "C79", "title": "Several thefts and leaked keys give away only what each epoch's keys cover", "statement": "If any number of copies of the two devices' stores are taken at any moments of a conversation, and any further private keys leak (identity, base, pre-keys, ratchet keys), the messages that can be decrypted from all of it together with all recorded traffic are exactly those whose epoch is reached from a stolen or computable root key, whose message key or chain was stored in a stolen session, and no others. In particular recorded traffic alone reveals nothing even when both identity keys leak, and two epochs after the last theft or leak everything is safe again.", "quantifier": "for all two-party executions (C23's histories), all finite sets of thefts of either device at any moments, all sets of leaked keys, all messages", "why_tests_cant": "The claim combines any number of thefts at any points of unbounded executions and says that no derivation exists; tests cannot establish the absence of a derivation.", "anchors": ["protocol/session/cipher.go:DecryptMessage", "protocol/session/cipher.go:chainKey", "protocol/ratchet/keys.go:CreateChain", "protocol/session/session.go:ProcessPreKey"]}
{"id": "C80", "title": "Stolen sender keys give away only unread and later group messages", "statement": "From any number of stored states of one sender's group key (members' and the sender's own, taken at any moments) and all recorded messages of the sender, exactly those messages can be decrypted that come after the position of one of the states or whose message key one of the states still keeps. A member's state gives away no message the member has read and none sent before it joined; the sender's state gives away nothing already sent.", "quantifier": "for all senders, all lists of its messages, all finite sets of stolen states of members with any arrival orders (replays, gaps) and any joining time, and of the sender", "why_tests_cant": "The claim says that no derivation from the stolen values exists, for any arrival orders and numbers of messages; tests cannot enumerate derivations or schedules.", "anchors": ["protocol/session/group_cipher.go:DecryptMessage", "protocol/session/group_cipher.go:messageKey", "protocol/session/group_cipher.go:EncryptMessage", "protocol/session/group_session.go:ProcessSenderKeyDistribution"]}
{"id": "C81", "title": "The cryptographic laws relied on hold of the standard primitives", "statement": "SHA-512, HMAC-SHA256, AES, X25519 and Ed25519 as their standards define them satisfy every law the other properties take for granted: AES decryption undoes encryption; the two sides of an agreement between valid keys get the same, never all-zero secret; a signature made by Sign is accepted; X25519 and Ed25519 compute multiples in the group of the curve, whose base point has prime order; two private keys share a public key only when their scalars are equal or opposite.", "quantifier": "for all keys, messages, scalars and curve points", "why_tests_cant": "The key space has 2^256 elements; group laws, primality of the order and invertibility of the block cipher for every key are mathematical facts that no set of test vectors establishes.", "anchors": ["protocol/curve/curve25519/curve25519.go:Agreement", "protocol/curve/curve25519/curve25519.go:Sign", "protocol/curve/curve25519/curve25519.go:VerifySignature", "protocol/crypto/aes/aes.go:CBCEncrypt"]}
{"id": "C82", "title": "Public keys of small order are refused everywhere", "statement": "With the standard primitives, key agreement fails exactly when the peer public key is one of the five u coordinates of small order (in any of their encodings), whatever the private key. A bundle containing such a key is refused and nothing is stored. No execution leaves such a key in a session, neither as remote identity, base key nor ratchet key, and no session opens a message whose ratchet key is one. A pre-key message makes the receiver panic exactly when it gets as far as setting up a session and its signed pre-key is unknown or its identity or base key is of small order.", "quantifier": "for all keys, bundles, messages, devices and executions, concurrent ones and ones with failing stores included", "why_tests_cant": "That no other key of the 2^256 gives an all-zero secret, and that the five do so for every private key, rests on the orders of the curve and of its twist; tests can try the known encodings with a few private keys.", "anchors": ["protocol/curve/curve25519/curve25519.go:Agreement", "protocol/session/session.go:ProcessPreKey", "protocol/session/session.go:ProcessPreKeyBundle", "protocol/session/cipher.go:DecryptMessage"]}
{"id": "C83", "title": "Sessions made from agreed parameters converse like any other", "statement": "InitializeAliceSessionRecord and InitializeBobSessionRecord, given matching parameters (with any ratchet key, not only the signed pre-key), both succeed and give records whose accessors show each other's identities and the same first chain key. From then on either side may begin: every message that is receivable is delivered to the plaintext that was sent, no successful decryption ever gives another text, both sides can always send, and no pre-key message is produced. With arbitrary parameters neither call panics and each succeeds exactly if its key agreements do. The accessors never panic, and on a record without a session each returns the error that says so.", "quantifier": "for all keys, random bytes, numbers and orders of messages, store failures, and lawful primitives", "why_tests_cant": "The repository's tests use these two calls for one fixed exchange; the number of ratchet turns, losses and reorderings is unbounded, and the responder sending first on its initial chain is a path the bundle tests never take.", "anchors": ["protocol/session/session.go:197-204 InitializeAliceSessionRecord", "protocol/session/session.go:266-273 InitializeBobSessionRecord", "protocol/session/record.go:43-54 State, Version", "protocol/session/record.go:120-154 LocalIdentityKey, RemoteIdentityKey, ReceiverChainKey, SenderChainKey", "protocol/ratchet/params.go:11-32"]}
{"id": "C84", "title": "A group set up over one-to-one conversations works from end to end", "statement": "A device makes a sender key and sends its distribution message to a member as a one-to-one message. The member parses the bytes of that message, decrypts them, takes the plaintext for a distribution message and processes it; then the bytes of at most 2000 group messages sent with the key arrive in any order. Every step succeeds and the member gets exactly the plaintexts that were sent. This holds at any point of the one-to-one conversation at which the message is receivable, and whatever failed, crashed or was interleaved on the sender's side.", "quantifier": "for all conversations, group messages, orders of arrival, store failures and crashes at the sender, and lawful primitives", "why_tests_cant": "It composes two protocols, five codecs and both devices' stores; tests fix one conversation and one order of arrival.", "anchors": ["protocol/session/cipher.go:23-127 EncryptMessage", "protocol/session/cipher.go:127-200 DecryptMessage", "protocol/session/group_session.go:33-98 ProcessSenderKeyDistribution, NewSenderKeyDistribution", "protocol/session/group_cipher.go:19-150 EncryptMessage, DecryptMessage", "protocol/message/"]}
{"id": "C85", "title": "Several sessions between the same two devices work side by side", "statement": "Two devices may set up up to 41 sessions with each other, begun by either side at any time, and every message uses the session that is current at its sender. Each of these sessions runs exactly as if it were the only one; the records hold them and nothing else. A message of any of them, current or archived, is delivered whenever its own session can receive it: the sessions tried before it reject it and leave no trace, and its session becomes the current one. Whatever the stores do, an answer without error is the plaintext that was sent. A device that has a session can always send.", "quantifier": "for all numbers of sessions up to 41, all interleavings of set-ups, sends and (repeated, reordered) receptions on both sides, all store failures of calls that answer, all lawful primitives; excepting only messages that some other session of the receiver opens as well, an HMAC collision", "why_tests_cant": "The order in which sessions are tried, archived and promoted depends on the whole interleaving; tests use two sessions and one order.", "anchors": ["protocol/session/cipher.go:138-330 decryptPreKey, decryptSignal, decryptMessage, decryptMessageSession", "protocol/session/record.go:56-118 PreviousStates, HasSessionState, PromoteOldState, PromoteState, ArchiveCurrentState", "protocol/session/session.go:38-195 ProcessPreKey, ProcessPreKeyBundle", "protocol/session/cipher.go:23-127 EncryptMessage", "protocol/session/cipher.go:127-200 DecryptMessage"]}
{"id": "C86", "title": "A network of devices works as if every two of them were alone", "statement": "In a network of any number of devices, every device may set up sessions with every other, send, receive in any order, make group calls that fail or are cut off anywhere, and, if its stores copy what they hold, be fed any messages that it refuses. Any two devices then behave exactly as if the others did not exist: a receivable message of any of their sessions is delivered, an answer without error is always the plaintext that was sent, and a device that has a session can send.", "quantifier": "for all numbers of devices and sessions (up to 41 per pair), all interleavings of all their calls, all store failures, all hostile messages that are refused, all lawful primitives", "why_tests_cant": "The state space is the product of all devices' stores; one device's one-time pre-keys, identity store and session store are shared by all its conversations. No test runs more than a handful of devices.", "anchors": ["protocol/session/session.go:38-195 ProcessPreKey, ProcessPreKeyBundle", "protocol/session/cipher.go:23-330", "protocol/session/group_session.go:33-98", "protocol/session/group_cipher.go:19-150", "protocol/session/store.go", "protocol/identity/", "protocol/prekey/"]}
{"id": "C87", "title": "Printed addresses, pre-key ids and message types are unambiguous", "statement": "The text of an address is its name, a dot and the decimal numeral of its device id; that of a pre-key id is its numeral; a ciphertext type prints as its name, any other value as its number. No two different addresses, ids or types print alike, whatever dots and digits a name contains.", "quantifier": "for all names (any bytes), all device ids, all pre-key ids, all integer type values", "why_tests_cant": "The claim compares any two values; a clash would need a particular pair, such as a name ending in a dot and digits.", "anchors": ["protocol/address/address.go:15-17 Address.String", "protocol/prekey/prekey.go:14-16 ID.String", "protocol/message/ciphertexttype_string.go:17-38 CiphertextType.String"]}
{"id": "C88", "title": "Stolen devices of a network give away only what each session's own keys open", "statement": "In a network of any number of devices and sessions, let any devices be copied at any times with everything on them, archived sessions included, and let any other private keys leak. Then every stolen session state belongs to a session of the network, and whatever the thieves combine, they can compute the plaintext of a message of a session exactly if the copies of that session itself together with the known private keys open it. So a session is safe if neither of its devices was copied while it lasted and its base key and the signed pre-key it used are unknown, and any session is safe again two epochs after the last copy of its devices.", "quantifier": "for all networks, executions, numbers and times of thefts, sets of leaked keys, sessions and messages; symbolic attacker; base keys of sessions differ", "why_tests_cant": "The claim is about everything that can be computed from any combination of stolen states, over all interleavings of sessions and thefts.", "anchors": ["protocol/session/cipher.go:DecryptMessage", "protocol/session/cipher.go:chainKey", "protocol/ratchet/keys.go:CreateChain", "protocol/session/session.go:ProcessPreKey", "protocol/session/record.go:ArchiveCurrentState"]}
{"id": "C89", "title": "A group message is exactly as safe as its sender key's carriers", "statement": "A sender key reaches the members of a group in distribution messages, which are sent as plaintexts of one-to-one conversations. Let devices of a network be copied at any times, let any private keys leak, and let states of the sender's chain be stolen. Then whatever the thieves combine, they can compute the plaintext of a group message exactly if the stolen states of the chain alone give it away, or if they can read, in its conversation, a distribution message whose iteration is not after the message. So as long as no state of the chain is stolen, a group message is safe if the conversations that carried the key were not touched, whatever becomes of all others.", "quantifier": "for all networks, executions, thefts, leaked keys, chains of senders, distribution messages made at any time and sent in any conversations, and group messages; symbolic attacker; base keys of sessions differ", "why_tests_cant": "The claim is about everything that can be computed from any combination of stolen session states, group states and messages.", "anchors": ["protocol/session/group_session.go:33-136", "protocol/session/group_cipher.go:19-165", "protocol/message/senderkey.go:141-232", "protocol/senderkey/keys.go", "protocol/session/cipher.go:DecryptMessage", "protocol/session/session.go:ProcessPreKey"]}
{"id": "C90", "title": "Decryption answers exactly what the sessions it holds can open", "statement": "A session answers a message if it is the current session and opens it, or if the current session neither opens it nor counts it as read, no archived session counts it as read, and it is the newest archived session that opens it. In every state a device can get into, at most one session answers a message, with one plaintext. If one does, decrypting the message (of a session that is already set up, from a trusted peer, with working stores and enough randomness) returns that plaintext and makes that session the current one. If none does, no session changes; a pre-key message is answered with an error, and a plain message with an empty plaintext and no error (C25).", "quantifier": "for all executions of the API with any interleaving, faults and crashes, all records with any number of sessions, all well-formed messages and randomness of at least 1312 bytes; every crypto whose zero Diffie-Hellman results depend on the public key alone, proved for Curve25519", "why_tests_cant": "Which of up to 41 sessions, of five chains each with thousands of saved keys, answers a message is a case analysis no set of samples covers, and uniqueness rests on an invariant of all executions.", "anchors": ["protocol/session/cipher.go:95-423", "protocol/session/record.go:60-140", "protocol/session/state.go:1-330"]}
{"id": "C91", "title": "A network survives failures and crashes of any call", "statement": "If beginning a session, sending or receiving in a network of devices (C86) fails or is cut off anywhere, the network is still in a proper state: either that before the call or that after its completion, and all guarantees of C85 and C86 keep holding. A message at or ahead of its chain whose decryption was cut off is delivered when it arrives again, and the network goes on from there.", "quantifier": "every network execution with any number of devices, sessions and messages, every call, failure pattern and crash point, on copying stores and on the repository's in-memory stores that share their records; on the latter a cut-off first message of a further session may leave the session added, and arriving again repairs this", "why_tests_cant": "Failures can hit any store call of any device after any history; what must survive are the states of up to 41 sessions of every pair and the one-time pre-keys that other sessions still need.", "anchors": ["protocol/session/cipher.go:60-423", "protocol/session/session.go:40-260"]}
{"id": "C92", "title": "Groups work in a network", "statement": "In a network of devices (C86) a device sends another one the distribution message of a sender key as a one-to-one message in any of their sessions. When its bytes are receivable, accepting them succeeds and makes the receiver a member, and the network goes on as before. From then on, whatever else happens in the network on any device (one-to-one traffic, other groups, failures and crashes) that leaves the member's state for this chain alone, the bytes of each of the first 2000 group messages give exactly the plaintext that was sent the first time they arrive, and a duplicate error every later time.", "quantifier": "for all networks, numbers of devices, sessions and groups, orders of arrival, activities in between, and failures and crashes at the sender", "why_tests_cant": "Groups are set up through sessions that other traffic keeps advancing; no set of samples covers the interleavings of one-to-one and group traffic of many devices.", "anchors": ["protocol/session/cipher.go:23-330", "protocol/session/group_session.go:33-98 ProcessSenderKeyDistribution, NewSenderKeyDistribution", "protocol/session/group_cipher.go:19-150 EncryptMessage, DecryptMessage", "protocol/message/senderkey.go"]}
{"id": "C93", "title": "A message and its answer bring both devices to the same session", "statement": "Two devices of a network (C86) may have any number of sessions with each other, for example because both began one at the same time, and may each be sending in a different one. When one of them reads a message of the other and answers, the answer is sent in the session of that message; when the other one reads the answer, both devices have that session as their current one, and the plaintexts are the ones sent. Sending never changes the current session of a device, whatever its stores do.", "quantifier": "for all networks, pairs of devices, sets of sessions between them, current sessions, receivable messages and answers", "why_tests_cant": "Which session is current depends on the whole history of both devices; samples cannot cover every set of sessions and every pair of current ones from which the two must come together.", "anchors": ["protocol/session/cipher.go:23-330", "protocol/session/session.go:40-160", "protocol/session/record.go:PromoteState"]}
{"id": "C94", "title": "Group decryption answers exactly what the state it follows can open", "statement": "On every device that executions can produce, GroupSession.DecryptMessage returns the plaintext pt exactly when the device's state for the message's sender, distribution id and chain id opens the message: it is signed with the state's signing key, its iteration is at most 25000 ahead of the chain or behind it with its seed saved, and its body decrypts to pt under the key of that iteration. The state then moves to exactly the following position, with the skipped seeds saved (the last 2000 of all saved ones kept), or loses exactly the seed that was used. Every other message is an error and never a crash; the answer is 'duplicate' exactly for a signed message whose iteration is behind and not saved; an error changes no group state, except on sharing stores when a signed message in range has an undecryptable body.", "quantifier": "for all reachable devices, group states, sender-key messages (genuine or not), signing keys and plaintexts", "why_tests_cant": "The answer depends on the whole stored state and on the bytes of an arbitrary message; samples cannot show that nothing else is ever accepted, that nothing openable is refused, and that the state afterwards is exactly the right one.", "anchors": ["protocol/session/group_cipher.go:72-165 DecryptMessage, messageKey", "protocol/session/group_state.go:60-110", "protocol/session/group_record.go:32-40 StateForChainID", "protocol/senderkey/keys.go", "protocol/message/senderkey.go:134-137 VerifySignature"]}
{"id": "C95", "title": "Sending and starting succeed whenever they should", "statement": "On every device that executions can produce, and with stores and randomness that do not fail: Session.EncryptMessage succeeds for every plaintext exactly when there is a current session and its identity is trusted, and otherwise says which of the two is missing; ProcessPreKeyBundle succeeds exactly when the bundle's identity is trusted, its signed pre-key carries a valid signature and every Diffie-Hellman agreement it needs has a value, which with the primitives of the standards means that none of its keys is of small order; GroupSession.EncryptMessage succeeds for every plaintext exactly when the first state of the group record holds a private signing key; a sender key can always be announced, and every well-formed distribution message can be processed.", "quantifier": "for all reachable devices, peers, groups, plaintexts, bundles, distribution messages and randomness of sufficient length", "why_tests_cant": "A test shows that some sends succeed; that no reachable state, plaintext or key makes one fail for another reason needs the invariants of all reachable states.", "anchors": ["protocol/session/cipher.go:23-124 EncryptMessage", "protocol/session/session.go:122-264 ProcessPreKeyBundle, initializeAliceSession", "protocol/session/group_cipher.go:19-69 EncryptMessage", "protocol/session/group_session.go:33-126 ProcessSenderKeyDistribution, NewSenderKeyDistribution", "protocol/session/group_record.go:18-66"]}
{"id": "C96", "title": "A network with an attacker on every line stays a network", "statement": "In every execution of a network of any number of devices with any number of sessions between them: whatever a device returns without error for arbitrary bytes that claim to come from another device is what that device sent to it in one of their sessions, unless the bytes forge the authentication tag of one of those sessions, or are a pre-key message for a new session, or the answer is the empty one of C25; also for the first message of a session that was begun but not yet accepted. On stores that copy records, arbitrary bytes arriving at any time, in a call that may be cut off or meet store failures, leave the whole network in a state that it could have reached without the attacker: as before, or as after the delivery of a message that was sent; the only exceptions are forged tags and messages that set up new sessions. The same holds on stores that share records, for everything but pre-key messages with a base key new to the device. This goes on through any number of such arrivals, each chosen in the light of all that happened before, with any ordinary traffic in between.", "quantifier": "for all executions of networks of any number of devices and sessions, all devices, all byte strings, all store failures and all points at which a call may stop", "why_tests_cant": "The claim ranges over all byte strings and all reachable states of arbitrarily many devices with current and archived sessions; a test can try some mutations of some messages on a few devices.", "anchors": ["protocol/session/cipher.go:126-435 DecryptMessage", "protocol/session/session.go:45-120 ProcessPreKey", "protocol/session/record.go:72-110 HasSessionState", "protocol/message/signal.go:75-104 NewSignalFromBytes, 134-160 VerifyMAC", "protocol/message/prekey.go:73-117 NewPreKeyFromBytes"]}
{"id": "C97", "title": "A hostile network can only drop, delay, reorder and repeat group messages", "statement": "Whatever bytes reach a group member's device, and whichever store calls fail or crashes happen meanwhile, on stores that copy records and on the repository's in-memory stores: if DecryptMessage returns a plaintext for a message that names the sender's distribution and chain, it is a plaintext the sender sent after the invitation and this device has not read yet, and the bytes differ from the sent message at most in the signature; the member's state afterwards is as before or as if one sent and unread message had arrived; messages older than the invitation change nothing; and after any number of such byte strings each of up to 2000 sent messages can still be read, unless a copy of it was among them. The only exception is a valid signature of the sender over a text the sender never signed.", "quantifier": "for all senders, members and histories, all byte strings and sequences of byte strings, all store failures, all crash points, and both kinds of stores", "why_tests_cant": "The claim ranges over all byte strings, all histories of both ends and all points of failure; a test can flip bits in a few messages in a few states.", "anchors": ["protocol/session/group_cipher.go:19-150 EncryptMessage, DecryptMessage", "protocol/session/group_session.go:33-98", "protocol/message/senderkey.go:73-137 NewSenderKeyFromBytes, VerifySignature", "protocol/session/store_inmem.go"]}
{"id": "C98", "title": "Damaged stores cannot crash a call", "statement": "Whatever the stores answer - records whose keys have wrong lengths, missing chains, unreadable archived sessions, unreadable pre-keys, answers that contradict each other, errors at any call - EncryptMessage, ProcessPreKeyBundle, DecryptMessage of an ordinary message, NewSenderKeyDistribution, ProcessSenderKeyDistribution and the group EncryptMessage and DecryptMessage return a value or an error and never panic. DecryptMessage of a pre-key message panics only if the store answers that the signed pre-key does not exist or a Diffie-Hellman secret is all zero; with the real curve the latter happens exactly for identity or base keys of small order.", "quantifier": "for all answers of all store calls (independent of each other), all messages, plaintexts, bundles, random bytes and addresses", "why_tests_cant": "The claim ranges over every possible content of every stored record and every sequence of answers; a test can corrupt a few records by hand.", "anchors": ["protocol/session/cipher.go:23-425", "protocol/session/session.go:38-320", "protocol/session/state.go", "protocol/session/record.go:31-118", "protocol/session/group_cipher.go", "protocol/session/group_session.go", "protocol/session/group_record.go", "protocol/session/group_state.go"]}
{"id": "C99", "title": "Message kinds are not confused on the wire", "statement": "The wire forms carry no kind of their own: whisper, pre-key, sender-key and distribution messages all start with the same version byte and are protocol-buffer fields. Still, the bytes built for a message of one kind are refused with an error (no panic, no value) by the parser of every other kind: whisper, pre-key, distribution and plaintext messages by all four other parsers; sender-key messages by the pre-key and plaintext parsers always, by the whisper parser unless the first 56 bytes of the signature happen to be fields with a public key under number 1, and by the distribution parser unless the signature happens to be fields with a public key under number 5.", "quantifier": "for all keys, counters, identifiers, bodies, random bytes and all five kinds as source and target", "why_tests_cant": "The claim is about every message the library can build read by every wrong parser, with the authentication bytes read as fields; the whisper parser cuts 8 bytes off the end and the sender-key parser 64, so the wrong parser sees texts cut at every possible place. Tests never feed one kind to the parser of another.", "anchors": ["protocol/message/signal.go:42-105", "protocol/message/prekey.go:42-121", "protocol/message/senderkey.go:40-110", "protocol/message/senderkey.go:162-235", "protocol/message/plaintext.go:22-34"]}
