(** protocol/ratchet and protocol/senderkey *)
From Verif Require Import M_Base M_Crypto M_Curve.

(** ratchet/keys.go:32-38 MessageKeys. *)
Record msgkeys := mkMsgKeys { mk_cipher : bytes; mk_mac : bytes; mk_iv : bytes; mk_counter : N }.

(** ratchet/keys.go:41-58 NewMessageKeys. *)
Definition new_message_keys (cipher mac iv : bytes) (counter : N) : res msgkeys :=
  if negb (Nat.eqb (List.length cipher) 32) then Err (EInvalidKeyLength 32 (List.length cipher))
  else if negb (Nat.eqb (List.length mac) 32) then Err (EInvalidKeyLength 32 (List.length mac))
  else if negb (Nat.eqb (List.length iv) 16) then Err (EInvalidKeyLength 16 (List.length iv))
  else Ok (mkMsgKeys cipher mac iv counter).

(** ratchet/keys.go:63-78 DeriveMessageKeys (the HKDF error branch is dead). *)
Definition derive_message_keys (C : Crypto) (ikm : bytes) (counter : N) : msgkeys :=
  let okm := hkdf C ikm None (str "WhisperMessageKeys") 80 in
  mkMsgKeys (firstn 32 okm) (firstn 32 (skipn 32 okm)) (skipn 64 okm) counter.

(** ratchet/keys.go:103-106 ChainKey. *)
Record chainkey := mkChainKey { ck_key : bytes; ck_index : N }.

(** ratchet/keys.go:109-118 NewChainKey. *)
Definition new_chain_key (key : bytes) (index : N) : res chainkey :=
  if negb (Nat.eqb (List.length key) 32) then Err (EInvalidKeyLength 32 (List.length key))
  else Ok (mkChainKey key index).

(** ratchet/keys.go:133-138 Next; :147-153 hash. The index is a uint32. *)
Definition ck_next (C : Crypto) (c : chainkey) : chainkey :=
  mkChainKey (c_hmac C (ck_key c) [Byte.x02]) (u32 (ck_index c + 1)).

(** ratchet/keys.go:142-144 MessageKeys. *)
Definition ck_message_keys (C : Crypto) (c : chainkey) : msgkeys :=
  derive_message_keys C (c_hmac C (ck_key c) [Byte.x01]) (ck_index c).

(** ratchet/keys.go:161-169 NewRootKey. *)
Definition new_root_key (key : bytes) : res bytes :=
  if negb (Nat.eqb (List.length key) 32) then Err (EInvalidKeyLength 32 (List.length key))
  else Ok key.

(** ratchet/ratchet.go:16-35 DeriveKeys. *)
Definition derive_keys (C : Crypto) (secret : bytes) : res (bytes * chainkey) :=
  let s := hkdf C secret None (str "WhisperText") 64 in
  do r <- new_root_key (firstn 32 s);
  do c <- new_chain_key (skipn 32 s) 0;
  Ok (r, c).

(** ratchet/keys.go:178-202 CreateChain. *)
Definition create_chain (C : Crypto) (root : bytes) (ours : privkey) (theirs : pubkey)
  : res (bytes * chainkey) :=
  do shared <- agreement C ours theirs;
  let d := hkdf C shared (Some root) (str "WhisperRatchet") 64 in
  do r <- new_root_key (firstn 32 d);
  do c <- new_chain_key (skipn 32 d) 0;
  Ok (r, c).

(** senderkey/keys.go:24-29 MessageKey. *)
Record gmsgkey := mkGMsgKey { gk_cipher : bytes; gk_iv : bytes; gk_seed : bytes; gk_iter : N }.

(** senderkey/keys.go:31-46 DeriveMessageKey. *)
Definition derive_gmsgkey (C : Crypto) (seed : bytes) (iter : N) : gmsgkey :=
  let d := hkdf C seed None (str "WhisperGroup") 48 in
  mkGMsgKey (skipn 16 d) (firstn 16 d) seed iter.

(** senderkey/keys.go:64-67 ChainKey. *)
Record gchainkey := mkGChainKey { gc_iter : N; gc_key : bytes }.

(** senderkey/keys.go:84-89 Next. *)
Definition gc_next (C : Crypto) (c : gchainkey) : gchainkey :=
  mkGChainKey (u32 (gc_iter c + 1)) (c_hmac C (gc_key c) [Byte.x02]).

(** senderkey/keys.go:91-93 MessageKey. *)
Definition gc_message_key (C : Crypto) (c : gchainkey) : gmsgkey :=
  derive_gmsgkey C (c_hmac C (gc_key c) [Byte.x01]) (gc_iter c).
