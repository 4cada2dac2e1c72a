(** X3DH, from the specification: the shared secret and the first keys. *)
From Verif Require Import M_Base M_Crypto M_Aes M_Curve S_Crypto S_Ratchet.

(** Identity key [ia] and base key [e] of the initiator; identity key [ib], signed pre-key
    [sb] and optional one-time pre-key [ob] of the responder. *)
Definition x3dh (C : Crypto) (ia e ib sb : bytes) (ob : option bytes) : bytes :=
  repeat Byte.xff 32 ++ c_x25519 C ia (mont_pub C sb) ++ c_x25519 C e (mont_pub C ib) ++ c_x25519 C e (mont_pub C sb) ++
  match ob with Some o => c_x25519 C e (mont_pub C o) | None => [] end.
Definition x3dh_keys C ia e ib sb ob : bytes := rfc_hkdf C None (x3dh C ia e ib sb ob) (str "WhisperText") 64.
Definition x3dh_root C ia e ib sb ob := firstn 32 (x3dh_keys C ia e ib sb ob).
Definition x3dh_chain C ia e ib sb ob := skipn 32 (x3dh_keys C ia e ib sb ob).

(** The key pair in memory is that of the private key [k] (crypto/ecdh may hold it clamped
    or not, which is the same scalar). *)
Definition pair_for (C : Crypto) (k : bytes) (p : keypair) : Prop :=
  List.length k = 32 /\ kp_pub p = mont_pub C k /\ sk_bytes (kp_priv p) = clamp k /\
  (sk_ecdh (kp_priv p) = k \/ sk_ecdh (kp_priv p) = clamp k).
(** The chain key of the initiator's first sending chain, whose ratchet key is [rk]. *)
Definition x3dh_first_chain (C : Crypto) (ia e ib sb : bytes) (ob : option bytes) (rk : bytes) : bytes :=
  skipn 32 (rfc_hkdf C (Some (x3dh_root C ia e ib sb ob)) (c_x25519 C rk (mont_pub C sb)) (str "WhisperRatchet") 64).
