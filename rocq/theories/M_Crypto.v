(** Primitives the Go code imports, as a record of functions, and HKDF on top. *)
From Verif Require Import M_Base.

Record Crypto := mkCrypto {
  (** crypto/hmac over crypto/sha256: key, message (concatenation of the Writes). *)
  c_hmac : bytes -> bytes -> bytes;
  (** crypto/sha512. *)
  c_sha512 : bytes -> bytes;
  (** crypto/aes Block.Encrypt / Decrypt on one 16-byte block. *)
  c_aes_enc : bytes -> bytes -> bytes;
  c_aes_dec : bytes -> bytes -> bytes;
  (** crypto/ecdh X25519 scalar multiplication before the all-zero check:
      32-byte scalar (clamped inside), 32-byte u-coordinate. *)
  c_x25519 : bytes -> bytes -> bytes;
  (** filippo.io/edwards25519 Point.ScalarBaseMult followed by Point.Bytes; the
      argument is the scalar as a number below the group order. *)
  c_edbase : N -> bytes;
  (** crypto/ed25519.Verify: 32-byte public key, message, 64-byte signature. *)
  c_edverify : bytes -> bytes -> bytes -> bool
}.

(** golang.org/x/crypto/hkdf Extract: a nil salt is 32 zero bytes. *)
Definition hkdf_extract (C : Crypto) (secret : bytes) (salt : option bytes) : bytes :=
  c_hmac C (match salt with Some s => s | None => repeat Byte.x00 32 end) secret.

(** golang.org/x/crypto/hkdf Expand: T(i) = HMAC(prk, T(i-1) | info | i). *)
Fixpoint hkdf_blocks (C : Crypto) (prk info prev : bytes) (i : N) (n : nat) : bytes :=
  match n with
  | O => []
  | S m => let t := c_hmac C prk (prev ++ info ++ [n2b i]) in
           t ++ hkdf_blocks C prk info t (i + 1)%N m
  end.

(** io.ReadFull(hkdf.New(sha256.New, secret, salt, info), make([]byte, n)).
    hkdf's reader fails only beyond 255 blocks; every call site asks for at most 80
    bytes, so the error branch is dead and not modelled. *)
Definition hkdf (C : Crypto) (secret : bytes) (salt : option bytes) (info : bytes) (n : nat) : bytes :=
  firstn n (hkdf_blocks C (hkdf_extract C secret salt) info [] 1%N ((n + 31) / 32)).
