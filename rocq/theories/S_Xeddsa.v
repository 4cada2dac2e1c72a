(** XEdDSA signatures (signal.org/docs/specifications/xeddsa) in the form libsignal uses:
    the scalar is never negated, the signature carries the sign of the public point. *)
From Verif Require Import M_Base M_Crypto.
Local Open Scope N_scope.

(** The order of the base point. *)
Definition order : N := 2 ^ 252 + 27742317777372353535851937790883648493.
(** The scalar of a private key: the number with its three low bits and its top two bits
    replaced by 000 and 01, modulo the order. *)
Definition key_scalar (key : bytes) : N := (2 ^ 254 + 8 * (le2n key / 8 mod 2 ^ 251)) mod order.
(** A digest read as a scalar. *)
Definition as_scalar (d : bytes) : N := le2n d mod order.
(** The nonce: SHA-512 of 2^256 - 2, the scalar, the message and 64 random bytes. *)
Definition xed_nonce (C : Crypto) (a : N) (m z : bytes) (r : N) : Prop :=
  exists p ab, List.length p = 32%nat /\ le2n p = 2 ^ 256 - 2 /\
    List.length ab = 32%nat /\ le2n ab = a /\ r = as_scalar (c_sha512 C (p ++ ab ++ m ++ z)).
(** R, then s = r + h a as 32 bytes; the free top bit carries the sign of the public point. *)
Definition xed_signature (C : Crypto) (key m z sig : bytes) : Prop :=
  let a := key_scalar key in
  let A := c_edbase C a in
  exists r sb, xed_nonce C a m z r /\
    let R := c_edbase C r in
    sig = R ++ sb /\ List.length sb = 32%nat /\
    le2n sb = (a * as_scalar (c_sha512 C (R ++ A ++ m)) + r) mod order + 2 ^ 255 * (le2n A / 2 ^ 255).
