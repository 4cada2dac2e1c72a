(** The primitives of the standards as one [Crypto]. *)
From Verif Require Import M_Base M_Crypto R_Sha R_Aes R_Curve.
Definition real : Crypto :=
  mkCrypto real_hmac real_sha512 real_aes_enc real_aes_dec real_x25519 real_edbase (real_edverify real_sha512).
