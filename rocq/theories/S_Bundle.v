(** Vocabulary of session establishment. *)
From Verif Require Import M_Base M_Crypto M_Aes M_Curve M_Message M_Ratchet M_State M_Store M_Session
  S_Crypto S_Curve S_Ratchet.

(** The bundle's signature is an XEdDSA signature of the encoded signed pre-key under the
    bundle's identity key. *)
Definition bundle_signed (C : Crypto) (b : bundle) : Prop :=
  exists ident signed r t y, bd_identity b = Some ident /\ bd_signed b = Some signed /\
    bd_signature b = r ++ [t] /\ List.length (bd_signature b) = 64 /\
    edwards_of ident (128 <=? b2n t)%N y /\
    c_edverify C y (Byte.x05 :: signed) (r ++ [n2b (b2n t mod 128)]) = true.
(** The identity store of [w] accepts the bundle's identity for sending to [a]. *)
Definition bundle_trusted (w : world) (a : addr) (b : bundle) : Prop :=
  exists ident, bd_identity b = Some ident /\ w_policy w a (w_ident w a) ident Sending = true.
