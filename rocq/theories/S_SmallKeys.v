(** Keys of small order (C82), for the primitives of the standards. *)
From Verif Require Import M_Base M_Crypto M_Curve M_Proto M_Message M_Ratchet M_State M_Store M_Session S_State S_Session S_Edwards.
From Coq Require Import ZArith.

(** RFC 7748 section 5: the top bit of a public key is ignored and the rest is taken modulo 2^255 - 19. *)
Definition small_key (k : bytes) : Prop := small_u ((Z.of_N (le2n k) mod 2 ^ 255) mod fieldp).

(** The record with this id, if there is one, holds a key pair. *)
Definition readable (C : Crypto) (o : option prekeyrec) : Prop :=
  forall x, o = Some x -> exists p, prekeyrec_pair C x = Ok p.

(** A serialised public key of small order. *)
Definition stored_small (b : bytes) : Prop := exists k, b = Byte.x05 :: k /\ small_key k.

(** None of the peer's keys held by this session is of small order. *)
Definition full_order (s : state) : Prop :=
  ~ stored_small (ss_remote s) /\ ~ stored_small (ss_alice_base s) /\
  forall c, In c (ss_receivers s) -> ~ stored_small (pc_ratchet c).
