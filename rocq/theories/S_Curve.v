(** The Edwards form of a Montgomery public key. *)
From Verif Require Import M_Base M_Curve.

(** [y] encodes the point with v-coordinate sign [neg] whose Edwards ordinate Y satisfies
    (u + 1) Y = u - 1 modulo p = 2^255 - 19; the top bit of u is ignored. *)
Definition edwards_of (u : bytes) (neg : bool) (y : bytes) : Prop :=
  let p := (2 ^ 255 - 19)%Z in
  let low b := Z.of_N (le2n b mod 2 ^ 255) in
  List.length u = 32 /\ List.length y = 32 /\ (low y < p)%Z /\
  ((low u + 1) * low y mod p = (low u - 1) mod p)%Z /\
  (neg = true <-> (128 <= b2n (nth 31 y Byte.x00))%N).
