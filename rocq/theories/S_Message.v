(** What the wire-format theorems are about. *)
From Verif Require Import M_Base.

(** A Go slice: its length fits a signed 64-bit integer. *)
Definition go_slice (b : bytes) : Prop := (N.of_nat (List.length b) < 9223372036854775808)%N.
(** A Go uint32. *)
Definition go_u32 (n : N) : Prop := (n < 4294967296)%N.
(** The high nibble of the first byte is the message version. *)
Definition version_of (b : bytes) (v : N) : Prop :=
  exists x r, b = x :: r /\ (b2n x / 16 = v)%N.
