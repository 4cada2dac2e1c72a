(** Decimal numerals: C87. *)
From Verif Require Import M_Base S_Fingerprint.
Local Open Scope N_scope.

Definition is_digit (b : byte) : Prop := 48 <= b2n b <= 57.
(** [b] is the numeral of [n]: digits of that value, without leading zeros. *)
Definition numeral (n : N) (b : bytes) : Prop :=
  b <> [] /\ (forall x, In x b -> is_digit x) /\ decimal b = n /\ (n <> 0 -> hd Byte.x30 b <> Byte.x30) /\ (n = 0 -> b = [Byte.x30]).
(** Numeral of an integer. *)
Definition int_numeral (z : Z) (b : bytes) : Prop :=
  match z with Zneg p => exists d, numeral (Npos p) d /\ b = Byte.x2d :: d | _ => numeral (Z.to_N z) b end.
