(** Safety numbers, stated on their own: what a user's digest is and which digits it shows. *)
From Verif Require Import M_Base M_Crypto M_Curve.
From Coq Require Import Sorting.Sorted.

(** n-fold hashing of one user's data: the first hash covers two zero bytes, the key, the
    id and the key; every further one the previous digest and the key. *)
Definition user_digest (C : Crypto) (n : nat) (id : bytes) (key : pubkey) : bytes :=
  Nat.iter (n - 1) (fun d => c_sha512 C (d ++ Byte.x05 :: key))
    (c_sha512 C (Byte.x00 :: Byte.x00 :: (Byte.x05 :: key) ++ id ++ (Byte.x05 :: key))).

Definition is_digit (b : byte) : Prop := (48 <= b2n b <= 57)%N.
(** value of a decimal digit string *)
Definition decimal (b : bytes) : N := fold_left (fun v x => (10 * v + (b2n x - 48))%N) b 0%N.
(** value of a big-endian byte string *)
Definition big_endian (b : bytes) : N := fold_left (fun v x => (256 * v + b2n x)%N) b 0%N.
Definition group5 (i : nat) (b : bytes) : bytes := firstn 5 (skipn (5 * i) b).

(** [s] is the 30-digit text of a digest [d]: its i-th group of five digits is the i-th
    group of five digest bytes, as a big-endian number, modulo 100000. *)
Definition digest_text (d s : bytes) : Prop :=
  List.length s = 30 /\ Forall is_digit s /\
  forall i, i < 6 -> decimal (group5 i s) = (big_endian (group5 i d) mod 100000)%N.

(** lexicographic order on byte strings *)
Inductive lex_le : bytes -> bytes -> Prop :=
| lex_nil : forall b, lex_le [] b
| lex_lt : forall x y a b, (b2n x < b2n y)%N -> lex_le (x :: a) (y :: b)
| lex_eq : forall x a b, lex_le a b -> lex_le (x :: a) (x :: b).
