(** When two safety numbers agree although the people or keys behind them differ: two
    different texts whose SHA-512 digests agree in the part that is compared. *)
From Verif Require Import M_Base M_Crypto M_Curve S_Fingerprint.

(** Same first 32 bytes, as in a scanned code. *)
Definition same_head (d e : bytes) : Prop := firstn 32 d = firstn 32 e.
(** Same six groups of five decimal digits, as in a displayed number. *)
Definition same_digits (d e : bytes) : Prop :=
  forall i, i < 6 -> (big_endian (group5 i d) mod 100000 = big_endian (group5 i e) mod 100000)%N.
(** The texts hashed on the way to one user's digest: the first, and every digest but the
    last with the key. *)
Definition hashed (C : Crypto) (n : nat) (id : bytes) (key : pubkey) (x : bytes) : Prop :=
  x = Byte.x00 :: Byte.x00 :: (Byte.x05 :: key) ++ id ++ (Byte.x05 :: key) \/
  exists k, 1 <= k < n /\ x = user_digest C k id key ++ Byte.x05 :: key.
(** Two different ones of the texts hashed for the two users have digests that agree. (That
    some two texts do is clear for any hash; these are at most a few thousand.) *)
Definition clash (C : Crypto) (same : bytes -> bytes -> Prop) (n : nat) (id : bytes) (key : pubkey)
    (id' : bytes) (key' : pubkey) : Prop :=
  exists x y, hashed C n id key x /\ hashed C n id' key' y /\ x <> y /\ same (c_sha512 C x) (c_sha512 C y).
