(** Go slices over a shared backing array, enough for pkcs7pad's [append]
    (protocol/crypto/aes/aes.go:66-70). *)
From Verif Require Import M_Base M_Aes.

(** A slice of a backing array: offset, length, capacity (counted from the offset). *)
Record slice := mkSlice { sl_off : nat; sl_len : nat; sl_cap : nat }.
(** The slice is within the array. *)
Definition slice_ok (arr : bytes) (s : slice) : Prop :=
  sl_len s <= sl_cap s /\ sl_off s + sl_cap s <= List.length arr.
Definition slice_get (arr : bytes) (s : slice) : bytes := firstn (sl_len s) (skipn (sl_off s) arr).

(** Overwrite [arr] with [b] starting at [i]. *)
Definition blit (arr : bytes) (i : nat) (b : bytes) : bytes :=
  firstn i arr ++ b ++ skipn (i + List.length b) arr.

(** append(s, b...): in place when the capacity suffices, otherwise into a new array.
    Returns the caller's backing array afterwards and the contents of the result. *)
Definition append_slice (arr : bytes) (s : slice) (b : bytes) : bytes * bytes :=
  (if Nat.leb (sl_len s + List.length b) (sl_cap s)
   then blit arr (sl_off s + sl_len s) b else arr,
   slice_get arr s ++ b).

(** aes.go:66-70 pkcs7pad on a slice. *)
Definition pkcs7pad_slice (arr : bytes) (s : slice) : bytes * bytes :=
  let n := 16 - (sl_len s mod 16) in
  append_slice arr s (repeat (n2b (N.of_nat n)) n).
