(** Hexadecimal literals for the test vectors. *)
From Verif Require Import M_Base M_Crypto.
From Coq Require Import String Ascii.
Definition nib (c : ascii) : N :=
  let n := N_of_ascii c in if (n <? 58)%N then (n - 48)%N else (n - 87)%N.
Fixpoint hex (s : string) : bytes :=
  match s with String a (String b r) => n2b (16 * nib a + nib b) :: hex r | _ => [] end.
Definition okb {A} (r : res A) (f : A -> bool) : bool := match r with Ok x => f x | _ => false end.
Definition errb {A} (r : res A) : bool := match r with Err _ => true | _ => false end.
Definition is (b : bytes) (s : string) : bool := bytes_eqb b (hex s).
