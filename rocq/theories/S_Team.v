(** A group set up over pairwise conversations: C84. *)
From Verif Require Import M_Base M_Crypto M_Curve M_Message M_Ratchet M_State M_Store M_Session M_Group S_Message S_Session S_Transit.

(** A member's application receives the bytes of a one-to-one message, decrypts it, takes
    the plaintext for a distribution message and processes it. *)
Definition accept_invitation (C : Crypto) (a : addr) (rnd : bytes) (x : bool * bytes) : prog unit :=
  pseq (receive_bytes C a rnd x) (gjoin_bytes a).
(** Then the bytes of group messages arrive one after the other. *)
Fixpoint hear_all (C : Crypto) (a : addr) (w : world) (xs : list bytes) : list (res bytes) * world :=
  match xs with
  | [] => ([], w)
  | x :: t => let '(r, w1) := run0 (greceive_bytes C a x) w in
              let '(rs, w2) := hear_all C a w1 t in (r :: rs, w2)
  end.
