(** Messages that are refused: C71. *)
From Verif Require Import M_Base M_Crypto M_Curve M_Message M_State M_Store M_Session S_Crypto S_Message S_Session S_Receive.

(** Messages from [a] delivered in a row (with the random bytes each call reads), each of
    them answered with an error; no store call fails. *)
Inductive all_refused (C : Crypto) (a : addr) : world -> list (bytes * ciphertext) -> world -> Prop :=
| ar_none : forall w, all_refused C a w [] w
| ar_cons : forall rnd c w e w1 l w2, run0 (decrypt_message C a rnd c) w = (Err e, w1) ->
    all_refused C a w1 l w2 -> all_refused C a w ((rnd, c) :: l) w2.

(** A pre-key message made by somebody who knows the public identity key [k] and the id of
    the device's signed pre-key: nothing else is needed, and nobody can read it (the body is
    not a whole number of blocks). *)
Definition made_up (C : Crypto) (w : world) (k : pubkey) (m : prekeymsg) : Prop :=
  wf_prekeymsg m /\ pm_identity m = k /\ can_answer C w m /\ List.length (sg_body (pm_message m)) mod 16 <> 0.
