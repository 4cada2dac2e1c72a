(** What an attacker on the network can do to a conversation: C76. *)
From Verif Require Import M_Base M_Crypto M_Aes M_Curve M_Message M_Ratchet M_State M_Store M_Session
  S_Crypto S_Message S_Shape S_Ratchet S_Session S_Api S_Conv S_History S_Atomic S_Transit.

(** An archived session with [a] opens [m]. *)
Definition archived_opens (C : Crypto) (w : world) (a : addr) (m : signal) : Prop :=
  exists r x s pt, w_sess w a = Some r /\ In x (rc_previous r) /\ state_parse x = Ok s /\ opens C s m pt.
(** [c] is a pre-key message for a base key that no session with [a] has, and it is accepted. *)
Definition sets_up (C : Crypto) (w : world) (a : addr) (rnd : bytes) (c : ciphertext) : Prop :=
  exists pm, c = CPreKey pm /\ unused_base w a (pm_base pm) /\ is_ok (fst (run0 (decrypt_message C a rnd c) w)).
(** Bytes [x] contain the whisper message [m], framed or not. *)
Definition carries (x : bool * bytes) (m : signal) : Prop := exists c, unposted x = Ok c /\ inner c = Some m.
