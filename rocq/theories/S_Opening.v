(** Vocabulary of C90: which of a record's sessions answers a message. *)
From Verif Require Import M_Base M_Crypto M_Aes M_Curve M_Message M_Ratchet M_State M_Store M_Session
  S_Crypto S_Message S_Shape S_Ratchet S_Session S_Receive.

(** Whether a Diffie-Hellman value is all zero depends on the public key alone. *)
Definition zero_by_key (C : Crypto) : Prop := forall k k' u, List.length k = 32 -> List.length k' = 32 ->
  (exists x, In x (c_x25519 C k u) /\ x <> Byte.x00) -> exists x, In x (c_x25519 C k' u) /\ x <> Byte.x00.

(** One chain for each ratchet key of the peer; one saved key for each position, all behind the chain. *)
Definition tidy (s : state) : Prop :=
  NoDup (map pc_ratchet (ss_receivers s)) /\
  forall c, In c (ss_receivers s) -> NoDup (map pmk_index (pc_msgkeys c)) /\
    forall k x, pc_key c = Some k -> In x (pc_msgkeys c) -> (pmk_index x < pck_index k)%N.

(** The session [s] of the record [r] answers [m] with [pt]: the current session if it opens the
    message; else, if no session counts the message as read, the newest archived one that opens it. *)
Definition answers (C : Crypto) (r : record) (m : signal) (s : state) (pt : bytes) : Prop :=
  opens C s m pt /\
  (rc_current r = Some s \/
   (forall c, rc_current r = Some c -> ~ spent c (sg_ratchet m) (sg_counter m) /\ forall p, ~ opens C c m p) /\
   exists old1 old2, rc_previous r = map state_bytes (old1 ++ s :: old2) /\ Forall wf_state (old1 ++ s :: old2) /\
     (forall x, In x (old1 ++ s :: old2) -> ~ spent x (sg_ratchet m) (sg_counter m)) /\
     (forall x p, In x old2 -> ~ opens C x m p)).

(** The identity store accepts the peer of every session of the record. *)
Definition peers_trusted (w : world) (a : addr) (r : record) : Prop :=
  forall s k, state_in s r -> ss_remote s = Byte.x05 :: k -> w_policy w a (w_ident w a) k Receiving = true.
