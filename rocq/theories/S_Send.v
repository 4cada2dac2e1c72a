(** Vocabulary of the sending properties. *)
From Verif Require Import M_Base M_Crypto M_Aes M_Curve M_Message M_Ratchet M_State M_Store M_Session
  S_Message S_Ratchet S_Session S_Shape S_Api.

(** Where a session's sending chain stands: ratchet key, chain key bytes, index. *)
Definition sending_at (s : state) (ratchet key : bytes) (index : N) : Prop :=
  exists c k, ss_sender s = Some c /\ pc_ratchet c = Byte.x05 :: ratchet /\
    pc_key c = Some k /\ pck_key k = key /\ pck_index k = index.
(** The session for [a] that a device would load, and its sending chain. *)
Definition device_at (w : world) (a : addr) (s : state) (ratchet key : bytes) (index : N) : Prop :=
  exists r, w_sess w a = Some r /\ rc_current r = Some s /\ sending_at s ratchet key index.

(** One attempt to send to [a], by a process that keeps or loses its memory: it returns a
    ciphertext, it returns an error (any store call may fail before or after taking
    effect), it is abandoned after any number of store calls; or something else happens
    that leaves the stored session of [a] alone. *)
Inductive attempt (C : Crypto) (a : addr) : world -> option (bytes * ciphertext) -> world -> Prop :=
| at_sent : forall pt fs w c w', run (encrypt_message C a pt) fs w = (Ok c, w') ->
    attempt C a w (Some (pt, c)) w'
| at_failed : forall pt fs w e w', run (encrypt_message C a pt) fs w = (Err e, w') -> attempt C a w None w'
| at_crashed : forall pt fs w n, attempt C a w None (crash n (encrypt_message C a pt) fs w)
| at_other : forall w w', w_sess w' a = w_sess w a -> attempt C a w None w'.
(** [sends C a n w l w']: [n] attempts, with the ciphertexts returned in order. *)
Inductive sends (C : Crypto) (a : addr) : nat -> world -> list (bytes * ciphertext) -> world -> Prop :=
| sends_nil : forall w, sends C a 0 w [] w
| sends_cons : forall n w o w1 l w2, attempt C a w o w1 -> sends C a n w1 l w2 ->
    sends C a (S n) w (match o with Some x => x :: l | None => l end) w2.
(** Only successful calls. *)
Inductive sends_ok (C : Crypto) (a : addr) : world -> list (bytes * ciphertext) -> world -> Prop :=
| sok_nil : forall w, sends_ok C a w [] w
| sok_cons : forall w pt fs c w1 l w2, run (encrypt_message C a pt) fs w = (Ok c, w1) ->
    sends_ok C a w1 l w2 -> sends_ok C a w ((pt, c) :: l) w2.

(** The framing of whisper message [m] as a pre-key message. *)
Definition prekey_frame (pm : prekeymsg) (reg : N) (id : option N) (signed : N) (base identity : pubkey)
    (m : signal) : Prop :=
  pm_version pm = 3%N /\ pm_reg pm = reg /\ pm_prekey_id pm = id /\ pm_signed_id pm = signed /\
  pm_base pm = base /\ pm_identity pm = identity /\ pm_message pm = m.
