(** Vocabulary of the receiving properties. *)
From Verif Require Import M_Base M_Crypto M_Aes M_Curve M_Message M_Ratchet M_State M_Store M_Session
  S_Crypto S_Message S_Shape S_Ratchet S_Session S_X3dh.

(** The chain of [s] for the peer's ratchet key (the first one, if several had it): its
    key bytes, its index, and the saved keys behind it. *)
Definition receiving_at (s : state) (ratchet key : bytes) (index : N) (keys : list pmsgkey) : Prop :=
  exists l1 c l2, ss_receivers s = l1 ++ c :: l2 /\ Forall (fun x => pc_ratchet x <> Byte.x05 :: ratchet) l1 /\
    pc_ratchet c = Byte.x05 :: ratchet /\ pc_key c = Some (mkPChainKey index key) /\ pc_msgkeys c = keys.
(** The device's current session with [a] is [s], between [local] and [remote]. *)
Definition session_at (w : world) (a : addr) (s : state) (local remote : pubkey) : Prop :=
  exists r, w_sess w a = Some r /\ rc_current r = Some s /\ ss_local s = Byte.x05 :: local /\ ss_remote s = Byte.x05 :: remote.
(** The identity store accepts messages from [k] at [a], now and after storing it. *)
Definition trusts (w : world) (a : addr) (k : pubkey) : Prop :=
  w_policy w a (w_ident w a) k Receiving = true /\ w_policy w a (Some k) k Receiving = true.

(** Position [n] of the chain of [ratchet] has been passed and its key is gone. *)
Definition spent (s : state) (ratchet : bytes) (n : N) : Prop :=
  exists key i keys, receiving_at s ratchet key i keys /\ (n < i)%N /\ forall x, In x keys -> pmk_index x <> n.
(** [s'] is reached from [s] by encrypting and by successfully decrypting any messages,
    without the chain of [ratchet] being evicted. *)
Inductive evolves (C : Crypto) (ratchet : bytes) : state -> state -> Prop :=
| ev_refl : forall s, evolves C ratchet s s
| ev_send : forall s pt out s1 rid s2, encrypt_state C s pt = Ok (out, s1, rid) -> evolves C ratchet s1 s2 ->
    evolves C ratchet s s2
| ev_receive : forall s rnd m pt s1 rest s2, wf_signal m -> decrypt_session C rnd s m = (Ok (pt, s1), rest) ->
    In (Byte.x05 :: ratchet) (map pc_ratchet (ss_receivers s1)) -> evolves C ratchet s1 s2 -> evolves C ratchet s s2.

(** The session states that may open [c]: those stored for [a]; for a pre-key message also a
    fresh one between its identity, its base key and our identity. *)
Definition session_for (w : world) (a : addr) (c : ciphertext) (s : state) : Prop :=
  (exists r, w_sess w a = Some r /\ state_in s r) \/
  (exists pm, c = CPreKey pm /\ wf_state s /\ ss_remote s = Byte.x05 :: pm_identity pm /\
     ss_local s = Byte.x05 :: kp_pub (w_pair w) /\ ss_alice_base s = Byte.x05 :: pm_base pm).

(** The device can answer the pre-key message [m]: the keys in its frame are public keys of
    real private keys, our keys are real pairs, the signed pre-key is stored, and no one-time
    pre-key is named. *)
Definition can_answer (C : Crypto) (w : world) (m : prekeymsg) : Prop :=
  exists ia e ib sb x signed, List.length ia = 32 /\ List.length e = 32 /\
    pm_identity m = mont_pub C ia /\ pm_base m = mont_pub C e /\ pair_for C ib (w_pair w) /\
    w_signed w (pm_signed_id m) = Some x /\ prekeyrec_pair C x = Ok signed /\ pair_for C sb signed /\ pm_prekey_id m = None.

(** Some Diffie-Hellman value of the pre-key message [m] is all zero. *)
Definition zero_dh (C : Crypto) (w : world) (m : prekeymsg) : Prop :=
  exists k u, (k = kp_priv (w_pair w) \/
               (exists x p, w_signed w (pm_signed_id m) = Some x /\ prekeyrec_pair C x = Ok p /\ k = kp_priv p) \/
               (exists i x p, pm_prekey_id m = Some i /\ w_prekeys w i = Some x /\ prekeyrec_pair C x = Ok p /\ k = kp_priv p)) /\
    (u = pm_identity m \/ u = pm_base m) /\ Forall (eq Byte.x00) (c_x25519 C (sk_ecdh k) u).

(** The message was opened and the session that opened it is stored as the current one. *)
Definition accepted_and_stored (C : Crypto) (w : world) (a : addr) (m : prekeymsg) (w' : world) : Prop :=
  exists s pt r' s', session_for w a (CPreKey m) s /\ opens C s (pm_message m) pt /\
    w_sess w' a = Some r' /\ rc_current r' = Some s' /\ ss_alice_base s' = ss_alice_base s /\
    ss_remote s' = ss_remote s /\ ss_local s' = ss_local s.

(** Between [w] and [w'] one-time pre-keys were removed only as C32 allows. *)
Definition consumption (C : Crypto) (w : world) (a : addr) (m : prekeymsg) (w' : world) : Prop :=
  forall id, w_prekeys w' id <> w_prekeys w id ->
    pm_prekey_id m = Some id /\ w_prekeys w' id = None /\ accepted_and_stored C w a m w' /\
    (forall r s, w_sess w a = Some r -> state_in s r -> ss_alice_base s <> Byte.x05 :: pm_base m).

(** The current session, if any, fails with another error than a duplicate. *)
Definition current_fails (C : Crypto) (rnd : bytes) (r : record) (m : signal) : Prop :=
  forall s, rc_current r = Some s -> exists e rest, decrypt_session C rnd s m = (Err e, rest) /\ e <> EDuplicate.
