(** Two devices in conversation: the executions of C21 and C23. *)
From Verif Require Import M_Base M_Crypto M_Aes M_Curve M_Message M_Ratchet M_State M_Store M_Session
  S_Crypto S_Message S_Shape S_Ratchet S_Session S_Api S_Send S_Group S_X3dh S_Receive S_Conv.

(** The bundle [b] was published by the device [w]: its identity key, its signed pre-key and
    its one-time pre-key are the public keys of private keys that [w] holds, under the ids in
    the bundle. The one-time pre-key is optional; its id is not 0 (see C22). *)
Definition published (C : Crypto) (w : world) (b : bundle) (ib sb : bytes) (ob : option bytes) : Prop :=
  pair_for C ib (w_pair w) /\ bd_identity b = Some (mont_pub C ib) /\
  bd_signed b = Some (mont_pub C sb) /\
  (exists x p, w_signed w (bd_signed_id b) = Some x /\ prekeyrec_pair C x = Ok p /\ pair_for C sb p) /\
  match ob with
  | None => bd_prekey b = None /\ bd_prekey_id b = None
  | Some o => bd_prekey b = Some (mont_pub C o) /\
      exists id x p, bd_prekey_id b = Some id /\ id <> 0%N /\
        w_prekeys w id = Some x /\ prekeyrec_pair C x = Ok p /\ pair_for C o p
  end.
(** No session of the device for [a] was set up with the base key [base]. *)
Definition unused_base (w : world) (a : addr) (base : pubkey) : Prop :=
  forall r s, w_sess w a = Some r -> state_in s r -> ss_alice_base s <> Byte.x05 :: base.
(** The pre-keys named by [b] are still there. *)
Definition prekeys_kept (w w' : world) (b : bundle) : Prop :=
  w_signed w' (bd_signed_id b) = w_signed w (bd_signed_id b) /\
  forall id, bd_prekey_id b = Some id -> w_prekeys w' id = w_prekeys w id.

(** A ciphertext returned by EncryptMessage: who sent it ([true]: the initiator), its epoch
    and counter, the plaintext. *)
Record note := mkNote { nt_from : bool; nt_epoch : nat; nt_counter : N; nt_text : bytes; nt_cipher : ciphertext }.

Definition upd {A} (f : bool -> A) (side : bool) (x : A) : bool -> A := fun y => if Bool.eqb y side then x else f y.
Definition start_party (side : bool) : party :=
  if side then mkParty 1 0 [mkView 0 0 []] else mkParty 0 0 [].
Definition sent_one (p : party) : party := mkParty (p_epoch p) (p_sent p + 1) (p_views p).

(** The current session of [w] with [a]. *)
Definition current_session (w : world) (a : addr) : option state :=
  match w_sess w a with Some r => rc_current r | None => None end.
(** The device [w] of [side] has become [w'] while its current session with the peer is the
    same (its archived ones may change); while the responder has none yet ([p]: the responder), its sessions with the peer
    may change as long as the pre-keys of [b] stay and [base] stays unused. *)
Definition left_alone (at_ : bool -> addr) (b : bundle) (base : pubkey) (p : party) (side : bool) (w w' : world) : Prop :=
  wf_device w' /\ w_pair w' = w_pair w /\
  ((side = true \/ p_epoch p <> 0) /\ current_session w' (at_ side) = current_session w (at_ side) \/
   side = false /\ p_epoch p = 0 /\ unused_base w' (at_ side) base /\ prekeys_kept w w' b).

(** Receiving message [n] of epoch [k] with random bytes [rnd] opens a new epoch of the
    receiver if it is the sender's next epoch; its ratchet key must then be fresh. *)
Definition fresh (C : Crypto) (keys : list pubkey) (p : party) (k : nat) (rnd : bytes) : Prop :=
  k = S (p_epoch p) -> 32 <= List.length rnd /\ ~ In (mont_pub C (firstn 32 rnd)) keys.
Definition keys_after (C : Crypto) (keys : list pubkey) (p : party) (k : nat) (rnd : bytes) : list pubkey :=
  if Nat.eqb k (S (p_epoch p)) then keys ++ [mont_pub C (firstn 32 rnd)] else keys.

(** [history C at_ b base dev par keys notes]: executions of two devices. [at_ true] is the
    address under which the initiator knows the responder, [at_ false] the other way round;
    [b] is the bundle that started the conversation and [base] the initiator's base key.
    Every call may meet store failures, as long as it returned without error. *)
Inductive history (C : Crypto) (at_ : bool -> addr) (b : bundle) (base : pubkey)
  : (bool -> world) -> (bool -> party) -> list pubkey -> list note -> Prop :=
(** The initiator processes the bundle that the responder published. *)
| h_start : forall dev ia ib sb ob rnd fs w', wf_device (dev true) -> wf_device (dev false) -> wf_bundle b ->
    pair_for C ia (w_pair (dev true)) -> published C (dev false) b ib sb ob ->
    64 <= List.length rnd -> base = mont_pub C (firstn 32 rnd) -> unused_base (dev false) (at_ false) base ->
    mont_pub C (firstn 32 (skipn 32 rnd)) <> mont_pub C sb ->
    run (process_bundle C (at_ true) rnd b) fs (dev true) = (Ok tt, w') ->
    history C at_ b base (upd dev true w') start_party [mont_pub C sb; mont_pub C (firstn 32 (skipn 32 rnd))] []
(** A party sends. The responder can do so once it has received; fewer than 2^32 - 1
    messages are sent in one epoch. *)
| h_send : forall dev par keys notes side pt fs c w', history C at_ b base dev par keys notes ->
    (side = true \/ p_epoch (par false) <> 0) -> (p_sent (par side) + 1 < 4294967296)%N ->
    run (encrypt_message C (at_ side) pt) fs (dev side) = (Ok c, w') ->
    history C at_ b base (upd dev side w') (upd par side (sent_one (par side))) keys
      (mkNote side (p_epoch (par side)) (p_sent (par side)) pt c :: notes)
(** A party receives any earlier message of the other, again or for the first time. *)
| h_receive : forall dev par keys notes side k n pt c rnd fs pt' w', history C at_ b base dev par keys notes ->
    In (mkNote (negb side) k n pt c) notes -> receivable (par side) k n -> fresh C keys (par side) k rnd ->
    run (decrypt_message C (at_ side) rnd c) fs (dev side) = (Ok pt', w') ->
    history C at_ b base (upd dev side w') (upd par side (party_after (par side) k n))
      (keys_after C keys (par side) k rnd) notes
(** Anything else that leaves this session alone: messages that are rejected, other
    conversations, the application. *)
| h_other : forall dev par keys notes side w', history C at_ b base dev par keys notes ->
    left_alone at_ b base (par false) side (dev side) w' ->
    history C at_ b base (upd dev side w') par keys notes.

(** One Diffie-Hellman ratchet step from the root key [root] with the shared secret
    [secret]: the next root key and the new chain key. *)
Definition ratchet_step (C : Crypto) (root secret : bytes) : bytes * bytes :=
  let d := rfc_hkdf C (Some root) secret (str "WhisperRatchet") 64 in (firstn 32 d, skipn 32 d).
(** The current session of [w] with [a]: root key, sending chain (public ratchet key, chain
    key, position). *)
Definition current_keys (w : world) (a : addr) (s : state) (root : bytes) (own : pubkey) (key : bytes) (i : N) : Prop :=
  exists r sc, w_sess w a = Some r /\ rc_current r = Some s /\ ss_root s = root /\ ss_sender s = Some sc /\
    pc_ratchet sc = Byte.x05 :: own /\ pc_key sc = Some (mkPChainKey i key).
