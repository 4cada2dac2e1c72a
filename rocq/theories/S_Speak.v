(** Who can speak in a conversation: C74. *)
From Verif Require Import M_Base M_Crypto M_Aes M_Curve M_Message M_Ratchet M_State M_Store M_Session
  S_Crypto S_Message S_Ratchet S_Session S_X3dh S_Conv S_History S_Schedule.

(** The part of a whisper message that its tag is for: all but the last 8 bytes. *)
Definition tagged_text (m : signal) : bytes := firstn (List.length (sg_raw m) - 8) (sg_raw m).
(** The party has the peer's epoch [k], or it is the peer's next one. *)
Definition in_reach (p : party) (k : nat) : Prop := In k (map rv_epoch (p_views p)) \/ k = S (p_epoch p).
(** A forgery: [m] has a valid tag, between [peer] and [me], under the key which the session
    [s] assigns to its position; and whatever the peer sent at that position, with that key,
    is another text. ([sent]: the peer's messages.) *)
Definition forgery (C : Crypto) (s : state) (p : party) (peer me : pubkey) (sent : note -> Prop) (m : signal) : Prop :=
  exists mk, message_keys_of C s (sg_ratchet m) (sg_counter m) mk /\ tagged C (mk_mac mk) peer me (sg_raw m) /\
    forall x m', sent x -> in_reach p (nt_epoch x) -> inner (nt_cipher x) = Some m' ->
      sg_ratchet m' = sg_ratchet m -> sg_counter m' = sg_counter m ->
      tagged C (mk_mac mk) peer me (sg_raw m') /\ tagged_text m' <> tagged_text m.
(** Not the current session but an archived one, or for a pre-key message a fresh one between
    its identity, its base key and our identity. *)
Definition other_session (w : world) (a : addr) (c : ciphertext) (s : state) : Prop :=
  (exists r bs, w_sess w a = Some r /\ In bs (rc_previous r) /\ state_parse bs = Ok s) \/
  (exists pm, c = CPreKey pm /\ ss_remote s = Byte.x05 :: pm_identity pm /\ ss_local s = Byte.x05 :: kp_pub (w_pair w) /\
     ss_alice_base s = Byte.x05 :: pm_base pm).
(** A forgery of the initiator's first messages, before the responder has a session: a valid
    tag under the key which X3DH, between the initiator's identity key and base key and the
    keys of the bundle [b], gives for the ratchet key and counter of [m]; and whatever the
    initiator sent with that ratchet key and counter has a valid tag for another text. *)
Definition first_forgery (C : Crypto) (b : bundle) (me base peer : pubkey) (sent : note -> Prop) (m : signal) : Prop :=
  exists ia e ib sb ob mk, peer = mont_pub C ia /\ base = mont_pub C e /\ me = mont_pub C ib /\ bundle_keys C b ib sb ob /\
    keys_at C (chain_at C (snd (ratchet_step C (x3dh_root C ia e ib sb ob) (c_x25519 C sb (sg_ratchet m)))) (N.to_nat (sg_counter m))) (sg_counter m) mk /\
    tagged C (mk_mac mk) peer me (sg_raw m) /\
    forall x m', sent x -> inner (nt_cipher x) = Some m' -> sg_ratchet m' = sg_ratchet m -> sg_counter m' = sg_counter m ->
      tagged C (mk_mac mk) peer me (sg_raw m') /\ tagged_text m' <> tagged_text m.
