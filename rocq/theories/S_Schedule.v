(** The key schedule of a conversation, from the Double Ratchet specification: C75. *)
From Verif Require Import M_Base M_Crypto M_Aes M_Curve M_Message M_Ratchet M_State M_Store M_Session
  S_Crypto S_Message S_Ratchet S_Session S_X3dh S_Send S_Conv S_History.

(** Root key and chain key of each epoch. [ks]: the ratchet private keys, [ks 0] the
    responder's signed pre-key. Epoch 0 comes from X3DH; every further one mixes the
    Diffie-Hellman value of its own ratchet key and the other party's latest one into the
    root key. *)
Fixpoint dr_keys (C : Crypto) (start : bytes * bytes) (ks : nat -> bytes) (k : nat) : bytes * bytes :=
  match k with
  | O => start
  | S j => ratchet_step C (fst (dr_keys C start ks j)) (c_x25519 C (ks (S j)) (mont_pub C (ks j)))
  end.
(** The message [m] carries [pt] from [sender] to [receiver] under the keys of position [n] of
    a chain that starts with [chain]. *)
Definition sealed (C : Crypto) (chain : bytes) (n : N) (sender receiver : pubkey) (pt : bytes) (m : signal) : Prop :=
  exists mk, keys_at C (chain_at C chain (N.to_nat n)) n mk /\
    cbc_encrypt C (mk_cipher mk) (mk_iv mk) pt = Ok (sg_body m) /\ tagged C (mk_mac mk) sender receiver (sg_raw m).
(** The session [s] stands in epoch [k] with the keys of the schedule [keys] and the ratchet
    key pair of [ks k], its sending chain at position [n]. *)
Definition stands (C : Crypto) (keys : nat -> bytes * bytes) (ks : nat -> bytes) (s : state) (k : nat) (n : N) : Prop :=
  ss_root s = fst (keys k) /\
  exists c, ss_sender s = Some c /\ pc_ratchet c = Byte.x05 :: mont_pub C (ks k) /\ pc_ratchet_priv c = clamp (ks k) /\
    pc_key c = Some (mkPChainKey n (chain_at C (snd (keys k)) (N.to_nat n))).
(** The public keys in the bundle [b]. *)
Definition bundle_keys (C : Crypto) (b : bundle) (ib sb : bytes) (ob : option bytes) : Prop :=
  bd_identity b = Some (mont_pub C ib) /\ bd_signed b = Some (mont_pub C sb) /\ bd_prekey b = option_map (mont_pub C) ob.
