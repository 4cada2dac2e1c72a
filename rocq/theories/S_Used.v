(** Key material after its use: C73. *)
From Verif Require Import M_Base M_Crypto M_Aes M_Curve M_Message M_Ratchet M_State M_Store M_Session M_Group
  S_Message S_Ratchet S_Session.
Local Open Scope N_scope.

(** The session state [s] contains the keys [mk] of message [n] of the chain with public key
    [ratchet]: one of its chains stands at or before [n], so that the keys can be derived
    from it, or they are saved with it. (Message keys are saved with receiving chains
    only.) *)
Definition has_keys (C : Crypto) (s : state) (ratchet : pubkey) (n : N) (mk : msgkeys) : Prop :=
  (exists c k, (ss_sender s = Some c \/ In c (ss_receivers s)) /\ pc_ratchet c = Byte.x05 :: ratchet /\ pc_key c = Some k /\
     pck_index k <= n /\ keys_at C (chain_at C (pck_key k) (N.to_nat (n - pck_index k))) n mk) \/
  (exists c x, In c (ss_receivers s) /\ pc_ratchet c = Byte.x05 :: ratchet /\ In x (pc_msgkeys c) /\ pmk_index x = n /\
     mk = mkMsgKeys (pmk_cipher x) (pmk_mac x) (pmk_iv x) n).
(** Whoever gets hold of [s] can decrypt [m] to [pt] with the keys in it. *)
Definition can_read (C : Crypto) (s : state) (m : signal) (pt : bytes) : Prop :=
  exists mk, has_keys C s (sg_ratchet m) (sg_counter m) mk /\ cbc_decrypt C (mk_cipher mk) (mk_iv mk) (sg_body m) = Ok pt.

(** DecryptMessage reads the whisper messages one after the other. *)
Inductive all_read (C : Crypto) (a : addr) : world -> list (bytes * signal) -> world -> Prop :=
| ar_nil : forall w, all_read C a w [] w
| ar_cons : forall w rnd pt m w1 l w2, run0 (decrypt_message C a rnd (CSignal m)) w = (Ok pt, w1) ->
    all_read C a w1 l w2 -> all_read C a w ((pt, m) :: l) w2.

(** The same for a sender key: the state contains the seed of iteration [n]. *)
Definition has_seed (s : gstate) (n : N) : Prop :=
  gs_iter s <= n \/ exists x, In x (gs_keys s) /\ gm_iter x = n.
