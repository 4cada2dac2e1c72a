(** Vocabulary of the session properties. *)
From Verif Require Import M_Base M_Crypto M_Aes M_Curve M_Message M_Ratchet M_State S_Message S_Ratchet.

(** [m] is the whisper message carrying [pt] at chain position [n], where the chain key
    bytes are [key]: encrypted under that position's keys and authenticated for
    [sender] -> [receiver]. *)
Definition whisper (C : Crypto) (key : bytes) (n : N) (ratchet sender receiver : pubkey) (pt : bytes)
    (m : signal) : Prop :=
  exists mk prev body,
    keys_at C key n mk /\
    cbc_encrypt C (mk_cipher mk) (mk_iv mk) pt = Ok body /\
    new_signal C 3 (mk_mac mk) ratchet prev n body sender receiver = Ok m.

(** A whisper message as any parser returns it (P_Message: parse_signal_accepts) or as
    built by NewSignal. *)
Definition wf_signal (m : signal) : Prop :=
  List.length (sg_ratchet m) = 32 /\ go_u32 (sg_counter m) /\ 8 <= List.length (sg_raw m) /\
  sg_version m = 3%N.
Definition wf_prekeymsg (m : prekeymsg) : Prop :=
  pm_version m = 3%N /\ List.length (pm_base m) = 32 /\ List.length (pm_identity m) = 32 /\
  go_u32 (pm_reg m) /\ go_u32 (pm_signed_id m) /\ (forall i, pm_prekey_id m = Some i -> go_u32 i) /\
  wf_signal (pm_message m).
(** Any ciphertext object a caller can hold. *)
Definition wf_ciphertext (c : ciphertext) : Prop :=
  match c with
  | CSignal m => wf_signal m
  | CPreKey m => wf_prekeymsg m
  | _ => True
  end.

(** The whisper message inside a one-to-one ciphertext. *)
Definition inner (c : ciphertext) : option signal :=
  match c with CSignal m => Some m | CPreKey m => Some (pm_message m) | _ => None end.

(** The last 8 bytes of [raw] are the truncated HMAC of the rest for [sender] -> [receiver]. *)
Definition tagged (C : Crypto) (key : bytes) (sender receiver : pubkey) (raw : bytes) : Prop :=
  exists ser, raw = ser ++ firstn 8 (c_hmac C key ((Byte.x05 :: sender) ++ (Byte.x05 :: receiver) ++ ser)).

(** [mk] are the keys that state [s] assigns to position [n] of the peer's chain with
    ratchet key [ratchet]: saved ones behind the chain's index; derived ones at or ahead of
    it, at most 25000 ahead unless the session is with oneself; for an unknown ratchet key
    the chain comes from a Diffie-Hellman step with our current ratchet key. *)
Definition message_keys_of (C : Crypto) (s : state) (ratchet : pubkey) (n : N) (mk : msgkeys) : Prop :=
  (exists c k, In c (ss_receivers s) /\ pc_ratchet c = Byte.x05 :: ratchet /\ pc_key c = Some k /\
     ((n < pck_index k)%N /\
      (exists x, In x (pc_msgkeys c) /\ pmk_index x = n /\
         mk = mkMsgKeys (pmk_cipher x) (pmk_mac x) (pmk_iv x) n) \/
      (pck_index k <= n)%N /\ ((n <= pck_index k + 25000)%N \/ ss_remote s = ss_local s) /\
      keys_at C (chain_at C (pck_key k) (N.to_nat (n - pck_index k))) n mk)) \/
  ((forall c, In c (ss_receivers s) -> pc_ratchet c <> Byte.x05 :: ratchet) /\
   ((n <= 25000)%N \/ ss_remote s = ss_local s) /\
   exists sc root' ck, ss_sender s = Some sc /\
     (exists x, In x (c_x25519 C (pc_ratchet_priv sc) ratchet) /\ x <> Byte.x00) /\
     root' ++ ck = rfc_hkdf C (Some (ss_root s)) (c_x25519 C (pc_ratchet_priv sc) ratchet)
                     (str "WhisperRatchet") 64 /\
     List.length root' = 32 /\ List.length ck = 32 /\
     keys_at C (chain_at C ck (N.to_nat n)) n mk).

(** [pt] is the authenticated decryption of [m] under state [s]. *)
Definition opens (C : Crypto) (s : state) (m : signal) (pt : bytes) : Prop :=
  exists mk remote local,
    message_keys_of C s (sg_ratchet m) (sg_counter m) mk /\
    ss_remote s = Byte.x05 :: remote /\ ss_local s = Byte.x05 :: local /\
    tagged C (mk_mac mk) remote local (sg_raw m) /\
    cbc_decrypt C (mk_cipher mk) (mk_iv mk) (sg_body m) = Ok pt.

(** [s] is the current or an archived session state of the record. *)
Definition state_in (s : state) (r : record) : Prop :=
  rc_current r = Some s \/ exists b, In b (rc_previous r) /\ state_parse b = Ok s.
