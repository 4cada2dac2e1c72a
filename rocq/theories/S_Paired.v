(** Two devices whose sessions were made from agreed parameters: the executions of C83. *)
From Verif Require Import M_Base M_Crypto M_Aes M_Curve M_Message M_Ratchet M_State M_Store M_Session M_Records
  S_Crypto S_Message S_Shape S_Ratchet S_Session S_Api S_Send S_Group S_X3dh S_Receive S_Conv S_History.

(** The private keys behind the parameters: identity and base key of the initiator; identity
    key, signed pre-key, optional one-time pre-key and ratchet key of the responder. *)
Record dealt := mkDealt { d_ia : bytes; d_e : bytes; d_ib : bytes; d_sb : bytes; d_ob : option bytes; d_rb : bytes }.
(** Key pairs in memory for them. *)
Record hands := mkHands { h_ia : keypair; h_e : keypair; h_ib : keypair; h_sb : keypair; h_ob : option keypair; h_rb : keypair }.
Definition in_hand (C : Crypto) (d : dealt) (h : hands) : Prop :=
  pair_for C (d_ia d) (h_ia h) /\ pair_for C (d_e d) (h_e h) /\ pair_for C (d_ib d) (h_ib h) /\
  pair_for C (d_sb d) (h_sb h) /\ pair_for C (d_rb d) (h_rb h) /\
  match d_ob d, h_ob h with Some o, Some p => pair_for C o p | None, None => True | _, _ => False end.
(** Each side is given its own key pairs and the other side's public keys. *)
Definition alice_side (C : Crypto) (rnd : bytes) (d : dealt) (h : hands) : res record * bytes :=
  alice_record C rnd (h_ia h) (h_e h) (mont_pub C (d_ib d)) (mont_pub C (d_sb d)) (option_map (mont_pub C) (d_ob d)) (mont_pub C (d_rb d)).
Definition bob_side (C : Crypto) (d : dealt) (h : hands) : res record :=
  bob_record C (h_ib h) (Some (h_sb h)) (h_ob h) (Some (h_rb h)) (mont_pub C (d_ia d)) (mont_pub C (d_e d)).
Definition own_identity (C : Crypto) (d : dealt) (side : bool) : pubkey := mont_pub C (if side then d_ia d else d_ib d).

(** [paired C at_ d dev par keys notes]: as [history], but the conversation starts with the
    two records already stored, and the responder may send first. Nothing is assumed of
    the rest of the devices. *)
Inductive paired (C : Crypto) (at_ : bool -> addr) (d : dealt)
  : (bool -> world) -> (bool -> party) -> list pubkey -> list note -> Prop :=
| pa_start : forall dev h rnd ra rb rest, in_hand C d h -> 32 <= List.length rnd ->
    mont_pub C (firstn 32 rnd) <> mont_pub C (d_rb d) ->
    alice_side C rnd d h = (Ok ra, rest) -> bob_side C d h = Ok rb ->
    w_sess (dev true) (at_ true) = Some ra -> w_sess (dev false) (at_ false) = Some rb ->
    paired C at_ d dev start_party [mont_pub C (d_rb d); mont_pub C (firstn 32 rnd)] []
| pa_send : forall dev par keys notes side pt fs c w', paired C at_ d dev par keys notes ->
    (p_sent (par side) + 1 < 4294967296)%N ->
    run (encrypt_message C (at_ side) pt) fs (dev side) = (Ok c, w') ->
    paired C at_ d (upd dev side w') (upd par side (sent_one (par side))) keys
      (mkNote side (p_epoch (par side)) (p_sent (par side)) pt c :: notes)
| pa_receive : forall dev par keys notes side k n pt c rnd fs pt' w', paired C at_ d dev par keys notes ->
    In (mkNote (negb side) k n pt c) notes -> receivable (par side) k n -> fresh C keys (par side) k rnd ->
    run (decrypt_message C (at_ side) rnd c) fs (dev side) = (Ok pt', w') ->
    paired C at_ d (upd dev side w') (upd par side (party_after (par side) k n))
      (keys_after C keys (par side) k rnd) notes
| pa_other : forall dev par keys notes side w', paired C at_ d dev par keys notes ->
    current_session w' (at_ side) = current_session (dev side) (at_ side) ->
    paired C at_ d (upd dev side w') par keys notes.
