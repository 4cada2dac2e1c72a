(** What an attacker on the network can do to a conversation: C76. *)
From Verif Require Import M_Base M_Crypto M_Aes M_Curve M_Message M_Ratchet M_State M_Store M_Session M_Group
  S_Crypto S_Message S_Shape S_Ratchet S_Session S_Api S_Send S_Group S_X3dh S_Receive S_Conv S_History S_Isolation S_Atomic S_Size S_Transit S_Speak S_Attack
  P_Attack K_Toy K_World K_Receive K_Conv K_Cut.
Local Open Scope nat_scope.

(** * C76 *)
(** Any bytes may arrive, at any time, and the call that handles them may be cut off or meet
    store failures. Afterwards the two devices are again in a state of a conversation: as
    before, or as after receiving a message that the peer did send. The exceptions: the tag was
    forged, an archived session opened the message, or it set up a new session. (For stores
    that copy; see C26 and C71 for those that share records.) *)
Theorem c76_any_bytes : forall C b at_ base dev par keys notes side x rnd w', CryptoOk C -> history C at_ b base dev par keys notes ->
  (forall y, In y notes -> (size (nt_text y) < 2 ^ 62)%N) -> w_shared (dev side) = false ->
  kp_pub (w_pair (dev true)) <> kp_pub (w_pair (dev false)) -> side = true \/ p_epoch (par false) <> 0 ->
  32 <= List.length rnd -> ~ In (mont_pub C (firstn 32 rnd)) keys ->
  leaves (receive_bytes C (at_ side) rnd x) (dev side) w' ->
  (exists dev', (forall z, dev' z = upd dev side w' z) /\
     (history C at_ b base dev' par keys notes \/
      exists y m, In y notes /\ nt_from y = negb side /\ inner (nt_cipher y) = Some m /\ carries x m /\
        receivable (par side) (nt_epoch y) (nt_counter y) /\
        history C at_ b base dev' (upd par side (party_after (par side) (nt_epoch y) (nt_counter y))) (keys_after C keys (par side) (nt_epoch y) rnd) notes)) \/
  exists c m, unposted x = Ok c /\ inner c = Some m /\
    ((exists s, current_session (dev side) (at_ side) = Some s /\
        forgery C s (par side) (kp_pub (w_pair (dev (negb side)))) (kp_pub (w_pair (dev side))) (fun y => In y notes /\ nt_from y = negb side) m) \/
     archived_opens C (dev side) (at_ side) m \/ sets_up C (dev side) (at_ side) rnd c).
Proof. intros C b at_ base dev par keys notes side x rnd w' H. exact (any_bytes C H b at_ base dev par keys notes side x rnd w'). Qed.
Print Assumptions c76_any_bytes.
(** Bytes that would not be accepted change nothing, also before the responder has a session. *)
Theorem c76_not_accepted : forall C b at_ base dev par keys notes side x rnd w', CryptoOk C -> history C at_ b base dev par keys notes -> w_shared (dev side) = false ->
  ~ is_ok (fst (run0 (receive_bytes C (at_ side) rnd x) (dev side))) -> leaves (receive_bytes C (at_ side) rnd x) (dev side) w' ->
  exists dev', (forall z, dev' z = upd dev side w' z) /\ history C at_ b base dev' par keys notes.
Proof. intros C b at_ base dev par keys notes side x rnd w' H. exact (not_accepted C H b at_ base dev par keys notes side x rnd w'). Qed.
Print Assumptions c76_not_accepted.
(** Nor do calls about other conversations and groups, whatever happens to them; while the
    responder has no session yet, they must not use up its one-time pre-key. *)
Theorem c76_elsewhere : forall C b at_ base dev par keys notes side q w', CryptoOk C -> history C at_ b base dev par keys notes -> wf_call q -> scope_of q <> OwnSession (at_ side) ->
  let '@Thread A p := start C q in leaves p (dev side) w' ->
  side = true \/ p_epoch (par false) <> 0 \/ prekeys_kept (dev side) w' b ->
  history C at_ b base (upd dev side w') par keys notes.
Proof. intros C b at_ base dev par keys notes side q w' H. exact (elsewhere C H b at_ base dev par keys notes side q w'). Qed.
Print Assumptions c76_elsewhere.
(** Two messages sent, the second delivered, on stores that copy. The bytes are not a message. *)
Example c76_case : exists b base dev par keys c1 c2,
  let notes := [mkNote true 1 1 (str "two") c2; mkNote true 1 0 (str "one") c1] in
  history toy conv_at b base dev par keys notes /\ (forall y, In y notes -> (size (nt_text y) < 2 ^ 62)%N) /\ w_shared (dev false) = false /\
  kp_pub (w_pair (dev true)) <> kp_pub (w_pair (dev false)) /\ p_epoch (par false) <> 0 /\
  32 <= List.length (b32 Byte.x44) /\ ~ In (mont_pub toy (firstn 32 (b32 Byte.x44))) keys /\
  ~ is_ok (fst (run0 (receive_bytes toy (conv_at false) (b32 Byte.x44) (false, [])) (dev false))).
Proof.
  destruct half_way_more as (b & base & dev & par & keys & c1 & c2 & Hy & _ & Pf & O & Cp & Ni & Ek). exists b, base, dev, par, keys, c1, c2. cbv zeta.
  split; [exact Hy|]. split; [intros y [<-|[<-|[]]]; reflexivity|]. split; [apply Cp|]. split; [exact Ni|]. split; [rewrite Pf; discriminate|].
  split; [rewrite b32_len; apply le_n|]. split; [|intros (y & Q); discriminate].
  rewrite Ek. change (firstn 32 (b32 Byte.x44)) with (b32 Byte.x44).
  intro J. cbn [In] in J. repeat destruct J as [J|J]; try exact J; revert J; apply toy_pub_neq; vm_compute; reflexivity.
Qed.
