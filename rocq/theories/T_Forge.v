(** What refused messages do to the stored sessions: C71. *)
From Verif Require Import M_Base M_Crypto M_Curve M_Message M_State M_Store M_Session
  M_Group S_Crypto S_Message S_Session S_Shape S_Api S_Group S_Receive S_Forge P_Base P_Forge K_Toy K_World K_Receive K_RecvCases K_Forge.
Local Open Scope nat_scope.

(** * C71  Refused messages cannot destroy a session *)
(** False on the sharing (in-memory) store: 41 made-up pre-key messages, each of them
    refused, push every session out of the record. Who makes them up needs the peer's public
    identity key and the id of the signed pre-key, no secret. *)
Theorem c71_flood_refuted : forall C a k l w r, CryptoOk C -> wf_device w -> w_shared w = true -> w_sess w a = Some r ->
  w_policy w a (w_ident w a) k Receiving = true -> w_policy w a (Some k) k Receiving = true ->
  List.length l = 41 -> NoDup (map (fun x => pm_base (snd x)) l) ->
  (forall rnd m, In (rnd, m) l -> made_up C w k m /\ forall s, state_in s r -> ss_alice_base s <> Byte.x05 :: pm_base m) ->
  exists w' r', all_refused C a w (map (fun x => (fst x, CPreKey (snd x))) l) w' /\ w_sess w' a = Some r' /\
    forall s s', state_in s r -> state_in s' r' -> ss_alice_base s' <> ss_alice_base s.
Proof. exact flooded. Qed.
Print Assumptions c71_flood_refuted.
Example c71_case : exists w' r', all_refused toy ex_addr bob_shared (map (fun x => (fst x, CPreKey (snd x))) flood_msgs) w' /\ w_sess w' ex_addr = Some r' /\
  forall s', state_in s' r' -> ss_alice_base s' <> ss_alice_base bob_current.
Proof.
  destruct (flooded toy ex_addr (mont_pub toy rx_peer) flood_msgs bob_shared (mkRecord (Some bob_current) []) toy_ok bob_shared_wf eq_refl eq_refl eq_refl)
    as (w' & r' & R & E & N).
  - change (inmem_policy ex_addr (Some (mont_pub toy rx_peer)) (mont_pub toy rx_peer) Receiving = true). unfold inmem_policy, pub_equal. apply bytes_eqb_refl.
  - reflexivity.
  - exact flood_distinct.
  - exact flood_made_up.
  - exists w', r'. split; [exact R|]. split; [exact E|]. intros s' J. apply N; [left; reflexivity|exact J].
Qed.
(** Stores that return copies: whatever messages are refused, the sessions stay as they are. *)
Theorem c71_copying_partial : forall C a w l w', all_refused C a w l w' -> CryptoOk C -> wf_device w -> w_shared w = false ->
  Forall (fun x => wf_ciphertext (snd x)) l -> w_sess w' = w_sess w.
Proof. exact refused_copying. Qed.
Print Assumptions c71_copying_partial.
