(** A conversation between two sessions made from agreed parameters, the responder first (C83). *)
From Verif Require Import M_Base M_Crypto M_Aes M_Curve M_Uuid M_Message M_Ratchet M_State M_Store M_Session M_Group M_Records
  S_Crypto S_Message S_State S_Shape S_Ratchet S_Session S_Api S_Send S_Group S_Curve S_X3dh S_Receive S_Conv S_History S_Bundle S_Paired S_PairedView
  P_Base P_Curve P_Shape P_Ratchet P_Chain P_Encrypt P_Send P_X3dh P_CryptoTop P_History P_Establish P_Paired P_PairedView K_Toy K_World K_Receive K_Conv.
Local Open Scope nat_scope.

Definition deal : dealt := mkDealt alice_key (b32 Byte.x61) bob_key bob_signed_key (Some bob_once_key) (b32 Byte.x62).
Definition deal_hands : hands := mkHands (pair_of toy alice_key) (pair_of toy (b32 Byte.x61)) (pair_of toy bob_key)
  (pair_of toy bob_signed_key) (Some (pair_of toy bob_once_key)) (pair_of toy (b32 Byte.x62)).
Lemma deal_held : in_hand toy deal deal_hands.
Proof. repeat split; cbn; try (apply b32_len); left; reflexivity. Qed.
Lemma paired_send : forall dev par keys notes side pt, paired toy conv_at deal dev par keys notes -> open_policy dev ->
  (p_sent (par side) + 1 < 4294967296)%N ->
  exists c dev', open_policy dev' /\ paired toy conv_at deal dev' (upd par side (sent_one (par side))) keys
    (mkNote side (p_epoch (par side)) (p_sent (par side)) pt c :: notes).
Proof.
  intros dev par keys notes side pt Hy O G.
  destruct (paired_sendable toy toy_ok deal conv_at _ _ _ _ side pt Hy G) as (c & w' & E); [rewrite O; reflexivity|].
  exists (CSignal c), (upd dev side w'). split; [|eapply pa_send; eauto]. apply open_upd; [exact O|].
  pose proof (run_policy (encrypt_message toy (conv_at side) pt) [] (dev side)) as Q. unfold run0 in E. rewrite E, O in Q. exact Q.
Qed.
Lemma paired_receive : forall dev par keys notes side k n pt c rnd, paired toy conv_at deal dev par keys notes -> open_policy dev ->
  In (mkNote (negb side) k n pt c) notes -> receivable (par side) k n -> fresh toy keys (par side) k rnd ->
  exists dev', open_policy dev' /\ paired toy conv_at deal dev' (upd par side (party_after (par side) k n)) (keys_after toy keys (par side) k rnd) notes.
Proof.
  intros dev par keys notes side k n pt c rnd Hy O I0 Rv Fr.
  destruct (paired_delivered toy toy_ok deal conv_at _ _ _ _ side k n pt c rnd Hy I0 Rv Fr) as (w' & E); [rewrite O; reflexivity|].
  exists (upd dev side w'). split; [|eapply pa_receive; eauto]. apply open_upd; [exact O|].
  pose proof (run_policy (decrypt_message toy (conv_at side) rnd c) [] (dev side)) as Q. unfold run0 in E. rewrite E, O in Q. exact Q.
Qed.
Lemma paired_talk : exists dev par keys c1 c2 c3 c4,
  paired toy conv_at deal dev par keys
    [mkNote false 2 0 (str "four") c4; mkNote true 1 0 (str "three") c3; mkNote false 0 1 (str "two") c2; mkNote false 0 0 (str "one") c1] /\
  par true = mkParty 1 1 [mkView 0 1 [0%N]] /\ par false = mkParty 2 1 [mkView 1 0 []] /\ open_policy dev.
Proof.
  assert (Lr : 32 <= List.length (b32 Byte.x63)) by (rewrite b32_len; apply le_n).
  destruct (setup_agrees toy toy_ok deal deal_hands (b32 Byte.x63) deal_held Lr) as (ra & rb & ck & Ea & Eb & _).
  set (dev := fun y : bool => mkWorld (fun _ => Some (if y then ra else rb)) (fun _ => None) (fun _ => None) (fun _ => None) (fun _ _ => None)
     (pair_of toy alice_key) 12%N all_trusted y).
  assert (H1 : paired toy conv_at deal dev start_party [mont_pub toy (b32 Byte.x62); mont_pub toy (b32 Byte.x63)] []).
  { eapply (pa_start toy conv_at deal dev deal_hands (b32 Byte.x63) ra rb _ deal_held Lr); [|exact Ea|exact Eb|reflexivity|reflexivity].
    apply (toy_pub_neq Byte.x63 Byte.x62). vm_compute. reflexivity. }
  assert (O1 : open_policy dev) by (intro; reflexivity). revert H1 O1. generalize dev. clear dev. intros d1 H1 O1.
  destruct (paired_send _ _ _ _ false (str "one") H1 O1 ltac:(reflexivity)) as (c1 & d2 & O2 & H2).
  destruct (paired_send _ _ _ _ false (str "two") H2 O2 ltac:(reflexivity)) as (c2 & d3 & O3 & H3).
  destruct (paired_receive _ _ _ _ true 0 1 (str "two") c2 [] H3 O3) as (d4 & O4 & H4).
  { left. reflexivity. }
  { eapply rec_ahead with (v := mkView 0 0 []); [left; reflexivity|reflexivity|]. split; vm_compute; discriminate. }
  { intro E. discriminate E. }
  destruct (paired_send _ _ _ _ true (str "three") H4 O4 ltac:(reflexivity)) as (c3 & d5 & O5 & H5).
  destruct (paired_receive _ _ _ _ false 1 0 (str "three") c3 (b32 Byte.x64) H5 O5) as (d6 & O6 & H6).
  { left. reflexivity. }
  { apply rec_new; [reflexivity|discriminate]. }
  { intros _. split; [rewrite b32_len; apply le_n|]. change (firstn 32 (b32 Byte.x64)) with (b32 Byte.x64).
    cbn [keys_after Nat.eqb p_epoch start_party upd Bool.eqb party_after sent_one app In].
    intros I0; repeat destruct I0 as [I0|I0]; try exact I0; revert I0; apply toy_pub_neq; vm_compute; reflexivity. }
  destruct (paired_send _ _ _ _ false (str "four") H6 O6 ltac:(reflexivity)) as (c4 & d7 & O7 & H7).
  do 7 eexists. split; [exact H7|]. split; [vm_compute; reflexivity|]. split; [vm_compute; reflexivity|exact O7].
Qed.
