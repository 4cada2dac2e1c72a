(** Alice starts a session with Bob and announces a sender key. *)
From Verif Require Import M_Base M_Crypto M_Aes M_Curve M_Uuid M_Message M_Ratchet M_State M_Store M_Session M_Group
  S_Crypto S_Message S_State S_Shape S_Ratchet S_Session S_Api S_Send S_Group S_GroupMsg S_Curve S_X3dh S_Isolation S_Bundle S_Conv S_History S_Outcome
  P_Base P_Curve P_Shape P_Ratchet P_Chain P_Message P_Encrypt P_Send P_X3dh P_CryptoTop P_Group P_GroupMsg P_GroupSend P_GroupTop
  P_Decrypt P_Establish P_Bundle P_Locked P_Outcome K_Toy K_World K_Receive K_Conv K_Group.
Local Open Scope nat_scope.

Lemma outcome_case : exists b w1 w2 ts1 ts2 s,
  wf_bundle b /\ pair_for toy alice_key (w_pair (alice_world true)) /\ 64 <= List.length alice_rnd /\
  bundle_trusted (alice_world true) (conv_at true) b /\ bundle_signed toy b /\
  all_agree toy alice_key (firstn 32 alice_rnd) (firstn 32 (skipn 32 alice_rnd)) b /\
  run0 (process_bundle toy (conv_at true) alice_rnd b) (alice_world true) = (Ok tt, w1) /\
  reachable toy (ts1, w1) /\ current_session w1 (conv_at true) <> None /\
  reachable toy (ts2, w2) /\ w_groups w2 gx_addr gx_dist = Some [s] /\ gs_priv s <> [].
Proof.
  destruct (bob_bundle_signed None) as [sig Sg]. set (b := bob_bundle None sig) in *.
  assert (Wb : wf_bundle b) by (apply bob_bundle_wf; discriminate).
  assert (PA : pair_for toy alice_key (w_pair (alice_world true))) by (apply pair_of_for, b32_len).
  assert (Lr : 64 <= List.length alice_rnd) by (unfold alice_rnd; rewrite app_length, !b32_len; apply le_n).
  assert (R0 : reachable toy ([], alice_world true)) by (apply reach_init; split; [|split; [|split]]; reflexivity).
  destruct (bundle_works toy toy_ok b (conv_at true) (alice_world true) (bob_world 7 true) alice_key bob_key bob_signed_key None alice_rnd
    (alice_wf true) PA (bob_published 7 None sig true (or_introl eq_refl) ltac:(discriminate)) Sg Lr eq_refl) as (w1 & E1 & _).
  pose proof (proj1 (start_outcome toy toy_ok (alice_world true) (conv_at true) alice_rnd b alice_key Wb PA Lr) (ex_intro _ w1 E1)) as (T & _ & Ag).
  assert (R1 : exists ts1, reachable toy (ts1, w1)).
  { pose proof (reach_run toy [] _ (process_bundle toy (conv_at true) alice_rnd b) [] (alice_world true)) as Q.
    unfold run0 in E1. rewrite E1 in Q. apply Q. eapply reach_step; [exact R0|]. apply (step_call toy (CBundle (conv_at true) alice_rnd b)). exact Wb. }
  destruct R1 as [ts1 R1].
  destruct (dist_fresh toy gx_addr gx_dist gx_sys gx_rnd (alice_world true) toy_ok (alice_own true) eq_refl (le_n _) gx_rnd_len) as (dm & w2 & E2).
  assert (R2 : exists ts2, reachable toy (ts2, w2)).
  { pose proof (reach_run toy [] _ (new_sender_dist toy gx_addr gx_dist gx_sys gx_rnd) [] (alice_world true)) as Q.
    unfold run0 in E2. rewrite E2 in Q. apply Q. eapply reach_step; [exact R0|]. apply (step_call toy (CGNew gx_addr gx_dist gx_sys gx_rnd)). exact I. }
  destruct R2 as [ts2 R2].
  destruct (dist_ok _ _ _ _ _ _ _ _ _ E2) as [(s & r & Q & _)|(_ & chain & seed & rnd1 & kp & rest & _ & _ & Gk & -> & _)]; [discriminate|].
  exists b, w1. eexists. exists ts1, ts2. eexists. split; [exact Wb|]. split; [exact PA|]. split; [exact Lr|]. split; [exact T|]. split; [exact Sg|]. split; [exact Ag|].
  split; [exact E1|]. split; [exact R1|]. split; [|split; [exact R2|split; [apply group_set_same|]]].
  - unfold run0 in E1. destruct (bundle_success _ _ _ _ _ _ _ E1) as (ti & t & base & r1 & s0 & rs & _ & _ & _ & _ & _ & _ & ->).
    unfold current_session, bundle_world. destruct (existed _ && _)%bool; cbn [w_sess set_sess set_ident]; rewrite addr_eqb_refl; discriminate.
  - change (gs_priv (new_gstate _ _ _ _ _ (Some ?k))) with (sk_bytes k). intro Z.
    assert (L : List.length (sk_bytes (kp_priv kp)) = 32) by (eapply gen_keypair_wf; exact Gk). rewrite Z in L. discriminate.
Qed.
