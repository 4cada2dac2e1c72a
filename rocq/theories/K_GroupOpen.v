(** A device that follows one sender: a message two iterations ahead, and one that is behind. *)
From Verif Require Import M_Base M_Crypto M_Aes M_Curve M_Uuid M_Message M_Ratchet M_State M_Store M_Session M_Group
  S_Crypto S_Message S_State S_Shape S_Ratchet S_Session S_Api S_Send S_Group S_GroupMsg S_Curve S_X3dh S_Isolation S_Bundle
  P_Base P_Curve P_Shape P_Ratchet P_Chain P_Message P_Encrypt P_Send P_X3dh P_CryptoTop P_Group P_GroupMsg P_Member P_Mailbox P_Keep P_GroupSend P_GroupTop
  P_Establish K_Toy K_World K_Receive K_Conv K_Group S_Conv S_Aes S_GroupOpen P_GroupOpen.
Local Open Scope nat_scope.

Lemma gx_world_reached : reachable toy ([], gx_world true).
Proof.
  destruct (gx_reach_member (fun _ => True) I) as [R _]. apply reachable_less in R.
  assert (E : snd (run0 (process_dist gx_addr gx_told) (alice_world true)) = gx_world true); [|rewrite E in R; exact R].
  unfold run0. rewrite (process_dist_runs gx_addr gx_told [] (alice_world true) (alice_wf true) gx_told_wf). cbn [hd_fault tl].
  unfold gx_world. rewrite <- (told_learnt _ gx_told_wf). reflexivity.
Qed.
Lemma group_open_case : exists w a m s s' m', reachable toy ([], w) /\ wf_senderkey m /\ follows w a (sm_dist m) (sm_chain m) s /\ gopens toy s m (str "hi") s' /\
  gs_iter s = 5%N /\ gs_iter s' = 8%N /\ List.length (gs_keys s') = 2 /\
  wf_senderkey m' /\ 64 <= List.length (sm_raw m') /\ follows w a (sm_dist m') (sm_chain m') s /\ (forall pt t, ~ gopens toy s m' pt t) /\ signed_by toy (mont_pub toy gx_key) m'.
Proof.
  set (mk := derive_gmsgkey toy (seed_at toy (b32 Byte.x07) 2) 7). pose proof (derive_from toy toy_ok (seed_at toy (b32 Byte.x07) 2) 7) as K.
  assert (Lk : legal_key (gk_cipher mk)) by (destruct K as (_ & L & _); unfold legal_key; fold mk in L; rewrite L; auto).
  assert (Li : List.length (gk_iv mk) = 16) by (destruct K as (_ & _ & L & _); exact L).
  destruct (cbc_inverse toy (gk_cipher mk) (gk_iv mk) (str "hi") toy_ok Lk Li) as (ct & _ & _ & _ & _ & _ & D).
  destruct (gx_signed 7 ct) as (m & V & Ed & Ec & Ei & Eb & Sg). destruct (gx_signed 4 ct) as (m' & V' & Ed' & Ec' & Ei' & Eb' & Sg').
  exists (gx_world true), gx_addr, m, (learnt gx_told). eexists. exists m'. split; [exact gx_world_reached|].
  assert (U : forall n, (n < 4294967296)%N -> go_u32 n) by (intros n L; exact L).
  split; [unfold wf_senderkey; rewrite Ec, Ei; split; [apply U; reflexivity|split; [apply U; reflexivity|exact V]]|].
  split; [rewrite Ed, Ec; apply gx_follows|]. split.
  { split; [exact V|]. exists (mont_pub toy gx_key), mk. split; [reflexivity|]. split; [exact Sg|]. rewrite Ei, Eb. split; [|exact D].
    apply (gt_ahead toy (learnt gx_told) 7 mk _ 2); [reflexivity|lia|exact K|reflexivity]. }
  split; [reflexivity|]. split; [reflexivity|]. split; [reflexivity|].
  split; [unfold wf_senderkey; rewrite Ec', Ei'; split; [apply U; reflexivity|split; [apply U; reflexivity|exact V']]|].
  split. { destruct Sg' as (t & r & x & y & E & L & _). rewrite E, app_length, L. lia. }
  split; [rewrite Ed', Ec'; apply gx_follows|]. split; [|exact Sg'].
  intros pt t (_ & key & mk' & _ & _ & T & _). rewrite Ei' in T. destruct T as [d E _ _ _|l1 k l2 _ E _ _ _ _].
  - cbn [learnt gs_iter gx_told new_dist dm_iter] in E. lia.
  - cbn [learnt gs_keys] in E. destruct l1; discriminate.
Qed.
