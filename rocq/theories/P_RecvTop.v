(** Short consequences used by T_Receive.v. *)
From Verif Require Import M_Base M_Crypto M_Aes M_Curve M_Message M_Ratchet M_State M_Store M_Session M_Group
  S_Crypto S_Message S_State S_Shape S_Ratchet S_Session S_Api S_Send S_Group S_X3dh S_Receive P_DecTop P_Replay.
Local Open Scope nat_scope.

Lemma prekey_answer : forall C a rnd pm fs w pt w', CryptoOk C -> wf_device w -> wf_prekeymsg pm ->
  run (decrypt_message C a rnd (CPreKey pm)) fs w = (Ok pt, w') ->
  exists s, session_for w a (CPreKey pm) s /\ opens C s (pm_message pm) pt.
Proof.
  intros C a rnd pm fs w pt w' H W Wp E. destruct (answer_exact C a rnd (CPreKey pm) fs w pt w' H W Wp E) as [(m & s & E1 & E2 & E3)|(m & r & e & E1 & _)]; [|discriminate].
  cbn in E1. injection E1 as <-. exists s. auto.
Qed.
Lemma limit_accepted : forall C a rnd m w s ratchet key i ks local remote n pt, CryptoOk C -> wf_device w ->
  session_at w a s local remote -> receiving_at s ratchet key i ks -> trusts w a remote ->
  go_u32 n -> (i <= n <= i + 25000)%N ->
  whisper C (chain_at C key (N.to_nat (n - i))) n ratchet remote local pt m ->
  exists w1, run0 (decrypt_message C a rnd (CSignal m)) w = (Ok pt, w1).
Proof.
  intros C a rnd m w s ratchet key i ks local remote n pt H W Sa Rv Tr G J Wh.
  destruct (deliver_ahead C a rnd m w s ratchet key i ks local remote n pt H W Sa Rv Tr G J Wh) as (w1 & _ & E & _). exists w1. exact E.
Qed.
