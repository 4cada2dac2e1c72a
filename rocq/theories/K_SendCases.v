(** Concrete devices for the theorems of T_Send.v. *)
From Verif Require Import M_Base M_Crypto M_Aes M_Curve M_Uuid M_Message M_Ratchet M_State M_Store M_Session M_Group
  S_Crypto S_Message S_State S_Shape S_Ratchet S_Session S_Api S_Send S_Group P_Base P_Curve P_Encrypt P_Send P_SendTop K_Toy K_World.
Local Open Scope nat_scope.

Definition distrust (a : addr) (known : option pubkey) (k : pubkey) (d : direction) : bool := false.

Lemma failed_refuted : exists C w a pt s ratchet key i,
  CryptoOk C /\ wf_device w /\ w_shared w = true /\ device_at w a s ratchet key i /\
  fst (run0 (encrypt_message C a pt) w) = Err (EUntrusted a) /\
  forall s', ~ device_at (snd (run0 (encrypt_message C a pt) w)) a s' ratchet key i.
Proof.
  exists toy, (ex_world_of distrust true), ex_addr, (str "x"), ex_state, (b32 Byte.x03), (b32 Byte.x08), 7%N.
  split; [exact toy_ok|]. split; [apply ex_world_of_wf|]. split; [reflexivity|]. split; [apply ex_device_at|].
  exact (failed_refuted_from toy (ex_world_of distrust true) ex_addr ex_state _ _ _ _ toy_ok (ex_world_of_wf _ _) eq_refl
    (ex_device_at _ _) eq_refl eq_refl eq_refl (str "x")).
Qed.

Lemma store_fails : forall C pt, CryptoOk C ->
  fst (run (encrypt_message C ex_addr pt) [FNone; FNone; FNone; FNone; FBefore] (ex_world_of inmem_policy false)) = Err EStore.
Proof.
  intros C pt H. set (w := ex_world_of inmem_policy false).
  destruct (encrypt_state_exact C ex_state pt H ex_state_wf) as (sc & k & rt & local & remote & m & out & A1 & A2 & A3 & A4 & A5 & A6 & A7 & A8 & A9 & A10 & A11).
  destruct (encrypt_runs C ex_addr pt ex_record ex_state _ _ _ [FNone; FNone; FNone; FNone; FBefore] w (eq_refl : w_sess w ex_addr = Some ex_record) eq_refl A11) as [R _].
  rewrite R. reflexivity.
Qed.
