(** Cases for C77 and C78. *)
From Verif Require Import M_Base M_Crypto M_Aes M_Curve M_Message M_Ratchet M_State M_Store M_Session
  S_Crypto S_Message S_Shape S_Ratchet S_Session S_Api S_Send S_Group S_X3dh S_Receive S_Conv S_History S_Secrecy
  P_Schedule P_History P_Captured K_Toy K_World K_Receive K_Conv K_Cut.
Local Open Scope nat_scope.

Lemma from_start : forall C at_ b base dev par keys notes, history C at_ b base dev par keys notes ->
  exists dev0 keys0, history C at_ b base dev0 start_party keys0 [] /\ later C at_ b base dev0 start_party keys0 [] dev par keys notes.
Proof.
  intros C at_ b base dev par keys notes Hy. induction Hy as
    [dev ia ib sb ob rnd fs w' WA WB Wb PA Pub Lr Eb Un Nk E
    |dev par keys notes side pt fs c w' _ (d0 & k0 & H0 & L) Sd G E
    |dev par keys notes side ep n pt c rnd fs pt' w' _ (d0 & k0 & H0 & L) I0 Rv Fr E
    |dev par keys notes side w' _ (d0 & k0 & H0 & L) Al].
  - eexists. eexists. split; [eapply h_start; eauto|]. apply l_now.
  - exists d0, k0. split; [exact H0|]. eapply l_send; eauto.
  - exists d0, k0. split; [exact H0|]. eapply l_receive; eauto.
  - exists d0, k0. split; [exact H0|]. apply l_other; auto.
Qed.
(** The responder withdraws its signed pre-keys. *)
Definition withdrawn (w : world) : world :=
  mkWorld (w_sess w) (w_ident w) (w_prekeys w) (fun _ => None) (w_groups w) (w_pair w) (w_reg w) (w_policy w) (w_shared w).
Lemma withdrawn_wf : forall w, wf_device w -> wf_device (withdrawn w).
Proof. intros w W. unfold wf_device, wf_world in *. cbn. intuition discriminate. Qed.
Lemma withdrawn_closed : forall C b side w, ~ setup_open C b side (withdrawn w).
Proof. intros C b side w (_ & (id & x & p & E & _) & _). discriminate. Qed.
