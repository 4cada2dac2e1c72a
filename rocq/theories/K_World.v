(** A concrete device with one session, for the examples beside the theorems. *)
From Coq Require Import String.
From Verif Require Import M_Base M_Crypto M_Aes M_Curve M_Uuid M_Message M_Ratchet M_State M_Store M_Session M_Group
  S_Crypto S_Message S_State S_Shape S_Ratchet S_Session S_Api S_Send S_Group P_Base P_Curve K_Toy.
Local Open Scope nat_scope.

Definition b32 (x : byte) : bytes := repeat x 32.
Definition ex_addr : addr := mkAddr "+14151111111"%string 1%N.
(** Sending chain at index 7; one receiving chain at index 2 with position 1 saved. *)
Definition ex_sender : pchain :=
  mkPChain (Byte.x05 :: b32 Byte.x03) (b32 Byte.x04) (Some (mkPChainKey 7 (b32 Byte.x08))) [].
Definition ex_receiver : pchain :=
  mkPChain (Byte.x05 :: b32 Byte.x06) [] (Some (mkPChainKey 2 (b32 Byte.x07)))
    [mkPMsgKey 1 (b32 Byte.x0a) (b32 Byte.x0b) (repeat Byte.x0c 16)].
Definition ex_state_of (pending : option ppending) : state :=
  mkState 3 (Byte.x05 :: b32 Byte.x01) (Byte.x05 :: b32 Byte.x02) (b32 Byte.x09) 0 (Some ex_sender) [ex_receiver]
    pending 11 12 (Byte.x05 :: b32 Byte.x0d).
Definition ex_state : state := ex_state_of None.
Definition ex_record : record := mkRecord (Some ex_state) [].
(** The key pair of a raw private key. *)
Definition pair_of (C : Crypto) (k : bytes) : keypair :=
  mkPair (mkPriv (clamp k) (mont_pub C k) (scalar_of k) k) (mont_pub C k).
Definition ex_pair : keypair := pair_of toy (b32 Byte.x0e).
Definition ex_world_of (policy : addr -> option pubkey -> pubkey -> direction -> bool) (shared : bool) : world :=
  mkWorld (fun a => if addr_eqb a ex_addr then Some ex_record else None) (fun _ => None) (fun _ => None) (fun _ => None)
    (fun _ _ => None) ex_pair 12 policy shared.
Definition ex_world : world := ex_world_of inmem_policy true.

Lemma b32_len : forall x, List.length (b32 x) = 32.
Proof. intro. apply repeat_length. Qed.
Lemma b32_key : forall x, key33 (Byte.x05 :: b32 x).
Proof. intro x. exists (b32 x). split; [apply b32_len|reflexivity]. Qed.
Lemma small_u32 : forall n, N.ltb n 4294967296 = true -> go_u32 n.
Proof. intros n E. apply N.ltb_lt in E. exact E. Qed.
Lemma ex_sender_wf : wf_sender ex_sender.
Proof.
  split; [|apply b32_len]. split; [apply b32_key|]. split.
  - exists (mkPChainKey 7 (b32 Byte.x08)). split; [reflexivity|]. split; [apply small_u32; reflexivity|apply b32_len].
  - split; [apply Nat.le_0_l|constructor].
Qed.
Lemma ex_receiver_wf : wf_chain ex_receiver.
Proof.
  split; [apply b32_key|]. split.
  - exists (mkPChainKey 2 (b32 Byte.x07)). split; [reflexivity|]. split; [apply small_u32; reflexivity|apply b32_len].
  - cbn [pc_msgkeys ex_receiver]. split.
    + cbn [List.length]. apply le_n_S, Nat.le_0_l.
    + constructor; [|constructor]. split; [apply small_u32; reflexivity|].
      cbn [pmk_cipher pmk_mac pmk_iv]. rewrite !b32_len, repeat_length. auto.
Qed.
Lemma ex_state_of_wf : forall p, (forall x, p = Some x -> wf_pending x) -> wf_state (ex_state_of p).
Proof.
  intros p Wp. split; [reflexivity|]. split; [apply b32_key|]. split; [apply b32_key|]. split; [apply b32_len|].
  split; [apply small_u32; reflexivity|]. split; [exists ex_sender; split; [reflexivity|apply ex_sender_wf]|].
  split; [split; [cbn; lia|constructor; [split; [apply ex_receiver_wf|reflexivity]|constructor]]|].
  split; [exact Wp|]. split; [apply small_u32; reflexivity|]. split; [apply small_u32; reflexivity|apply b32_key].
Qed.
Lemma ex_state_wf : wf_state ex_state.
Proof. apply ex_state_of_wf. discriminate. Qed.
Lemma ex_record_wf : wf_record ex_record.
Proof.
  split; [|split; [cbn; lia|constructor]]. cbn [rc_current ex_record]. intros s E. injection E as <-. apply ex_state_wf.
Qed.
Lemma ex_world_of_wf : forall p sh, wf_device (ex_world_of p sh).
Proof.
  intros p sh. split; [split; [|split]|].
  - cbn [w_sess ex_world_of]. intros a r. destruct (addr_eqb a ex_addr); [|discriminate]. intro E. injection E as <-. apply ex_record_wf.
  - apply ed_to_mont_length.
  - apply small_u32. reflexivity.
  - cbn. discriminate.
Qed.
Lemma ex_device_at : forall p sh,
  device_at (ex_world_of p sh) ex_addr ex_state (b32 Byte.x03) (b32 Byte.x08) 7.
Proof.
  intros p sh. exists ex_record. cbn [w_sess ex_world_of]. rewrite addr_eqb_refl. split; [reflexivity|]. split; [reflexivity|].
  exists ex_sender, (mkPChainKey 7 (b32 Byte.x08)). auto.
Qed.
