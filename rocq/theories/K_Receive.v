(** Concrete devices for the theorems of T_Receive.v. *)
From Coq Require Import String.
From Verif Require Import M_Base M_Crypto M_Aes M_Curve M_Uuid M_Message M_Ratchet M_State M_Store M_Session M_Group
  S_Crypto S_Message S_State S_Shape S_Ratchet S_Session S_Api S_Send S_Group S_X3dh S_Receive
  P_Base P_Curve P_Shape P_Ratchet P_Chain P_Encrypt P_Send P_X3dh P_DecTop P_DecMore P_Replay P_Archive P_Trust K_Toy K_World.
Local Open Scope nat_scope.

(** A receiving chain at index [i] with saved keys [ks], a session with it, and a device
    whose session with [ex_addr] has the given current and archived states. *)
Definition rx_chain (i : N) (ks : list pmsgkey) : pchain :=
  mkPChain (Byte.x05 :: b32 Byte.x06) [] (Some (mkPChainKey i (b32 Byte.x07))) ks.
Definition rx_state (i : N) (ks : list pmsgkey) : state :=
  mkState 3 (Byte.x05 :: b32 Byte.x01) (Byte.x05 :: b32 Byte.x02) (b32 Byte.x09) 0 (Some ex_sender) [rx_chain i ks]
    None 11 12 (Byte.x05 :: b32 Byte.x0d).
Definition rx_world (cur : state) (old : list state) (ident : option pubkey) (shared : bool) : world :=
  mkWorld (fun a => if addr_eqb a ex_addr then Some (mkRecord (Some cur) (map state_bytes old)) else None)
    (fun a => if addr_eqb a ex_addr then ident else None) (fun _ => None) (fun _ => None)
    (fun _ _ => None) ex_pair 12 inmem_policy shared.

Lemma rx_state_wf : forall i ks, N.ltb i 4294967296 = true -> List.length ks <= 2000 -> Forall wf_msgkey ks -> wf_state (rx_state i ks).
Proof.
  intros i ks G L F. split; [reflexivity|]. split; [apply b32_key|]. split; [apply b32_key|]. split; [apply b32_len|].
  split; [apply small_u32; reflexivity|]. split; [exists ex_sender; split; [reflexivity|apply ex_sender_wf]|].
  split; [split; [cbn; lia|]|].
  - constructor; [|constructor]. split; [|reflexivity]. split; [apply b32_key|]. split; [|split; assumption].
    eexists. split; [reflexivity|]. split; [apply small_u32; exact G|apply b32_len].
  - split; [discriminate|]. split; [apply small_u32; reflexivity|]. split; [apply small_u32; reflexivity|apply b32_key].
Qed.
Lemma rx_world_wf : forall cur old ident sh, wf_state cur -> Forall wf_state old -> List.length old <= 40 ->
  wf_device (rx_world cur old ident sh).
Proof.
  intros cur old ident sh Wc Wo Lo. split; [split; [|split]|].
  - cbn [w_sess rx_world]. intros a r. destruct (addr_eqb a ex_addr); [|discriminate]. intro E. injection E as <-.
    split; [intros s E; injection E as <-; exact Wc|]. cbn [rc_previous]. rewrite map_length. split; [exact Lo|].
    apply Forall_forall. intros b I. apply in_map_iff in I. destruct I as (s & <- & I). rewrite Forall_forall in Wo. exists s. auto.
  - apply ed_to_mont_length.
  - apply small_u32. reflexivity.
  - cbn. discriminate.
Qed.
Lemma rx_session : forall i ks old ident sh,
  session_at (rx_world (rx_state i ks) old ident sh) ex_addr (rx_state i ks) (b32 Byte.x01) (b32 Byte.x02).
Proof. intros. eexists. split; [reflexivity|]. auto. Qed.
Lemma rx_receiving : forall i ks, receiving_at (rx_state i ks) (b32 Byte.x06) (b32 Byte.x07) i ks.
Proof. intros. exists [], (rx_chain i ks), []. auto 10. Qed.
Lemma rx_trusts : forall cur old sh, trusts (rx_world cur old None sh) ex_addr (b32 Byte.x02).
Proof. intros. split; reflexivity. Qed.
Lemma rx_message : forall C key n pt, CryptoOk C -> exists m,
  whisper C key n (b32 Byte.x06) (b32 Byte.x02) (b32 Byte.x01) pt m.
Proof.
  intros C key n pt H. destruct (whisper_total C (mkChainKey key n) (b32 Byte.x06) 0 (b32 Byte.x02) (b32 Byte.x01) pt H) as (b & m & _ & _ & W).
  exists m. exact W.
Qed.
(** A message nobody can open: its body is not a whole number of blocks. *)
Definition junk : signal := mkSignal 3 (b32 Byte.x0f) 0 0 [Byte.x01] (b32 Byte.x33).
Lemma junk_wf : wf_signal junk.
Proof. split; [apply b32_len|]. split; [apply small_u32; reflexivity|]. split; [cbn; lia|reflexivity]. Qed.
Lemma junk_opens : forall C s pt, ~ opens C s junk pt.
Proof. intros C s pt. apply garbage_body. discriminate. Qed.
(** A pre-key message naming signed pre-key 5, with a fresh base key and a junk inside. *)
Definition rx_peer : bytes := b32 Byte.x21.
Definition rx_base : bytes := b32 Byte.x22.
Definition junk_prekey (C : Crypto) : prekeymsg :=
  mkPreKeyMsg 3 9 None 5 (mont_pub C rx_base) (mont_pub C rx_peer) junk [].
Lemma junk_prekey_wf : forall C, wf_prekeymsg (junk_prekey C).
Proof.
  intro C. split; [reflexivity|]. split; [apply ed_to_mont_length|]. split; [apply ed_to_mont_length|].
  split; [apply small_u32; reflexivity|]. split; [apply small_u32; reflexivity|]. split; [discriminate|]. apply junk_wf.
Qed.
(** A device that holds signed pre-key 5. *)
Definition bob_key : bytes := b32 Byte.x23.
Definition bob_signed_key : bytes := b32 Byte.x24.
Lemma pair_of_for : forall C k, List.length k = 32 -> pair_for C k (pair_of C k).
Proof. intros C k L. unfold pair_for. auto. Qed.
