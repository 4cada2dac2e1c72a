(** The shape of session data: sizes of keys and bounds of every list. *)
From Verif Require Import M_Base M_Curve M_State M_Store S_Message S_State.

(** An encoded public key: type byte 5 and 32 bytes. *)
Definition key33 (b : bytes) : Prop := exists k, List.length k = 32 /\ b = Byte.x05 :: k.

Definition wf_msgkey (k : pmsgkey) : Prop :=
  go_u32 (pmk_index k) /\ List.length (pmk_cipher k) = 32 /\ List.length (pmk_mac k) = 32 /\
  List.length (pmk_iv k) = 16.
(** At most 2000 saved message keys. *)
Definition wf_chain (c : pchain) : Prop :=
  key33 (pc_ratchet c) /\
  (exists k, pc_key c = Some k /\ go_u32 (pck_index k) /\ List.length (pck_key k) = 32) /\
  List.length (pc_msgkeys c) <= 2000 /\ Forall wf_msgkey (pc_msgkeys c).
Definition wf_sender (c : pchain) : Prop := wf_chain c /\ List.length (pc_ratchet_priv c) = 32.
Definition wf_pending (p : ppending) : Prop :=
  go_u32 (pp_prekey p) /\ go_i32 (pp_signed p) /\ key33 (pp_base p).
(** At most 5 receiver chains. *)
Definition wf_state (s : state) : Prop :=
  ss_version s = 3%N /\ key33 (ss_local s) /\ key33 (ss_remote s) /\ List.length (ss_root s) = 32 /\
  go_u32 (ss_prevctr s) /\
  (exists c, ss_sender s = Some c /\ wf_sender c) /\
  (List.length (ss_receivers s) <= 5 /\
   Forall (fun c => wf_chain c /\ pc_ratchet_priv c = []) (ss_receivers s)) /\
  (forall p, ss_pending s = Some p -> wf_pending p) /\
  go_u32 (ss_remote_reg s) /\ go_u32 (ss_local_reg s) /\ key33 (ss_alice_base s).
(** At most 40 archived states, each the encoding of a state of this shape. *)
Definition wf_record (r : record) : Prop :=
  (forall s, rc_current r = Some s -> wf_state s) /\
  List.length (rc_previous r) <= 40 /\
  Forall (fun b => exists s, wf_state s /\ b = state_bytes s) (rc_previous r).
(** A device: its sessions have this shape, its own data has the Go types' sizes. *)
Definition wf_world (w : world) : Prop :=
  (forall a r, w_sess w a = Some r -> wf_record r) /\
  List.length (kp_pub (w_pair w)) = 32 /\ go_u32 (w_reg w).
