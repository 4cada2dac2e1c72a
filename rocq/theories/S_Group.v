(** Vocabulary of the group properties. *)
From Verif Require Import M_Base M_Crypto M_Aes M_Curve M_Uuid M_Message M_Ratchet M_State M_Store
  S_Message S_State S_Shape S_Ratchet.

Definition wf_gmk (k : gmk) : Prop := go_u32 (gm_iter k) /\ List.length (gm_seed k) = 32.
(** One sender's chain: at most 2000 saved keys. A receiver holds no private key. *)
Definition wf_gstate (s : gstate) : Prop :=
  gs_version s = 3%N /\ go_u32 (gs_chain s) /\ go_u32 (gs_iter s) /\ List.length (gs_seed s) = 32 /\
  key33 (gs_pub s) /\ (gs_priv s = [] \/ List.length (gs_priv s) = 32) /\
  List.length (gs_keys s) <= 2000 /\ Forall wf_gmk (gs_keys s).
(** At most 5 states, no two with the same chain id. *)
Definition wf_grecord (r : grecord) : Prop :=
  List.length r <= 5 /\ NoDup (map gs_chain r) /\ Forall wf_gstate r.

(** A device of this shape. Every execution keeps to it (P_Api.v: reachable_wf). *)
Definition wf_device (w : world) : Prop :=
  wf_world w /\ forall a d r, w_groups w a d = Some r -> wf_grecord r.
