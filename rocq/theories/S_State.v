(** Which session states exist in a running program: Go types only. *)
From Verif Require Import M_Base M_State S_Message.

Definition go_i32 (z : Z) : Prop := (-2147483648 <= z < 2147483648)%Z.
Definition go_chain (c : pchain) : Prop :=
  (forall k, pc_key c = Some k -> go_u32 (pck_index k)) /\
  (forall k, In k (pc_msgkeys c) -> go_u32 (pmk_index k)).
(** Numbers are in the range of their Go type. *)
Definition go_state (s : state) : Prop :=
  go_u32 (ss_version s) /\ go_u32 (ss_prevctr s) /\ go_u32 (ss_remote_reg s) /\ go_u32 (ss_local_reg s) /\
  (forall c, ss_sender s = Some c -> go_chain c) /\
  (forall c, In c (ss_receivers s) -> go_chain c) /\
  (forall p, ss_pending s = Some p -> go_u32 (pp_prekey p) /\ go_i32 (pp_signed p)).
