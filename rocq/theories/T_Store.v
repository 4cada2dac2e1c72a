(** Properties of what is stored: C27, C37. *)
From Verif Require Import M_Base M_Crypto M_Aes M_Curve M_Uuid M_Message M_Ratchet M_State M_Store M_Session M_Group
  S_Crypto S_Message S_State S_Shape S_Ratchet S_Session S_Api S_Group S_GroupMsg S_Isolation
  P_Isolation P_GroupTop K_Toy K_World K_Conv K_Group.
Local Open Scope nat_scope.

(** * C27  Session memory is bounded *)
Theorem c27_session_bounded : forall C ts w a r, CryptoOk C -> reachable C (ts, w) -> w_sess w a = Some r ->
  List.length (rc_previous r) <= 40 /\ (forall b, In b (rc_previous r) -> exists s, state_parse b = Ok s) /\
  forall s, state_in s r -> session_bounded s.
Proof. exact record_bounded. Qed.
Print Assumptions c27_session_bounded.
Example c27_case : exists w r, reachable toy ([], w) /\ w_sess w gx_addr = Some r /\ rc_current r <> None.
Proof. exact gx_reach_session. Qed.

(** * C37  Conversations are isolated *)
(** A call changes nothing outside the entries it owns, wherever it fails or crashes. *)
Theorem c37_writes_own_entries : forall C c fs w, let '@Thread A p := start C c in
  outside_same (scope_of c) w (snd (run p fs w)) /\
  forall n, outside_same (scope_of c) w (crash n p fs w).
Proof. exact call_writes_scope. Qed.
Print Assumptions c37_writes_own_entries.
(** A call cannot tell apart devices that agree on its own entries: same result, and the
    same entries afterwards. *)
Theorem c37_reads_own_entries : forall C c fs w w', same_view (scope_of c) w w' -> let '@Thread A p := start C c in
  fst (run p fs w') = fst (run p fs w) /\ same_view (scope_of c) (snd (run p fs w)) (snd (run p fs w')).
Proof. exact call_reads_scope. Qed.
Print Assumptions c37_reads_own_entries.
Example c37_case : same_view (OwnSession (mkAddr "bob"%string 1)) (alice_world true) (gx_world true) /\
  same_view (OwnGroup gx_addr (repeat Byte.x01 16)) (alice_world true) (gx_world true) /\
  w_groups (alice_world true) gx_addr gx_dist <> w_groups (gx_world true) gx_addr gx_dist.
Proof. split; [repeat split|]. split; [repeat split|]. discriminate. Qed.
