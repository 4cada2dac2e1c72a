(** Theorems for C95. *)
From Verif Require Import M_Base M_Crypto M_Aes M_Curve M_Uuid M_Message M_Ratchet M_State M_Store M_Session M_Group R_Real
  S_Crypto S_Message S_State S_Session S_Api S_Group S_GroupMsg S_X3dh S_Bundle S_Conv S_History S_SmallKeys S_Outcome
  P_Outcome K_Toy K_World K_Conv K_Group K_Outcome.
Local Open Scope nat_scope.

(** * C95  Sending and starting succeed whenever they should *)
(** A message to a peer: without a session the answer says so; with one, the identity store decides. *)
Theorem c95_send : forall C, CryptoOk C -> forall ts w, reachable C (ts, w) -> forall a pt,
  match current_session w a with
  | None => run0 (encrypt_message C a pt) w = (Err (ESessionNotFound a), w)
  | Some s => exists remote, ss_remote s = Byte.x05 :: remote /\
      if w_policy w a (w_ident w a) remote Sending
      then exists c w', run0 (encrypt_message C a pt) w = (Ok c, w')
      else exists w', run0 (encrypt_message C a pt) w = (Err (EUntrusted a), w')
  end.
Proof. exact send_outcome. Qed.
Print Assumptions c95_send.

(** A bundle: accepted exactly when its identity is trusted, its signature is valid and every Diffie-Hellman value exists. *)
Theorem c95_start : forall C, CryptoOk C -> forall w a rnd b ia, wf_bundle b -> pair_for C ia (w_pair w) -> 64 <= List.length rnd ->
  (exists w', run0 (process_bundle C a rnd b) w = (Ok tt, w')) <->
  bundle_trusted w a b /\ bundle_signed C b /\ all_agree C ia (firstn 32 rnd) (firstn 32 (skipn 32 rnd)) b.
Proof. exact start_outcome. Qed.
Print Assumptions c95_start.

(** With the primitives of the standards the last condition is that no key of the bundle is of small order. *)
Theorem c95_start_real : forall w a rnd b ia, wf_bundle b -> pair_for real ia (w_pair w) -> 64 <= List.length rnd ->
  (exists w', run0 (process_bundle real a rnd b) w = (Ok tt, w')) <->
  bundle_trusted w a b /\ bundle_signed real b /\
  forall k, bd_identity b = Some k \/ bd_signed b = Some k \/ bd_prekey b = Some k -> ~ small_key k.
Proof. exact real_start. Qed.
Print Assumptions c95_start_real.

(** A message to a group: it needs a sender key of our own in the first place of the record. *)
Theorem c95_group_send : forall C, CryptoOk C -> forall ts w, reachable C (ts, w) -> forall a d rnd pt, 64 <= List.length rnd ->
  match w_groups w a d with
  | None => exists e, run0 (gencrypt C a d rnd pt) w = (Err e, w)
  | Some r => exists s rest, r = s :: rest /\
      (gs_priv s = [] -> exists e, run0 (gencrypt C a d rnd pt) w = (Err e, w)) /\
      (gs_priv s <> [] -> exists m w', run0 (gencrypt C a d rnd pt) w = (Ok m, w'))
  end.
Proof. exact group_outcome. Qed.
Print Assumptions c95_group_send.

(** Announcing and learning a sender key always succeed. *)
Theorem c95_announce : forall C, CryptoOk C -> forall ts w, reachable C (ts, w) -> forall a d sysrnd rnd,
  4 <= List.length sysrnd -> 64 <= List.length rnd -> exists m w', run0 (new_sender_dist C a d sysrnd rnd) w = (Ok m, w').
Proof. exact announce_outcome. Qed.
Print Assumptions c95_announce.
Theorem c95_learn : forall C, CryptoOk C -> forall ts w, reachable C (ts, w) -> forall a m, wf_dist m ->
  exists w', run0 (process_dist a m) w = (Ok tt, w').
Proof. exact learn_outcome. Qed.
Print Assumptions c95_learn.

Example c95_case : exists b w1 w2 ts1 ts2 s,
  wf_bundle b /\ pair_for toy alice_key (w_pair (alice_world true)) /\ 64 <= List.length alice_rnd /\
  bundle_trusted (alice_world true) (conv_at true) b /\ bundle_signed toy b /\
  all_agree toy alice_key (firstn 32 alice_rnd) (firstn 32 (skipn 32 alice_rnd)) b /\
  run0 (process_bundle toy (conv_at true) alice_rnd b) (alice_world true) = (Ok tt, w1) /\
  reachable toy (ts1, w1) /\ current_session w1 (conv_at true) <> None /\
  reachable toy (ts2, w2) /\ w_groups w2 gx_addr gx_dist = Some [s] /\ gs_priv s <> [].
Proof. exact outcome_case. Qed.
