(** C86: a network of any number of devices. *)
From Verif Require Import M_Base M_Crypto M_Aes M_Curve M_Message M_Ratchet M_State M_Store M_Session
  S_Crypto S_Send S_Session S_X3dh S_Receive S_Conv S_History S_Many S_Net P_Net K_Toy K_World K_Conv K_Net.
Local Open Scope nat_scope.

(** Whatever else happens in the network, any two devices run as if they were alone (C85). *)
Theorem c86_pairs : forall C dev es x y, CryptoOk C -> net C dev es -> x <> y ->
  exists dv, many C (facing x y) dv (links_between x y es) /\ dv true = dev x /\ dv false = dev y.
Proof. intros C dev es x y H. exact (net_pairs C H dev es x y). Qed.
Print Assumptions c86_pairs.
(** So a receivable message of any session of any two devices is delivered. *)
Theorem c86_delivered : forall C dev es c d e k n pt m rnd, CryptoOk C -> net C dev es -> In c es -> d <> e -> In d [cb_from c; cb_to c] -> In e [cb_from c; cb_to c] ->
  In (mkNote (negb (cb_role c d)) k n pt m) (ln_notes (cb_link c)) -> receivable (ln_par (cb_link c) (cb_role c d)) k n ->
  all_fresh C (all_keys (links_between d e es)) (ln_par (cb_link c) (cb_role c d)) k (List.length (links_between d e es)) rnd ->
  (has_cable c d -> ~ misread C (dev d) e (ln_base (cb_link c)) m) ->
  w_policy (dev d) e (w_ident (dev d) e) (kp_pub (w_pair (dev e))) Receiving = true ->
  exists w', run0 (decrypt_message C e rnd m) (dev d) = (Ok pt, w').
Proof. intros C dev es c d e k n pt m rnd H. exact (net_delivered C H dev es c d e k n pt m rnd). Qed.
Print Assumptions c86_delivered.
(** Whatever the stores do, an answer without error is the plaintext that was sent. *)
Theorem c86_never_wrong : forall C dev es c d e k n pt m rnd fs pt' w', CryptoOk C -> net C dev es -> In c es -> d <> e -> In d [cb_from c; cb_to c] -> In e [cb_from c; cb_to c] ->
  In (mkNote (negb (cb_role c d)) k n pt m) (ln_notes (cb_link c)) -> receivable (ln_par (cb_link c) (cb_role c d)) k n ->
  all_fresh C (all_keys (links_between d e es)) (ln_par (cb_link c) (cb_role c d)) k (List.length (links_between d e es)) rnd ->
  (has_cable c d -> ~ misread C (dev d) e (ln_base (cb_link c)) m) ->
  run (decrypt_message C e rnd m) fs (dev d) = (Ok pt', w') ->
  pt' = pt /\ current_base w' e (ln_base (cb_link c)) /\
  exists u, current_ratchet w' e u /\ (k = S (p_epoch (ln_par (cb_link c) (cb_role c d))) -> drawn C (List.length (links_between d e es)) rnd u).
Proof. intros C dev es c d e k n pt m rnd fs pt' w' H. exact (net_answered C H dev es c d e k n pt m rnd fs pt' w'). Qed.
Print Assumptions c86_never_wrong.
(** A device that has a session with another can send to it. *)
Theorem c86_sendable : forall C dev es c d e pt, CryptoOk C -> net C dev es -> In c es -> d <> e -> In d [cb_from c; cb_to c] -> In e [cb_from c; cb_to c] -> has_cable c d ->
  w_policy (dev d) e (w_ident (dev d) e) (kp_pub (w_pair (dev e))) Sending = true ->
  exists c' m w', In c' es /\ In d [cb_from c'; cb_to c'] /\ In e [cb_from c'; cb_to c'] /\ has_cable c' d /\ current_base (dev d) e (ln_base (cb_link c')) /\
    run0 (encrypt_message C e pt) (dev d) = (Ok m, w').
Proof. intros C dev es c d e pt H. exact (net_sendable C H dev es c d e pt). Qed.
Print Assumptions c86_sendable.

(** Three devices: two write to the third, which also sets up a group. *)
Example c86_case : forall sh : bool, exists dev es c m, net toy dev es /\ List.length es = 2 /\ In c es /\ cb_from c = at_a /\ cb_to c = at_b /\
  In (mkNote (negb (cb_role c at_b)) 1 0 (str "hello") m) (ln_notes (cb_link c)) /\ receivable (ln_par (cb_link c) (cb_role c at_b)) 1 0 /\
  all_fresh toy (all_keys (links_between at_b at_a es)) (ln_par (cb_link c) (cb_role c at_b)) 1 (List.length (links_between at_b at_a es)) (b32 Byte.x62) /\
  ~ has_cable c at_b /\ w_policy (dev at_b) = all_trusted.
Proof. exact net_case. Qed.
