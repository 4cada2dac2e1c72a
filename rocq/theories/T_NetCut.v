(** C91: a network survives failures and crashes of any call. *)
From Verif Require Import M_Base M_Crypto M_Aes M_Curve M_Message M_Ratchet M_State M_Store M_Session
  S_Crypto S_Message S_Api S_Shape S_Send S_Session S_X3dh S_Receive S_Conv S_History S_Spent S_Atomic S_Many S_Net P_NetCut P_NetShared K_Toy K_World K_Conv K_Net K_NetCut.
Local Open Scope nat_scope.

(** Sending: the network is as before the call or as after it. *)
Theorem c91_send_cut : forall C dev es1 c es2 d e pt w', CryptoOk C -> net C dev (es1 ++ c :: es2) ->
  d <> e -> In d [cb_from c; cb_to c] -> In e [cb_from c; cb_to c] -> current_base (dev d) e (ln_base (cb_link c)) ->
  (p_sent (ln_par (cb_link c) (cb_role c d)) + 1 < 4294967296)%N -> leaves (encrypt_message C e pt) (dev d) w' ->
  exists dev', (forall x, dev' x = dev_set dev d w' x) /\
    (net C dev' (es1 ++ c :: es2) \/
     exists m, net C dev' (es1 ++ mkCable (cb_from c) (cb_to c) (link_sent (cb_link c) (cb_role c d) pt m) :: es2)).
Proof. intros C dev es1 c es2 d e pt w' H. exact (net_send_any C H dev es1 c es2 d e pt w'). Qed.
Print Assumptions c91_send_cut.
(** Beginning a session. *)
Theorem c91_begin_cut : forall C dev es d e b ia ib sb ob rnd w', CryptoOk C -> net C dev es -> d <> e ->
  List.length (links_between d e es) <= 40 -> wf_bundle b ->
  pair_for C ia (w_pair (dev d)) -> published C (dev e) b ib sb ob -> 64 <= List.length rnd ->
  ~ In (mont_pub C (firstn 32 rnd)) (bases (links_between d e es)) ->
  ~ In (mont_pub C (firstn 32 (skipn 32 rnd))) (mont_pub C sb :: all_keys (links_between d e es)) ->
  (forall l, In l (links_between d e es) -> ~ In (mont_pub C sb) (tl (ln_keys l))) ->
  (forall c id, In c es -> cb_to c = e -> bd_prekey_id (ln_bundle (cb_link c)) = Some id -> bd_prekey_id b <> Some id) ->
  leaves (process_bundle C e rnd b) (dev d) w' ->
  exists dev', (forall x, dev' x = dev_set dev d w' x) /\
    (net C dev' es \/
     net C dev' (mkCable d e (mkLink true b (mont_pub C (firstn 32 rnd)) start_party [mont_pub C sb; mont_pub C (firstn 32 (skipn 32 rnd))] []) :: es)).
Proof. intros C dev es d e b ia ib sb ob rnd w' H. exact (net_begin_any C H dev es d e b ia ib sb ob rnd w'). Qed.
Print Assumptions c91_begin_cut.
(** Receiving. On the shared stores of the repository: in a session the device has, or when it has no record of the other. *)
Theorem c91_receive_cut : forall C dev es1 c es2 d e k n pt m rnd w', CryptoOk C -> net C dev (es1 ++ c :: es2) -> w_shared (dev d) = false \/ has_cable c d \/ w_sess (dev d) e = None ->
  d <> e -> In d [cb_from c; cb_to c] -> In e [cb_from c; cb_to c] ->
  In (mkNote (negb (cb_role c d)) k n pt m) (ln_notes (cb_link c)) -> receivable (ln_par (cb_link c) (cb_role c d)) k n ->
  all_fresh C (all_keys (links_between d e (es1 ++ c :: es2))) (ln_par (cb_link c) (cb_role c d)) k (List.length (links_between d e (es1 ++ c :: es2))) rnd ->
  (has_cable c d -> ~ misread C (dev d) e (ln_base (cb_link c)) m) ->
  leaves (decrypt_message C e rnd m) (dev d) w' ->
  exists dev', (forall x, dev' x = dev_set dev d w' x) /\
    (net C dev' (es1 ++ c :: es2) \/
     exists u, current_ratchet w' e u /\ net C dev' (es1 ++ mkCable (cb_from c) (cb_to c) (link_got (cb_link c) (cb_role c d) k n u) :: es2)).
Proof. intros C dev es1 c es2 d e k n pt m rnd w' H. exact (net_receive_any C H dev es1 c es2 d e k n pt m rnd w'). Qed.
Print Assumptions c91_receive_cut.
(** A message at or ahead of its chain whose decryption was cut off is delivered when it comes again, and the network goes on. *)
Theorem c91_redelivered : forall C dev es1 c es2 d e k n pt m rnd w' rnd2, CryptoOk C -> net C dev (es1 ++ c :: es2) ->
  d <> e -> In d [cb_from c; cb_to c] -> In e [cb_from c; cb_to c] ->
  In (mkNote (negb (cb_role c d)) k n pt m) (ln_notes (cb_link c)) -> ahead (ln_par (cb_link c) (cb_role c d)) k n ->
  all_fresh C (all_keys (links_between d e (es1 ++ c :: es2))) (ln_par (cb_link c) (cb_role c d)) k (List.length (links_between d e (es1 ++ c :: es2))) rnd ->
  (has_cable c d -> ~ misread C (dev d) e (ln_base (cb_link c)) m) ->
  leaves (decrypt_message C e rnd m) (dev d) w' ->
  all_fresh C (all_keys (links_between d e (es1 ++ c :: es2))) (ln_par (cb_link c) (cb_role c d)) k (List.length (links_between d e (es1 ++ c :: es2))) rnd2 ->
  ~ misread C w' e (ln_base (cb_link c)) m -> w_policy w' e (w_ident w' e) (kp_pub (w_pair (dev e))) Receiving = true ->
  exists w'' dev'' l, run0 (decrypt_message C e rnd2 m) w' = (Ok pt, w'') /\ (forall x, dev'' x = dev_set dev d w'' x) /\
    net C dev'' (es1 ++ mkCable (cb_from c) (cb_to c) l :: es2) /\
    exists u, current_ratchet w'' e u /\ (l = link_got (cb_link c) (cb_role c d) k n u \/
      exists u0, l = link_got (link_got (cb_link c) (cb_role c d) k n u0) (cb_role c d) k n u).
Proof. intros C dev es1 c es2 d e k n pt m rnd w' rnd2 H. exact (net_healed C H dev es1 c es2 d e k n pt m rnd w' rnd2). Qed.
Print Assumptions c91_redelivered.

(** Three devices, with either kind of stores; the first store call fails when Bob receives Alice's message. *)
Example c91_case : forall sh, exists dev es c m w', net toy dev es /\ List.length es = 2 /\ In c es /\ cb_from c = at_a /\ cb_to c = at_b /\ w_shared (dev at_b) = sh /\ w_sess (dev at_b) at_a = None /\
  In (mkNote (negb (cb_role c at_b)) 1 0 (str "hello") m) (ln_notes (cb_link c)) /\ ahead (ln_par (cb_link c) (cb_role c at_b)) 1 0 /\
  all_fresh toy (all_keys (links_between at_b at_a es)) (ln_par (cb_link c) (cb_role c at_b)) 1 (List.length (links_between at_b at_a es)) (b32 Byte.x62) /\
  ~ has_cable c at_b /\ run (decrypt_message toy at_a (b32 Byte.x62) m) [FBefore] (dev at_b) = (Err EStore, w') /\
  ~ misread toy w' at_a (ln_base (cb_link c)) m /\ w_policy w' = all_trusted.
Proof. exact netcut_case. Qed.
