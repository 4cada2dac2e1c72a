(** C93: a message and its answer bring both devices to the same session. *)
From Verif Require Import M_Base M_Crypto M_Aes M_Curve M_Message M_Ratchet M_State M_Store M_Session
  S_Crypto S_Send S_Session S_X3dh S_Receive S_Conv S_History S_Many S_Net P_NetCut P_Agree K_Toy K_World K_Conv K_Net K_Agree.
Local Open Scope nat_scope.

(** Device [d] of a network reads a message of [e] and answers; [e] reads the answer. Whatever sessions the two have and whichever
    was current before, both now send in the session of the message. *)
Theorem c93_round_trip : forall C dev es1 c es2 d e k n pt m rnd pt2, CryptoOk C -> net C dev (es1 ++ c :: es2) -> d <> e -> In d [cb_from c; cb_to c] -> In e [cb_from c; cb_to c] ->
  In (mkNote (negb (cb_role c d)) k n pt m) (ln_notes (cb_link c)) -> receivable (ln_par (cb_link c) (cb_role c d)) k n ->
  all_fresh C (all_keys (links_between d e (es1 ++ c :: es2))) (ln_par (cb_link c) (cb_role c d)) k (List.length (links_between d e (es1 ++ c :: es2))) rnd ->
  (has_cable c d -> ~ misread C (dev d) e (ln_base (cb_link c)) m) ->
  (forall old dir, w_policy (dev d) e old (kp_pub (w_pair (dev e))) dir = true) ->
  (p_sent (party_after (ln_par (cb_link c) (cb_role c d)) k n) + 1 < 4294967296)%N ->
  exists w1 m2 w2 u, let p := party_after (ln_par (cb_link c) (cb_role c d)) k n in
    let es' := es1 ++ mkCable (cb_from c) (cb_to c) (link_sent (link_got (cb_link c) (cb_role c d) k n u) (cb_role c d) pt2 m2) :: es2 in
    run0 (decrypt_message C e rnd m) (dev d) = (Ok pt, w1) /\ run0 (encrypt_message C e pt2) w1 = (Ok m2, w2) /\
    current_base w2 e (ln_base (cb_link c)) /\ (k = S (p_epoch (ln_par (cb_link c) (cb_role c d))) -> drawn C (List.length (links_between d e (es1 ++ c :: es2))) rnd u) /\
    net C (dev_set (dev_set dev d w1) d w2) es' /\
    forall rnd2, receivable (ln_par (cb_link c) (cb_role c e)) (p_epoch p) (p_sent p) ->
      all_fresh C (all_keys (links_between e d es')) (ln_par (cb_link c) (cb_role c e)) (p_epoch p) (List.length (links_between e d es')) rnd2 ->
      (has_cable c e -> ~ misread C (dev e) d (ln_base (cb_link c)) m2) ->
      w_policy (dev e) d (w_ident (dev e) d) (kp_pub (w_pair (dev d))) Receiving = true ->
      exists w3, run0 (decrypt_message C d rnd2 m2) (dev e) = (Ok pt2, w3) /\ current_base w3 d (ln_base (cb_link c)).
Proof. intros C dev es1 c es2 d e k n pt m rnd pt2 H. exact (round_trip C H dev es1 c es2 d e k n pt m rnd pt2). Qed.
Print Assumptions c93_round_trip.
(** Sending never changes the session, whatever the stores do. *)
Theorem c93_sending_keeps : forall C dev es d e pt fs m w' base, CryptoOk C -> net C dev es -> current_base (dev d) e base ->
  run (encrypt_message C e pt) fs (dev d) = (Ok m, w') -> current_base w' e base.
Proof. intros C dev es d e pt fs m w' base H M. exact (send_current C H e pt fs (dev d) m w' base (net_wf C H dev es d M)). Qed.
Print Assumptions c93_sending_keeps.

(** Alice and Bob begin sessions with each other at the same time, so each sends in their own; Bob reads Alice's message and
    answers, Alice reads the answer: both send in Alice's session. *)
Example c93_case : forall sh : bool, exists dev es c c' m w1 m2 w2 w3, net toy dev es /\ es = [c; c'] /\ cb_from c = at_a /\ cb_to c = at_b /\ cb_from c' = at_b /\ cb_to c' = at_a /\ (forall d, w_shared (dev d) = sh) /\
  ln_base (cb_link c) <> ln_base (cb_link c') /\ current_base (dev at_a) at_b (ln_base (cb_link c)) /\ current_base (dev at_b) at_a (ln_base (cb_link c')) /\
  run0 (decrypt_message toy at_a (b32 Byte.x62 ++ b32 Byte.x64) m) (dev at_b) = (Ok (str "hello"), w1) /\ run0 (encrypt_message toy at_a (str "hi")) w1 = (Ok m2, w2) /\
  run0 (decrypt_message toy at_b (b32 Byte.x63 ++ b32 Byte.x65) m2) (dev at_a) = (Ok (str "hi"), w3) /\
  current_base w2 at_a (ln_base (cb_link c)) /\ current_base w3 at_b (ln_base (cb_link c)).
Proof. exact agree_case. Qed.
