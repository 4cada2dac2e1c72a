(** A network with an attacker on every line: C96. *)
From Verif Require Import M_Base M_Crypto M_Aes M_Curve M_Message M_Ratchet M_State M_Store M_Session M_Group
  S_Crypto S_Message S_Shape S_Ratchet S_Session S_Api S_Send S_Group S_X3dh S_Receive S_Conv S_History S_Isolation S_Atomic S_Size S_Transit S_Schedule S_Speak S_Attack S_Many S_Net S_Hostile
  P_Hostile P_HostileShared K_Toy K_Conv K_Net K_Hostile K_HostileShared.
Local Open Scope nat_scope.

(** * C96 *)
(** Whatever device [d] returns, without error, for any bytes said to come from [e], with any
    store failures and either kind of stores: it is what [e] sent to [d] in one of their sessions; or
    the bytes forge the tag of one of these; or they are a pre-key message for a new session, which opens it; or
    this is the empty answer of C25. *)
Theorem c96_answers : forall C dev es d e x rnd fs pt w', CryptoOk C -> net C dev es -> d <> e -> sized es ->
  run (receive_bytes C e rnd x) fs (dev d) = (Ok pt, w') ->
  exists ct m, unposted x = Ok ct /\ inner ct = Some m /\
    ((exists c y, In c es /\ sent_on c d e y /\ inner (nt_cipher y) = Some m /\ nt_text y = pt) \/
     net_forgery C dev es d e m \/
     (exists pm s, ct = CPreKey pm /\ unused_base (dev d) e (pm_base pm) /\ ss_remote s = Byte.x05 :: pm_identity pm /\ ss_local s = Byte.x05 :: kp_pub (w_pair (dev d)) /\
        ss_alice_base s = Byte.x05 :: pm_base pm /\ opens C s m pt) \/
     (exists r err, ct = CSignal m /\ w_sess (dev d) e = Some r /\ decrypt_record C rnd r m = Err err /\ pt = [])).
Proof. intros C dev es d e x rnd fs pt w' H. exact (net_answers C H dev es d e x rnd fs pt w'). Qed.
Print Assumptions c96_answers.
(** The third case, with the identity, base key and ids of a session that [e] has begun and [d] not yet
    accepted: again what [e] sent, or a forgery. *)
Theorem c96_first : forall C dev es c d e x pm rnd fs pt w', CryptoOk C -> net C dev es -> sized es -> In c es -> cb_from c = e -> cb_to c = d -> ~ has_cable c d ->
  unposted x = Ok (CPreKey pm) -> pm_base pm = ln_base (cb_link c) -> pm_identity pm = kp_pub (w_pair (dev e)) ->
  pm_prekey_id pm = bd_prekey_id (ln_bundle (cb_link c)) -> pm_signed_id pm = bd_signed_id (ln_bundle (cb_link c)) ->
  run (receive_bytes C e rnd x) fs (dev d) = (Ok pt, w') ->
  (exists c' y, In c' es /\ sent_on c' d e y /\ inner (nt_cipher y) = Some (pm_message pm) /\ nt_text y = pt) \/
  first_forgery C (ln_bundle (cb_link c)) (kp_pub (w_pair (dev d))) (ln_base (cb_link c)) (kp_pub (w_pair (dev e))) (sent_on c d e) (pm_message pm) \/
  net_forgery C dev es d e (pm_message pm).
Proof. intros C dev es c d e x pm rnd fs pt w' H. exact (net_first C H dev es c d e x pm rnd fs pt w'). Qed.
Print Assumptions c96_first.
(** Any bytes may arrive at any device whose stores copy, and the call that handles them may be cut
    off or meet store failures. Without forgeries, the network is afterwards as before, or as after a message
    that was sent arrived; or the bytes are no such message and set up a new session. *)
Theorem c96_any_bytes : forall C dev es d e x rnd w', CryptoOk C -> net C dev es -> d <> e -> w_shared (dev d) = false ->
  kp_pub (w_pair (dev d)) <> kp_pub (w_pair (dev e)) -> sized es -> new_keys C es d e rnd ->
  (forall m, carries x m -> ~ net_forgery C dev es d e m) ->
  leaves (receive_bytes C e rnd x) (dev d) w' ->
  (exists dev', (forall z, dev' z = dev_set dev d w' z) /\
     (net C dev' es \/
      exists es1 c es2 y m u, es = es1 ++ c :: es2 /\ sent_on c d e y /\ inner (nt_cipher y) = Some m /\ carries x m /\
        receivable (ln_par (cb_link c) (cb_role c d)) (nt_epoch y) (nt_counter y) /\ current_ratchet w' e u /\
        net C dev' (es1 ++ mkCable (cb_from c) (cb_to c) (link_got (cb_link c) (cb_role c d) (nt_epoch y) (nt_counter y) u) :: es2))) \/
  exists ct, unposted x = Ok ct /\ sets_up C (dev d) e rnd ct /\
    forall c y, In c es -> sent_on c d e y -> receivable (ln_par (cb_link c) (cb_role c d)) (nt_epoch y) (nt_counter y) -> posted (nt_cipher y) <> x.
Proof. intros C dev es d e x rnd w' H. exact (net_any_bytes C H dev es d e x rnd w'). Qed.
Print Assumptions c96_any_bytes.
(** The same on stores that share what they hold; there, a pre-key message with a base key that is new
    to the device may do more (C26, C71). *)
Theorem c96_shared : forall C dev es d e x rnd w', CryptoOk C -> net C dev es -> d <> e -> w_shared (dev d) = true ->
  kp_pub (w_pair (dev d)) <> kp_pub (w_pair (dev e)) -> sized es -> new_keys C es d e rnd ->
  (forall m, carries x m -> ~ net_forgery C dev es d e m) ->
  leaves (receive_bytes C e rnd x) (dev d) w' ->
  (exists dev', (forall z, dev' z = dev_set dev d w' z) /\
     (net C dev' es \/
      exists es1 c es2 y m u, es = es1 ++ c :: es2 /\ sent_on c d e y /\ inner (nt_cipher y) = Some m /\ carries x m /\
        receivable (ln_par (cb_link c) (cb_role c d)) (nt_epoch y) (nt_counter y) /\ current_ratchet w' e u /\
        net C dev' (es1 ++ mkCable (cb_from c) (cb_to c) (link_got (cb_link c) (cb_role c d) (nt_epoch y) (nt_counter y) u) :: es2))) \/
  exists pm, unposted x = Ok (CPreKey pm) /\ unused_base (dev d) e (pm_base pm).
Proof. intros C dev es d e x rnd w' H. exact (net_any_shared C H dev es d e x rnd w'). Qed.
Print Assumptions c96_shared.

(** Three devices; Alice's first message arrives at Bob. *)
Example c96_case : exists dev es c m pm rnd w', net toy dev es /\ List.length es = 2 /\ In c es /\ cb_from c = at_a /\ cb_to c = at_b /\ ~ has_cable c at_b /\
  w_shared (dev at_b) = false /\ kp_pub (w_pair (dev at_b)) <> kp_pub (w_pair (dev at_a)) /\ sized es /\ new_keys toy es at_b at_a rnd /\
  (forall m', carries (posted m) m' -> ~ net_forgery toy dev es at_b at_a m') /\
  unposted (posted m) = Ok (CPreKey pm) /\ pm_base pm = ln_base (cb_link c) /\ pm_identity pm = kp_pub (w_pair (dev at_a)) /\
  pm_prekey_id pm = bd_prekey_id (ln_bundle (cb_link c)) /\ pm_signed_id pm = bd_signed_id (ln_bundle (cb_link c)) /\
  run0 (receive_bytes toy at_a rnd (posted m)) (dev at_b) = (Ok (str "hello"), w') /\
  exists y, sent_on c at_b at_a y /\ inner (nt_cipher y) = Some (pm_message pm) /\ nt_text y = str "hello".
Proof. exact hostile_case. Qed.
(** Bob, on shared stores, has received Alice's first message and gets it again. *)
Example c96_shared_case : exists dev es c m pm rnd, net toy dev es /\ List.length es = 2 /\ In c es /\ cb_from c = at_a /\ cb_to c = at_b /\ has_cable c at_b /\
  w_shared (dev at_b) = true /\ kp_pub (w_pair (dev at_b)) <> kp_pub (w_pair (dev at_a)) /\ sized es /\ new_keys toy es at_b at_a rnd /\
  (forall m', carries (posted m) m' -> ~ net_forgery toy dev es at_b at_a m') /\
  unposted (posted m) = Ok (CPreKey pm) /\ ~ unused_base (dev at_b) at_a (pm_base pm) /\
  exists y, sent_on c at_b at_a y /\ nt_cipher y = m.
Proof. exact shared_case. Qed.
