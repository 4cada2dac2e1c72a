(** C92: groups in a network. *)
From Verif Require Import M_Base M_Crypto M_Aes M_Curve M_Uuid M_Message M_Ratchet M_State M_Store M_Session M_Group
  S_Crypto S_Message S_Session S_Group S_GroupMsg S_Receive S_Conv S_History S_Size S_Transit S_Team S_Many S_Net S_Enrolled P_Enrolled K_Toy K_World K_Conv K_Group K_Net K_Enrolled.
Local Open Scope nat_scope.

(** A receivable one-to-one message in the network that carries a distribution message makes its receiver a member. *)
Theorem c92_accepted : forall C dev es1 cb es2 d e k n dm m rnd, CryptoOk C -> net C dev (es1 ++ cb :: es2) -> d <> e -> In d [cb_from cb; cb_to cb] -> In e [cb_from cb; cb_to cb] ->
  In (mkNote (negb (cb_role cb d)) k n (dm_raw dm) m) (ln_notes (cb_link cb)) -> receivable (ln_par (cb_link cb) (cb_role cb d)) k n ->
  all_fresh C (all_keys (links_between d e (es1 ++ cb :: es2))) (ln_par (cb_link cb) (cb_role cb d)) k (List.length (links_between d e (es1 ++ cb :: es2))) rnd ->
  (has_cable cb d -> ~ misread C (dev d) e (ln_base (cb_link cb)) m) ->
  w_policy (dev d) e (w_ident (dev d) e) (kp_pub (w_pair (dev e))) Receiving = true ->
  (exists me dist sysrnd rnd0 fs w0 w1, own_device C w0 /\ List.length dist = 16 /\ run (new_sender_dist C me dist sysrnd rnd0) fs w0 = (Ok dm, w1)) ->
  (forall s, follows (dev d) e (dm_dist dm) (dm_chain dm) s -> gs_pub s <> Byte.x05 :: dm_signing dm) ->
  exists w u, run0 (accept_invitation C e rnd (posted m)) (dev d) = (Ok tt, w) /\
    enrolled C d e (channel_of dm) [] (dev_set dev d w) (es1 ++ mkCable (cb_from cb) (cb_to cb) (link_got (cb_link cb) (cb_role cb d) k n u) :: es2).
Proof. intros C dev es1 cb es2 d e k n dm m rnd H. exact (enrolling C H dev es1 cb es2 d e k n dm m rnd). Qed.
Print Assumptions c92_accepted.
(** The network with a member is still one of C86, up to the extension of [dev], so C85, C86 and C91 go on holding; and the
    member is one of C45. *)
Theorem c92_network : forall C d e c l dev es, CryptoOk C -> enrolled C d e c l dev es ->
  (exists dev0, (forall x, dev0 x = dev x) /\ net C dev0 es) /\ member C e c l (dev d).
Proof. intros C d e c l dev es H. exact (enrolled_member C H d e c l dev es). Qed.
Print Assumptions c92_network.
(** Whatever has happened in the network since, the bytes of any of the 2000 messages sent first give the plaintext the first
    time they arrive, and are recognised as a duplicate later. *)
Theorem c92_delivered : forall C d e l dev es me dist sysrnd rnd0 fs w0 dm w1 k sent w2 pt x, CryptoOk C ->
  own_device C w0 -> List.length dist = 16 -> run (new_sender_dist C me dist sysrnd rnd0) fs w0 = (Ok dm, w1) ->
  gtries C me dist k w1 sent w2 -> k <= 2000 -> (dm_iter dm + N.of_nat k < 4294967296)%N -> In (pt, x) sent -> (size pt < 2 ^ 62)%N ->
  enrolled C d e (channel_of dm) l dev es -> (forall n, accepted l n -> (n < dm_iter dm + 2000)%N) ->
  exists r w, run0 (greceive_bytes C e (sm_raw x)) (dev d) = (r, w) /\ enrolled C d e (channel_of dm) (l ++ [(sm_iter x, pt, r)]) (dev_set dev d w) es /\
    (accepted l (sm_iter x) /\ r = Err EDuplicate \/ ~ accepted l (sm_iter x) /\ r = Ok pt) /\
    (dm_iter dm <= sm_iter x < dm_iter dm + 2000)%N.
Proof. intros C d e l dev es me dist sysrnd rnd0 fs w0 dm w1 k sent w2 pt x H. exact (enrolled_delivered C H d e l dev es me dist sysrnd rnd0 fs w0 dm w1 k sent w2 pt x). Qed.
Print Assumptions c92_delivered.

(** Alice invites Bob in the network of C86 and sends two group messages. *)
Example c92_case : forall sh : bool, exists dev es1 cb es2 dm m w1 sent w2 w u, net toy dev (es1 ++ cb :: es2) /\ List.length es2 = 1 /\ cb_from cb = at_a /\ cb_to cb = at_b /\
  In (mkNote (negb (cb_role cb at_b)) 1 1 (dm_raw dm) m) (ln_notes (cb_link cb)) /\ receivable (ln_par (cb_link cb) (cb_role cb at_b)) 1 1 /\
  all_fresh toy (all_keys (links_between at_b at_a (es1 ++ cb :: es2))) (ln_par (cb_link cb) (cb_role cb at_b)) 1 (List.length (links_between at_b at_a (es1 ++ cb :: es2))) (b32 Byte.x62) /\
  ~ has_cable cb at_b /\ w_policy (dev at_b) = all_trusted /\ own_device toy (alice_world true) /\ run (new_sender_dist toy gx_addr gx_dist gx_sys gx_rnd) [] (alice_world true) = (Ok dm, w1) /\
  (forall s, ~ follows (dev at_b) at_a (dm_dist dm) (dm_chain dm) s) /\
  gtries toy gx_addr gx_dist 2 w1 sent w2 /\ map fst sent = [str "one"; str "two"] /\ (dm_iter dm + N.of_nat 2 < 4294967296)%N /\
  run0 (accept_invitation toy at_a (b32 Byte.x62) (posted m)) (dev at_b) = (Ok tt, w) /\
  enrolled toy at_b at_a (channel_of dm) [] (dev_set dev at_b w) (es1 ++ mkCable (cb_from cb) (cb_to cb) (link_got (cb_link cb) (cb_role cb at_b) 1 1 u) :: es2).
Proof. exact enrolled_case. Qed.
