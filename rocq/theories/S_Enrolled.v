(** Groups in a network: C92. *)
From Verif Require Import M_Base M_Crypto M_Aes M_Curve M_Message M_Ratchet M_State M_Store M_Session M_Group
  S_Crypto S_Message S_Session S_Group S_Receive S_Conv S_History S_GroupMsg S_Transit S_Team S_Many S_Net.
Local Open Scope nat_scope.

(** Device [d] of a network becomes a member of the channel [c] of device [e]: it receives the bytes of a
    one-to-one message of [e] in one of their sessions whose plaintext is the channel's distribution message, and processes that.
    Then anything may happen in the network that leaves the state of [d] for the channel alone, and the
    bytes of the sender's messages arrive. [l] lists these arrivals: iteration, plaintext encrypted, and result. *)
Inductive enrolled (C : Crypto) (d e : addr) (c : channel) : list (N * bytes * res bytes) -> (addr -> world) -> list cable -> Prop :=
| en_accept : forall dev es1 cb es2 k n dm m rnd w u, net C dev (es1 ++ cb :: es2) -> d <> e -> In d [cb_from cb; cb_to cb] -> In e [cb_from cb; cb_to cb] ->
    In (mkNote (negb (cb_role cb d)) k n (dm_raw dm) m) (ln_notes (cb_link cb)) -> receivable (ln_par (cb_link cb) (cb_role cb d)) k n ->
    all_fresh C (all_keys (links_between d e (es1 ++ cb :: es2))) (ln_par (cb_link cb) (cb_role cb d)) k (List.length (links_between d e (es1 ++ cb :: es2))) rnd ->
    (has_cable cb d -> ~ misread C (dev d) e (ln_base (cb_link cb)) m) ->
    (exists me dist sysrnd rnd0 fs w0 w1, own_device C w0 /\ List.length dist = 16 /\ run (new_sender_dist C me dist sysrnd rnd0) fs w0 = (Ok dm, w1)) ->
    c = channel_of dm -> (forall s, follows (dev d) e (cn_dist c) (cn_chain c) s -> gs_pub s <> Byte.x05 :: cn_signing c) ->
    run0 (accept_invitation C e rnd (posted m)) (dev d) = (Ok tt, w) -> current_ratchet w e u ->
    enrolled C d e c [] (dev_set dev d w) (es1 ++ mkCable (cb_from cb) (cb_to cb) (link_got (cb_link cb) (cb_role cb d) k n u) :: es2)
| en_network : forall l dev es dev' es', enrolled C d e c l dev es -> net_from C (fun x y => x = dev /\ y = es) dev' es' ->
    (forall s, follows (dev d) e (cn_dist c) (cn_chain c) s -> follows (dev' d) e (cn_dist c) (cn_chain c) s) ->
    enrolled C d e c l dev' es'
| en_arrival : forall l dev es n pt x r w, enrolled C d e c l dev es -> genuine C c n pt x -> (n + 1 < 2 ^ 32)%N -> parse_senderkey (sm_raw x) = Ok x ->
    run0 (greceive_bytes C e (sm_raw x)) (dev d) = (r, w) ->
    enrolled C d e c (l ++ [(n, pt, r)]) (dev_set dev d w) es.
