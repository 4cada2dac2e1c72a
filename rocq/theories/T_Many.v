(** C85: several sessions between the same two devices. *)
From Verif Require Import M_Base M_Crypto M_Aes M_Curve M_Message M_Ratchet M_State M_Store M_Session
  S_Crypto S_Send S_Session S_X3dh S_Receive S_Conv S_History S_Many P_ManyTop K_Toy K_Conv K_Many.
Local Open Scope nat_scope.

(** Each session runs as if it were the only one: its parties, keys and messages are those of
    a history in the sense of C35 of two devices with the same identities; if a device has the session, its
    record holds it, once, with exactly the state that it has in that history. *)
Theorem c85_each : forall C at_ dev ls l, CryptoOk C -> many C at_ dev ls -> In l ls ->
  exists v, history C (fun part => at_ (player l part)) (ln_bundle l) (ln_base l) v (ln_par l) (ln_keys l) (ln_notes l) /\
    forall x, w_pair (v (role l x)) = w_pair (dev x) /\
      (has_link l x -> exists r s, current_session (v (role l x)) (at_ x) = Some s /\ w_sess (dev x) (at_ x) = Some r /\ state_in s r /\
         forall z, state_in z r -> ss_alice_base z = Byte.x05 :: ln_base l -> z = s).
Proof. intros C at_ dev ls l H. exact (many_each C H at_ dev ls l). Qed.
Print Assumptions c85_each.
(** And the records hold nothing else. *)
Theorem c85_only : forall C at_ dev ls x r s, CryptoOk C -> many C at_ dev ls -> w_sess (dev x) (at_ x) = Some r -> state_in s r ->
  exists l, In l ls /\ has_link l x /\ ss_alice_base s = Byte.x05 :: ln_base l.
Proof. intros C at_ dev ls x r s H. exact (many_only C H at_ dev ls x r s). Qed.
Print Assumptions c85_only.

(** A message of any session, current or archived, is delivered whenever its own session can
    receive it. *)
Theorem c85_delivered : forall C at_ dev ls l x k n pt c rnd, CryptoOk C -> many C at_ dev ls -> In l ls ->
  In (mkNote (negb (role l x)) k n pt c) (ln_notes l) -> receivable (ln_par l (role l x)) k n ->
  all_fresh C (all_keys ls) (ln_par l (role l x)) k (List.length ls) rnd -> (has_link l x -> ~ misread C (dev x) (at_ x) (ln_base l) c) ->
  w_policy (dev x) (at_ x) (w_ident (dev x) (at_ x)) (kp_pub (w_pair (dev (negb x)))) Receiving = true ->
  exists w', run0 (decrypt_message C (at_ x) rnd c) (dev x) = (Ok pt, w').
Proof. intros C at_ dev ls l x k n pt c rnd H. exact (many_delivered C H at_ dev ls l x k n pt c rnd). Qed.
Print Assumptions c85_delivered.
(** Whatever the stores do, an answer without error is the plaintext that was sent; its
    session is then the current one, and a new ratchet key comes from the random bytes of the call. *)
Theorem c85_never_wrong : forall C at_ dev ls l x k n pt c rnd fs pt' w', CryptoOk C -> many C at_ dev ls -> In l ls ->
  In (mkNote (negb (role l x)) k n pt c) (ln_notes l) -> receivable (ln_par l (role l x)) k n ->
  all_fresh C (all_keys ls) (ln_par l (role l x)) k (List.length ls) rnd -> (has_link l x -> ~ misread C (dev x) (at_ x) (ln_base l) c) ->
  run (decrypt_message C (at_ x) rnd c) fs (dev x) = (Ok pt', w') ->
  pt' = pt /\ current_base w' (at_ x) (ln_base l) /\
  exists u, current_ratchet w' (at_ x) u /\ (k = S (p_epoch (ln_par l (role l x))) -> drawn C (List.length ls) rnd u).
Proof. intros C at_ dev ls l x k n pt c rnd fs pt' w' H. exact (many_answered C H at_ dev ls l x k n pt c rnd fs pt' w'). Qed.
Print Assumptions c85_never_wrong.
(** A device that has one of the sessions can send in its current one, which is one of them. *)
Theorem c85_sendable : forall C at_ dev ls x l pt, CryptoOk C -> many C at_ dev ls -> In l ls -> has_link l x ->
  w_policy (dev x) (at_ x) (w_ident (dev x) (at_ x)) (kp_pub (w_pair (dev (negb x)))) Sending = true ->
  exists l' c w', In l' ls /\ has_link l' x /\ current_base (dev x) (at_ x) (ln_base l') /\ run0 (encrypt_message C (at_ x) pt) (dev x) = (Ok c, w').
Proof. intros C at_ dev ls x l pt H. exact (many_sendable C H at_ dev ls x l pt). Qed.
Print Assumptions c85_sendable.
(** More than 25000 messages into a chain no other session even derives a key for a
    message, so nothing has to be assumed about collisions. *)
Theorem c85_far : forall C at_ dev ls l x k n pt c, CryptoOk C -> many C at_ dev ls -> In l ls ->
  In (mkNote (negb (role l x)) k n pt c) (ln_notes l) -> (25000 < n)%N ->
  kp_pub (w_pair (dev x)) <> kp_pub (w_pair (dev (negb x))) -> ~ misread C (dev x) (at_ x) (ln_base l) c.
Proof. intros C at_ dev ls l x k n pt c H. exact (many_far C H at_ dev ls l x k n pt c). Qed.
Print Assumptions c85_far.

(** Two sessions, one begun by each device; the last of 25002 messages of the first one,
    which the receiver has archived, is delivered. *)
Example c85_case : forall sh : bool, exists dev ls l c, many toy conv_at dev ls /\ List.length ls = 2 /\ In l ls /\ has_link l false /\
  In (mkNote (negb (role l false)) 1 25001 (str "hello") c) (ln_notes l) /\ receivable (ln_par l (role l false)) 1 25001 /\
  all_fresh toy (all_keys ls) (ln_par l (role l false)) 1 (List.length ls) [] /\ ~ misread toy (dev false) (conv_at false) (ln_base l) c /\
  w_policy (dev false) = all_trusted /\ ~ current_base (dev false) (conv_at false) (ln_base l).
Proof. exact many_case. Qed.
