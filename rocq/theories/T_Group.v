(** Properties of group messaging: C42 (group part), C44-C51, C55, C56. *)
From Verif Require Import M_Base M_Crypto M_Aes M_Curve M_Uuid M_Message M_Ratchet M_State M_Store M_Session M_Group
  S_Crypto S_Message S_State S_Shape S_Ratchet S_Session S_Api S_Send S_Group S_GroupMsg S_Curve S_Isolation
  P_Base P_GroupMsg P_Member P_Mailbox P_Keep P_GroupSend P_GroupTop P_GroupKept K_Toy K_World K_Conv K_Group.
Local Open Scope nat_scope.

(** Every device that executions of the API can produce satisfies the hypothesis
    [own_device] used below. *)
Theorem group_devices_in_order : forall C ts w, CryptoOk C -> reachable C (ts, w) -> own_device C w.
Proof. exact reachable_own_device. Qed.
Print Assumptions group_devices_in_order.

(** * C42  A returned ciphertext's key is never reused after a crash (group part) *)
Theorem c42_group_persisted : forall C a d rnd pt fs w m w' chain signing n key, CryptoOk C -> own_device C w ->
  speaks w a d chain signing n key -> run (gencrypt C a d rnd pt) fs w = (Ok m, w') ->
  group_message C key n chain d signing pt m /\
  speaks w' a d chain signing ((n + 1) mod 2 ^ 32) (c_hmac C key [Byte.x02]).
Proof. exact gsend_one. Qed.
Print Assumptions c42_group_persisted.
(** Whatever fails or wherever it crashes, the position is the old one or the next. *)
Theorem c42_group_crash_points : forall C a d rnd pt fs w, wf_device w ->
  forall w', w' = snd (run (gencrypt C a d rnd pt) fs w) \/ (exists k, w' = crash k (gencrypt C a d rnd pt) fs w) ->
  forall chain signing n key, speaks w a d chain signing n key ->
  speaks w' a d chain signing n key \/ speaks w' a d chain signing ((n + 1) mod 2 ^ 32) (c_hmac C key [Byte.x02]).
Proof. exact gattempt. Qed.
Print Assumptions c42_group_crash_points.
Example c42_group_case : exists m w1, run0 (new_sender_dist toy gx_addr gx_dist gx_sys gx_rnd) (alice_world true) = (Ok m, w1) /\
  own_device toy w1 /\ speaks w1 gx_addr gx_dist (dm_chain m) (dm_signing m) 0 (dm_chainkey m) /\
  exists l w2, gsends toy gx_addr gx_dist w1 l w2 /\ map fst l = [str "hello"].
Proof.
  destruct gx_created as (m & w1 & E & Sd). destruct (dist_describes _ _ _ _ _ _ _ _ _ toy_ok (alice_own true) E) as (O1 & _ & Sp & New & _).
  destruct (New eq_refl) as [_ Ei]. exists m, w1. split; [exact E|]. split; [exact O1|]. split; [rewrite Ei in Sp; exact Sp|].
  exact (gx_send toy gx_addr gx_dist gx_rnd [str "hello"] w1 toy_ok (proj1 O1) Sd gx_rnd_len).
Qed.

(** * C44  Group messages are delivered exactly once in any order *)
(** The result of every arrival, for every history: the mailbox of S_GroupMsg.v says
    which arrivals are fresh. *)
Theorem c44_exact : forall C a c l w n pt m r w', CryptoOk C -> member C a c l w -> genuine C c n pt m ->
  (n + 1 < 2 ^ 32)%N -> run0 (gdecrypt C a m) w = (r, w') -> answer (fst (arrive (box c l) n)) pt r.
Proof. intros C a c l w n pt m r w' H. exact (member_answer C H c a l w n pt m r w'). Qed.
Print Assumptions c44_exact.
(** Without the mailbox: what has been delivered is refused as a duplicate; what has not
    is delivered if it is at most 25,000 ahead of the chain and fewer than 2,000 back. *)
Theorem c44_delivered_exactly_once : forall C a c l w n pt m r w', CryptoOk C -> member C a c l w -> genuine C c n pt m ->
  (n + 1 < 2 ^ 32)%N -> run0 (gdecrypt C a m) w = (r, w') ->
  (accepted l n -> r = Err EDuplicate) /\
  (~ accepted l n -> (n <= cn_first c + 25000 \/ exists n', accepted l n' /\ n <= n' + 25001)%N ->
   (forall n', accepted l n' -> n' <= n + 2000)%N -> r = Ok pt).
Proof. intros C a c l w n pt m r w' H. exact (delivered_once C H c a l w n pt m r w'). Qed.
Print Assumptions c44_delivered_exactly_once.
(** The messages a sender returns after creating a distribution message are the genuine
    ones of the channel it opens. *)
Theorem c44_sent_is_genuine : forall C a d sysrnd rnd fs w m w1 l w2, CryptoOk C -> own_device C w ->
  run (new_sender_dist C a d sysrnd rnd) fs w = (Ok m, w1) -> gsends C a d w1 l w2 ->
  (dm_iter m + N.of_nat (List.length l) < 2 ^ 32)%N ->
  forall j pt x, nth_error l j = Some (pt, x) -> genuine C (channel_of m) (dm_iter m + N.of_nat j) pt x /\
    group_message C (chain_at C (dm_chainkey m) j) (dm_iter m + N.of_nat j) (dm_chain m) d (dm_signing m) pt x.
Proof. exact sent_genuine. Qed.
Print Assumptions c44_sent_is_genuine.
(** Steps that leave the channel alone: any call outside the sender's group entry,
    messages of other chains, and distributions that add to a record with room or repeat
    this one. *)
Theorem c44_other_calls_keep : forall C c fs w a d chain s, scope_of c <> OwnGroup a d -> let '@Thread A p := start C c in
  follows w a d chain s -> follows (snd (run p fs w)) a d chain s.
Proof. exact kept_elsewhere. Qed.
Print Assumptions c44_other_calls_keep.
Theorem c44_other_chains_keep : forall C a m fs w d chain s, wf_device w -> (sm_dist m, sm_chain m) <> (d, chain) ->
  follows w a d chain s -> follows (snd (run (gdecrypt C a m) fs w)) a d chain s.
Proof. exact kept_other_chain. Qed.
Print Assumptions c44_other_chains_keep.
Theorem c44_distributions_keep : forall a m fs w d chain s, wf_device w -> wf_dist m ->
  ((dm_dist m = d /\ dm_chain m = chain /\ gs_pub s = Byte.x05 :: dm_signing m) \/
   (dm_chain m <> chain /\ List.length (held w a d) < 5)) ->
  follows w a d chain s -> follows (snd (run (process_dist a m) fs w)) a d chain s.
Proof. exact kept_redistributed. Qed.
Print Assumptions c44_distributions_keep.
(** Alice sends four messages; Bob gets numbers 2, 0, 2 and 3 of them. *)
Example c44_case : exists m w1 sent w2 l w,
  run0 (new_sender_dist toy gx_addr gx_dist gx_sys gx_rnd) (alice_world true) = (Ok m, w1) /\
  gsends toy gx_addr gx_dist w1 sent w2 /\ map fst sent = [str "one"; []; str "three"; str "four"] /\
  member toy gx_addr (channel_of m) l w /\ map (fun x => fst (fst x)) l = [2; 0; 2; 3]%N.
Proof. exact gx_history. Qed.
(** The mailbox then: number 1 is still open, 4 is next. *)
Example c44_mailbox : arrivals (mkMailbox 0 []) [2; 0; 2; 3]%N = mkMailbox 4 [1%N] /\
  fst (arrive (arrivals (mkMailbox 0 []) [2; 0]%N) 2) = Repeated /\ fst (arrive (mkMailbox 4 [1%N]) 1) = Fresh.
Proof. repeat split. Qed.

(** * C45  Late joiners cannot read earlier group messages and can read all later ones *)
(** Over all executions, with concurrency, crashes and store failures. *)
Theorem c45_earlier_unreadable : forall C a d chain n ts w, CryptoOk C -> reachable_with C (joined_at a d chain n) (ts, w) ->
  forall m fs pt, sm_dist m = d -> sm_chain m = chain -> (sm_iter m < n)%N -> fst (run (gdecrypt C a m) fs w) <> Ok pt.
Proof. exact late_joiner. Qed.
Print Assumptions c45_earlier_unreadable.
(** In order, all messages from the first on are read, however many; [c44_exact] covers
    every other order. *)
Theorem c45_later_readable : forall C a c l w, CryptoOk C -> member C a c l w ->
  map (fun x => fst (fst x)) l = count_up (cn_first c) (List.length l) ->
  forall n pt r, In (n, pt, r) l -> r = Ok pt.
Proof. exact read_in_order. Qed.
Print Assumptions c45_later_readable.
Example c45_case : reachable_with toy (joined_at gx_addr gx_dist 7 5) ([], snd (run0 (process_dist gx_addr gx_told) (alice_world true))) /\
  exists r, w_groups (snd (run0 (process_dist gx_addr gx_told) (alice_world true))) gx_addr gx_dist = Some r /\ r <> [].
Proof. apply gx_reach_member. intros _ _ _. apply N.le_refl. Qed.

(** * C46  Group memory is bounded and chain ids are unique *)
Theorem c46_group_bounded : forall C ts w a d r, CryptoOk C -> reachable C (ts, w) -> w_groups w a d = Some r ->
  List.length r <= 5 /\ NoDup (map gs_chain r) /\ forall s, In s r -> List.length (gs_keys s) <= 2000.
Proof. exact group_bounded. Qed.
Print Assumptions c46_group_bounded.
Example c46_case : exists w m, run0 (new_sender_dist toy gx_addr gx_dist gx_sys gx_rnd) (alice_world true) = (Ok m, w) /\ reachable toy ([], w) /\
  w_groups w gx_addr gx_dist <> None.
Proof. exact gx_reach_sender. Qed.

(** * C47  Re-distribution does not rewind a group chain *)
Theorem c47_redistribution : forall a m fs w, wf_device w -> wf_dist m ->
  exists r', redistributed m (held w a (dm_dist m)) r' /\
    (fst (run (process_dist a m) fs w) = Ok tt -> w_groups (snd (run (process_dist a m) fs w)) a (dm_dist m) = Some r') /\
    (w_groups (snd (run (process_dist a m) fs w)) a (dm_dist m) = Some r' \/ snd (run (process_dist a m) fs w) = w) /\
    fst (run0 (process_dist a m) w) = Ok tt.
Proof. exact redistribution. Qed.
Print Assumptions c47_redistribution.
Example c47_case : forall sh, wf_device (gx_world sh) /\ wf_dist gx_told /\
  forall r', redistributed gx_told (held (gx_world sh) gx_addr gx_dist) r' -> r' = held (gx_world sh) gx_addr gx_dist.
Proof.
  intro sh. split; [apply gx_wf|]. split; [exact gx_told_wf|]. unfold held, gx_world. rewrite P_GroupMsg.group_set_same. intros r' R.
  inversion R as [l1 e l2 Ec Ep Q|l1 e l2 Ec Ep Q|r Nc L Q|o r Nc L Q]; subst.
  - destruct l1 as [|x l1]; cbn [app] in Q; injection Q; intros; subst; [reflexivity|destruct l1; discriminate].
  - destruct l1 as [|x l1]; cbn [app] in Q; injection Q; intros; subst; [destruct (Ep eq_refl)|destruct l1; discriminate].
  - destruct Nc. left. reflexivity.
  - discriminate L.
Qed.

(** * C48  Only the signer can speak in a group *)
Theorem c48_heard_only_if_signed : forall C a m fs w pt w', wf_device w -> run (gdecrypt C a m) fs w = (Ok pt, w') ->
  exists s key, follows w a (sm_dist m) (sm_chain m) s /\ gs_pub s = Byte.x05 :: key /\ signed_by C key m.
Proof. exact heard. Qed.
Print Assumptions c48_heard_only_if_signed.
Theorem c48_unsigned_ignored : forall C a m fs w, wf_device w ->
  (forall s key, follows w a (sm_dist m) (sm_chain m) s -> gs_pub s = Byte.x05 :: key -> ~ signed_by C key m) ->
  snd (run (gdecrypt C a m) fs w) = w /\ (forall n, crash n (gdecrypt C a m) fs w = w) /\
  forall pt, fst (run (gdecrypt C a m) fs w) <> Ok pt.
Proof. exact unsigned_ignored. Qed.
Print Assumptions c48_unsigned_ignored.
Example c48_case : exists m, sm_dist m = gx_dist /\ sm_chain m = 7%N /\ follows (gx_world true) gx_addr gx_dist 7 (learnt gx_told) /\
  ~ signed_by toy (mont_pub toy gx_key) m.
Proof. destruct gx_unsigned as (m & E1 & E2 & Ns). exists m. split; [exact E1|]. split; [exact E2|]. split; [apply gx_follows|exact Ns]. Qed.

(** * C49  Receivers cannot send *)
Theorem c49_receivers_cannot_send : forall C a d ts w, CryptoOk C -> reachable_with C (no_own_key a d) (ts, w) ->
  forall rnd pt fs m, fst (run (gencrypt C a d rnd pt) fs w) <> Ok m.
Proof. exact receivers_silent. Qed.
Print Assumptions c49_receivers_cannot_send.
Example c49_case : reachable_with toy (no_own_key gx_addr gx_dist) ([], snd (run0 (process_dist gx_addr gx_told) (alice_world true))) /\
  exists r, w_groups (snd (run0 (process_dist gx_addr gx_told) (alice_world true))) gx_addr gx_dist = Some r /\ r <> [].
Proof. apply gx_reach_member. exact I. Qed.

(** * C50  Distribution message describes the sending state *)
Theorem c50_describes : forall C a d sysrnd rnd fs w m w', CryptoOk C -> own_device C w ->
  run (new_sender_dist C a d sysrnd rnd) fs w = (Ok m, w') ->
  own_device C w' /\ tells m d (dm_chain m) (dm_signing m) (dm_iter m) (dm_chainkey m) /\
  speaks w' a d (dm_chain m) (dm_signing m) (dm_iter m) (dm_chainkey m) /\
  (w_groups w a d = None -> (dm_chain m < 2 ^ 31)%N /\ dm_iter m = 0%N) /\
  (w_groups w a d <> None -> w' = w).
Proof. exact dist_describes. Qed.
Print Assumptions c50_describes.
(** What the next EncryptMessage uses. *)
Theorem c50_next_message : forall C a d rnd pt fs w m w' chain signing n key, CryptoOk C -> own_device C w ->
  speaks w a d chain signing n key -> run (gencrypt C a d rnd pt) fs w = (Ok m, w') ->
  group_message C key n chain d signing pt m /\
  speaks w' a d chain signing ((n + 1) mod 2 ^ 32) (c_hmac C key [Byte.x02]).
Proof. exact gsend_one. Qed.
Print Assumptions c50_next_message.
Theorem c50_idempotent : forall C w a d chain signing n key, wf_device w -> speaks w a d chain signing n key ->
  exists m, tells m d chain signing n key /\ forall sysrnd rnd, run0 (new_sender_dist C a d sysrnd rnd) w = (Ok m, w).
Proof. exact dist_again. Qed.
Print Assumptions c50_idempotent.
Theorem c50_fresh_succeeds : forall C a d sysrnd rnd w, CryptoOk C -> own_device C w -> w_groups w a d = None ->
  4 <= List.length sysrnd -> 64 <= List.length rnd -> exists m w', run0 (new_sender_dist C a d sysrnd rnd) w = (Ok m, w').
Proof. exact dist_fresh. Qed.
Print Assumptions c50_fresh_succeeds.
Example c50_case : own_device toy (alice_world true) /\ w_groups (alice_world true) gx_addr gx_dist = None /\
  4 <= List.length gx_sys /\ 64 <= List.length gx_rnd.
Proof. split; [apply alice_own|]. split; [reflexivity|]. split; [apply le_n|apply gx_rnd_len]. Qed.

(** * C51  A failed group decryption does not disturb the session *)
(** Stores that return copies, when the failing store call had no effect. *)
Theorem c51_copying_partial : forall C a m fs w, wf_device w -> w_shared w = false -> ~ In FAfter fs ->
  (forall pt, fst (run (gdecrypt C a m) fs w) <> Ok pt) -> snd (run (gdecrypt C a m) fs w) = w.
Proof. exact gerror_copying. Qed.
Print Assumptions c51_copying_partial.
(** The in-memory store: a signed message whose body is not whole blocks is refused, but
    the chain has moved past it. *)
Theorem c51_shared_exact : forall C a m w s key, CryptoOk C -> wf_device w -> w_shared w = true ->
  follows w a (sm_dist m) (sm_chain m) s -> gs_pub s = Byte.x05 :: key -> signed_by C key m -> sm_version m = 3%N ->
  (gs_iter s <= sm_iter m <= gs_iter s + 25000)%N -> List.length (sm_body m) mod 16 <> 0 ->
  exists e w' s', run0 (gdecrypt C a m) w = (Err e, w') /\ follows w' a (sm_dist m) (sm_chain m) s' /\
    gs_iter s' = ((sm_iter m + 1) mod 2 ^ 32)%N /\ gs_seed s' = chain_at C (gs_seed s) (S (N.to_nat (sm_iter m - gs_iter s))).
Proof. exact gerror_shared. Qed.
Print Assumptions c51_shared_exact.
Theorem c51_failed_decrypt_refuted : exists C w a m e, CryptoOk C /\ wf_device w /\ w_shared w = true /\
  fst (run0 (gdecrypt C a m) w) = Err e /\ w_groups (snd (run0 (gdecrypt C a m) w)) a (sm_dist m) <> w_groups w a (sm_dist m).
Proof. exact gx_disturbed. Qed.
Print Assumptions c51_failed_decrypt_refuted.
Example c51_case : forall sh, wf_device (gx_world sh) /\ exists m, follows (gx_world sh) gx_addr (sm_dist m) (sm_chain m) (learnt gx_told) /\
  gs_pub (learnt gx_told) = Byte.x05 :: mont_pub toy gx_key /\ signed_by toy (mont_pub toy gx_key) m /\ sm_version m = 3%N /\ sm_iter m = 5%N /\
  List.length (sm_body m) mod 16 <> 0.
Proof.
  intro sh. split; [apply gx_wf|]. destruct (gx_signed 5 [Byte.x00]) as (m & V & Ed & Ec & Ei & Eb & Sg). exists m. rewrite Ed, Ec, Eb.
  split; [apply gx_follows|]. split; [reflexivity|]. split; [exact Sg|]. split; [exact V|]. split; [exact Ei|discriminate].
Qed.

(** * C28  Far-future messages are refused (group part) *)
Theorem c28_group_far_refused : forall C a m w s key, wf_device w -> follows w a (sm_dist m) (sm_chain m) s -> gs_pub s = Byte.x05 :: key ->
  signed_by C key m -> sm_version m = 3%N -> (gs_iter s + 25000 < sm_iter m)%N ->
  exists w', run0 (gdecrypt C a m) w = (Err (EOther "message from too far in the future"), w') /\ forall b d, w_groups w' b d = w_groups w b d.
Proof. exact gfar_refused. Qed.
Print Assumptions c28_group_far_refused.
Example c28_group_case : exists m, signed_by toy (mont_pub toy gx_key) m /\ (gs_iter (learnt gx_told) + 25000 < sm_iter m)%N.
Proof. destruct (gx_signed 25006 []) as (m & _ & _ & _ & Ei & _ & Sg). exists m. split; [exact Sg|]. rewrite Ei. reflexivity. Qed.

(** * C55  Group messages are sent at consecutive positions, never twice at one *)
Theorem c55_consecutive : forall C a d w l w', gsends C a d w l w' -> forall chain signing n key, CryptoOk C -> own_device C w ->
  speaks w a d chain signing n key -> (n + N.of_nat (List.length l) < 2 ^ 32)%N ->
  (forall j pt m, nth_error l j = Some (pt, m) ->
     group_message C (chain_at C key j) (n + N.of_nat j) chain d signing pt m) /\
  speaks w' a d chain signing (n + N.of_nat (List.length l)) (chain_at C key (List.length l)).
Proof. exact gconsecutive. Qed.
Print Assumptions c55_consecutive.
(** With failures and crashes in between. *)
Theorem c55_never_repeated : forall C a d k w l w', gtries C a d k w l w' -> forall chain signing n key, CryptoOk C -> own_device C w ->
  speaks w a d chain signing n key -> (n + N.of_nat k < 2 ^ 32)%N ->
  (forall j pt m, nth_error l j = Some (pt, m) -> sm_dist m = d /\ sm_chain m = chain /\ (n <= sm_iter m < n + N.of_nat k)%N /\
     group_message C (chain_at C key (N.to_nat (sm_iter m - n))) (sm_iter m) chain d signing pt m) /\
  (forall j1 j2 pt1 m1 pt2 m2, j1 < j2 -> nth_error l j1 = Some (pt1, m1) -> nth_error l j2 = Some (pt2, m2) -> (sm_iter m1 < sm_iter m2)%N).
Proof. exact gincreasing. Qed.
Print Assumptions c55_never_repeated.
Example c55_case : exists m w1, run0 (new_sender_dist toy gx_addr gx_dist gx_sys gx_rnd) (alice_world true) = (Ok m, w1) /\
  exists l w2, gsends toy gx_addr gx_dist w1 l w2 /\ map fst l = [str "one"; []; str "three"].
Proof.
  destruct gx_created as (m & w1 & E & Sd). destruct (dist_describes _ _ _ _ _ _ _ _ _ toy_ok (alice_own true) E) as (O1 & _).
  exists m, w1. split; [exact E|]. exact (gx_send toy gx_addr gx_dist gx_rnd [str "one"; []; str "three"] w1 toy_ok (proj1 O1) Sd gx_rnd_len).
Qed.

(** * C56  Concurrent group senders use different positions: false *)
(** On every device that can send: two concurrent calls return messages at one position,
    under one key. *)
Theorem c56_concurrent_senders_refuted : forall C a d w chain signing n key pt1 pt2 rnd1 rnd2, CryptoOk C -> own_device C w ->
  speaks w a d chain signing n key -> sender_of w a d -> 64 <= List.length rnd1 -> 64 <= List.length rnd2 ->
  exists m1 m2 w', run2 [true; false] (gencrypt C a d rnd1 pt1) (gencrypt C a d rnd2 pt2) w = (Ok m1, Ok m2, w') /\
    group_message C key n chain d signing pt1 m1 /\ group_message C key n chain d signing pt2 m2.
Proof. exact gconcurrent. Qed.
Print Assumptions c56_concurrent_senders_refuted.
Example c56_case : exists m w, run0 (new_sender_dist toy gx_addr gx_dist gx_sys gx_rnd) (alice_world true) = (Ok m, w) /\
  own_device toy w /\ speaks w gx_addr gx_dist (dm_chain m) (dm_signing m) (dm_iter m) (dm_chainkey m) /\ sender_of w gx_addr gx_dist.
Proof.
  destruct gx_created as (m & w1 & E & Sd). destruct (dist_describes _ _ _ _ _ _ _ _ _ toy_ok (alice_own true) E) as (O1 & _ & Sp & _).
  exists m, w1. auto.
Qed.
