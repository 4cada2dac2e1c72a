(** Calls that overlap only if they are apart: C70, and what that gives for C43 and C56. *)
From Verif Require Import M_Base M_Crypto M_Aes M_Curve M_Proto M_Uuid M_Message M_Ratchet M_State M_Store M_Session M_Group
  S_Crypto S_Message S_Ratchet S_Session S_Shape S_Api S_Send S_Group S_GroupMsg S_Isolation S_Apart S_Serial
  P_Send P_SendTop P_GroupSend P_GroupTop P_Serial P_Locked K_Toy K_World K_Receive K_Conv  K_Group K_Once.
Local Open Scope nat_scope.

(** * C70  Calls that overlap only if they are apart might as well run one by one *)
(** At every moment: the calls that have ended, made one after the other in the order in
    which they ended, with the same failures, return the same and lead to a device on which
    each call still in progress, made alone, would be where it is now; entries that no call
    in progress may touch are the same. *)
Theorem c70_one_by_one : forall C w0 ended l w, serialised C w0 ended l w ->
  exists w1, one_by_one C w0 ended w1 /\ same_device w1 w /\ unowned_same (map (fun x => fst (fst x)) l) w1 w /\
    forall c fs p, In (c, fs, p) l -> after fs (body C c) w1 = (p, snd (after fs (body C c) w1)) /\ own_same c (snd (after fs (body C c) w1)) w.
Proof. exact serial. Qed.
Print Assumptions c70_one_by_one.
(** When no call is in progress, nothing tells the two executions apart. *)
Theorem c70_at_rest : forall C w0 ended w, serialised C w0 ended [] w -> exists w1, one_by_one C w0 ended w1 /\ same_world w1 w.
Proof. exact serial_done. Qed.
Print Assumptions c70_at_rest.
(** Two first messages received at the same time, in any interleaving. *)
Example c70_case : forall sh sched, exists pm1 pm2 fs1 fs2 w',
  serialised toy (bob_world 7 sh)
    [(CDecrypt (conv_at false) (b32 Byte.x43) (CPreKey pm1), fs1, Some (APlain (Ok (str "hello"))));
     (CDecrypt carol_at (b32 Byte.x43) (CPreKey pm2), fs2, Some (APlain (Ok (str "hello"))))] [] w' /\
  fst (run2 sched (body toy (CDecrypt (conv_at false) (b32 Byte.x43) (CPreKey pm1))) (body toy (CDecrypt carol_at (b32 Byte.x43) (CPreKey pm2))) (bob_world 7 sh)) =
    (Ok (APlain (Ok (str "hello"))), Ok (APlain (Ok (str "hello")))).
Proof.
  intros sh sched. destruct (different_prekey sh) as (pm1 & pm2 & w1 & w2 & A & E1 & E2).
  assert (B : forall a m (w w' : world), run0 (decrypt_message toy a (b32 Byte.x43) m) w = (Ok (str "hello"), w') ->
    run0 (body toy (CDecrypt a (b32 Byte.x43) m)) w = (Ok (APlain (Ok (str "hello"))), w')).
  { intros a m w w' E. unfold run0 in *. cbn [body]. rewrite answering_run, E. reflexivity. }
  destruct (serial_pair toy _ _ sched _ _ _ _ _ A (B _ _ _ _ E1) (B _ _ _ _ E2)) as (f1 & f2 & w' & Q1 & Q2).
  exists pm1, pm2, f1, f2, w'. auto.
Qed.

(** * C43  with a lock per conversation *)
(** If overlapping calls are apart, the ciphertexts returned for a peer carry increasing
    counters on one ratchet key. Missing from C43: overlapping calls for the same peer, where
    it is false (c43_concurrent_refuted). *)
Theorem c43_locked_partial : forall C w0 ended l w a s ratchet key i, CryptoOk C -> wf_device w0 -> serialised C w0 ended l w ->
  device_at w0 a s ratchet key i -> (forall c fs o, In (c, fs, o) ended -> scope_of c = OwnSession a -> exists pt, c = CEncrypt a pt) ->
  (i + N.of_nat (List.length ended) < 2 ^ 32)%N ->
  (forall pt c, In (pt, c) (sent_to a ended) -> exists m, inner c = Some m /\ sg_ratchet m = ratchet) /\
  (forall j1 j2 pt1 c1 pt2 c2 m1 m2, j1 < j2 ->
     nth_error (sent_to a ended) j1 = Some (pt1, c1) -> nth_error (sent_to a ended) j2 = Some (pt2, c2) ->
     inner c1 = Some m1 -> inner c2 = Some m2 -> (sg_counter m1 < sg_counter m2)%N).
Proof. exact locked_sends. Qed.
Print Assumptions c43_locked_partial.
Example c43_locked_case : exists ended w, serialised toy ex_world ended [] w /\ map fst (sent_to ex_addr ended) = [str "one"; str "two"] /\
  (forall c fs o, In (c, fs, o) ended -> exists pt, c = CEncrypt ex_addr pt).
Proof.
  destruct (send_works toy ex_addr ex_world ex_record ex_state (b32 Byte.x02) [str "one"; str "two"] toy_ok (proj1 (ex_world_of_wf _ _))
    eq_refl eq_refl eq_refl eq_refl eq_refl) as (l & w' & S1 & M).
  destruct (sends_serial _ _ _ _ _ S1 ex_world [] (se_none _ _)) as (more & Q1 & Q2 & Q3). exists more, w'. rewrite Q2. auto.
Qed.

(** * C56  with a lock per group *)
(** The same for group messages. Missing from C56: overlapping calls for the same group,
    where it is false (c56_concurrent_senders_refuted). *)
Theorem c56_locked_partial : forall C ts w0 ended l w a d chain signing n key, CryptoOk C -> reachable C (ts, w0) -> serialised C w0 ended l w ->
  speaks w0 a d chain signing n key -> (forall c fs o, In (c, fs, o) ended -> wf_call c) ->
  (forall c fs o, In (c, fs, o) ended -> scope_of c = OwnGroup a d -> exists rnd pt, c = CGEncrypt a d rnd pt) ->
  (n + N.of_nat (List.length ended) < 2 ^ 32)%N ->
  (forall pt m, In (pt, m) (gsent_to a d ended) -> sm_chain m = chain) /\
  (forall j1 j2 pt1 m1 pt2 m2, j1 < j2 -> nth_error (gsent_to a d ended) j1 = Some (pt1, m1) -> nth_error (gsent_to a d ended) j2 = Some (pt2, m2) ->
     (sm_iter m1 < sm_iter m2)%N).
Proof. exact locked_gsends. Qed.
Print Assumptions c56_locked_partial.
Example c56_locked_case : exists ts w0 chain signing n key ended w, reachable toy (ts, w0) /\ serialised toy w0 ended [] w /\
  speaks w0 gx_addr gx_dist chain signing n key /\ map fst (gsent_to gx_addr gx_dist ended) = [str "one"; str "two"] /\
  (forall c fs o, In (c, fs, o) ended -> wf_call c /\ exists rnd pt, c = CGEncrypt gx_addr gx_dist rnd pt).
Proof.
  destruct gx_created as (m & w1 & E & Sd). destruct (dist_describes _ _ _ _ _ _ _ _ _ toy_ok (alice_own true) E) as (O1 & _ & Sp & _).
  destruct (gx_send toy gx_addr gx_dist gx_rnd [str "one"; str "two"] w1 toy_ok (proj1 O1) Sd gx_rnd_len) as (l & w2 & S1 & M).
  destruct (gsends_serial _ _ _ _ _ _ S1 w1 [] (se_none _ _)) as (more & Q1 & Q2 & Q3).
  assert (Q3' : forall c fs o, In (c, fs, o) more -> wf_call c /\ exists rnd pt, c = CGEncrypt gx_addr gx_dist rnd pt).
  { intros c fs o J. destruct (Q3 c fs o J) as (rnd & pt & ->). split; [exact I|eauto]. }
  assert (R : exists ts, reachable toy (ts, w1)).
  { replace w1 with (snd (run (new_sender_dist toy gx_addr gx_dist gx_sys gx_rnd) [] (alice_world true))) by (fold (run0 (new_sender_dist toy gx_addr gx_dist gx_sys gx_rnd) (alice_world true)); rewrite E; reflexivity).
    apply (reach_run toy [] _ (new_sender_dist toy gx_addr gx_dist gx_sys gx_rnd) []).
    eapply reach_step; [apply reach_init; apply (alice_empty true)|]. exact (step_call toy (CGNew gx_addr gx_dist gx_sys gx_rnd) [] (alice_world true) I). }
  destruct R as [ts R]. exists ts, w1. do 4 eexists. exists more, w2. split; [exact R|]. split; [exact Q1|]. split; [exact Sp|]. rewrite Q2. auto.
Qed.
