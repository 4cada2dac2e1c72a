(** Bob is invited to Alice's group in the network of K_Net.v. *)
From Verif Require Import M_Base M_Crypto M_Aes M_Curve M_Uuid M_Message M_Ratchet M_State M_Store M_Session M_Group
  S_Crypto S_Message S_Session S_Group S_GroupMsg S_Receive S_Conv S_History S_Size S_Transit S_Team S_Many S_Net S_Enrolled
  P_Base P_History P_GroupMsg P_GroupSend P_GroupTop P_Net P_Enrolled K_Toy K_World K_Receive K_Conv K_Group K_Cross K_Many K_Net.
From Coq Require Import ZifyBool ZifyNat ZifyN.
Local Open Scope nat_scope.

Lemma sends_tries : forall C a d w l w2, gsends C a d w l w2 -> gtries C a d (List.length l) w l w2.
Proof. intros C a d w l w2 G. induction G; [apply gtries_nil|eapply gtries_ok; eauto]. Qed.
Lemma enrolled_case : forall sh : bool, exists dev es1 cb es2 dm m w1 sent w2 w u, net toy dev (es1 ++ cb :: es2) /\ List.length es2 = 1 /\ cb_from cb = at_a /\ cb_to cb = at_b /\
  In (mkNote (negb (cb_role cb at_b)) 1 1 (dm_raw dm) m) (ln_notes (cb_link cb)) /\ receivable (ln_par (cb_link cb) (cb_role cb at_b)) 1 1 /\
  all_fresh toy (all_keys (links_between at_b at_a (es1 ++ cb :: es2))) (ln_par (cb_link cb) (cb_role cb at_b)) 1 (List.length (links_between at_b at_a (es1 ++ cb :: es2))) (b32 Byte.x62) /\
  ~ has_cable cb at_b /\ w_policy (dev at_b) = all_trusted /\ own_device toy (alice_world true) /\ run (new_sender_dist toy gx_addr gx_dist gx_sys gx_rnd) [] (alice_world true) = (Ok dm, w1) /\
  (forall s, ~ follows (dev at_b) at_a (dm_dist dm) (dm_chain dm) s) /\
  gtries toy gx_addr gx_dist 2 w1 sent w2 /\ map fst sent = [str "one"; str "two"] /\ (dm_iter dm + N.of_nat 2 < 4294967296)%N /\
  run0 (accept_invitation toy at_a (b32 Byte.x62) (posted m)) (dev at_b) = (Ok tt, w) /\
  enrolled toy at_b at_a (channel_of dm) [] (dev_set dev at_b w) (es1 ++ mkCable (cb_from cb) (cb_to cb) (link_got (cb_link cb) (cb_role cb at_b) 1 1 u) :: es2).
Proof.
  intro sh. destruct gx_created as (dm & w1 & E & Sd). destruct (dist_describes _ _ _ _ _ _ _ _ _ toy_ok (alice_own true) E) as (O1 & T & Sp & New & _). destruct (New eq_refl) as [_ Ei].
  destruct (gx_send toy gx_addr gx_dist gx_rnd [str "one"; str "two"] w1 toy_ok (proj1 O1) Sd gx_rnd_len) as (sent & w2 & G & Em).
  assert (L : List.length sent = 2) by (rewrite <- (map_length fst), Em; reflexivity).
  destruct (net_story_stores sh) as (dev & sig & m & M & Pa & Sg & Po & _ & Gr & _). set (c := alice_cable sig m) in *.
  assert (M0 : net toy dev [c; carol_cable sig]) by (apply (net_more toy (at_first sh)); [intros d e [-> ->]; apply three_fresh|exact M]).
  assert (Nab : at_a <> at_b) by discriminate.
  destruct (net_sendable toy toy_ok dev [c; carol_cable sig] c at_a at_b (dm_raw dm) M0 (or_introl eq_refl) Nab ltac:(left; reflexivity) ltac:(right; left; reflexivity) (or_introl eq_refl)) as (c' & m2 & w3 & Jc & Ja & _ & _ & Cb & E3).
  { rewrite Po. reflexivity. }
  assert (c' = c) by (destruct Jc as [<-|[<-|[]]]; [reflexivity|destruct Ja as [Q|[Q|[]]]; discriminate Q]). subst c'.
  pose proof (net_send toy _ dev [] c [carol_cable sig] at_a at_b (dm_raw dm) [] m2 w3 M0 Nab ltac:(left; reflexivity) ltac:(right; left; reflexivity) Cb ltac:(reflexivity) E3) as M3.
  set (cb := mkCable (cb_from c) (cb_to c) _) in M3. set (dv := dev_set dev at_a w3) in M3.
  assert (Db : dv at_b = dev at_b) by (apply set_other; auto).
  destruct (story_ready sig m) as (_ & _ & Fr & Nh). fold c in Fr, Nh.
  assert (Jn : In (mkNote (negb (cb_role cb at_b)) 1 1 (dm_raw dm) m2) (ln_notes (cb_link cb))) by (left; reflexivity).
  assert (Rv : receivable (ln_par (cb_link cb) (cb_role cb at_b)) 1 1) by (apply rec_new; [reflexivity|discriminate]).
  assert (Nw : forall s, ~ follows (dv at_b) at_a (dm_dist dm) (dm_chain dm) s) by (intros s (r & Q & _); rewrite Db, Gr in Q; discriminate).
  destruct (enrolling toy toy_ok dv [] cb [carol_cable sig] at_b at_a 1 1 dm m2 (b32 Byte.x62) M3) as (w & u & Ea & En); auto.
  - right; left; reflexivity.
  - rewrite Db, Po. reflexivity.
  - exists gx_addr, gx_dist, gx_sys, gx_rnd, [], (alice_world true), w1. split; [apply alice_own|]. split; [reflexivity|exact E].
  - intros s Q. contradiction (Nw s Q).
  - exists dv, [], cb, [carol_cable sig], dm, m2, w1, sent, w2, w, u. split; [exact M3|]. split; [reflexivity|]. split; [reflexivity|]. split; [reflexivity|]. split; [exact Jn|]. split; [exact Rv|].
    split; [exact Fr|]. split; [exact Nh|]. split; [rewrite Db; apply Po|]. split; [apply alice_own|]. split; [exact E|]. split; [exact Nw|].
    split; [rewrite <- L; apply sends_tries; exact G|]. split; [exact Em|]. split; [rewrite Ei; reflexivity|]. split; [exact Ea|exact En].
Qed.
