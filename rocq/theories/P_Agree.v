(** A message and its answer bring two devices of a network to the same session (C93). *)
From Verif Require Import M_Base M_Crypto M_Aes M_Curve M_Proto M_Message M_Ratchet M_State M_Store M_Session M_Group
  S_Crypto S_Message S_State S_Shape S_Ratchet S_Session S_Aes S_Api S_Send S_Group S_Curve S_X3dh S_Receive S_Conv S_History S_Isolation S_Atomic S_Apart S_Spent S_Many S_Net
  P_Base P_State P_Shape P_Ratchet P_Chain P_Decrypt P_Receive P_Encrypt P_Record P_Prog P_Api
  P_Init P_Send P_Conv P_X3dh P_Conv2 P_Bundle P_DecApi P_DecMore P_History P_Isolation P_Apart P_Atomic P_CrashConv P_Redeliver P_ManyRec P_ManyFail P_ManyApi P_ManyLink P_Many P_ManySteps P_ManyTop P_Net P_NetCut.
Local Open Scope nat_scope.

Section Agree.
Variable C : Crypto.
Hypothesis H : CryptoOk C.

(** Sending does not change which session is current. *)
Lemma send_current : forall a pt fs w c w' base, wf_device w -> current_base w a base -> run (encrypt_message C a pt) fs w = (Ok c, w') -> current_base w' a base.
Proof using H.
  intros a pt fs w c w' base W (s & Cu & Eb) E. unfold current_session in Cu. destruct (w_sess w a) as [r|] eqn:Er; [|discriminate].
  assert (Ws : wf_state s) by (eapply (proj1 (proj1 (proj1 W) _ _ Er)); exact Cu).
  destruct (encrypt_state_exact C s pt H Ws) as (sc0 & k & ratchet & local & remote & m & out & _ & _ & _ & _ & _ & _ & _ & _ & _ & _ & X).
  destruct (encrypt_success C a pt r s out _ remote fs w c w' Er Cu X E) as (_ & _ & ->).
  eexists. split; [unfold current_session; destruct (w_shared w); cbn; rewrite addr_eqb_refl; reflexivity|]. rewrite <- Eb. unfold st_set_sender_chain_key. destruct (ss_sender s); reflexivity.
Qed.

Theorem round_trip : forall dev es1 c es2 d e k n pt m rnd pt2, net C dev (es1 ++ c :: es2) -> d <> e -> In d [cb_from c; cb_to c] -> In e [cb_from c; cb_to c] ->
  In (mkNote (negb (cb_role c d)) k n pt m) (ln_notes (cb_link c)) -> receivable (ln_par (cb_link c) (cb_role c d)) k n ->
  all_fresh C (all_keys (links_between d e (es1 ++ c :: es2))) (ln_par (cb_link c) (cb_role c d)) k (List.length (links_between d e (es1 ++ c :: es2))) rnd ->
  (has_cable c d -> ~ misread C (dev d) e (ln_base (cb_link c)) m) ->
  (forall old dir, w_policy (dev d) e old (kp_pub (w_pair (dev e))) dir = true) ->
  (p_sent (party_after (ln_par (cb_link c) (cb_role c d)) k n) + 1 < 4294967296)%N ->
  exists w1 m2 w2 u, let p := party_after (ln_par (cb_link c) (cb_role c d)) k n in
    let es' := es1 ++ mkCable (cb_from c) (cb_to c) (link_sent (link_got (cb_link c) (cb_role c d) k n u) (cb_role c d) pt2 m2) :: es2 in
    run0 (decrypt_message C e rnd m) (dev d) = (Ok pt, w1) /\ run0 (encrypt_message C e pt2) w1 = (Ok m2, w2) /\
    current_base w2 e (ln_base (cb_link c)) /\ (k = S (p_epoch (ln_par (cb_link c) (cb_role c d))) -> drawn C (List.length (links_between d e (es1 ++ c :: es2))) rnd u) /\
    net C (dev_set (dev_set dev d w1) d w2) es' /\
    forall rnd2, receivable (ln_par (cb_link c) (cb_role c e)) (p_epoch p) (p_sent p) ->
      all_fresh C (all_keys (links_between e d es')) (ln_par (cb_link c) (cb_role c e)) (p_epoch p) (List.length (links_between e d es')) rnd2 ->
      (has_cable c e -> ~ misread C (dev e) d (ln_base (cb_link c)) m2) ->
      w_policy (dev e) d (w_ident (dev e) d) (kp_pub (w_pair (dev d))) Receiving = true ->
      exists w3, run0 (decrypt_message C d rnd2 m2) (dev e) = (Ok pt2, w3) /\ current_base w3 d (ln_base (cb_link c)).
Proof using H.
  intros dev es1 c es2 d e k n pt m rnd pt2 M N Jd Je Jn Rv Fr Nm Po Sent.
  assert (Jc : In c (es1 ++ c :: es2)) by (apply in_or_app; right; left; reflexivity).
  destruct (net_delivered C H dev _ c d e k n pt m rnd M Jc N Jd Je Jn Rv Fr Nm (Po _ _)) as (w1 & E1).
  destruct (net_answered C H dev _ c d e k n pt m rnd [] pt w1 M Jc N Jd Je Jn Rv Fr Nm E1) as (_ & B1 & u & Cr & Dr).
  assert (M1 : net C (dev_set dev d w1) (es1 ++ mkCable (cb_from c) (cb_to c) (link_got (cb_link c) (cb_role c d) k n u) :: es2)) by (eapply net_receive; eauto).
  set (c1 := mkCable (cb_from c) (cb_to c) (link_got (cb_link c) (cb_role c d) k n u)) in *.
  assert (Jc1 : In c1 (es1 ++ c1 :: es2)) by (apply in_or_app; right; left; reflexivity).
  assert (Re : cb_role c e = negb (cb_role c d)).
  { unfold cb_role. destruct (addr_eqb d (cb_from c)) eqn:Q1, (addr_eqb e (cb_from c)) eqn:Q2; try reflexivity; exfalso.
    - apply addr_eqb_eq in Q1. apply addr_eqb_eq in Q2. congruence.
    - destruct Jd as [X|[X|[]]]; [rewrite X, addr_eqb_refl in Q1; discriminate|]. destruct Je as [Y|[Y|[]]]; [rewrite Y, addr_eqb_refl in Q2; discriminate|]. congruence. }
  assert (Pa : ln_par (cb_link c1) (cb_role c1 d) = party_after (ln_par (cb_link c) (cb_role c d)) k n) by (unfold c1, cb_role; cbn [cb_link cb_from link_got ln_par]; apply upd_same).
  assert (Hc : has_cable c1 d).
  { destruct (net_pairs C H _ _ d e M1 N) as (dv & K & D1 & D2). destruct B1 as (s & Cu & Eb). unfold current_session in Cu.
    destruct (w_sess w1 e) as [r|] eqn:Er; [|discriminate]. 
    assert (Er' : w_sess (dv true) (facing d e true) = Some r) by (rewrite D1, set_same; exact Er).
    destruct (many_only C H _ _ _ true r s K Er' (or_introl Cu)) as (l & Jl & Hl & El).
    destruct (net_link _ c1 d e Jc1 N Jd Je) as (l1 & Jl1 & El1 & _ & Hl1). apply Hl1.
    assert (l = l1) as <-; [|exact Hl]. pose proof (many_inv C H _ _ _ K) as (_ & Nb & _).
    apply (map_inj_in ln_base _ l l1 Nb Jl Jl1). rewrite El in Eb. apply (f_equal (@tl Byte.byte)) in Eb. cbn [tl] in Eb. rewrite Eb, El1. reflexivity. }
  assert (Po1 : w_policy w1 e (w_ident w1 e) (kp_pub (w_pair (dev e))) Sending = true).
  { pose proof (call_writes_scope C (CDecrypt e rnd m) [] (dev d)) as Q. cbn [start] in Q. destruct Q as [(_ & _ & _ & Qp & _) _]. unfold run0 in E1. rewrite E1 in Qp. cbn [snd] in Qp. rewrite Qp. apply Po. }
  destruct (net_sendable C H _ _ c1 d e pt2 M1 Jc1 N Jd Je Hc) as (_ & m2 & w2 & _ & _ & _ & _ & _ & E2); [rewrite set_same, set_other by auto; exact Po1|].
  rewrite set_same in E2.
  assert (M2 : net C (dev_set (dev_set dev d w1) d w2) (es1 ++ mkCable (cb_from c) (cb_to c) (link_sent (link_got (cb_link c) (cb_role c d) k n u) (cb_role c d) pt2 m2) :: es2)).
  { eapply (net_send C _ _ es1 c1 es2 d e pt2 [] m2 w2 M1 N Jd Je); rewrite ?set_same; [exact B1|rewrite Pa; exact Sent|exact E2]. }
  assert (W1 : wf_device w1) by (rewrite <- (set_same dev d w1); apply (net_wf C H _ _ d M1)).
  pose proof (send_current e pt2 [] w1 m2 w2 _ W1 B1 E2) as B2. exists w1, m2, w2, u. cbv zeta.
  set (c2 := mkCable (cb_from c) (cb_to c) (link_sent _ _ _ _)) in *. set (p := party_after (ln_par (cb_link c) (cb_role c d)) k n) in *.
  split; [exact E1|]. split; [exact E2|]. split; [exact B2|]. split; [exact Dr|]. split; [exact M2|]. intros rnd2 Rv2 Fr2 Nm2 Po2.
  assert (Jc2 : In c2 (es1 ++ c2 :: es2)) by (apply in_or_app; right; left; reflexivity). assert (N' : e <> d) by auto.
  assert (De : dev_set (dev_set dev d w1) d w2 e = dev e) by (rewrite !set_other by auto; reflexivity).
  assert (Pe : ln_par (cb_link c2) (cb_role c2 e) = ln_par (cb_link c) (cb_role c e)).
  { change (cb_role c2 e) with (cb_role c e). unfold c2. cbn [cb_link link_sent link_got ln_par]. rewrite Re. rewrite !upd_other by (destruct (cb_role c d); discriminate). reflexivity. }
  assert (Jn2 : In (mkNote (negb (cb_role c2 e)) (p_epoch p) (p_sent p) pt2 m2) (ln_notes (cb_link c2))).
  { left. change (cb_role c2 e) with (cb_role c e). rewrite Re, negb_involutive, <- Pa. reflexivity. }
  assert (He : has_cable c2 e -> has_cable c e).
  { intros [Q|[Q Z]]; [left; exact Q|right]. split; [exact Q|]. change (p_epoch (ln_par (cb_link c2) false) <> 0) in Z.
    assert (Rf : cb_role c e = false). { unfold cb_role. destruct (addr_eqb e (cb_from c)) eqn:X; [|reflexivity]. apply addr_eqb_eq in X. cbn [c2 cb_to] in Q. exfalso.
      destruct Jd as [Y|[Y|[]]]; congruence. }
    change (cb_role c2 e) with (cb_role c e) in Pe. rewrite Rf in Pe. rewrite <- Pe. exact Z. }
  assert (Nm3 : has_cable c2 e -> ~ misread C (dev_set (dev_set dev d w1) d w2 e) d (ln_base (cb_link c2)) m2) by (intro Q; rewrite De; exact (Nm2 (He Q))).
  destruct (net_delivered C H _ _ c2 e d (p_epoch p) (p_sent p) pt2 m2 rnd2 M2 Jc2 N' Je Jd Jn2) as (w3 & E3); rewrite ?Pe; auto.
  { rewrite De, set_same. assert (Qp : w_pair w2 = w_pair (dev d)).
    { pose proof (run_pair (decrypt_message C e rnd m) [] (dev d)) as Q1. pose proof (run_pair (encrypt_message C e pt2) [] w1) as Q2. unfold run0 in E1, E2. rewrite E1 in Q1. rewrite E2 in Q2. cbn [snd] in *. congruence. }
    rewrite Qp. exact Po2. }
  destruct (net_answered C H _ _ c2 e d (p_epoch p) (p_sent p) pt2 m2 rnd2 [] pt2 w3 M2 Jc2 N' Je Jd Jn2) as (_ & B3 & _); rewrite ?Pe; auto.
  rewrite De in E3. exists w3. split; [exact E3|exact B3].
Qed.
End Agree.
