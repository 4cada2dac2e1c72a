(** Keys after their use: C73. *)
From Verif Require Import M_Base M_Crypto M_Aes M_Curve M_Message M_Ratchet M_State M_Store M_Session M_Group
  S_Crypto S_Message S_Shape S_Ratchet S_Session S_Api S_Send S_Group S_GroupMsg S_X3dh S_Receive S_Conv S_History S_Header S_Used
  P_Header P_GroupTop P_Member P_Mailbox P_Used K_Toy K_World K_Receive K_Conv K_Group.
Local Open Scope nat_scope.

(** * C73 *)
(** Not so: up to 2001 messages that arrive in order are all read, and afterwards the stored
    session still contains the keys of every one of them. *)
Theorem c73_in_order_refuted : forall C a l w s ratchet key i ks local remote, CryptoOk C -> wf_device w ->
  session_at w a s local remote -> receiving_at s ratchet key i ks -> trusts w a remote ->
  List.length l <= 2001 -> go_u32 (i + N.of_nat (List.length l)) ->
  (forall j pt m, nth_error l j = Some (pt, m) -> whisper C (chain_at C key j) (i + N.of_nat j) ratchet remote local pt m) ->
  (exists w2, all_read C a w l w2) /\
  forall w2, all_read C a w l w2 -> forall pt m, In (pt, m) l -> exists s', session_at w2 a s' local remote /\ can_read C s' m pt.
Proof. exact in_order_all. Qed.
Print Assumptions c73_in_order_refuted.
Example c73_in_order_case : exists m1 m2 m3 w2 s', let l := [(str "one", m1); (str "two", m2); (str "three", m3)] in
  all_read toy ex_addr (rx_world (rx_state 0 []) [] None true) l w2 /\ session_at w2 ex_addr s' (b32 Byte.x01) (b32 Byte.x02) /\
  can_read toy s' m1 (str "one") /\ can_read toy s' m2 (str "two") /\ can_read toy s' m3 (str "three").
Proof.
  destruct (rx_message toy (chain_at toy (b32 Byte.x07) 0) 0 (str "one") toy_ok) as [m1 W1].
  destruct (rx_message toy (chain_at toy (b32 Byte.x07) 1) 1 (str "two") toy_ok) as [m2 W2].
  destruct (rx_message toy (chain_at toy (b32 Byte.x07) 2) 2 (str "three") toy_ok) as [m3 W3].
  set (l := [(str "one", m1); (str "two", m2); (str "three", m3)]).
  assert (Ws : wf_device (rx_world (rx_state 0 []) [] None true)).
  { apply rx_world_wf; [apply rx_state_wf; [reflexivity|apply Nat.le_0_l|constructor]|constructor|apply Nat.le_0_l]. }
  destruct (c73_in_order_refuted toy ex_addr l _ _ _ _ _ _ _ _ toy_ok Ws (rx_session 0 [] [] None true) (rx_receiving 0 []) (rx_trusts _ _ _)) as ((w2 & R) & K).
  - unfold l. cbn [List.length]. lia.
  - apply small_u32. reflexivity.
  - intros [|[|[|j]]] pt m E; [| | |destruct j; discriminate].
    all: cbn [nth_error l] in E; apply (f_equal (fun o => match o with Some q => q | None => (pt, m) end)) in E;
      pose proof (f_equal fst E) as E1; pose proof (f_equal snd E) as E2; cbn [fst snd] in E1, E2; subst pt m; assumption.
  - destruct (K w2 R _ _ (or_introl eq_refl)) as (s1 & S1 & R1). destruct (K w2 R _ _ (or_intror (or_introl eq_refl))) as (s2 & S2 & R2).
    destruct (K w2 R _ _ (or_intror (or_intror (or_introl eq_refl)))) as (s3 & S3 & R3).
    assert (U : forall x y, session_at w2 ex_addr x (b32 Byte.x01) (b32 Byte.x02) -> session_at w2 ex_addr y (b32 Byte.x01) (b32 Byte.x02) -> x = y).
    { intros x y (r & Q1 & Q2 & _) (r' & Q3 & Q4 & _). rewrite Q1 in Q3. assert (r = r') by congruence. subst r'. congruence. }
    exists m1, m2, m3, w2, s1. split; [exact R|]. split; [exact S1|]. split; [exact R1|].
    split; [rewrite (U _ _ S1 S2); exact R2|rewrite (U _ _ S1 S3); exact R3].
Qed.
(** Exactly which of the peer's messages a party's stored session can read, in every
    history: those at or after the position of a chain it has, and those whose keys are
    saved. *)
Theorem c73_exact : forall C b at_ base dev par keys notes x m s, CryptoOk C -> history C at_ b base dev par keys notes ->
  In x notes -> inner (nt_cipher x) = Some m -> nt_from x = false \/ p_epoch (par false) <> 0 ->
  current_session (dev (negb (nt_from x))) (at_ (negb (nt_from x))) = Some s ->
  (can_read C s m (nt_text x) <->
   exists v, In v (p_views (par (negb (nt_from x)))) /\ rv_epoch v = nt_epoch x /\ ((rv_idx v <= nt_counter x)%N \/ In (nt_counter x) (rv_saved v))).
Proof. intros C b at_ base dev par keys notes x m s H. exact (read_exact C H b at_ base dev par keys notes x m s). Qed.
Print Assumptions c73_exact.
(** What does hold: a message read after a later one is gone from the session; *)
Theorem c73_late_gone : forall C b at_ base dev par keys notes side ep n pt c m rnd fs pt' w' v s, CryptoOk C ->
  history C at_ b base dev par keys notes ->
  In (mkNote (negb side) ep n pt c) notes -> inner c = Some m -> In v (p_views (par side)) -> rv_epoch v = ep -> (n < rv_idx v)%N ->
  In n (rv_saved v) -> run (decrypt_message C (at_ side) rnd c) fs (dev side) = (Ok pt', w') -> current_session w' (at_ side) = Some s ->
  forall mk, ~ has_keys C s (sg_ratchet m) (sg_counter m) mk.
Proof. intros C b at_ base dev par keys notes side ep n pt c m rnd fs pt' w' v s H. exact (late_gone C H b at_ base dev par keys notes side ep n pt c m rnd fs pt' w' v s). Qed.
Print Assumptions c73_late_gone.
(** the sender's session never contains the keys of a message it has sent; *)
Theorem c73_sent_gone : forall C b at_ base dev par keys notes x m s, CryptoOk C -> history C at_ b base dev par keys notes ->
  In x notes -> inner (nt_cipher x) = Some m -> current_session (dev (nt_from x)) (at_ (nt_from x)) = Some s ->
  forall mk, ~ has_keys C s (sg_ratchet m) (sg_counter m) mk.
Proof. intros C b at_ base dev par keys notes x m s H. exact (sent_gone C H b at_ base dev par keys notes x m s). Qed.
Print Assumptions c73_sent_gone.
(** a member's state of a sender key contains no key of a message it has read. *)
Theorem c73_group_gone : forall C a c l w n s, CryptoOk C -> member C a c l w -> accepted l n ->
  follows w a (cn_dist c) (cn_chain c) s -> ~ has_seed s n.
Proof. exact group_gone. Qed.
Print Assumptions c73_group_gone.
(** In the conversation of K_Conv.v (C23): the responder read "two", then "one"; the
    initiator read "three" and answered "four", which has not arrived. *)
Example c73_case : exists b base dev par keys c1 c2 c3 c4 m1 m2 m3 m4 sa sb,
  history toy conv_at b base dev par keys
    [mkNote true 3 0 (str "four") c4; mkNote false 2 0 (str "three") c3; mkNote true 1 1 (str "two") c2; mkNote true 1 0 (str "one") c1] /\
  inner c1 = Some m1 /\ inner c2 = Some m2 /\ inner c3 = Some m3 /\ inner c4 = Some m4 /\
  current_session (dev true) (conv_at true) = Some sa /\ current_session (dev false) (conv_at false) = Some sb /\
  ~ can_read toy sb m1 (str "one") /\ can_read toy sb m2 (str "two") /\ can_read toy sa m3 (str "three") /\ ~ can_read toy sb m4 (str "four") /\
  (forall mk, ~ has_keys toy sa (sg_ratchet m4) (sg_counter m4) mk) /\ (forall mk, ~ has_keys toy sb (sg_ratchet m3) (sg_counter m3) mk).
Proof.
  destruct conversation as (b & base & dev & par & keys & c1 & c2 & c3 & c4 & Hy & Pt & Pf & _).
  exists b, base, dev, par, keys, c1, c2, c3, c4.
  set (x4 := mkNote true 3 0 (str "four") c4) in *. set (x3 := mkNote false 2 0 (str "three") c3) in *.
  set (x2 := mkNote true 1 1 (str "two") c2) in *. set (x1 := mkNote true 1 0 (str "one") c1) in *.
  assert (J4 : In x4 [x4; x3; x2; x1]) by (cbn [In]; auto). assert (J3 : In x3 [x4; x3; x2; x1]) by (cbn [In]; auto).
  assert (J2 : In x2 [x4; x3; x2; x1]) by (cbn [In]; auto). assert (J1 : In x1 [x4; x3; x2; x1]) by (cbn [In]; auto).
  destruct (headers toy toy_ok b conv_at _ _ _ _ _ _ Hy J1) as (m1 & I1 & _). destruct (headers toy toy_ok b conv_at _ _ _ _ _ _ Hy J2) as (m2 & I2 & _).
  destruct (headers toy toy_ok b conv_at _ _ _ _ _ _ Hy J3) as (m3 & I3 & _). destruct (headers toy toy_ok b conv_at _ _ _ _ _ _ Hy J4) as (m4 & I4 & _).
  assert (Sf : p_epoch (par false) <> 0) by (rewrite Pf; discriminate).
  destruct (headed_step toy toy_ok b conv_at _ _ _ _ _ Hy) as [_ (_ & _ & H3 & _)].
  destruct (H3 true (or_introl eq_refl)) as (sa & Sa & _). destruct (H3 false (or_intror Sf)) as (sb & Sb & _).
  pose proof (c73_exact _ _ _ _ _ _ _ _ x1 m1 sb toy_ok Hy J1 I1 (or_intror Sf) Sb) as E1.
  pose proof (c73_exact _ _ _ _ _ _ _ _ x2 m2 sb toy_ok Hy J2 I2 (or_intror Sf) Sb) as E2.
  pose proof (c73_exact _ _ _ _ _ _ _ _ x3 m3 sa toy_ok Hy J3 I3 (or_introl eq_refl) Sa) as E3.
  pose proof (c73_exact _ _ _ _ _ _ _ _ x4 m4 sb toy_ok Hy J4 I4 (or_intror Sf) Sb) as E4.
  cbn [nt_from nt_text nt_epoch nt_counter x1 x2 x3 x4 negb] in E1, E2, E3, E4. rewrite Pf in E1, E2, E4. rewrite Pt in E3. cbn [p_views] in *.
  exists m1, m2, m3, m4, sa, sb. split; [exact Hy|]. split; [exact I1|]. split; [exact I2|]. split; [exact I3|]. split; [exact I4|]. split; [exact Sa|]. split; [exact Sb|].
  split; [|split; [|split; [|split; [|split]]]].
  - intro Q. apply E1 in Q. destruct Q as (v & [<-|[]] & _ & [L|[]]). cbn [rv_idx] in L. exact (L eq_refl).
  - apply E2. exists (mkView 1 1 []). split; [left; reflexivity|]. split; [reflexivity|]. left. apply N.le_refl.
  - apply E3. exists (mkView 2 0 []). split; [right; left; reflexivity|]. split; [reflexivity|]. left. apply N.le_refl.
  - intro Q. apply E4 in Q. destruct Q as (v & [<-|[]] & Q & _). discriminate.
  - exact (c73_sent_gone _ _ _ _ _ _ _ _ x4 m4 sa toy_ok Hy J4 I4 Sa).
  - exact (c73_sent_gone _ _ _ _ _ _ _ _ x3 m3 sb toy_ok Hy J3 I3 Sb).
Qed.
Example c73_group_case : exists c l w s, member toy gx_addr c l w /\ accepted l 2 /\ follows w gx_addr (cn_dist c) (cn_chain c) s /\ ~ has_seed s 2 /\ has_seed s 1.
Proof.
  destruct gx_history as (m & w1 & sent & w2 & l & w & E & _ & _ & M & Ns).
  destruct (dist_describes _ _ _ _ _ _ _ _ _ toy_ok (alice_own true) E) as (_ & _ & _ & New & _). destruct (New eq_refl) as [_ Ei].
  destruct l as [|[[n1 p1] r1] [|[[n2 p2] r2] [|[[n3 p3] r3] [|[[n4 p4] r4] [|? ?]]]]]; try discriminate.
  cbn [map fst] in Ns. assert (Hn : n1 = 2%N /\ n2 = 0%N /\ n3 = 2%N /\ n4 = 3%N) by (split; [|split; [|split]]; congruence).
  destruct Hn as (-> & -> & -> & ->). destruct (member_state toy toy_ok _ _ _ _ M) as (_ & s & F & R).
  pose proof (member_recorded toy toy_ok _ _ _ _ M [] _ _ _ _ eq_refl) as A. unfold box in A, R. cbn [channel_of cn_first] in A, R. rewrite Ei in A, R.
  cbn in A. destruct R as (_ & _ & _ & _ & R1 & _ & R2 & _). cbn in R1, R2.
  assert (Ac : accepted [(2%N, p1, r1); (0%N, p2, r2); (2%N, p3, r3); (3%N, p4, r4)] 2) by (exists p1, p1; left; rewrite A; reflexivity).
  exists (channel_of m), [(2%N, p1, r1); (0%N, p2, r2); (2%N, p3, r3); (3%N, p4, r4)], w, s. split; [exact M|]. split; [exact Ac|]. split; [exact F|].
  split; [exact (c73_group_gone _ _ _ _ _ _ _ toy_ok M Ac F)|]. right.
  assert (J : In 1%N (map gm_iter (gs_keys s))) by (rewrite R2; left; reflexivity).
  apply in_map_iff in J. destruct J as (x & Ex & J). exists x. auto.
Qed.
