(** Concrete cases for T_Group.v and T_Store.v. *)
From Verif Require Import M_Base M_Crypto M_Aes M_Curve M_Uuid M_Message M_Ratchet M_State M_Store M_Session M_Group
  S_Crypto S_Message S_State S_Shape S_Ratchet S_Session S_Api S_Send S_Group S_GroupMsg S_Curve S_X3dh S_Isolation S_Bundle
  P_Base P_Curve P_Shape P_Ratchet P_Chain P_Message P_Encrypt P_Send P_X3dh P_CryptoTop P_Group P_GroupMsg P_Member P_Mailbox P_Keep P_GroupSend P_GroupTop
  P_Establish K_Toy K_World K_Receive K_Conv.
Local Open Scope nat_scope.

(** A finished call is part of an execution. *)
Lemma run_reach : forall C (P : call -> Prop) {A} (p : prog A) fs w ts, reachable_with C P (Thread p :: ts, w) -> reachable_with C P (ts, snd (run p fs w)).
Proof.
  intros C P A p. induction p as [r|X o k IH]; intros fs w ts R.
  - eapply rw_step; [exact R|]. exact (sw_crash C P [] _ ts w).
  - cbn [run]. destruct (exec_f o (hd_fault fs) w) as [x w'] eqn:E. apply IH. eapply rw_step; [exact R|]. exact (sw_op C P [] ts o k _ w x w' E).
Qed.
Lemma call_reach : forall C (P : call -> Prop) c fs w ts, wf_call c -> P c -> reachable_with C P (ts, w) ->
  let '@Thread A p := start C c in reachable_with C P (ts, snd (run p fs w)).
Proof.
  intros C P c fs w ts Wc Pc R. pose proof (sw_call C P c ts w Wc Pc) as S1. destruct (start C c) as [A p]. apply run_reach.
  eapply rw_step; [exact R|exact S1].
Qed.
Lemma alice_empty : forall sh, S_Api.empty_world (alice_world sh).
Proof. intro sh. split; [reflexivity|]. split; [reflexivity|]. split; [apply ed_to_mont_length|apply small_u32; reflexivity]. Qed.
Lemma alice_own : forall sh, own_device toy (alice_world sh).
Proof. intro sh. split; [apply alice_wf|]. intros a d r s E. discriminate. Qed.

Definition gx_addr : addr := mkAddr "alice"%string 2%N.
Definition gx_dist : distid := repeat Byte.x0d 16.
Definition gx_sys : bytes := repeat Byte.xff 4.
Definition gx_rnd : bytes := b32 Byte.x51 ++ b32 Byte.x52.
Lemma gx_rnd_len : 64 <= List.length gx_rnd.
Proof. unfold gx_rnd. rewrite app_length, !b32_len. apply le_n. Qed.

(** Alice creates a sender key and sends any list of plaintexts. *)
Lemma gx_created : exists m w', run0 (new_sender_dist toy gx_addr gx_dist gx_sys gx_rnd) (alice_world true) = (Ok m, w') /\
  sender_of w' gx_addr gx_dist.
Proof.
  destruct (dist_fresh toy gx_addr gx_dist gx_sys gx_rnd (alice_world true) toy_ok (alice_own true) eq_refl (le_n 4) gx_rnd_len) as (m & w' & E).
  exists m, w'. split; [exact E|]. destruct (dist_ok _ _ _ _ _ _ _ _ _ E) as [(s & r & Q & _)|(_ & chain & seed & rnd1 & kp & rest & _ & _ & G & -> & _)]; [discriminate|].
  eexists. exists []. split; [apply group_set_same|]. destruct (P_Decrypt.gen_keypair_wf _ _ _ _ G) as [_ L]. exact L.
Qed.
Lemma gx_send : forall C a d rnd pts w, CryptoOk C -> wf_device w -> sender_of w a d -> 64 <= List.length (rnd : bytes) ->
  exists l w', gsends C a d w l w' /\ map fst l = pts.
Proof.
  intros C a d rnd pts. induction pts as [|pt pts IH]; intros w H W (s & r & E & L) Lr; [exists [], w; split; [constructor|reflexivity]|].
  assert (Ws : wf_gstate s) by (destruct (proj2 W _ _ _ E) as (_ & _ & F); inversion F; auto).
  destruct (gencrypt_total C rnd d s pt H Ws L Lr) as (m & G).
  assert (R : exists w1, run (gencrypt C a d rnd pt) [] w = (Ok m, w1)).
  { unfold gencrypt, pdo. cbn [run exec_f fallible hd_fault tl exec]. rewrite E. cbn [gr_state plift]. rewrite G. cbn [plift run exec_f fallible hd_fault tl exec]. eauto. }
  destruct R as (w1 & R). pose proof (gencrypt_ok _ _ _ _ _ _ _ _ _ R) as (s0 & r0 & E0 & _ & Ew). rewrite E in E0. injection E0 as <- <-.
  assert (W1 : wf_device w1).
  { replace w1 with (snd (run (gencrypt C a d rnd pt) [] w)) by (rewrite R; reflexivity). apply P_History.run_shape; [|exact W]. apply P_Api.gencrypt_shape. exact H. }
  destruct (IH w1 H W1) as (l & w2 & Gs & Em); [|exact Lr|].
  - rewrite Ew. eexists. exists r. split; [apply group_set_same|exact L].
  - exists ((pt, m) :: l), w2. split; [econstructor; eauto|]. cbn [map fst]. rewrite Em. reflexivity.
Qed.
(** Bob learns the key and receives the messages with the given numbers. *)
Lemma gx_member : forall C a c w l ns, CryptoOk C -> member C a c l w ->
  (forall n, In n ns -> (n + 1 < 2 ^ 32)%N /\ exists pt m, genuine C c n pt m) ->
  exists l' w', member C a c l' w' /\ map (fun x => fst (fst x)) l' = map (fun x => fst (fst x)) l ++ ns.
Proof.
  intros C a c w l ns H. revert w l. induction ns as [|n ns IH]; intros w l M Hn; [exists l, w; rewrite app_nil_r; auto|].
  destruct (Hn n (or_introl eq_refl)) as (B & pt & m & G). destruct (run0 (gdecrypt C a m) w) as [r w1] eqn:E.
  destruct (IH w1 (l ++ [(n, pt, r)])) as (l' & w' & M' & Em); [eapply mem_arrival; eauto|intros x J; apply Hn; right; exact J|].
  exists l', w'. split; [exact M'|]. rewrite Em, map_app, <- app_assoc. reflexivity.
Qed.
Lemma process_ok : forall a m w, wf_device w -> wf_dist m -> exists w', run0 (process_dist a m) w = (Ok tt, w').
Proof.
  intros a m w W Wm. destruct (redistribution a m [] w W Wm) as (_ & _ & _ & _ & E). destruct (run0 (process_dist a m) w) as [o w']. cbn in E. subst. eauto.
Qed.
Lemma told_wf : forall C a d sysrnd rnd fs w m w', CryptoOk C -> own_device C w ->
  run (new_sender_dist C a d sysrnd rnd) fs w = (Ok m, w') -> wf_dist m.
Proof.
  intros C a d sr rnd fs w m w' H O E. destruct (dist_describes _ _ _ _ _ _ _ _ _ H O E) as ((W & _) & (V & _) & (s & r & Eg & Ec & Ep & Ei & Es) & _).
  destruct (proj2 W _ _ _ Eg) as (_ & _ & F). inversion F as [|? ? Ws _]; subst. destruct Ws as (_ & G1 & G2 & L & K & _).
  split; [rewrite <- Ec; exact G1|]. split; [rewrite <- Ei; exact G2|]. split; [rewrite <- Es; exact L|]. split; [|exact V].
  rewrite Ep in K. destruct K as (k & Lk & Q). injection Q as ->. exact Lk.
Qed.
Lemma gx_history : exists m w1 sent w2 l w,
  run0 (new_sender_dist toy gx_addr gx_dist gx_sys gx_rnd) (alice_world true) = (Ok m, w1) /\
  gsends toy gx_addr gx_dist w1 sent w2 /\ map fst sent = [str "one"; []; str "three"; str "four"] /\
  member toy gx_addr (channel_of m) l w /\ map (fun x => fst (fst x)) l = [2; 0; 2; 3]%N.
Proof.
  destruct gx_created as (m & w1 & E & Sd). destruct (dist_describes _ _ _ _ _ _ _ _ _ toy_ok (alice_own true) E) as (O1 & T & Sp & New & _).
  destruct (New eq_refl) as [_ Ei].
  destruct (gx_send toy gx_addr gx_dist gx_rnd [str "one"; []; str "three"; str "four"] w1 toy_ok (proj1 O1) Sd gx_rnd_len) as (sent & w2 & G & Em).
  pose proof (told_wf _ _ _ _ _ _ _ _ _ toy_ok (alice_own true) E) as Wm.
  destruct (process_ok gx_addr m (bob_world 3 true) (bob_wf 3 true) Wm) as (wb & Eb).
  assert (M0 : member toy gx_addr (channel_of m) [] wb).
  { eapply mem_start; [apply (bob_wf 3 true)|exact Wm| | |exact Eb].
    - cbn [channel_of cn_dist cn_chain cn_signing cn_first cn_key]. destruct T as (T1 & T2 & T3). split; [exact T1|]. split; [reflexivity|]. auto.
    - intros s (r & Q & _). discriminate. }
  assert (L : List.length sent = 4) by (rewrite <- (map_length fst), Em; reflexivity).
  destruct (gx_member toy gx_addr (channel_of m) wb [] [2; 0; 2; 3]%N toy_ok M0) as (l & w & M & Ns).
  - intros n J. assert (B : (n < 4)%N) by (cbn in J; intuition (subst; reflexivity)). split; [change (2 ^ 32)%N with 4294967296%N; lia|].
    destruct (nth_error sent (N.to_nat n)) as [[pt x]|] eqn:Q; [|apply nth_error_None in Q; lia].
    destruct (sent_genuine _ _ _ _ _ _ _ _ _ _ _ toy_ok (alice_own true) E G) with (j := N.to_nat n) (pt := pt) (x := x) as [Gn _];
      [rewrite Ei, L; reflexivity|exact Q|]. rewrite Ei, N.add_0_l, N2Nat.id in Gn. exists pt, x. exact Gn.
  - exists m, w1, sent, w2, l, w. split; [exact E|]. split; [exact G|]. split; [exact Em|]. split; [exact M|]. exact Ns.
Qed.

(** A signed message with any contents. *)
Lemma signed_any : forall C k rnd d chain iter body, CryptoOk C -> List.length k = 32 -> 64 <= List.length (rnd : bytes) ->
  exists m, sm_version m = 3%N /\ sm_dist m = d /\ sm_chain m = chain /\ sm_iter m = iter /\ sm_body m = body /\ signed_by C (mont_pub C k) m.
Proof.
  intros C k rnd d chain iter body H L Lr. destruct (signatures C H) as (Sg & V & _).
  assert (E : exists sk, new_private_key C k = Ok sk /\ sk_pub sk = mont_pub C k).
  { unfold new_private_key. rewrite L. cbn [Nat.eqb negb]. eexists. split; reflexivity. }
  destruct E as (sk & E & Ep). destruct (new_senderkey_total C 3 rnd d chain iter body sk Lr) as (m & rest & Em).
  unfold new_senderkey in Em. set (ser := version_prefix 3 :: _) in Em. destruct (Sg k sk rnd [ser] E Lr) as (sig & Es & Ls & Vs). rewrite Es in Em.
  apply (f_equal (fun x => match fst x with Ok a => a | _ => m end)) in Em. cbn [fst] in Em. cbv beta iota in Em.
  exists m. rewrite <- Em. cbn [sm_version sm_dist sm_chain sm_iter sm_body]. repeat (split; [reflexivity|]).
  specialize (Vs [ser] eq_refl). rewrite Ep in Vs. apply V in Vs. destruct Vs as (r & t & y & Q1 & Q2 & Q3 & Q4).
  exists ser, r, t, y. cbn [sm_raw]. rewrite <- Q1. rewrite concat1 in Q4. auto.
Qed.
(** A device that follows one chain, at iteration 5. *)
Definition gx_key : bytes := b32 Byte.x31.
Definition gx_told : distmsg := new_dist 3 gx_dist 7 5 (b32 Byte.x07) (mont_pub toy gx_key).
Definition gx_world (sh : bool) : world := set_group (alice_world sh) gx_addr gx_dist [learnt gx_told].
Lemma gx_told_wf : wf_dist gx_told.
Proof.
  split; [apply small_u32; reflexivity|]. split; [apply small_u32; reflexivity|]. split; [apply b32_len|]. split; [apply ed_to_mont_length|reflexivity].
Qed.
Lemma learnt_wf : forall m, wf_dist m -> wf_gstate (learnt m).
Proof.
  intros m W. rewrite <- (told_learnt _ W). destruct W as (A1 & A2 & A3 & A4 & A5). unfold told. rewrite A5.
  apply new_gstate_wf; auto. intros k E. discriminate E.
Qed.
Lemma gx_wf : forall sh, wf_device (gx_world sh).
Proof.
  intro sh. apply P_Api.set_group_wf; [apply alice_wf|]. split; [cbn; lia|]. split; [repeat constructor; intros []|].
  constructor; [|constructor]. apply learnt_wf, gx_told_wf.
Qed.
Lemma gx_follows : forall sh, follows (gx_world sh) gx_addr gx_dist 7 (learnt gx_told).
Proof. intro sh. eexists. split; [apply group_set_same|]. split; [left; reflexivity|reflexivity]. Qed.
Lemma gx_signed : forall iter body, exists m, sm_version m = 3%N /\ sm_dist m = gx_dist /\ sm_chain m = 7%N /\ sm_iter m = iter /\ sm_body m = body /\
  signed_by toy (mont_pub toy gx_key) m.
Proof. intros iter body. exact (signed_any toy gx_key gx_rnd gx_dist 7 iter body toy_ok (b32_len _) gx_rnd_len). Qed.
Lemma gx_disturbed : exists C w a m e, CryptoOk C /\ wf_device w /\ w_shared w = true /\
  fst (run0 (gdecrypt C a m) w) = Err e /\ w_groups (snd (run0 (gdecrypt C a m) w)) a (sm_dist m) <> w_groups w a (sm_dist m).
Proof.
  destruct (gx_signed 5 [Byte.x00]) as (m & V & Ed & Ec & Ei & Eb & Sg).
  destruct (gerror_shared toy gx_addr m (gx_world true) (learnt gx_told) (mont_pub toy gx_key) toy_ok (gx_wf true) eq_refl) as (e & w' & s' & E & Fo & Es & _);
    [rewrite Ed, Ec; apply gx_follows|reflexivity|exact Sg|exact V|rewrite Ei; cbn; lia|rewrite Eb; discriminate|].
  exists toy, (gx_world true), gx_addr, m, e. rewrite E. cbn [fst snd]. split; [exact toy_ok|]. split; [apply gx_wf|]. split; [reflexivity|]. split; [reflexivity|].
  intro Q. rewrite Ed, Ec in Fo. destruct Fo as (r & Er & J & _). rewrite Ed in Q. rewrite Q in Er. unfold gx_world in Er. rewrite group_set_same in Er. injection Er as <-.
  destruct J as [<-|[]]. rewrite Ei in Es. discriminate Es.
Qed.
(** Unsigned: the last byte of a signature changed. *)
Lemma gx_unsigned : exists m, sm_dist m = gx_dist /\ sm_chain m = 7%N /\ ~ signed_by toy (mont_pub toy gx_key) m.
Proof.
  exists (mkSenderKeyMsg 3 gx_dist 7 5 [] []). split; [reflexivity|]. split; [reflexivity|]. intros (t & r & b & y & E & L & _). cbn [sm_raw] in E.
  destruct t; [|discriminate]. cbn [app] in E. rewrite <- E in L. discriminate.
Qed.
(** Executions. *)
Lemma gx_reach_sender : exists w m, run0 (new_sender_dist toy gx_addr gx_dist gx_sys gx_rnd) (alice_world true) = (Ok m, w) /\ reachable toy ([], w) /\
  w_groups w gx_addr gx_dist <> None.
Proof.
  destruct gx_created as (m & w & E & (s & r & Q & _)). exists w, m. split; [exact E|]. split; [|congruence].
  assert (R : reachable_with toy (fun _ => True) ([], snd (run0 (new_sender_dist toy gx_addr gx_dist gx_sys gx_rnd) (alice_world true)))).
  { apply (call_reach toy (fun _ => True) (CGNew gx_addr gx_dist gx_sys gx_rnd) [] (alice_world true) [] I I). apply rw_init. apply alice_empty. }
  rewrite E in R. exact (reachable_less _ _ _ R).
Qed.
Lemma gx_reach_member : forall (P : call -> Prop), P (CGProcess gx_addr gx_told) ->
  reachable_with toy P ([], snd (run0 (process_dist gx_addr gx_told) (alice_world true))) /\
  exists r, w_groups (snd (run0 (process_dist gx_addr gx_told) (alice_world true))) gx_addr gx_dist = Some r /\ r <> [].
Proof.
  intros P Hp. split.
  - apply (call_reach toy P (CGProcess gx_addr gx_told) [] (alice_world true) [] gx_told_wf Hp). apply rw_init. apply alice_empty.
  - destruct (redistribution gx_addr gx_told [] (alice_world true) (alice_wf true) gx_told_wf) as (r' & R & Ok_ & _ & E). unfold run0 in *. exists r'.
    split; [apply Ok_; exact E|]. destruct R; intro Q; try (apply app_eq_nil in Q; destruct Q as [Q1 Q2]; try discriminate); apply app_eq_nil in Q2; destruct Q2; discriminate.
Qed.
(** A session. *)
Lemma gx_reach_session : exists w r, reachable toy ([], w) /\ w_sess w gx_addr = Some r /\ rc_current r <> None.
Proof.
  destruct (bob_bundle_signed None) as (sig & Sg). set (b := bob_bundle None sig) in *.
  destruct (bundle_works toy toy_ok b gx_addr (alice_world true) (bob_world 3 true) alice_key bob_key bob_signed_key None alice_rnd (alice_wf true)) as (w & E & _).
  - apply pair_of_for. apply b32_len.
  - apply (bob_published 3 None sig true); [left; reflexivity|discriminate].
  - exact Sg.
  - apply le_n.
  - reflexivity.
  - exists w. destruct (P_Bundle.bundle_success _ _ _ _ _ _ _ E) as (ti & ts & base & rnd1 & s0 & rest & _ & _ & _ & _ & _ & _ & Ew).
    assert (Es : w_sess w gx_addr = Some (rc_promote (P_Bundle.loaded None) (P_Bundle.bundle_state b s0 (kp_pub base) 12))).
    { rewrite Ew. unfold P_Bundle.bundle_world. cbn. reflexivity. }
    eexists. split; [|split; [exact Es|discriminate]].
    assert (R : reachable_with toy (fun _ => True) ([], snd (run0 (process_bundle toy gx_addr alice_rnd b) (alice_world true)))).
    { apply (call_reach toy (fun _ => True) (CBundle gx_addr alice_rnd b) [] (alice_world true) []); [|exact I|apply rw_init; apply alice_empty].
      apply bob_bundle_wf. discriminate. }
    rewrite E in R. exact (reachable_less _ _ _ R).
Qed.
