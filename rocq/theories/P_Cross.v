(** Both sides initiate at the same time (C58). *)
From Verif Require Import M_Base M_Crypto M_Aes M_Curve M_Proto M_Message M_Ratchet M_State M_Store M_Session M_Group
  S_Crypto S_Message S_State S_Shape S_Ratchet S_Session S_Aes S_Api S_Send S_Group S_Curve S_X3dh S_Receive S_Conv S_History S_Bundle S_Api S_Isolation S_Atomic S_Sessions
  P_Base P_Uuid P_Proto P_Curve P_State P_Shape P_Ratchet P_Message P_Aes P_Chain P_Decrypt P_Receive P_Encrypt P_Record P_Prog P_Api P_Archive
  P_Init P_Send P_Conv P_X3dh P_Conv2 P_Bundle P_DecApi P_DecTop P_DecMore P_Replay P_Trust P_CryptoTop P_History P_Establish P_Frames P_Sessions.
Local Open Scope nat_scope.

Lemma last_n_in : forall {A} n (l : list A) x, In x (last_n n l) -> In x l.
Proof. intros A n l x. unfold last_n. intro J. rewrite <- (firstn_skipn (List.length l - n) l). apply in_or_app. right. exact J. Qed.
(** After a bundle has been processed and a message sent. *)
Lemma begun : forall C a rnd b fs w w1 pt fs1 c w2, CryptoOk C -> wf_device w -> wf_bundle b -> 32 <= List.length rnd ->
  run (process_bundle C a rnd b) fs w = (Ok tt, w1) -> run (encrypt_message C a pt) fs1 w1 = (Ok c, w2) ->
  wf_device w2 /\ w_pair w2 = w_pair w /\ w_signed w2 = w_signed w /\ w_prekeys w2 = w_prekeys w /\ w_policy w2 = w_policy w /\
  w_ident w2 a = bd_identity b /\
  (exists r s, w_sess w2 a = Some r /\ rc_current r = Some s /\ ss_alice_base s = Byte.x05 :: mont_pub C (firstn 32 rnd)) /\
  forall base, unused_base w a base -> base <> mont_pub C (firstn 32 rnd) -> unused_base w2 a base.
Proof.
  intros C a rnd b fs w w1 pt fs1 c w2 H W Wb Lr E1 E2.
  destruct (bundle_awaiting _ _ _ _ _ _ _ H W Wb E1) as (W1 & Pr1 & _).
  assert (W2 : wf_device w2).
  { replace w2 with (snd (run (encrypt_message C a pt) fs1 w1)) by (rewrite E2; reflexivity). apply run_shape; [apply encrypt_message_shape; exact H|exact W1]. }
  destruct (bundle_success _ _ _ _ _ _ _ E1) as (ti & ts & bp & rnd1 & s0 & rest & Ei & Es & _ & _ & G & In0 & Ew).
  destruct (gen_pair_for C rnd Lr) as (bp' & G' & Pb). rewrite G in G'. injection G' as -> ->. destruct Pb as (_ & Ebp & _).
  set (s1 := bundle_state b s0 (kp_pub bp') (w_reg w)) in *. set (r0 := loaded (w_sess w a)) in *.
  assert (Wr0 : wf_record r0).
  { unfold r0, loaded. destruct (w_sess w a) eqn:E; [apply (proj1 (proj1 W) _ _ E)|apply new_record_wf]. }
  destruct (promoted r0 s1 Wr0) as [Pc Pp].
  assert (S1 : w_sess w1 a = Some (rc_promote r0 s1)) by (rewrite Ew; unfold bundle_world; destruct (_ && _)%bool; cbn; rewrite addr_eqb_refl; reflexivity).
  assert (Ws1 : wf_state s1) by (apply (proj1 (proj1 (proj1 W1) _ _ S1)); exact Pc).
  destruct (encrypt_state_exact C s1 pt H Ws1) as (sc' & k & rt & lo & rem & m & out & X1 & X2 & X3 & X4 & X5 & X6 & _ & _ & _ & _ & En).
  destruct (encrypt_success _ _ _ _ _ _ _ _ _ _ _ _ S1 Pc En E2) as (_ & _ & Ew2).
  pose proof Wb as (_ & _ & _ & _ & Ls & Li). specialize (Li ti Ei). specialize (Ls ts Es).
  destruct (init_alice_wf C (skipn 32 rnd) (w_pair w) bp' ti ts (bd_prekey b) ts s0 rest) as (_ & _ & _ & R0); [apply W|exact Li|exact Ls|exact In0|].
  assert (Er : rem = ti) by (apply (f_equal (@tl _)) in X6; change (ss_remote s1) with (ss_remote s0) in X6; rewrite R0 in X6; symmetry; exact X6). subst rem.
  set (s2 := with_sender s1 _) in *. assert (B2 : ss_alice_base s2 = Byte.x05 :: mont_pub C (firstn 32 rnd)) by (rewrite <- Ebp; reflexivity).
  assert (K : forall X (f : world -> X), (forall v r, f (set_sess v a r) = f v) -> (forall v i, f (set_ident v a i) = f v) -> f w2 = f w).
  { intros X f F1 F2. rewrite Ew2, F1, F2. transitivity (f w1); [destruct (w_shared w1); rewrite ?F1; reflexivity|].
    rewrite Ew. unfold bundle_world. destruct (_ && _)%bool; rewrite ?F1, ?F2; reflexivity. }
  split; [exact W2|]. split; [apply K; reflexivity|]. split; [apply K; reflexivity|]. split; [apply K; reflexivity|]. split; [apply K; reflexivity|].
  split; [rewrite Ew2, Ei; cbn; rewrite addr_eqb_refl; reflexivity|].
  split; [eexists; exists s2; rewrite Ew2; cbn; rewrite addr_eqb_refl; split; [reflexivity|split; [reflexivity|exact B2]]|].
  intros base Un Nb r s Er2 J. assert (Er : r = rc_set_state (rc_promote r0 s1) s2) by (rewrite Ew2 in Er2; cbn in Er2; rewrite addr_eqb_refl in Er2; congruence).
  destruct J as [J|(bs & J & Ps)].
  - rewrite Er in J. cbn in J. injection J as <-. rewrite B2. congruence.
  - rewrite Er in J. cbn [rc_set_state rc_previous] in J. rewrite Pp in J.
    assert (Nl : w_sess w a <> None -> exists r1, w_sess w a = Some r1 /\ r0 = r1) by (unfold r0, loaded; destruct (w_sess w a); [eauto|congruence]).
    destruct (w_sess w a) as [r1|] eqn:Ew0.
    + destruct Nl as (r1' & E & Er1); [discriminate|]. injection E as <-. assert (Q : forall s', state_in s' r0 -> ss_alice_base s' <> Byte.x05 :: base) by (intros s' J'; apply (Un r1); [reflexivity||exact Ew0|rewrite <- Er1; exact J']).
      apply Q. destruct (rc_current r0) as [c0|] eqn:Ec0; [|right; eauto]. apply last_n_in, in_app_or in J. destruct J as [J|[<-|[]]]; [right; eauto|].
      left. rewrite Ec0. rewrite wf_roundtrip in Ps by (apply Wr0; exact Ec0). injection Ps as <-. reflexivity.
    + assert (r0 = new_record None) as -> by reflexivity. destruct J.
Qed.

Section Cross.
Variable C : Crypto.
Hypothesis H : CryptoOk C.
(** One direction: the initiator [wA] sends its first message while the responder [wB] sets up
    a session of its own and sends in it. *)
Lemma cross_one : forall b bA at_ wA wB ia ib sb ob rnd rnd' fs1 fs2 fs3 fs4 wA1 wA2 wB1 wB2 cA cB ptA ptB rnd2,
  wf_device wA -> wf_device wB -> wf_bundle b -> wf_bundle bA -> pair_for C ia (w_pair wA) -> published C wB b ib sb ob ->
  64 <= List.length rnd -> 64 <= List.length rnd' -> 32 <= List.length rnd2 ->
  unused_base wB (at_ false) (mont_pub C (firstn 32 rnd)) -> mont_pub C (firstn 32 rnd) <> mont_pub C (firstn 32 rnd') ->
  NoDup [mont_pub C sb; mont_pub C (firstn 32 (skipn 32 rnd)); mont_pub C (firstn 32 rnd2)] ->
  bd_identity bA = Some (mont_pub C ia) ->
  run (process_bundle C (at_ true) rnd b) fs1 wA = (Ok tt, wA1) -> run (encrypt_message C (at_ true) ptA) fs2 wA1 = (Ok cA, wA2) ->
  run (process_bundle C (at_ false) rnd' bA) fs3 wB = (Ok tt, wB1) -> run (encrypt_message C (at_ false) ptB) fs4 wB1 = (Ok cB, wB2) ->
  w_policy wB (at_ false) (Some (mont_pub C ia)) (mont_pub C ia) Receiving = true ->
  exists wB3, run0 (decrypt_message C (at_ false) rnd2 cA) wB2 = (Ok ptA, wB3) /\
    exists r s, w_sess wB3 (at_ false) = Some r /\ rc_current r = Some s /\ ss_alice_base s = Byte.x05 :: mont_pub C (firstn 32 rnd) /\
      exists s', state_in s' r /\ ss_alice_base s' = Byte.x05 :: mont_pub C (firstn 32 rnd').
Proof using H.
  intros b bA at_ wA wB ia ib sb ob rnd rnd' fs1 fs2 fs3 fs4 wA1 wA2 wB1 wB2 cA cB ptA ptB rnd2 WA WB Wb WbA PA Pub Lr Lr' L2 Un Nb Nd Ei E1 E2 E3 E4 T.
  destruct (begun C (at_ false) rnd' bA fs3 wB wB1 ptB fs4 cB wB2 H WB WbA ltac:(lia) E3 E4) as (W2 & Pp & Ps & Pk & Po & Pi & (r2 & s2 & Q1 & Q2 & Q3) & Pu).
  set (dev := fun y : bool => if y then wA else wB).
  pose proof (start_step C H b at_ dev ia ib sb ob rnd fs1 wA1 _ WA WB Wb PA Pub Lr eq_refl Un (first_fresh C sb rnd rnd2 Nd) E1) as H1.
  pose proof (send_step C H b at_ _ _ _ _ _ _ _ true ptA fs2 cA wA2 H1 (or_introl eq_refl) ltac:(reflexivity) E2) as H2.
  assert (Al : left_alone at_ b (mont_pub C (firstn 32 rnd)) (upd start_party true (sent_one (start_party true)) false) false (upd (upd dev true wA1) true wA2 false) wB2).
  { split; [exact W2|]. split; [exact Pp|]. right. split; [reflexivity|]. split; [reflexivity|]. split; [apply Pu; [exact Un|exact Nb]|].
    split; [rewrite Ps; reflexivity|]. intros id _. rewrite Pk. reflexivity. }
  pose proof (other_step C b at_ _ _ _ _ _ _ _ false wB2 H2 Al) as H3.
  assert (I0 : In (mkNote (negb false) 1 0 ptA cA) [mkNote true (p_epoch (start_party true)) (p_sent (start_party true)) ptA cA]) by (left; reflexivity).
  assert (Rv : receivable (upd start_party true (sent_one (start_party true)) false) 1 0) by (apply rec_new; [reflexivity|discriminate]).
  destruct (receive_step C H b at_ _ _ _ _ _ _ _ false 1 0 ptA cA rnd2 H3 I0 Rv (second_fresh C sb rnd rnd2 L2 Nd)) as (_ & Go & R).
  cbn [upd Bool.eqb] in Go, R. destruct Go as (wB3 & E5).
  { rewrite Po, Pi, Ei. exact T. }
  exists wB3. split; [exact E5|]. destruct (R [] _ _ E5) as (_ & _ & (r & s & S1 & S2 & _ & S4 & _) & _).
  exists r, s. split; [exact S1|]. split; [exact S2|]. split; [exact S4|].
  assert (Wc : wf_ciphertext cA) by (apply (sent_wf C (at_ true) ptA fs2 wA1 cA wA2 H); [|exact E2]; apply (bundle_awaiting _ _ _ _ _ _ _ H WA Wb E1)).
  pose proof (session_kept C (CDecrypt (at_ false) rnd2 cA) wB2 H W2 Wc) as Sk. cbn [start] in Sk.
  destruct (Sk wB3 (at_ false) r2 (or_introl (ex_intro _ [] (ex_intro _ ptA E5))) Q1) as (r' & Er' & K & _). destruct (K s2 Q2) as (s' & J & L).
  rewrite S1 in Er'. injection Er' as <-. exists s'. split; [exact J|]. destruct L as (_ & _ & _ & L). rewrite L. exact Q3.
Qed.
End Cross.
Theorem crossed : forall C aA aB wA wB bA bB ia ib sa sb oa ob rA rB dA dB fs1 fs2 fs3 fs4 wA1 wA2 wB1 wB2 cA cB ptA ptB, CryptoOk C ->
  wf_device wA -> wf_device wB -> wf_bundle bA -> wf_bundle bB -> published C wA bA ia sa oa -> published C wB bB ib sb ob ->
  64 <= List.length rA -> 64 <= List.length rB -> 32 <= List.length dA -> 32 <= List.length dB ->
  let eA := mont_pub C (firstn 32 rA) in let eB := mont_pub C (firstn 32 rB) in
  unused_base wA aB eB -> unused_base wB aA eA -> eA <> eB ->
  NoDup [mont_pub C sb; mont_pub C (firstn 32 (skipn 32 rA)); mont_pub C (firstn 32 dB)] ->
  NoDup [mont_pub C sa; mont_pub C (firstn 32 (skipn 32 rB)); mont_pub C (firstn 32 dA)] ->
  run (process_bundle C aB rA bB) fs1 wA = (Ok tt, wA1) -> run (encrypt_message C aB ptA) fs2 wA1 = (Ok cA, wA2) ->
  run (process_bundle C aA rB bA) fs3 wB = (Ok tt, wB1) -> run (encrypt_message C aA ptB) fs4 wB1 = (Ok cB, wB2) ->
  w_policy wA aB (Some (mont_pub C ib)) (mont_pub C ib) Receiving = true ->
  w_policy wB aA (Some (mont_pub C ia)) (mont_pub C ia) Receiving = true ->
  exists wA3 wB3 r1 s1 s1' r2 s2 s2',
    run0 (decrypt_message C aB dA cB) wA2 = (Ok ptB, wA3) /\ run0 (decrypt_message C aA dB cA) wB2 = (Ok ptA, wB3) /\
    w_sess wA3 aB = Some r1 /\ rc_current r1 = Some s1 /\ ss_alice_base s1 = Byte.x05 :: eB /\ state_in s1' r1 /\ ss_alice_base s1' = Byte.x05 :: eA /\
    w_sess wB3 aA = Some r2 /\ rc_current r2 = Some s2 /\ ss_alice_base s2 = Byte.x05 :: eA /\ state_in s2' r2 /\ ss_alice_base s2' = Byte.x05 :: eB.
Proof.
  intros C aA aB wA wB bA bB ia ib sa sb oa ob rA rB dA dB fs1 fs2 fs3 fs4 wA1 wA2 wB1 wB2 cA cB ptA ptB H WA WB WbA WbB PA PB LA LB LdA LdB eA eB UA UB Ne NdA NdB E1 E2 E3 E4 TA TB.
  destruct (cross_one C H bB bA (fun y : bool => if y then aB else aA) wA wB ia ib sb ob rA rB fs1 fs2 fs3 fs4 wA1 wA2 wB1 wB2 cA cB ptA ptB dB
    WA WB WbB WbA (proj1 PA) PB LA LB LdB UB Ne NdA (proj1 (proj2 PA)) E1 E2 E3 E4 TB) as (wB3 & E5 & r2 & s2 & Q1 & Q2 & Q3 & s2' & Q4 & Q5).
  destruct (cross_one C H bA bB (fun y : bool => if y then aA else aB) wB wA ib ia sa oa rB rA fs3 fs4 fs1 fs2 wB1 wB2 wA1 wA2 cB cA ptB ptA dA
    WB WA WbA WbB (proj1 PB) PA LB LA LdA UA (not_eq_sym Ne) NdB (proj1 (proj2 PB)) E3 E4 E1 E2 TA) as (wA3 & E6 & r1 & s1 & R1 & R2 & R3 & s1' & R4 & R5).
  exists wA3, wB3, r1, s1, s1', r2, s2, s2'. auto 20.
Qed.
