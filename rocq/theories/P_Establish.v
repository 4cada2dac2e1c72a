(** Session establishment: bundle, first message, first decryption (C21). *)
From Verif Require Import M_Base M_Crypto M_Aes M_Curve M_Proto M_Message M_Ratchet M_State M_Store M_Session M_Group
  S_Crypto S_Message S_State S_Shape S_Ratchet S_Session S_Aes S_Api S_Send S_Group S_Curve S_X3dh S_Receive S_Conv S_History S_Bundle
  P_Base P_Proto P_Curve P_State P_Shape P_Ratchet P_Message P_Aes P_Chain P_Decrypt P_Receive P_Encrypt P_Record P_Prog P_Api
  P_Init P_Send P_Conv P_X3dh P_Conv2 P_Bundle P_DecApi P_DecTop P_DecMore P_Replay P_Trust P_CryptoTop P_History.
Local Open Scope nat_scope.

Section Establish.
Variable C : Crypto.
Hypothesis H : CryptoOk C.
Variable b : bundle.

Lemma bundle_works : forall a w w2 ia ib sb ob rnd, wf_device w -> pair_for C ia (w_pair w) -> published C w2 b ib sb ob ->
  bundle_signed C b -> 64 <= List.length rnd ->
  w_policy w a (w_ident w a) (mont_pub C ib) Sending = true ->
  exists w', run0 (process_bundle C a rnd b) w = (Ok tt, w') /\ w_ident w' a = Some (mont_pub C ib) /\ w_policy w' = w_policy w.
Proof using H.
  intros a w w2 ia ib sb ob rnd W PA Pub Sg Lr T. pose proof Pub as (PB & Ei & Es & (x & sp & Ex & Exp & Ps) & Po).
  assert (L32 : List.length (firstn 32 rnd) = 32) by (apply firstn_length_le; lia).
  assert (Lo : forall o, ob = Some o -> List.length o = 32).
  { intros o ->. destruct Po as (_ & id & y & q & _ & _ & _ & _ & (Lq & _)). exact Lq. }
  assert (Eo : bd_prekey b = option_map (mont_pub C) ob) by (destruct ob; apply Po).
  destruct (gen_pair_for C rnd ltac:(lia)) as (bp & G & Pb).
  destruct PA as (La & PA'). destruct PB as (Lb & PB'). destruct Ps as (Lsb & Ps').
  destruct (init_alice_party C H ia (firstn 32 rnd) ib sb ob La L32 Lb Lsb Lo (w_pair w) bp (skipn 32 rnd) (conj La PA') Pb) as (s1 & I1 & _);
    [rewrite skipn_length; lia|].
  rewrite <- Eo in I1. destruct Sg as (ti & ts & r & t & y & Q1 & Q2 & Q3 & Q4 & Q5 & Q6). rewrite Ei in Q1. injection Q1 as <-. rewrite Es in Q2. injection Q2 as <-.
  eexists. split; [eapply bundle_completes; eauto|].
  - destruct (signatures C H) as (_ & V & _). apply V. exists r, t, y. cbn [List.concat]. rewrite app_nil_r. auto.
  - unfold bundle_world. destruct (existed _ && _)%bool; cbn; rewrite ?addr_eqb_refl; auto.
Qed.

Variable at_ : bool -> addr.
Section Run.
Variables (wA wB : world) (ia ib sb : bytes) (ob : option bytes) (rnd rndB : bytes).
Hypothesis WA : wf_device wA.
Hypothesis WB : wf_device wB.
Hypothesis Wb : wf_bundle b.
Hypothesis PA : pair_for C ia (w_pair wA).
Hypothesis Pub : published C wB b ib sb ob.
Hypothesis Lr : 64 <= List.length rnd.
Hypothesis LB : 32 <= List.length rndB.
Hypothesis Un : unused_base wB (at_ false) (mont_pub C (firstn 32 rnd)).
Hypothesis Nd : NoDup [mont_pub C sb; mont_pub C (firstn 32 (skipn 32 rnd)); mont_pub C (firstn 32 rndB)].

Lemma first_fresh : mont_pub C (firstn 32 (skipn 32 rnd)) <> mont_pub C sb.
Proof using Nd. inversion Nd as [|? ? N1 _]; subst. intro E. apply N1. left. exact E. Qed.
Lemma second_fresh : fresh C [mont_pub C sb; mont_pub C (firstn 32 (skipn 32 rnd))] (start_party false) 1 rndB.
Proof using Nd LB.
  intros _. split; [exact LB|]. inversion Nd as [|? ? N1 N2]; subst. inversion N2 as [|? ? N3 _]; subst. intros [E|[E|[]]].
  - apply N1. right. left. symmetry. exact E.
  - apply N3. left. symmetry. exact E.
Qed.

Lemma established : forall pt, bundle_signed C b ->
  w_policy wA (at_ true) (w_ident wA (at_ true)) (mont_pub C ib) Sending = true ->
  w_policy wA (at_ true) (Some (mont_pub C ib)) (mont_pub C ib) Sending = true ->
  w_policy wB (at_ false) (w_ident wB (at_ false)) (mont_pub C ia) Receiving = true ->
  exists wA1 c wA2 wB1, run0 (process_bundle C (at_ true) rnd b) wA = (Ok tt, wA1) /\
    run0 (encrypt_message C (at_ true) pt) wA1 = (Ok c, wA2) /\
    run0 (decrypt_message C (at_ false) rndB c) wB = (Ok pt, wB1).
Proof using H WA WB Wb PA Pub Lr LB Un Nd.
  intros pt Sg T1 T2 T3.
  destruct (bundle_works (at_ true) wA wB ia ib sb ob rnd WA PA Pub Sg Lr T1) as (wA1 & E1 & I1 & Po1).
  set (dev := fun y : bool => if y then wA else wB).
  assert (H1 : history C at_ b (mont_pub C (firstn 32 rnd)) (upd dev true wA1) start_party [mont_pub C sb; mont_pub C (firstn 32 (skipn 32 rnd))] []).
  { apply (h_start C at_ b _ dev ia ib sb ob rnd [] wA1 WA WB Wb PA Pub Lr eq_refl Un first_fresh E1). }
  pose proof Pub as ((_ & PB & _) & _).
  destruct (sendable C H b at_ _ _ _ _ _ true pt H1 (or_introl eq_refl)) as (c & wA2 & E2); [reflexivity|cbn [upd Bool.eqb negb dev]; rewrite I1, Po1, PB; exact T2|].
  cbn [upd Bool.eqb] in E2.
  pose proof (h_send C at_ b _ _ _ _ _ true pt [] c wA2 H1 (or_introl eq_refl) ltac:(reflexivity) E2) as H2.
  destruct (delivered C H b at_ _ _ _ _ _ false 1 0 pt c rndB H2) as (wB1 & E3).
  - left. reflexivity.
  - apply rec_new; [reflexivity|discriminate].
  - exact second_fresh.
  - cbn [upd Bool.eqb negb dev].
    assert (Q : w_pair wA2 = w_pair wA).
    { transitivity (w_pair wA1); [|pose proof (run_pair (process_bundle C (at_ true) rnd b) [] wA) as Q; unfold run0 in E1; rewrite E1 in Q; exact Q].
      pose proof (run_pair (encrypt_message C (at_ true) pt) [] wA1) as Q. unfold run0 in E2. rewrite E2 in Q. exact Q. }
    rewrite Q. destruct PA as (_ & -> & _). exact T3.
  - exists wA1, c, wA2, wB1. auto.
Qed.

(** Both ends hold matching keys afterwards. *)
Lemma agreed : forall pt pt' fs1 fs2 fs3 wA1 c wA2 wB1,
  run (process_bundle C (at_ true) rnd b) fs1 wA = (Ok tt, wA1) ->
  run (encrypt_message C (at_ true) pt) fs2 wA1 = (Ok c, wA2) ->
  run (decrypt_message C (at_ false) rndB c) fs3 wB = (Ok pt', wB1) ->
  let a := firstn 32 (skipn 32 rnd) in let r := firstn 32 rndB in
  let one := ratchet_step C (x3dh_root C ia (firstn 32 rnd) ib sb ob) (c_x25519 C a (mont_pub C sb)) in
  let two := ratchet_step C (fst one) (c_x25519 C r (mont_pub C a)) in
  pt' = pt /\ exists sA sB,
    current_keys wA2 (at_ true) sA (fst one) (mont_pub C a) (c_hmac C (snd one) [Byte.x02]) 1 /\
    current_keys wB1 (at_ false) sB (fst two) (mont_pub C r) (snd two) 0 /\
    ss_remote sA = Byte.x05 :: mont_pub C ib /\ ss_remote sB = Byte.x05 :: mont_pub C ia /\
    receiving_at sB (mont_pub C a) (snd one) 0 [].
Proof using H WA WB Wb PA Pub Lr LB Un Nd.
  intros pt pt' fs1 fs2 fs3 wA1 c wA2 wB1 E1 E2 E3 a r one two.
  set (dev := fun y : bool => if y then wA else wB).
  pose proof (start_step C H b at_ dev ia ib sb ob rnd fs1 wA1 _ WA WB Wb PA Pub Lr eq_refl Un first_fresh E1) as H1.
  pose proof (send_step C H b at_ _ _ _ _ _ _ _ true pt fs2 c wA2 H1 (or_introl eq_refl) ltac:(reflexivity) E2) as H2.
  assert (I0 : In (mkNote (negb false) 1 0 pt c) [mkNote true (p_epoch (start_party true)) (p_sent (start_party true)) pt c]) by (left; reflexivity).
  assert (Rv : receivable (upd start_party true (sent_one (start_party true)) false) 1 0) by (apply rec_new; [reflexivity|discriminate]).
  destruct (receive_step C H b at_ _ _ _ _ _ _ _ false 1 0 pt c rndB H2 I0 Rv second_fresh) as (_ & _ & R).
  destruct (R fs3 pt' wB1 E3) as (-> & _). split; [reflexivity|].
  pose proof (received_step C H b at_ _ _ _ _ _ _ _ false 1 0 pt c rndB fs3 pt wB1 H2 I0 Rv second_fresh E3) as H3. clear R H1 H2.
  destruct H3 as (_ & _ & _ & _ & _ & _ & _ & _ & _ & _ & Ss & _).
  destruct (Ss true (or_introl eq_refl)) as (rA & sA & A1 & A2 & A3 & _).
  destruct (Ss false) as (rB & sB & B1 & B2 & B3 & _); [right; cbn; discriminate|].
  clear Ss. exists sA, sB.
  destruct A3 as (_ & _ & A4 & _ & A5 & (sc & A6 & A7 & A8 & A9 & _) & _).
  destruct B3 as (_ & _ & B4 & _ & B5 & (sd & B6 & B7 & B8 & B9 & _) & _ & B10 & _).
  split; [exists rA, sc; repeat split; assumption|]. split; [exists rB, sd; repeat split; assumption|]. split; [exact A4|]. split; [exact B4|].
  cbn in B10. inversion B10 as [|v ch vs cs V F]; subst. inversion F; subst. destruct V as (V1 & V2 & V3 & _).
  exists [], ch, []. repeat split; auto.
Qed.
End Run.
End Establish.
