(** C22: what happens to a one-time pre-key with id 0. *)
From Verif Require Import M_Base M_Crypto M_Aes M_Curve M_Proto M_Message M_Ratchet M_State M_Store M_Session M_Group
  S_Crypto S_Message S_State S_Shape S_Ratchet S_Session S_Aes S_Api S_Send S_Group S_Receive S_Curve S_Bundle S_Conv S_X3dh S_History
  P_Base P_Proto P_Curve P_State P_Shape P_Ratchet P_Message P_Aes P_Chain P_Decrypt P_Receive P_Encrypt P_Record P_Prog
  P_Init P_Send P_SendTop P_Bundle P_DecApi P_DecTop P_Conv P_X3dh P_History P_Frames P_CryptoTop.
From Coq Require Import ZifyBool ZifyNat ZifyN.
Local Open Scope nat_scope.

Lemma app_eq_app_len : forall (a b c d : bytes), List.length a = List.length b -> a ++ c = b ++ d -> a = b /\ c = d.
Proof.
  induction a as [|x a IH]; intros [|y b] c d L E; try discriminate L; [auto|]. cbn [app] in E. injection E as -> E. injection L as L.
  destruct (IH b c d L E) as [-> ->]. auto.
Qed.
Section Zero.
Variable C : Crypto.
Hypothesis H : CryptoOk C.

(** A fresh pre-key session: the state that opens it. *)
Lemma fresh_answer : forall a rnd pm fs w pt w', wf_device w -> wf_prekeymsg pm -> w_sess w a = None ->
  run (decrypt_message C a rnd (CPreKey pm)) fs w = (Ok pt, w') ->
  exists s, bob_session C w pm s /\ opens C s (pm_message pm) pt.
Proof using H.
  intros a rnd pm fs w pt w' [W _] Wc En E. cbn [decrypt_message] in E.
  destruct (decrypt_prekey_inv _ _ _ _ _ _ _ _ E) as (r1 & r2 & id & w1 & T & P & D & _). rewrite En in P. pose proof (loaded_wf w a W) as Wl. rewrite En in Wl.
  assert (Ne : forall s, ~ state_in s (loaded None)).
  { intros s [Q|(x & [] & _)]. discriminate. }
  destruct P as [(Hh & -> & _ & _)|(Hh & _ & s & B & -> & _)].
  - exfalso. destruct (has_state_spec _ pm Wl Wc) as (x & Hb & Ib). rewrite Hb in Hh. injection Hh as ->. destruct (proj1 Ib eq_refl) as (s & I0 & _). exact (Ne s I0).
  - destruct (bob_session_wf C w pm s H W Wc B) as (Ws & _).
    destruct (decrypt_record_opens C rnd _ _ pt r2 H (promote_wf _ s Wl Ws) (wf_prekey_inner pm Wc) D) as (s' & I0 & O). exists s. split; [exact B|].
    apply state_in_promote in I0; [|exact Wl]. destruct I0 as [->|I0]; [exact O|destruct (Ne s' I0)].
Qed.

Variables ia ib sb o rnd : bytes.
Lemma initiator_at : forall a b fs w w', wf_device w -> wf_bundle b -> pair_for C ia (w_pair w) -> List.length ib = 32 -> List.length sb = 32 ->
  forall ob, (forall x, ob = Some x -> List.length x = 32) ->
  bd_identity b = Some (mont_pub C ib) -> bd_signed b = Some (mont_pub C sb) -> bd_prekey b = option_map (mont_pub C) ob -> 64 <= List.length rnd ->
  run (process_bundle C a rnd b) fs w = (Ok tt, w') ->
  exists s, device_at w' a s (mont_pub C (firstn 32 (skipn 32 rnd))) (x3dh_first_chain C ia (firstn 32 rnd) ib sb ob (firstn 32 (skipn 32 rnd))) 0 /\
    ss_local s = pub_bytes (mont_pub C ia) /\ ss_remote s = pub_bytes (mont_pub C ib).
Proof using H.
  intros a b fs w w' Wd Wb PA Lb Lsb ob Lo Ei Es Eo Lr E.
  assert (L32 : List.length (firstn 32 rnd) = 32) by (apply firstn_length_le; lia).
  destruct (bundle_success _ _ _ _ _ _ _ E) as (ti & ts & bp & rnd1 & s0 & rest & B1 & B2 & B3 & B4 & B5 & B6 & B7).
  rewrite Ei in B1. injection B1 as <-. rewrite Es in B2. injection B2 as <-.
  destruct (gen_pair_for C rnd ltac:(lia)) as (bp' & G & Pb). rewrite B5 in G. injection G as <- ->.
  destruct PA as (La & PA').
  destruct (init_alice_party C H ia (firstn 32 rnd) ib sb ob La L32 Lb Lsb Lo (w_pair w) bp (skipn 32 rnd) (conj La PA') Pb) as (s1 & I1 & P1);
    [rewrite skipn_length; lia|].
  rewrite Eo, I1 in B6. injection B6 as <- <-. destruct Wb as (Gr & Gi & _ & Gs & _).
  set (pend := mkPPending (match bd_prekey_id b with Some i => i | None => 0%N end) (pub_bytes (mont_pub C (firstn 32 rnd))) (to_int32 (bd_signed_id b))).
  assert (Wpd : forall p, Some pend = Some p -> wf_pending p).
  { intros p Q. injection Q as <-. split; [|split].
    - cbn [pp_prekey pend]. destruct (bd_prekey_id b) as [i|]; [apply Gi; reflexivity|reflexivity].
    - apply to_int32_range. exact Gs.
    - exists (mont_pub C (firstn 32 rnd)). split; [apply ed_to_mont_length|reflexivity]. }
  destruct (P1 (Some pend) (bd_reg b) (w_reg w) Wpd Gr (proj2 (proj2 (proj1 Wd)))) as (P2 & _).
  assert (Es1 : bundle_state b s1 (kp_pub bp) (w_reg w) =
     with_alice_base (with_regs (with_pending s1 (Some pend)) (bd_reg b) (w_reg w)) (pub_bytes (mont_pub C (firstn 32 rnd)))).
  { destruct Pb as (_ & -> & _). reflexivity. }
  rewrite Es1 in B7. set (st := with_alice_base _ _) in *. destruct P2 as (Ws & E1 & E2 & _ & _ & (sc & S1 & S2 & _ & S4 & _) & _).
  exists st. split; [|auto]. assert (Wl : wf_record (loaded (w_sess w a))) by (apply loaded_wf; apply Wd).
  eexists. split; [rewrite B7; unfold bundle_world; cbn [set_sess w_sess]; rewrite addr_eqb_refl; reflexivity|].
  split; [rewrite (promote_exact _ _ Wl); reflexivity|]. exists sc. eexists. split; [exact S1|]. split; [exact S2|]. split; [exact S4|]. split; reflexivity.
Qed.

Lemma initiator_works : forall a b w, wf_device w -> wf_bundle b -> pair_for C ia (w_pair w) -> List.length ib = 32 -> List.length sb = 32 -> List.length o = 32 ->
  bd_identity b = Some (mont_pub C ib) -> bd_signed b = Some (mont_pub C sb) -> bd_prekey b = Some (mont_pub C o) -> 64 <= List.length rnd ->
  bundle_signed C b -> (forall k k' d, w_policy w a k k' d = true) ->
  forall pt, exists w1 c w2, run0 (process_bundle C a rnd b) w = (Ok tt, w1) /\ run0 (encrypt_message C a pt) w1 = (Ok c, w2).
Proof using H.
  intros a b w Wd Wb PA Lb Lsb Lo Ei Es Eo Lr Sg T pt.
  assert (L32 : List.length (firstn 32 rnd) = 32) by (apply firstn_length_le; lia).
  assert (Lob : forall y, Some o = Some y -> List.length y = 32) by (intros y Q; injection Q as <-; exact Lo).
  destruct (gen_pair_for C rnd ltac:(lia)) as (bp & G & Pb). pose proof PA as (La & _).
  destruct (init_alice_party C H ia (firstn 32 rnd) ib sb (Some o) La L32 Lb Lsb Lob (w_pair w) bp (skipn 32 rnd) PA Pb) as (s1 & I1 & _);
    [rewrite skipn_length; lia|]. cbn [option_map] in I1. rewrite <- Eo in I1.
  destruct Sg as (ti & ts & r & t & y & Q1 & Q2 & Q3 & Q4 & Q5 & Q6). rewrite Ei in Q1. injection Q1 as <-. rewrite Es in Q2. injection Q2 as <-.
  assert (E : exists w1, run0 (process_bundle C a rnd b) w = (Ok tt, w1)).
  { eexists. eapply bundle_completes; eauto. destruct (signatures C H) as (_ & V & _). apply V. exists r, t, y. cbn [List.concat]. rewrite app_nil_r. auto. }
  destruct E as (w1 & E). exists w1.
  destruct (initiator_at a b [] w w1 Wd Wb PA Lb Lsb (Some o) Lob Ei Es Eo Lr E) as (s & (rc & D1 & D2 & _) & El & Er).
  destruct (bundle_awaiting _ _ _ _ _ _ _ H Wd Wb E) as (W1 & _).
  assert (P1 : w_policy w1 = w_policy w).
  { destruct (bundle_success _ _ _ _ _ _ _ E) as (? & ? & ? & ? & ? & ? & _ & _ & _ & _ & _ & _ & ->). unfold bundle_world. destruct (existed _ && _)%bool; reflexivity. }
  assert (Ws : wf_state s) by (apply (proj1 (proj1 (proj1 W1) _ _ D1)); exact D2).
  destruct (encrypt_state_exact C s pt H Ws) as (sc & k & rt & local & rem & m & out & A1 & A2 & A3 & A4 & A5 & A6 & A7 & A8 & A9 & A10 & A11).
  rewrite <- P1 in T. exists out. eexists. split; [exact E|]. exact (encrypt_completes C a pt rc s out _ rem w1 D1 D2 A11 (T _ _ _)).
Qed.

(** If the responder accepts a message that names no one-time pre-key, or one it does not
    have, although the initiator used one, two different MAC keys gave the same tag. *)
Lemma missing_key_collides : forall a aB b fs w w1 pt fs1 c w2 wB rndB fs2 pt' wB',
  wf_device w -> wf_device wB -> wf_bundle b -> pair_for C ia (w_pair w) -> pair_for C ib (w_pair wB) -> List.length o = 32 ->
  bd_identity b = Some (mont_pub C ib) -> bd_signed b = Some (mont_pub C sb) ->
  (exists x p, w_signed wB (bd_signed_id b) = Some x /\ prekeyrec_pair C x = Ok p /\ pair_for C sb p) ->
  (bd_prekey_id b = Some 0%N \/ exists id, bd_prekey_id b = Some id /\ w_prekeys wB id = None) -> bd_prekey b = Some (mont_pub C o) -> 64 <= List.length rnd -> w_sess wB aB = None ->
  run (process_bundle C a rnd b) fs w = (Ok tt, w1) -> run (encrypt_message C a pt) fs1 w1 = (Ok c, w2) ->
  run (decrypt_message C aB rndB c) fs2 wB = (Ok pt', wB') ->
  exists pm mk mk0 t, c = CPreKey pm /\ keys_at C (x3dh_first_chain C ia (firstn 32 rnd) ib sb (Some o) (firstn 32 (skipn 32 rnd))) 0 mk /\ keys_at C (x3dh_first_chain C ia (firstn 32 rnd) ib sb None (firstn 32 (skipn 32 rnd))) 0 mk0 /\
    sg_raw (pm_message pm) = t ++ firstn 8 (c_hmac C (mk_mac mk) ((Byte.x05 :: mont_pub C ia) ++ (Byte.x05 :: mont_pub C ib) ++ t)) /\
    sg_raw (pm_message pm) = t ++ firstn 8 (c_hmac C (mk_mac mk0) ((Byte.x05 :: mont_pub C ia) ++ (Byte.x05 :: mont_pub C ib) ++ t)).
Proof using H.
  intros a aB b fs w w1 pt fs1 c w2 wB rndB fs2 pt' wB' Wd WB Wb PA PB Lo Ei Es (x & p & Ex & Ep & Ps) E0 Eo Lr En E1 E2 E3.
  assert (Lob : forall y, Some o = Some y -> List.length y = 32) by (intros y Q; injection Q as <-; exact Lo).
  destruct (initiator_at a b fs w w1 Wd Wb PA (proj1 PB) (proj1 Ps) (Some o) Lob Ei Es Eo Lr E1) as (s & Dv & El & Er).
  destruct (bundle_awaiting _ _ _ _ _ _ _ H Wd Wb E1) as (W1 & _).
  assert (Sn : sends_ok C a w1 [(pt, c)] w2) by (eapply sok_cons; [exact E2|constructor]).
  destruct (consecutive C a w1 w2 s _ _ _ _ H W1 Dv Sn) as [Q _]; [reflexivity|]. destruct (Q 0 pt c eq_refl) as (m & local & remote & Im & Em1 & Em2 & El' & Er' & Wh). clear Q.
  destruct (initiated _ _ _ _ _ _ _ _ _ H Wd Wb E1 Sn pt c (or_introl eq_refl)) as (pm & m' & -> & F). cbn [inner] in Im. injection Im as <-.
  destruct F as (F1 & F2 & F3 & F4 & F5 & F6 & _).
  rewrite El in El'. injection El' as <-. rewrite Er in Er'. injection Er' as <-.
  pose proof (sent_wf _ _ _ _ _ _ _ H W1 E2) as Wc. cbn [wf_ciphertext] in Wc.
  destruct (fresh_answer aB rndB pm fs2 wB pt' wB' WB Wc En E3) as (sB & B & Op).
  destruct B as (x' & p' & ot & s0 & B1 & B2 & B3 & B4 & B5). assert (ot = None) as -> by (rewrite F3 in B3; destruct E0 as [E0|(id & E0 & Em)]; rewrite E0 in B3; [exact B3|]; cbn [N.eqb] in B3; destruct id; [exact B3|]; rewrite Em in B3; exact B3). rewrite F4, Ex in B1. injection B1 as <-. rewrite Ep in B2. injection B2 as <-.
  assert (Lno : forall y : bytes, @None bytes = Some y -> List.length y = 32) by discriminate.
  assert (L32 : List.length (firstn 32 rnd) = 32) by (apply firstn_length_le; lia).
  destruct PA as (La & Pa1 & PA'). rewrite F5, F6, Pa1 in B4.
  rewrite (init_bob_exact C H ia (firstn 32 rnd) ib sb None La L32 (proj1 PB) (proj1 Ps) Lno (w_pair wB) p None PB Ps I) in B4. injection B4 as <-.
  destruct Op as (mk0 & rm & lc & K & R1 & R2 & T & _). pose proof Wh as (mk & prev & body & K1 & _ & _).
  rewrite Em1, Em2 in K. change (0 + N.of_nat 0)%N with 0%N in *. change (chain_at C (x3dh_first_chain C ia (firstn 32 rnd) ib sb (Some o) (firstn 32 (skipn 32 rnd))) 0) with (x3dh_first_chain C ia (firstn 32 rnd) ib sb (Some o) (firstn 32 (skipn 32 rnd))) in K1.
  subst sB. destruct K as [(c0 & k0 & J & _)|(_ & _ & sc & root' & ck & Q1 & _ & Q3 & Lr' & Lc & K0)]; [destruct J|].
  cbn [st_set_sender_chain with_alice_base with_regs ss_sender] in Q1. injection Q1 as <-. cbn [pc_ratchet_priv] in Q3.
  assert (Lk : List.length (firstn 32 (skipn 32 rnd)) = 32) by (apply firstn_length_le; rewrite skipn_length; lia).
  assert (Ck : ck = x3dh_first_chain C ia (firstn 32 rnd) ib sb None (firstn 32 (skipn 32 rnd))).
  { unfold x3dh_first_chain. destruct Ps as (Ls & _ & Pc & _).
    match type of Q3 with context [c_x25519 C ?k _] => change k with (sk_bytes (kp_priv p)) in Q3 end. rewrite Pc in Q3.
    rewrite (ok_x_clamp C H) in Q3 by exact Ls. rewrite (ok_dh C H) in Q3 by (exact Ls || exact Lk).
    match type of Q3 with context [rfc_hkdf C (Some ?k) _ _ _] => change k with (x3dh_root C ia (firstn 32 rnd) ib sb None) in Q3 end.
    transitivity (skipn 32 (root' ++ ck)); [rewrite <- Lr'; rewrite skipn_app, Nat.sub_diag, skipn_all; reflexivity|]. exact (f_equal (skipn 32) Q3). }
  subst ck. change (chain_at C (x3dh_first_chain C ia (firstn 32 rnd) ib sb None (firstn 32 (skipn 32 rnd))) (N.to_nat 0)) with (x3dh_first_chain C ia (firstn 32 rnd) ib sb None (firstn 32 (skipn 32 rnd))) in K0.
  change (chain_at C (x3dh_first_chain C ia (firstn 32 rnd) ib sb (Some o) (firstn 32 (skipn 32 rnd))) 0) with (x3dh_first_chain C ia (firstn 32 rnd) ib sb (Some o) (firstn 32 (skipn 32 rnd))) in Wh.
  destruct (whisper_opens _ _ _ _ _ _ _ _ _ H Wh K1) as [V _]. apply verify_mac_tagged in V; [|exact H|apply K1].
  cbn [st_set_sender_chain with_alice_base with_regs ss_remote ss_local] in R1, R2.
  assert (Rm : rm = mont_pub C ia) by (apply (f_equal (skipn 1)) in R1; symmetry; exact R1).
  assert (Lcl : lc = mont_pub C ib) by (apply (f_equal (skipn 1)) in R2; symmetry; exact R2). subst rm lc.
  destruct V as (t1 & V1). destruct T as (t2 & V2). pose proof V2 as V3. rewrite V1 in V2.
  assert (Lt : forall k y, List.length (firstn 8 (c_hmac C k y)) = 8) by (intros; rewrite firstn_length, (ok_hmac_len C H); reflexivity).
  assert (Et : List.length t1 = List.length t2) by (apply (f_equal (@List.length _)) in V2; rewrite !app_length, !Lt in V2; lia).
  destruct (app_eq_app_len _ _ _ _ Et V2) as [-> Tag].
  exists pm, mk, mk0, t2. split; [reflexivity|]. split; [exact K1|]. split; [exact K0|]. split; [exact V1|exact V3].
Qed.
Lemma zero_id_collides : forall a aB b fs w w1 pt fs1 c w2 wB rndB fs2 pt' wB',
  wf_device w -> wf_device wB -> wf_bundle b -> pair_for C ia (w_pair w) -> pair_for C ib (w_pair wB) -> List.length o = 32 ->
  bd_identity b = Some (mont_pub C ib) -> bd_signed b = Some (mont_pub C sb) ->
  (exists x p, w_signed wB (bd_signed_id b) = Some x /\ prekeyrec_pair C x = Ok p /\ pair_for C sb p) ->
  bd_prekey_id b = Some 0%N -> bd_prekey b = Some (mont_pub C o) -> 64 <= List.length rnd -> w_sess wB aB = None ->
  run (process_bundle C a rnd b) fs w = (Ok tt, w1) -> run (encrypt_message C a pt) fs1 w1 = (Ok c, w2) ->
  run (decrypt_message C aB rndB c) fs2 wB = (Ok pt', wB') ->
  exists pm mk mk0 t, c = CPreKey pm /\ keys_at C (x3dh_first_chain C ia (firstn 32 rnd) ib sb (Some o) (firstn 32 (skipn 32 rnd))) 0 mk /\ keys_at C (x3dh_first_chain C ia (firstn 32 rnd) ib sb None (firstn 32 (skipn 32 rnd))) 0 mk0 /\
    sg_raw (pm_message pm) = t ++ firstn 8 (c_hmac C (mk_mac mk) ((Byte.x05 :: mont_pub C ia) ++ (Byte.x05 :: mont_pub C ib) ++ t)) /\
    sg_raw (pm_message pm) = t ++ firstn 8 (c_hmac C (mk_mac mk0) ((Byte.x05 :: mont_pub C ia) ++ (Byte.x05 :: mont_pub C ib) ++ t)).
Proof using H.
  intros a aB b fs w w1 pt fs1 c w2 wB rndB fs2 pt' wB' Wd WB Wb PA PB Lo Ei Es X E0 Eo Lr En E1 E2 E3.
  exact (missing_key_collides a aB b fs w w1 pt fs1 c w2 wB rndB fs2 pt' wB' Wd WB Wb PA PB Lo Ei Es X (or_introl E0) Eo Lr En E1 E2 E3).
Qed.
End Zero.
