(** A concrete case for T_Opening.v, and the law for the real curve. *)
From Verif Require Import M_Base M_Crypto M_Aes M_Curve M_Uuid M_Message M_Ratchet M_State M_Store M_Session M_Group
  S_Crypto S_Message S_State S_Shape S_Ratchet S_Session S_Api S_Send S_Group S_GroupMsg S_Curve S_X3dh S_Receive S_Sessions S_Conv S_History S_Bundle S_Opening S_SmallKeys
  P_Base P_Curve P_Shape P_Ratchet P_Chain P_Encrypt P_Send P_X3dh P_CryptoTop P_GroupMsg P_History P_Establish P_Api P_Keep P_Opening
  K_Toy K_World K_Receive K_Conv K_Group R_Curve R_Real P_Real P_SmallKeys.
Local Open Scope nat_scope.

Lemma zero_iff : forall l, all_zero l = true <-> ~ exists x, In x l /\ x <> Byte.x00.
Proof.
  intro l. unfold all_zero. rewrite forallb_forall. split.
  - intros F (x & J & N). specialize (F x J). apply N. destruct x; cbn in F; congruence.
  - intros N x J. destruct (Byte.eqb x Byte.x00) eqn:E; [|exfalso; apply N; exists x; split; [exact J|]; intro Q; subst x; discriminate].
    apply Byte.byte_dec_bl in E. subst x. reflexivity.
Qed.
Lemma real_zero_key : zero_by_key real.
Proof.
  intros k k' u L L' X. cbn [c_x25519 real] in *. destruct (all_zero (real_x25519 k' u)) eqn:E.
  - apply (proj1 (real_zero k' u L')) in E. apply (proj2 (real_zero k u L)) in E. apply zero_iff in E. destruct (E X).
  - destruct (Exists_dec (fun x => x <> Byte.x00) (real_x25519 k' u)) as [Y|Y].
    + intro x. destruct (Byte.byte_eq_dec x Byte.x00); [right; auto|left; auto].
    + apply Exists_exists in Y. exact Y.
    + exfalso. assert (all_zero (real_x25519 k' u) = true) by (apply zero_iff; intro Q; apply Y; apply Exists_exists; exact Q). congruence.
Qed.
Lemma toy_zero_key : zero_by_key toy.
Proof.
  intros k k' u L L' (x & J & Nx). cbn [c_x25519 toy] in *. unfold toy_x in *. destruct (utoy u true) as [y|e|]; [|apply repeat_spec in J; congruence..].
  destruct (N.eqb (le2n y) (p25519 - 1)%N); [apply repeat_spec in J; congruence|].
  match goal with |- exists x, In x (n2le 32 (?a mod ell + 1)%N) /\ _ => set (v := (a mod ell)%N) end.
  assert (V : (v < ell)%N) by (apply N.mod_lt; discriminate).
  destruct (Exists_dec (fun x => x <> Byte.x00) (n2le 32 (v + 1))) as [Y|Y].
  - intro z. destruct (Byte.byte_eq_dec z Byte.x00); [right; auto|left; auto].
  - apply Exists_exists in Y. exact Y.
  - exfalso. assert (A : all_zero (n2le 32 (v + 1)) = true) by (apply zero_iff; intro Q; apply Y; apply Exists_exists; exact Q).
    assert (Q : n2le 32 (v + 1) = repeat Byte.x00 32).
    { pose proof (n2le_length 32 (v + 1)) as Ln. revert A Ln. generalize (n2le 32 (v + 1)). clear. intros l A <-.
      unfold all_zero in A. induction l as [|b l IH]; [reflexivity|]. cbn [forallb List.length repeat] in *. apply andb_prop in A. destruct A as [A1 A2].
      rewrite <- IH by exact A2. f_equal. destruct b; cbn in A1; congruence. }
    apply (f_equal le2n) in Q. pose proof ell_small as (E & _). rewrite le2n_n2le in Q.
    + change (le2n (repeat Byte.x00 32)) with 0%N in Q. lia.
    + change (N.of_nat 32) with 32%N. revert E V. generalize (256 ^ 32)%N ell. clear. intros. lia.
Qed.

Lemma conv_send_w : forall b base dev par keys notes side pt, history toy conv_at b base dev par keys notes -> open_policy dev ->
  (side = true \/ p_epoch (par false) <> 0) -> (p_sent (par side) + 1 < 4294967296)%N ->
  exists c w', open_policy (upd dev side w') /\ history toy conv_at b base (upd dev side w') (upd par side (sent_one (par side))) keys
    (mkNote side (p_epoch (par side)) (p_sent (par side)) pt c :: notes).
Proof.
  intros b base dev par keys notes side pt Hy O Sd G.
  destruct (sendable toy toy_ok b conv_at _ _ _ _ _ side pt Hy Sd G) as (c & w' & E); [rewrite O; reflexivity|].
  exists c, w'. split; [|eapply h_send; eauto]. apply open_upd; [exact O|].
  pose proof (run_policy (encrypt_message toy (conv_at side) pt) [] (dev side)) as Q. unfold run0 in E. rewrite E, O in Q. exact Q.
Qed.
Lemma conv_receive_w : forall b base dev par keys notes side k n pt c rnd, history toy conv_at b base dev par keys notes -> open_policy dev ->
  In (mkNote (negb side) k n pt c) notes -> receivable (par side) k n -> fresh toy keys (par side) k rnd ->
  exists w', open_policy (upd dev side w') /\ history toy conv_at b base (upd dev side w') (upd par side (party_after (par side) k n)) (keys_after toy keys (par side) k rnd) notes /\
    run0 (decrypt_message toy (conv_at side) rnd c) (dev side) = (Ok pt, w').
Proof.
  intros b base dev par keys notes side k n pt c rnd Hy O I0 Rv Fr.
  destruct (delivered toy toy_ok b conv_at _ _ _ _ _ side k n pt c rnd Hy I0 Rv Fr) as (w' & E); [rewrite O; reflexivity|].
  exists w'. split; [|split; [eapply h_receive; eauto|exact E]]. apply open_upd; [exact O|].
  pose proof (run_policy (decrypt_message toy (conv_at side) rnd c) [] (dev side)) as Q. unfold run0 in E. rewrite E, O in Q. exact Q.
Qed.
Definition open_rnd : bytes := b32 Byte.x44 ++ repeat Byte.x00 1280.
Lemma open_rnd_len : 1312 <= List.length open_rnd.
Proof. apply le_n. Qed.
Lemma opening_case : zero_by_key toy /\ exists w a r m s, reachable toy ([], w) /\ w_sess w a = Some r /\ peers_trusted w a r /\ wf_signal m /\
  answers toy r m s (str "reply") /\ exists m', wf_signal m' /\ forall s pt, ~ answers toy r m' s pt.
Proof.
  split; [exact toy_zero_key|].
  destruct (bob_bundle_signed (Some 7%N)) as [sig Sg]. set (b := bob_bundle (Some 7%N) sig) in *.
  set (dev := fun y : bool => if y then alice_world true else bob_world 7 true).
  assert (Pub : published toy (dev false) b bob_key bob_signed_key (Some bob_once_key)).
  { apply (bob_published 7 (Some 7%N) sig true); [right; reflexivity|discriminate]. }
  assert (PA : pair_for toy alice_key (w_pair (dev true))) by (apply pair_of_for, b32_len).
  assert (Wb : wf_bundle b) by (apply bob_bundle_wf; intros i E; injection E as <-; apply small_u32; reflexivity).
  assert (Lr : 64 <= List.length alice_rnd) by (unfold alice_rnd; rewrite app_length, !b32_len; apply le_n).
  destruct (bundle_works toy toy_ok b (conv_at true) (dev true) (dev false) alice_key bob_key bob_signed_key (Some bob_once_key) alice_rnd
    (alice_wf true) PA Pub Sg Lr eq_refl) as (w1 & E1 & _ & Po1).
  pose proof conv_fresh as Nd.
  assert (H1 : history toy conv_at b (mont_pub toy (firstn 32 alice_rnd)) (upd dev true w1) start_party
     [mont_pub toy bob_signed_key; mont_pub toy (firstn 32 (skipn 32 alice_rnd))] []).
  { eapply (h_start toy conv_at b _ dev alice_key bob_key bob_signed_key (Some bob_once_key) alice_rnd [] w1); eauto.
    - apply alice_wf.
    - apply bob_wf.
    - apply none_unused. reflexivity.
    - rewrite alice_rnd_ratchet. apply toy_pub_neq. vm_compute. reflexivity. }
  assert (R1 : reachable_with toy (fun _ => True) ([], w1)).
  { pose proof (call_reach toy (fun _ => True) (CBundle (conv_at true) alice_rnd b) [] (alice_world true) [] Wb I (rw_init _ _ _ (alice_empty true))) as R.
    change (reachable_with toy (fun _ => True) ([], snd (run0 (process_bundle toy (conv_at true) alice_rnd b) (dev true)))) in R. rewrite E1 in R. exact R. }
  assert (O1 : open_policy (upd dev true w1)) by (intros []; [exact Po1|reflexivity]).
  rewrite alice_rnd_ratchet in H1. revert H1 O1. generalize (mont_pub toy (firstn 32 alice_rnd)). intros base H1 O1.
  destruct (sendable toy toy_ok b conv_at _ _ _ _ _ true (str "one") H1 (or_introl eq_refl) ltac:(reflexivity)) as (c1 & w2 & E2); [rewrite O1; reflexivity|].
  assert (H2 := h_send _ _ _ _ _ _ _ _ true (str "one") [] c1 w2 H1 (or_introl eq_refl) ltac:(reflexivity) E2).
  assert (P2 : w_policy w2 = all_trusted).
  { pose proof (run_policy (encrypt_message toy (conv_at true) (str "one")) [] (upd dev true w1 true)) as Q. unfold run0 in E2. rewrite E2, O1 in Q. exact Q. }
  assert (O2 : open_policy (upd (upd dev true w1) true w2)) by (apply open_upd; [exact O1|exact P2]).
  assert (R2 : reachable_with toy (fun _ => True) ([], w2)).
  { pose proof (call_reach toy (fun _ => True) (CEncrypt (conv_at true) (str "one")) [] w1 [] I I R1) as R.
    change (reachable_with toy (fun _ => True) ([], snd (run0 (encrypt_message toy (conv_at true) (str "one")) (upd dev true w1 true)))) in R. rewrite E2 in R. exact R. }
  destruct (conv_receive_w _ _ _ _ _ _ false 1 0 (str "one") c1 (b32 Byte.x43) H2 O2) as (w3 & O3 & H3 & _).
  { left. reflexivity. }
  { apply rec_new; [reflexivity|discriminate]. }
  { intros _. split; [rewrite b32_len; apply le_n|]. change (firstn 32 (b32 Byte.x43)) with (b32 Byte.x43). inversion Nd as [|? ? N1 N2]; subst. inversion N2 as [|? ? N3 _]; subst.
    intros [E|[E|[]]]; [apply N1; right; left; symmetry; exact E|apply N3; left; symmetry; exact E]. }
  destruct (conv_send_w _ _ _ _ _ _ false (str "reply") H3 O3) as (c4 & w4 & O4 & H4); [right; discriminate|reflexivity|].
  destruct (frames toy toy_ok b conv_at _ _ _ _ _ false 2 0 (str "reply") c4 H4 (or_introl eq_refl)) as [(m & Em & _)|([Q _] & _)]; [|discriminate].
  destruct (conv_receive_w _ _ _ _ _ _ true 2 0 (str "reply") c4 open_rnd H4 O4) as (w5 & _ & _ & E5).
  { left. reflexivity. }
  { apply rec_new; [reflexivity|discriminate]. }
  { intros _. split; [pose proof open_rnd_len; lia|]. change (firstn 32 open_rnd) with (b32 Byte.x44).
    cbn [keys_after Nat.eqb p_epoch start_party upd Bool.eqb party_after sent_one app In]. change (firstn 32 (b32 Byte.x43)) with (b32 Byte.x43).
    intros I0; repeat destruct I0 as [I0|I0]; try exact I0; revert I0; apply toy_pub_neq; vm_compute; reflexivity. }
  change (run0 (decrypt_message toy (conv_at true) open_rnd c4) w2 = (Ok (str "reply"), w5)) in E5.
  assert (Wm : wf_signal m).
  { destruct (history_in_step toy toy_ok b conv_at _ _ _ _ _ H4) as (k & ks & (So & _ & _ & _ & _ & _ & _ & _ & _ & _ & _ & _ & Nt)).
    inversion Nt as [|? ? (_ & G & m0 & Wh & F) _]; subst. destruct (note_wf toy toy_ok b k ks start_party _ m0 So Wh G) as [_ Wc]. exact (Wc _ _ _ F). }
  subst c4. assert (R : reachable toy ([], w2)) by exact (reachable_less _ _ _ R2).
  destruct (history_in_step toy toy_ok b conv_at _ _ _ _ _ H4) as (k & ks & (_ & _ & _ & _ & _ & _ & _ & _ & _ & _ & Ss & _)).
  destruct (Ss true (or_introl eq_refl)) as (r & c & Er & Ec & _). change (w_sess w2 (conv_at true) = Some r) in Er. clear Ss.
  assert (Tr : peers_trusted w2 (conv_at true) r) by (intros s x _ _; rewrite P2; reflexivity).
  exists w2, (conv_at true), r, m. pose proof (reachable_wf toy toy_ok [] w2 R) as Wd.
  destruct (record_exact toy toy_ok toy_zero_key open_rnd r m (proj1 (proj1 Wd) _ _ Er)) as [(s & pt & _ & _ & A & _)|(_ & _ & N)]; [|exact Wm|exact open_rnd_len| |].
  - intros s J. exact (reachable_tidy toy [] w2 _ r s toy_ok R Er J).
  - destruct (opening_whisper toy [] w2 _ r open_rnd m toy_ok toy_zero_key R Er Tr Wm open_rnd_len) as [Y _].
    destruct (Y s pt A) as (w' & _ & _ & E & _). rewrite E in E5. assert (pt = str "reply") as -> by congruence.
    exists s. split; [exact R|]. split; [exact Er|]. split; [exact Tr|]. split; [exact Wm|]. split; [exact A|]. exists junk. split; [exact junk_wf|].
    intros s0 p0 [O0 _]. exact (junk_opens toy s0 p0 O0).
  - exfalso. destruct (opening_whisper toy [] w2 _ r open_rnd m toy_ok toy_zero_key R Er Tr Wm open_rnd_len) as [_ Y].
    destruct (Y N) as [Y1 _]. destruct Y1 as (w' & E & _); [rewrite Ec; discriminate|]. rewrite E in E5. discriminate.
Qed.
