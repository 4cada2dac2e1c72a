(** A network in which two devices write to a third. *)
From Verif Require Import M_Base M_Crypto M_Aes M_Curve M_Uuid M_Message M_Ratchet M_State M_Store M_Session M_Group
  S_Crypto S_Message S_State S_Shape S_Ratchet S_Session S_Api S_Send S_Group S_Curve S_X3dh S_Receive S_Conv S_History S_Isolation S_Atomic S_Bundle S_Many S_Net
  P_Base P_Curve P_Shape P_Ratchet P_Chain P_Encrypt P_Send P_X3dh P_CryptoTop P_History P_Establish P_Bundle P_Atomic P_Isolation P_Cross
  P_ManyLink P_Many P_ManySteps P_ManyTop P_Net K_Toy K_World K_Receive K_Conv K_Cross K_Many.
Local Open Scope nat_scope.

Definition at_a : addr := conv_at false.
Definition at_b : addr := conv_at true.
Definition at_c : addr := mkAddr "carol"%string 7%N.
Definition three (sh : bool) (d : addr) : world :=
  if addr_eqb d at_a then plain_device Byte.x31 Byte.x32 sh else if addr_eqb d at_b then plain_device Byte.x33 Byte.x34 sh else plain_device Byte.x35 Byte.x36 sh.

Lemma begun_base : forall a e x y w1 w2 rnd sig ia, wf_device w1 -> wf_device w2 -> pair_for toy ia (w_pair w1) -> published toy w2 (plain_bundle x y sig) (b32 x) (b32 y) None ->
  64 <= List.length rnd -> mont_pub toy (firstn 32 (skipn 32 rnd)) <> mont_pub toy (b32 y) -> unused_base w2 a (mont_pub toy (firstn 32 rnd)) ->
  forall w', run0 (process_bundle toy e rnd (plain_bundle x y sig)) w1 = (Ok tt, w') -> current_base w' e (mont_pub toy (firstn 32 rnd)).
Proof.
  intros a e x y w1 w2 rnd sig ia W1 W2 P Pub Lr Nk Un w' E.
  destruct (link_state toy toy_ok (fun s : bool => if s then e else a) (plain_bundle x y sig) (mont_pub toy (firstn 32 rnd)) (upd (fun s : bool => if s then w1 else w2) true w') start_party
    [mont_pub toy (b32 y); mont_pub toy (firstn 32 (skipn 32 rnd))] [] true) as (s & Q1 & _ & Q2 & _); [|left; reflexivity|].
  - apply (h_start toy (fun s : bool => if s then e else a) (plain_bundle x y sig) _ (fun s : bool => if s then w1 else w2) ia (b32 x) (b32 y) None rnd [] w'); auto. apply plain_bundle_wf.
  - exists s. rewrite upd_same in Q1. auto.
Qed.

Lemma net_more : forall C (init init' : (addr -> world) -> list cable -> Prop) dev es, (forall d e, init d e -> init' d e) -> net_from C init dev es -> net_from C init' dev es.
Proof.
  intros C init init' dev es K M. induction M; [apply net_start; auto|eapply net_begin; eassumption|eapply net_send; eassumption|eapply net_receive; eassumption|
    eapply net_group; eassumption|eapply net_refused; eassumption|eapply net_other; eassumption].
Qed.
Definition new_link (sig : bytes) (e r : Byte.byte) : link :=
  mkLink true (plain_bundle Byte.x33 Byte.x34 sig) (mont_pub toy (b32 e)) start_party [mont_pub toy (b32 Byte.x34); mont_pub toy (b32 r)] [].
Definition alice_cable (sig : bytes) (m : ciphertext) : cable := mkCable at_a at_b (link_sent (new_link sig Byte.x41 Byte.x42) true (str "hello") m).
Definition carol_cable (sig : bytes) : cable := mkCable at_c at_b (new_link sig Byte.x43 Byte.x44).
Definition at_first (sh : bool) (dev : addr -> world) (es : list cable) : Prop := dev = three sh /\ es = [].
Lemma three_fresh : forall sh, fresh_net (three sh) [].
Proof. intro sh. split; [reflexivity|]. split; intro d; unfold three; destruct (addr_eqb d at_a), (addr_eqb d at_b); try apply plain_wf; reflexivity. Qed.
(** Carol and Alice begin sessions with Bob, Alice sends, Bob sets up a group. *)
Lemma net_story_stores : forall sh : bool, exists dev sig m, net_from toy (at_first sh) dev [alice_cable sig m; carol_cable sig] /\
  (forall d, w_pair (dev d) = w_pair (three sh d)) /\ (forall d, w_signed (dev d) = w_signed (three sh d)) /\ (forall d, w_policy (dev d) = all_trusted) /\ (forall d, w_shared (dev d) = sh) /\
  (forall g, w_groups (dev at_b) at_a g = None) /\ (forall a, w_sess (dev at_b) a = None).
Proof.
  intro sh. destruct (plain_signed Byte.x33 Byte.x34) as [sB SB].
  assert (F1 : forall e r, firstn 32 (b32 e ++ b32 r) = b32 e) by (intros; rewrite firstn_app, b32_len, Nat.sub_diag, firstn_all2 by (rewrite b32_len; apply le_n); apply app_nil_r).
  assert (F2 : forall e r, firstn 32 (skipn 32 (b32 e ++ b32 r)) = b32 r).
  { intros. rewrite skipn_app, b32_len, Nat.sub_diag, skipn_all2 by (rewrite b32_len; apply le_n). reflexivity. }
  assert (F3 : forall e, firstn 32 (b32 e) = b32 e) by (intro; apply firstn_all2; rewrite b32_len; apply le_n).
  assert (Lr : forall e r, 64 <= List.length (b32 e ++ b32 r)) by (intros; rewrite app_length, !b32_len; apply le_n).
  assert (Nab : at_a <> at_b) by discriminate. assert (Nca : at_c <> at_a) by discriminate. assert (Ncb : at_c <> at_b) by discriminate.
  set (bB := plain_bundle Byte.x33 Byte.x34 sB) in *.
  assert (M0 : net_from toy (at_first sh) (three sh) []) by (apply net_start; split; reflexivity).
  assert (Eb : three sh at_b = plain_device Byte.x33 Byte.x34 sh) by reflexivity.
  (* Carol *)
  destruct (bundle_works toy toy_ok bB at_b (three sh at_c) (three sh at_b) (b32 Byte.x35) (b32 Byte.x33) (b32 Byte.x34) None (b32 Byte.x43 ++ b32 Byte.x44)
    (plain_wf _ _ _) (pair_of_for toy (b32 Byte.x35) (b32_len _)) (plain_published _ _ sB sh) SB (Lr _ _) eq_refl) as (w1 & E1 & _ & _).
  pose proof (net_begin toy _ (three sh) [] at_c at_b bB (b32 Byte.x35) (b32 Byte.x33) (b32 Byte.x34) None (b32 Byte.x43 ++ b32 Byte.x44) [] w1
    M0 Ncb (Nat.le_0_l _) (plain_bundle_wf _ _ _) (pair_of_for toy (b32 Byte.x35) (b32_len _)) (plain_published _ _ sB sh) (Lr _ _) (fun z => z)) as M1.
  rewrite F1, F2 in M1. specialize (M1 ltac:(exact (pubs [Byte.x34] Byte.x44 eq_refl)) ltac:(intros l []) ltac:(intros l id []) E1).
  set (c1 := mkCable at_c at_b _) in M1. set (d1 := dev_set (three sh) at_c w1) in M1.
  assert (Da : d1 at_a = three sh at_a) by (apply set_other; auto). assert (Db : d1 at_b = three sh at_b) by (apply set_other; auto).
  (* Alice *)
  destruct (bundle_works toy toy_ok bB at_b (three sh at_a) (three sh at_b) (b32 Byte.x31) (b32 Byte.x33) (b32 Byte.x34) None (b32 Byte.x41 ++ b32 Byte.x42)
    (plain_wf _ _ _) (pair_of_for toy (b32 Byte.x31) (b32_len _)) (plain_published _ _ sB sh) SB (Lr _ _) eq_refl) as (w2 & E2 & _ & Po2).
  assert (B1 : links_between at_a at_b [c1] = []) by reflexivity.
  pose proof (net_begin toy _ d1 [c1] at_a at_b bB (b32 Byte.x31) (b32 Byte.x33) (b32 Byte.x34) None (b32 Byte.x41 ++ b32 Byte.x42) [] w2 M1 Nab) as M2. rewrite B1, Da, Db in M2.
  specialize (M2 (Nat.le_0_l _) (plain_bundle_wf _ _ _) (pair_of_for toy (b32 Byte.x31) (b32_len _)) (plain_published _ _ sB sh) (Lr _ _) (fun z => z)).
  rewrite F1, F2 in M2. specialize (M2 ltac:(exact (pubs [Byte.x34] Byte.x42 eq_refl)) ltac:(intros l []) ltac:(intros l id _ _ Q; discriminate) E2).
  set (l2 := mkLink true bB _ _ _ _) in M2. set (c2 := mkCable at_a at_b l2) in M2. set (d2 := dev_set d1 at_a w2) in M2.
  assert (M2' : net toy d2 [c2; c1]) by (apply (net_more toy (at_first sh)); [intros d e [-> ->]; apply three_fresh|exact M2]).
  assert (C2 : current_base (d2 at_a) at_b (ln_base l2)).
  { unfold d2. rewrite set_same. pose proof (begun_base at_a at_b Byte.x33 Byte.x34 (three sh at_a) (three sh at_b) (b32 Byte.x41 ++ b32 Byte.x42) sB (b32 Byte.x31) (plain_wf _ _ _) (plain_wf _ _ _)
      (pair_of_for toy (b32 Byte.x31) (b32_len _)) (plain_published _ _ sB sh) (Lr _ _)) as Q. rewrite F1, F2 in Q. apply Q; [apply toy_pub_neq; vm_compute; reflexivity|apply none_unused; reflexivity|exact E2]. }
  destruct (net_sendable toy toy_ok d2 [c2; c1] c2 at_a at_b (str "hello") M2' (or_introl eq_refl) Nab ltac:(left; reflexivity) ltac:(right; left; reflexivity) (or_introl eq_refl)) as (_ & m & w3 & _ & _ & _ & _ & _ & E3).
  { unfold d2. rewrite set_same, Po2. reflexivity. }
  pose proof (net_send toy _ d2 [] c2 [c1] at_a at_b (str "hello") [] m w3 M2 Nab ltac:(left; reflexivity) ltac:(right; left; reflexivity) C2 ltac:(reflexivity) E3) as M3. cbn [app] in M3.
  set (d3 := dev_set d2 at_a w3) in M3.
  (* Bob's group *)
  pose proof (net_group toy _ d3 _ at_b (CGNew at_b (repeat Byte.x07 16) (b32 Byte.x71) (b32 Byte.x72)) _ _ _ M3 I eq_refl (ex_intro _ [] (or_introl eq_refl))) as M4.
  set (w4 := snd _) in M4.
  exists (dev_set d3 at_b w4), sB, m. split; [exact M4|].
  assert (K : forall X (g : world -> X), (forall A (p : prog A) fs w, g (snd (run p fs w)) = g w) -> forall d, g (dev_set d3 at_b w4 d) = g (three sh d)).
  { intros X g G. assert (Q : forall dv d w, g w = g (dv d) -> forall d', g (dev_set dv d w d') = g (dv d')).
    { intros dv d w Q d'. unfold dev_set. destruct (addr_eqb d' d) eqn:Z; [apply addr_eqb_eq in Z; subst d'; exact Q|reflexivity]. }
    assert (G1 : g w1 = g (three sh at_c)) by (rewrite <- (G _ (process_bundle toy at_b (b32 Byte.x43 ++ b32 Byte.x44) bB) [] (three sh at_c)); unfold run0 in E1; rewrite E1; reflexivity).
    assert (G2 : g w2 = g (d1 at_a)) by (rewrite Da, <- (G _ (process_bundle toy at_b (b32 Byte.x41 ++ b32 Byte.x42) bB) [] (three sh at_a)); unfold run0 in E2; rewrite E2; reflexivity).
    assert (G3 : g w3 = g (d2 at_a)) by (rewrite <- (G _ (encrypt_message toy at_b (str "hello")) [] (d2 at_a)); unfold run0 in E3; rewrite E3; reflexivity).
    assert (G4 : g w4 = g (d3 at_b)) by (apply G).
    intro d. unfold d3, d2, d1 in *. rewrite Q by exact G4. rewrite Q by exact G3. rewrite Q by exact G2. apply Q. exact G1. }
  split; [|split; [|split; [|split]]].
  - apply (K _ w_pair). exact @run_pair.
  - apply (K _ w_signed). exact run_signed.
  - intro d. rewrite (K _ w_policy (@run_policy)). unfold three. destruct (addr_eqb d at_a), (addr_eqb d at_b); reflexivity.
  - intro d. rewrite (K _ w_shared (@run_shared)). unfold three. destruct (addr_eqb d at_a), (addr_eqb d at_b); reflexivity.
  - rewrite set_same. assert (D3 : d3 at_b = three sh at_b) by (unfold d3; rewrite set_other by auto; unfold d2; rewrite set_other by auto; exact Db).
    unfold w4. rewrite D3.
    pose proof (call_writes_scope toy (CGNew at_b (repeat Byte.x07 16) (b32 Byte.x71) (b32 Byte.x72)) [] (three sh at_b)) as Q. cbn [start scope_of] in Q.
    destruct Q as [(_ & _ & _ & _ & _ & Qs & _ & _ & Q) _]. split; [intro g; rewrite Q; [reflexivity|intro Z; discriminate Z]|intro a; rewrite Qs; reflexivity].
Qed.
Lemma net_story : forall sh : bool, exists dev sig m, net_from toy (at_first sh) dev [alice_cable sig m; carol_cable sig] /\
  (forall d, w_pair (dev d) = w_pair (three sh d)) /\ (forall d, w_signed (dev d) = w_signed (three sh d)) /\ (forall d, w_policy (dev d) = all_trusted).
Proof. intro sh. destruct (net_story_stores sh) as (dev & sig & m & M & Pa & Sg & Po & _ & _). exists dev, sig, m. auto. Qed.
(** Then Alice's message meets the conditions of delivery at Bob. *)
Lemma story_ready : forall sig m, let es := [alice_cable sig m; carol_cable sig] in let c := alice_cable sig m in
  In (mkNote (negb (cb_role c at_b)) 1 0 (str "hello") m) (ln_notes (cb_link c)) /\ receivable (ln_par (cb_link c) (cb_role c at_b)) 1 0 /\
  all_fresh toy (all_keys (links_between at_b at_a es)) (ln_par (cb_link c) (cb_role c at_b)) 1 (List.length (links_between at_b at_a es)) (b32 Byte.x62) /\ ~ has_cable c at_b.
Proof.
  intros sig m. cbv zeta. assert (F3 : forall e, firstn 32 (b32 e) = b32 e) by (intro; apply firstn_all2; rewrite b32_len; apply le_n).
  split; [left; reflexivity|]. split; [apply rec_new; [reflexivity|discriminate]|]. split.
  - intros _ j Lj. change (List.length _) with 1 in Lj. destruct j as [|j]; [|lia]. change (skipn (32 * 0) (b32 Byte.x62)) with (b32 Byte.x62). rewrite F3, b32_len. split; [lia|].
    exact (pubs [Byte.x34; Byte.x42] Byte.x62 eq_refl).
  - intros [Q|[_ Q]]; [discriminate|apply Q; reflexivity].
Qed.
Lemma net_case : forall sh : bool, exists dev es c m, net toy dev es /\ List.length es = 2 /\ In c es /\ cb_from c = at_a /\ cb_to c = at_b /\
  In (mkNote (negb (cb_role c at_b)) 1 0 (str "hello") m) (ln_notes (cb_link c)) /\ receivable (ln_par (cb_link c) (cb_role c at_b)) 1 0 /\
  all_fresh toy (all_keys (links_between at_b at_a es)) (ln_par (cb_link c) (cb_role c at_b)) 1 (List.length (links_between at_b at_a es)) (b32 Byte.x62) /\
  ~ has_cable c at_b /\ w_policy (dev at_b) = all_trusted.
Proof.
  intro sh. destruct (net_story sh) as (dev & sig & m & M & _ & _ & Po). destruct (story_ready sig m) as (R1 & R2 & R3 & R4).
  exists dev, [alice_cable sig m; carol_cable sig], (alice_cable sig m), m. split; [apply (net_more toy (at_first sh)); [intros d e [-> ->]; apply three_fresh|exact M]|].
  split; [reflexivity|]. split; [left; reflexivity|]. split; [reflexivity|]. split; [reflexivity|]. split; [exact R1|]. split; [exact R2|]. split; [exact R3|]. split; [exact R4|apply Po].
Qed.
