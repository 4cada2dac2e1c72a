(** Alice and Bob begin sessions with each other at the same time; Bob reads Alice's message and answers. *)
From Verif Require Import M_Base M_Crypto M_Aes M_Curve M_Uuid M_Message M_Ratchet M_State M_Store M_Session M_Group
  S_Crypto S_Message S_State S_Shape S_Ratchet S_Session S_Api S_Send S_Group S_Curve S_X3dh S_Receive S_Conv S_History S_Isolation S_Atomic S_Bundle S_Many S_Net
  P_Base P_Curve P_Shape P_Ratchet P_Chain P_Encrypt P_Send P_X3dh P_CryptoTop P_History P_Establish P_Bundle P_Atomic P_Isolation P_Cross
  P_ManyLink P_Many P_ManySteps P_ManyTop P_Net K_Toy K_World K_Receive K_Conv K_Cross K_Many K_Net P_NetCut P_Agree.
Local Open Scope nat_scope.

Definition bob_link (sig : bytes) : link :=
  mkLink true (plain_bundle Byte.x31 Byte.x32 sig) (mont_pub toy (b32 Byte.x45)) start_party [mont_pub toy (b32 Byte.x32); mont_pub toy (b32 Byte.x46)] [].
Definition bob_cable (sig : bytes) : cable := mkCable at_b at_a (bob_link sig).

Lemma cross_story : forall sh : bool, exists dev sA sB m, net toy dev [alice_cable sB m; bob_cable sA] /\ (forall d, w_policy (dev d) = all_trusted) /\ (forall d, w_shared (dev d) = sh) /\
  current_base (dev at_a) at_b (mont_pub toy (b32 Byte.x41)) /\ current_base (dev at_b) at_a (mont_pub toy (b32 Byte.x45)).
Proof.
  intro sh. destruct (plain_signed Byte.x31 Byte.x32) as [sA SA]. destruct (plain_signed Byte.x33 Byte.x34) as [sB SB].
  assert (F1 : forall e r, firstn 32 (b32 e ++ b32 r) = b32 e) by (intros; rewrite firstn_app, b32_len, Nat.sub_diag, firstn_all2 by (rewrite b32_len; apply le_n); apply app_nil_r).
  assert (F2 : forall e r, firstn 32 (skipn 32 (b32 e ++ b32 r)) = b32 r).
  { intros. rewrite skipn_app, b32_len, Nat.sub_diag, skipn_all2 by (rewrite b32_len; apply le_n). reflexivity. }
  assert (Lr : forall e r, 64 <= List.length (b32 e ++ b32 r)) by (intros; rewrite app_length, !b32_len; apply le_n).
  assert (Nab : at_a <> at_b) by discriminate. assert (Nba : at_b <> at_a) by discriminate.
  set (bA := plain_bundle Byte.x31 Byte.x32 sA) in *. set (bB := plain_bundle Byte.x33 Byte.x34 sB) in *.
  assert (M0 : net toy (three sh) []) by (apply net_start; apply three_fresh).
  (* Bob *)
  destruct (bundle_works toy toy_ok bA at_a (three sh at_b) (three sh at_a) (b32 Byte.x33) (b32 Byte.x31) (b32 Byte.x32) None (b32 Byte.x45 ++ b32 Byte.x46)
    (plain_wf _ _ _) (pair_of_for toy (b32 Byte.x33) (b32_len _)) (plain_published _ _ sA sh) SA (Lr _ _) eq_refl) as (w1 & E1 & _ & _).
  pose proof (net_begin toy _ (three sh) [] at_b at_a bA (b32 Byte.x33) (b32 Byte.x31) (b32 Byte.x32) None (b32 Byte.x45 ++ b32 Byte.x46) [] w1
    M0 Nba (Nat.le_0_l _) (plain_bundle_wf _ _ _) (pair_of_for toy (b32 Byte.x33) (b32_len _)) (plain_published _ _ sA sh) (Lr _ _) (fun z => z)) as M1.
  rewrite F1, F2 in M1. specialize (M1 ltac:(exact (pubs [Byte.x32] Byte.x46 eq_refl)) ltac:(intros l []) ltac:(intros l id []) E1).
  set (c1 := mkCable at_b at_a _) in M1. set (d1 := dev_set (three sh) at_b w1) in M1.
  assert (Da : d1 at_a = three sh at_a) by (apply set_other; auto).
  assert (G1 : forall X (g : world -> X), (forall A (p : prog A) fs w, g (snd (run p fs w)) = g w) -> g w1 = g (three sh at_b)).
  { intros X g G. rewrite <- (G _ (process_bundle toy at_a (b32 Byte.x45 ++ b32 Byte.x46) bA) [] (three sh at_b)). unfold run0 in E1. rewrite E1. reflexivity. }
  assert (Pb : published toy (d1 at_b) bB (b32 Byte.x33) (b32 Byte.x34) None).
  { unfold d1. rewrite set_same. exact (plain_still Byte.x33 Byte.x34 sB sh w1 (G1 _ w_pair (@run_pair)) (G1 _ w_signed run_signed)). }
  (* Alice *)
  destruct (bundle_works toy toy_ok bB at_b (three sh at_a) (d1 at_b) (b32 Byte.x31) (b32 Byte.x33) (b32 Byte.x34) None (b32 Byte.x41 ++ b32 Byte.x42)
    (plain_wf _ _ _) (pair_of_for toy (b32 Byte.x31) (b32_len _)) Pb SB (Lr _ _) eq_refl) as (w2 & E2 & _ & Po2).
  assert (B1 : links_between at_a at_b [c1] = [turned false (cb_link c1)]) by reflexivity.
  pose proof (net_begin toy _ d1 [c1] at_a at_b bB (b32 Byte.x31) (b32 Byte.x33) (b32 Byte.x34) None (b32 Byte.x41 ++ b32 Byte.x42) [] w2 M1 Nab) as M2. rewrite B1, Da in M2.
  specialize (M2 ltac:(cbn; lia) (plain_bundle_wf _ _ _) (pair_of_for toy (b32 Byte.x31) (b32_len _)) Pb (Lr _ _)).
  rewrite F1, F2 in M2. specialize (M2 ltac:(exact (pubs [Byte.x45] Byte.x41 eq_refl)) ltac:(exact (pubs [Byte.x34; Byte.x32; Byte.x46] Byte.x42 eq_refl))
    ltac:(intros l [<-|[]]; exact (pubs [Byte.x46] Byte.x34 eq_refl)) ltac:(intros l id [<-|[]] Q; discriminate) E2).
  set (l2 := mkLink true bB _ _ _ _) in M2. set (c2 := mkCable at_a at_b l2) in M2. set (d2 := dev_set d1 at_a w2) in M2.
  assert (Po1 : forall d, w_policy (d2 d) = all_trusted).
  { intro d. unfold d2, d1, dev_set. destruct (addr_eqb d at_a) eqn:Z1; [rewrite Po2; reflexivity|]. destruct (addr_eqb d at_b) eqn:Z2; [rewrite (G1 _ w_policy (@run_policy)); reflexivity|].
    unfold three. rewrite Z1, Z2. reflexivity. }
  (* the current sessions *)
  assert (Cb : current_base (d2 at_b) at_a (mont_pub toy (b32 Byte.x45))).
  { destruct (net_sendable toy toy_ok d2 [c2; c1] c1 at_b at_a (str "hi") M2 (or_intror (or_introl eq_refl)) Nba (or_introl eq_refl) (or_intror (or_introl eq_refl)) (or_introl eq_refl)) as (c' & _ & _ & Jc & _ & _ & Hc & Cc & _).
    - rewrite Po1. reflexivity.
    - destruct Jc as [<-|[<-|[]]]; [|exact Cc]. exfalso. destruct Hc as [Q|[_ Q]]; [discriminate|apply Q; reflexivity]. }
  destruct (net_sendable toy toy_ok d2 [c2; c1] c2 at_a at_b (str "hello") M2 (or_introl eq_refl) Nab (or_introl eq_refl) (or_intror (or_introl eq_refl)) (or_introl eq_refl)) as (c' & m & w3 & Jc & _ & _ & Hc & Ca & E3).
  { rewrite Po1. reflexivity. }
  destruct Jc as [<-|[<-|[]]]; [|exfalso; destruct Hc as [Q|[_ Q]]; [discriminate|apply Q; reflexivity]].
  pose proof (net_send toy _ d2 [] c2 [c1] at_a at_b (str "hello") [] m w3 M2 Nab (or_introl eq_refl) (or_intror (or_introl eq_refl)) Ca ltac:(reflexivity) E3) as M3. cbn [app] in M3.
  exists (dev_set d2 at_a w3), sA, sB, m. split; [exact M3|].
  assert (K : forall X (g : world -> X), (forall A (p : prog A) fs w, g (snd (run p fs w)) = g w) -> forall d, g (dev_set d2 at_a w3 d) = g (three sh d)).
  { intros X g G. assert (Q : forall dv d w, g w = g (dv d) -> forall d', g (dev_set dv d w d') = g (dv d')).
    { intros dv d w Q d'. unfold dev_set. destruct (addr_eqb d' d) eqn:Z; [apply addr_eqb_eq in Z; subst d'; exact Q|reflexivity]. }
    assert (G2 : g w2 = g (d1 at_a)) by (rewrite Da, <- (G _ (process_bundle toy at_b (b32 Byte.x41 ++ b32 Byte.x42) bB) [] (three sh at_a)); unfold run0 in E2; rewrite E2; reflexivity).
    assert (G3 : g w3 = g (d2 at_a)) by (rewrite <- (G _ (encrypt_message toy at_b (str "hello")) [] (d2 at_a)); unfold run0 in E3; rewrite E3; reflexivity).
    intro d. rewrite Q by exact G3. unfold d2. rewrite Q by exact G2. apply Q. exact (G1 _ g G). }
  split; [|split; [|split]].
  - intro d. rewrite (K _ w_policy (@run_policy)). unfold three. destruct (addr_eqb d at_a), (addr_eqb d at_b); reflexivity.
  - intro d. rewrite (K _ w_shared (@run_shared)). unfold three. destruct (addr_eqb d at_a), (addr_eqb d at_b); reflexivity.
  - rewrite set_same. apply (send_current toy toy_ok at_b (str "hello") [] (d2 at_a) m w3 _ (net_wf toy toy_ok _ _ at_a M2) Ca E3).
  - rewrite set_other by auto. exact Cb.
Qed.

Lemma agree_case : forall sh : bool, exists dev es c c' m w1 m2 w2 w3, net toy dev es /\ es = [c; c'] /\ cb_from c = at_a /\ cb_to c = at_b /\ cb_from c' = at_b /\ cb_to c' = at_a /\ (forall d, w_shared (dev d) = sh) /\
  ln_base (cb_link c) <> ln_base (cb_link c') /\ current_base (dev at_a) at_b (ln_base (cb_link c)) /\ current_base (dev at_b) at_a (ln_base (cb_link c')) /\
  run0 (decrypt_message toy at_a (b32 Byte.x62 ++ b32 Byte.x64) m) (dev at_b) = (Ok (str "hello"), w1) /\ run0 (encrypt_message toy at_a (str "hi")) w1 = (Ok m2, w2) /\
  run0 (decrypt_message toy at_b (b32 Byte.x63 ++ b32 Byte.x65) m2) (dev at_a) = (Ok (str "hi"), w3) /\
  current_base w2 at_a (ln_base (cb_link c)) /\ current_base w3 at_b (ln_base (cb_link c)).
Proof.
  intro sh. destruct (cross_story sh) as (dev & sA & sB & m & M & Po & Sh & Ca & Cb).
  assert (F1 : forall e r, firstn 32 (skipn (32 * 0) (b32 e ++ b32 r)) = b32 e) by (intros; change (skipn (32 * 0) (b32 e ++ b32 r)) with (b32 e ++ b32 r); rewrite firstn_app, b32_len, Nat.sub_diag, firstn_all2 by (rewrite b32_len; apply le_n); apply app_nil_r).
  assert (F2 : forall e r, firstn 32 (skipn (32 * 1) (b32 e ++ b32 r)) = b32 r).
  { intros. change (32 * 1) with 32. rewrite skipn_app, b32_len, Nat.sub_diag, skipn_all2 by (rewrite b32_len; apply le_n). reflexivity. }
  assert (Lr : forall e r, List.length (b32 e ++ b32 r) = 64) by (intros; rewrite app_length, !b32_len; reflexivity).
  assert (N : at_b <> at_a) by discriminate.
  destruct (round_trip toy toy_ok dev [] (alice_cable sB m) [bob_cable sA] at_b at_a 1 0 (str "hello") m (b32 Byte.x62 ++ b32 Byte.x64) (str "hi") M N (or_intror (or_introl eq_refl)) (or_introl eq_refl))
    as (w1 & m2 & w2 & u & E1 & E2 & B2 & Dr & M2 & Re).
  - left. reflexivity.
  - apply rec_new; [reflexivity|discriminate].
  - intros _ j Lj. change (List.length _) with 2 in Lj. rewrite Lr. destruct j as [|[|j]]; [|  |lia]; (split; [lia|]); rewrite ?F1, ?F2.
    + exact (pubs [Byte.x34; Byte.x42; Byte.x32; Byte.x46] Byte.x62 eq_refl).
    + exact (pubs [Byte.x34; Byte.x42; Byte.x32; Byte.x46] Byte.x64 eq_refl).
  - intros [Q|[_ Q]]; [discriminate|contradiction Q; reflexivity].
  - intros old dir. rewrite Po. reflexivity.
  - reflexivity.
  - cbn [app] in *. assert (Ux : u = mont_pub toy (b32 Byte.x62) \/ u = mont_pub toy (b32 Byte.x64)).
    { destruct (Dr eq_refl) as (j & Lj & Eu). change (List.length _) with 2 in Lj. destruct j as [|[|j]]; [left; rewrite F1 in Eu; exact Eu|right; rewrite F2 in Eu; exact Eu|lia]. }
    destruct (Re (b32 Byte.x63 ++ b32 Byte.x65)) as (w3 & E3 & B3).
    + apply rec_new; [reflexivity|discriminate].
    + intros _ j Lj. change (List.length _) with 2 in Lj. rewrite Lr. destruct j as [|[|j]]; [| |lia]; (split; [lia|]); rewrite ?F1, ?F2; destruct Ux as [-> | ->].
      * exact (pubs [Byte.x34; Byte.x42; Byte.x62; Byte.x32; Byte.x46] Byte.x63 eq_refl).
      * exact (pubs [Byte.x34; Byte.x42; Byte.x64; Byte.x32; Byte.x46] Byte.x63 eq_refl).
      * exact (pubs [Byte.x34; Byte.x42; Byte.x62; Byte.x32; Byte.x46] Byte.x65 eq_refl).
      * exact (pubs [Byte.x34; Byte.x42; Byte.x64; Byte.x32; Byte.x46] Byte.x65 eq_refl).
    + intros _ (sg & r & t & pt & _ & Er & Jt & Nb & _). destruct (net_pairs toy toy_ok _ _ at_a at_b M) as (dv & K & D1 & D2); [discriminate|]. rewrite <- D1 in Er.
      destruct (many_only toy toy_ok _ _ _ true r t K Er Jt) as (l & Jl & Hl & El). change (In l [turned true (cb_link (alice_cable sB m)); turned false (cb_link (bob_cable sA))]) in Jl.
      destruct Jl as [<-|[<-|[]]]; [apply Nb; exact El|]. destruct Hl as [Q|Q]; [discriminate|apply Q; reflexivity].
    + rewrite Po. reflexivity.
    + exists dev, [alice_cable sB m; bob_cable sA], (alice_cable sB m), (bob_cable sA), m, w1, m2, w2, w3. split; [exact M|]. do 5 (split; [reflexivity|]).
      split; [exact Sh|]. split; [apply toy_pub_neq; vm_compute; reflexivity|].
      split; [exact Ca|]. split; [exact Cb|]. split; [exact E1|]. split; [exact E2|]. split; [exact E3|]. split; [exact B2|exact B3].
Qed.
