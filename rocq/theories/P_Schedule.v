(** The key schedule of every history (C75). *)
From Verif Require Import M_Base M_Crypto M_Aes M_Curve M_Proto M_Message M_Ratchet M_State M_Store M_Session M_Group
  S_Crypto S_Message S_State S_Shape S_Ratchet S_Session S_Aes S_Api S_Send S_Group S_Curve S_X3dh S_Receive S_Conv S_History S_Header S_Size S_Transit S_Used S_Speak S_Schedule
  P_Base P_Proto P_Curve P_State P_Shape P_Ratchet P_Message P_Aes P_Chain P_Decrypt P_Receive P_Encrypt P_Record P_Prog P_Api
  P_Init P_Send P_Conv P_X3dh P_Conv2 P_Bundle P_DecApi P_DecTop P_DecMore P_Replay P_Trust P_History P_Size P_Header P_Transit P_Used P_Speak.
From Coq Require Import ZifyBool ZifyNat ZifyN.
Local Open Scope nat_scope.

Lemma sched_dr : forall C root chain ks k, sched C root chain ks k = dr_keys C (root, chain) (kkey ks) k.
Proof. intros C root chain ks k. induction k as [|k IH]; [reflexivity|]. cbn [sched dr_keys]. rewrite IH. reflexivity. Qed.
Lemma whisper_sealed : forall C chain n ratchet sender receiver pt m, CryptoOk C ->
  whisper C (chain_at C chain (N.to_nat n)) n ratchet sender receiver pt m -> sealed C chain n sender receiver pt m.
Proof.
  intros C chain n ratchet sender receiver pt m H Wh. pose proof Wh as (mk & prev & body & K & E & B).
  exists mk. split; [exact K|]. destruct (whisper_opens _ _ _ _ _ _ _ _ _ H Wh K) as [V _]. split.
  - rewrite E. unfold new_signal in B. destruct (mac C _ _ _ _) as [t| |]; cbn [bind] in B; [|discriminate..].
    apply (f_equal (fun x => match x with Ok a => sg_body a | _ => sg_body m end)) in B. cbn [sg_body] in B. rewrite B. reflexivity.
  - apply (verify_mac_tagged C m (mk_mac mk) _ _ H); [apply K|exact V].
Qed.
Lemma history_keys : forall C b at_ base dev par keys notes, CryptoOk C -> history C at_ b base dev par keys notes ->
  exists k ks, in_step C b at_ k ks base dev par keys notes /\ bundle_keys C b (k_ib k) (k_sb k) (k_ob k).
Proof.
  intros C b at_ base dev par keys notes H Hy. induction Hy as
    [dev ia ib sb ob rnd fs w' WA WB Wb PA Pub Lr Eb Un Nk E
    |dev par keys notes side pt fs c w' _ (k & ks & St & Bk) Sd G E
    |dev par keys notes side ep n pt c rnd fs pt' w' _ (k & ks & St & Bk) I0 Rv Fr E
    |dev par keys notes side w' _ (k & ks & St & Bk) Al].
  - eexists. eexists. split; [eapply start_step; eauto|]. cbn [k_ib k_sb k_ob]. destruct Pub as (_ & Q1 & Q2 & _ & Q3). split; [exact Q1|]. split; [exact Q2|].
    destruct ob; apply Q3.
  - exists k, ks. split; [eapply send_step; eauto|exact Bk].
  - exists k, (grown ks (par side) ep rnd). split; [eapply received_step; eauto|exact Bk].
  - exists k, ks. split; [apply other_step; auto|exact Bk].
Qed.
Theorem scheduled : forall C b at_ base dev par keys notes, CryptoOk C -> history C at_ b base dev par keys notes ->
  exists ia e ib ob ks, let start := (x3dh_root C ia e ib (ks 0) ob, x3dh_chain C ia e ib (ks 0) ob) in
    bundle_keys C b ib (ks 0) ob /\ base = mont_pub C e /\ kp_pub (w_pair (dev true)) = mont_pub C ia /\ kp_pub (w_pair (dev false)) = mont_pub C ib /\
    (forall k, k < List.length keys -> nth_error keys k = Some (mont_pub C (ks k))) /\
    (forall x m, In x notes -> inner (nt_cipher x) = Some m ->
       nt_epoch x < List.length keys /\ sg_ratchet m = mont_pub C (ks (nt_epoch x)) /\
       sealed C (snd (dr_keys C start ks (nt_epoch x))) (nt_counter x) (kp_pub (w_pair (dev (nt_from x)))) (kp_pub (w_pair (dev (negb (nt_from x))))) (nt_text x) m) /\
    (forall side s, side = true \/ p_epoch (par false) <> 0 -> current_session (dev side) (at_ side) = Some s ->
       stands C (dr_keys C start ks) ks s (p_epoch (par side)) (p_sent (par side))).
Proof.
  intros C b at_ base dev par keys notes H Hy. destruct (history_keys _ _ _ _ _ _ _ _ H Hy) as (k & ks & St & Bk).
  pose proof St as (So & Eb & Eks & Ko & (l & Hd) & Lk & _ & _ & _ & Pr & Ss & _).
  assert (E0 : kkey ks 0 = k_sb k) by (rewrite Hd; reflexivity).
  exists (k_ia k), (k_e k), (k_ib k), (k_ob k), (kkey ks). cbv zeta. rewrite E0.
  split; [exact Bk|]. split; [exact Eb|]. split; [apply (Pr true)|]. split; [apply (Pr false)|].
  assert (Ep : forall y, kp_pub (w_pair (dev y)) = sid C k y) by (intro y; destruct (Pr y) as (_ & Q & _); exact Q).
  assert (Ln : List.length keys = List.length ks) by (rewrite Eks, map_length; reflexivity).
  split; [intros i L; rewrite Eks, nth_error_map; unfold kkey; rewrite (nth_error_nth' ks []) by lia; reflexivity|].
  split.
  - intros x m J Im. destruct (note_whisper C H b at_ _ _ _ _ _ _ _ _ _ St J Im) as (Lx & G & Wh). split; [lia|].
    split; [exact (proj1 (proj2 (whisper_fields _ _ _ _ _ _ _ _ Wh)))|]. rewrite !Ep.
    apply whisper_sealed with (ratchet := kpub C ks (nt_epoch x)); [exact H|]. rewrite <- sched_dr. exact Wh.
  - intros side s Sd Es. destruct (Ss side Sd) as (r & s0 & R1 & R2 & (P1 & P2 & P3 & P4 & P5 & (sc & C1 & C2 & C3 & C4 & _) & _) & _).
    assert (s0 = s) by (unfold current_session in Es; rewrite R1 in Es; congruence). subst s0. unfold stands. rewrite <- sched_dr.
    split; [exact P5|]. exists sc. auto.
Qed.
