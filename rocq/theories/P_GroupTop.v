(** Group theorems, whole calls. *)
From Verif Require Import M_Base M_Crypto M_Aes M_Curve M_Proto M_Uuid M_Message M_Ratchet M_State M_Store M_Session M_Group
  S_Crypto S_Message S_State S_Shape S_Ratchet S_Session S_Curve S_Aes S_Wire S_Uuid S_Api S_Group S_GroupMsg S_Isolation S_X3dh
  P_Base P_Proto P_Curve P_State P_Shape P_Ratchet P_Message P_Aes P_Chain P_Decrypt P_Init P_Record P_Verify P_CryptoTop P_Prog P_Group P_Api P_Isolation P_Bundle P_X3dh
  P_History P_GroupMsg P_Member P_Keep P_GroupSend.
From Coq Require Import ZifyBool ZifyNat ZifyN.
Local Open Scope nat_scope.

(** C46. *)
Lemma group_bounded : forall C ts w a d r, CryptoOk C -> reachable C (ts, w) -> w_groups w a d = Some r ->
  List.length r <= 5 /\ NoDup (map gs_chain r) /\ forall s, In s r -> List.length (gs_keys s) <= 2000.
Proof.
  intros C ts w a d r H R E. destruct (proj2 (reachable_wf C H ts w R) _ _ _ E) as (L & ND & F).
  split; [exact L|]. split; [exact ND|]. intros s J. rewrite Forall_forall in F. apply (F s J).
Qed.
(** C27. *)
Lemma record_bounded : forall C ts w a r, CryptoOk C -> reachable C (ts, w) -> w_sess w a = Some r ->
  List.length (rc_previous r) <= 40 /\ (forall b, In b (rc_previous r) -> exists s, state_parse b = Ok s) /\
  forall s, state_in s r -> session_bounded s.
Proof.
  intros C ts w a r H R E. destruct (proj1 (proj1 (reachable_wf C H ts w R)) _ _ E) as (Wc & L & F).
  assert (B : forall s, wf_state s -> session_bounded s).
  { intros s (_ & _ & _ & _ & _ & _ & (Lr & Fr) & _). split; [exact Lr|]. intros c J. rewrite Forall_forall in Fr. apply (Fr c J). }
  rewrite Forall_forall in F. split; [exact L|]. split.
  - intros b J. destruct (F b J) as (s & Ws & ->). exists s. apply wf_roundtrip. exact Ws.
  - intros s [Q|(b & J & Q)]; [apply B; auto|]. destruct (F b J) as (s' & Ws & ->). rewrite wf_roundtrip in Q by exact Ws. injection Q as <-. auto.
Qed.

(** C47. *)
Lemma told_learnt : forall m, wf_dist m -> told m = learnt m.
Proof. intros m (_ & _ & _ & _ & V). unfold told, learnt, new_gstate. rewrite V. reflexivity. Qed.
Lemma others_split : forall chain l1 e l2, NoDup (map gs_chain (l1 ++ e :: l2)) -> gs_chain e = chain -> others chain (l1 ++ e :: l2) = l1 ++ l2.
Proof.
  intros chain l1 e l2 ND E. unfold others. rewrite filter_app. cbn [filter]. rewrite E, N.eqb_refl. cbn [negb].
  rewrite map_app in ND. cbn [map] in ND. apply NoDup_remove in ND. destruct ND as [_ ND]. f_equal; apply filter_ext_all; intros x J;
    (destruct (N.eqb_spec (gs_chain x) chain) as [Q|Q]; [|reflexivity]); exfalso; apply ND; apply in_or_app; [left|right];
    rewrite E, <- Q; apply in_map; exact J.
Qed.
Lemma others_all : forall chain r, ~ In chain (map gs_chain r) -> others chain r = r.
Proof.
  intros chain r N. unfold others. apply filter_ext_all. intros x J. destruct (N.eqb_spec (gs_chain x) chain) as [Q|Q]; [|reflexivity].
  exfalso. apply N. rewrite <- Q. apply in_map. exact J.
Qed.
Lemma keep_last_all : forall {A} n (l : list A), List.length l <= n -> keep_last n l = l.
Proof. intros A n l L. unfold keep_last. replace (List.length l - n) with 0 by lia. reflexivity. Qed.
Lemma after_dist_redistributed : forall m r, wf_dist m -> wf_grecord r -> redistributed m r (after_dist m r).
Proof.
  intros m r Wm (L & ND & F). unfold after_dist. rewrite (told_learnt m Wm). destruct (gr_find (dm_chain m) r) as [e|] eqn:Ef.
  - pose proof Ef as Q. apply (gr_find_spec _ _ ND) in Q. destruct Q as [J Ec]. apply in_split in J. destruct J as (l1 & l2 & ->).
    rewrite (others_split _ _ _ _ ND Ec). rewrite app_length in L. cbn [List.length] in L. rewrite keep_last_all by (rewrite app_length; lia).
    rewrite <- app_assoc. apply Forall_app in F. destruct F as [_ F]. inversion F as [|? ? We _]; subst.
    destruct (gs_public_wf e We) as (k & Lk & Ep & _). rewrite Ep. cbn [skipn pub_bytes].
    destruct (pub_equal (dm_signing m) k) eqn:Q.
    + apply rd_known; [exact Ec|]. apply pub_equal_iff in Q. rewrite Ep. symmetry. exact Q.
    + apply rd_replaced; [exact Ec|]. intro Q2. rewrite Ep in Q2. assert (X : pub_equal (dm_signing m) k = true) by (apply pub_equal_iff; symmetry; exact Q2).
      congruence.
  - assert (Nj : ~ In (dm_chain m) (map gs_chain r)).
    { intro J. apply in_map_iff in J. destruct J as (s & E & J). exact (proj1 (gr_find_none _ _) Ef s J E). }
    rewrite (others_all _ _ Nj). destruct (Nat.ltb_spec (List.length r) 5) as [L5|L5].
    + rewrite keep_last_all by lia. apply rd_added; [exact Nj|exact L5].
    + destruct r as [|o r]; [cbn in L5; lia|]. assert (E5 : List.length (o :: r) = 5) by lia. unfold keep_last. rewrite E5. cbn [Nat.sub skipn].
      apply rd_evicted; auto.
Qed.
Lemma redistribution : forall a m fs w, wf_device w -> wf_dist m ->
  exists r', redistributed m (held w a (dm_dist m)) r' /\
    (fst (run (process_dist a m) fs w) = Ok tt -> w_groups (snd (run (process_dist a m) fs w)) a (dm_dist m) = Some r') /\
    (w_groups (snd (run (process_dist a m) fs w)) a (dm_dist m) = Some r' \/ snd (run (process_dist a m) fs w) = w) /\
    fst (run0 (process_dist a m) w) = Ok tt.
Proof.
  intros a m fs w W Wm. exists (after_dist m (held w a (dm_dist m))).
  assert (Wr : wf_grecord (held w a (dm_dist m))).
  { unfold held. destruct (w_groups w a (dm_dist m)) eqn:E; [eapply (proj2 W); eauto|exact wf_grecord_nil]. }
  split; [apply after_dist_redistributed; auto|]. unfold run0. rewrite !(process_dist_runs a m _ w W Wm). cbv zeta. fold (held w a (dm_dist m)).
  set (kn := match w_groups w a (dm_dist m) with Some _ => true | None => false end).
  set (r' := after_dist m (held w a (dm_dist m))).
  set (g := hd_fault (if kn then tl (tl fs) else tl fs)). split; [|split].
  - destruct (hd_fault fs); [|discriminate..]. destruct g; [intros _; apply group_set_same|discriminate..].
  - destruct (hd_fault fs); [|right; reflexivity..]. destruct g; cbn [snd]; [left; apply group_set_same| |left; apply group_set_same].
    destruct (kn && w_shared w); [left; apply group_set_same|right; reflexivity].
  - cbn [hd_fault tl]. destruct kn; reflexivity.
Qed.

(** C50. *)
Lemma dist_of_speaks : forall w a d chain signing n key, wf_device w -> speaks w a d chain signing n key ->
  exists m s r, w_groups w a d = Some (s :: r) /\ dist_of_state d (s :: r) = Ok m /\ tells m d chain signing n key.
Proof.
  intros w a d chain signing n key W (s & r & E & Ec & Ep & Ei & Es). destruct (proj2 W _ _ _ E) as (_ & _ & F). inversion F as [|? ? Ws _]; subst.
  destruct (gs_public_wf s Ws) as (k & Lk & Ep' & Er). rewrite Ep in Ep'. injection Ep' as <-.
  eexists. exists s, r. split; [exact E|]. unfold dist_of_state. cbn [gr_state bind]. rewrite Er. cbn [bind]. split; [reflexivity|].
  unfold tells, new_dist. cbn [dm_version dm_dist dm_chain dm_signing dm_iter dm_chainkey]. rewrite (gs_ver_wf s Ws).
  repeat split; reflexivity.
Qed.
Lemma dist_again : forall C w a d chain signing n key, wf_device w -> speaks w a d chain signing n key ->
  exists m, tells m d chain signing n key /\ forall sysrnd rnd, run0 (new_sender_dist C a d sysrnd rnd) w = (Ok m, w).
Proof.
  intros C w a d chain signing n key W Sp. destruct (dist_of_speaks _ _ _ _ _ _ _ W Sp) as (m & s & r & E & D & T). exists m. split; [exact T|].
  intros sr rnd. unfold run0, new_sender_dist, pdo. cbn [run exec_f fallible hd_fault exec]. rewrite E, D. reflexivity.
Qed.
Lemma dist_ok : forall C a d sysrnd rnd fs w m w', run (new_sender_dist C a d sysrnd rnd) fs w = (Ok m, w') ->
  (exists s r, w_groups w a d = Some (s :: r) /\ w' = w /\ dist_of_state d (s :: r) = Ok m) \/
  (w_groups w a d = None /\ exists chain seed rnd1 kp rest, random_chain_id sysrnd = Ok chain /\ read_full 32 rnd = (Ok seed, rnd1) /\
     gen_keypair C rnd1 = (Ok kp, rest) /\
     w' = set_group w a d [new_gstate 3 chain 0 seed (kp_pub kp) (Some (kp_priv kp))] /\
     dist_of_state d [new_gstate 3 chain 0 seed (kp_pub kp) (Some (kp_priv kp))] = Ok m).
Proof.
  intros C a d sysrnd rnd fs w m w' E. unfold new_sender_dist in E. unfold pdo at 1 in E. cbn [run exec_f fallible] in E.
  destruct (hd_fault fs); cbn [exec run] in E; [|discriminate..].
  destruct (w_groups w a d) as [r|] eqn:Er.
  - left. destruct (dist_of_state d r) as [x| |] eqn:D; cbn [plift run] in E; [|discriminate..]. injection E as <- <-.
    destruct r as [|s r]; [discriminate|]. exists s, r. auto.
  - right. split; [reflexivity|]. destruct (random_chain_id sysrnd) as [chain| |]; cbn [plift run] in E; [|discriminate..].
    destruct (read_full 32 rnd) as [[seed| |] rnd1]; cbn [run] in E; [|discriminate..].
    destruct (gen_keypair C rnd1) as [[kp| |] rest] eqn:G; cbn [fst plift run] in E; [|discriminate..].
    unfold gr_add in E. destruct (gs_public (new_gstate 3 chain 0 seed (kp_pub kp) (Some (kp_priv kp)))) as [key| |]; cbn [bind plift run] in E; [|discriminate..].
    cbn [gr_remove gr_remove_chain filter List.length Nat.leb max_gstates app plift] in E. unfold pdo in E. cbn [run exec_f fallible] in E.
    destruct (hd_fault (tl fs)); cbn [exec run] in E; [|discriminate..].
    match type of E with context [dist_of_state d ?l] => destruct (dist_of_state d l) as [x| |] eqn:D; cbn [plift run] in E; [|discriminate..] end.
    injection E as <- <-. exists chain, seed, rnd1, kp, rest. auto.
Qed.
Lemma dist_dev : forall C a d sysrnd rnd fs w, CryptoOk C -> wf_device w -> wf_device (snd (run (new_sender_dist C a d sysrnd rnd) fs w)).
Proof. intros C a d sr rnd fs w H W. apply run_shape; [|exact W]. apply new_sender_dist_shape. Qed.
Lemma dist_describes : forall C a d sysrnd rnd fs w m w', CryptoOk C -> own_device C w ->
  run (new_sender_dist C a d sysrnd rnd) fs w = (Ok m, w') ->
  own_device C w' /\ tells m d (dm_chain m) (dm_signing m) (dm_iter m) (dm_chainkey m) /\
  speaks w' a d (dm_chain m) (dm_signing m) (dm_iter m) (dm_chainkey m) /\
  (w_groups w a d = None -> (dm_chain m < 2 ^ 31)%N /\ dm_iter m = 0%N) /\
  (w_groups w a d <> None -> w' = w).
Proof.
  intros C a d sr rnd fs w m w' H [W K] E.
  assert (W' : wf_device w') by (replace w' with (snd (run (new_sender_dist C a d sr rnd) fs w)) by (rewrite E; reflexivity); apply dist_dev; auto).
  assert (G : forall s r, w_groups w' a d = Some (s :: r) -> dist_of_state d (s :: r) = Ok m ->
     tells m d (dm_chain m) (dm_signing m) (dm_iter m) (dm_chainkey m) /\ speaks w' a d (dm_chain m) (dm_signing m) (dm_iter m) (dm_chainkey m) /\
     dm_chain m = gs_chain s /\ dm_iter m = gs_iter s).
  { intros s r Eg D. destruct (proj2 W' _ _ _ Eg) as (_ & _ & F). inversion F as [|? ? Ws _]; subst.
    destruct (gs_public_wf s Ws) as (k & Lk & Ep & Er). 
    assert (Sp : speaks w' a d (gs_chain s) k (gs_iter s) (gs_seed s)) by (exists s, r; auto).
    destruct (dist_of_speaks _ _ _ _ _ _ _ W' Sp) as (m2 & s2 & r2 & E2 & D2 & T). rewrite Eg in E2. injection E2 as <- <-. rewrite D in D2. injection D2 as <-.
    destruct T as (T1 & T2 & T3 & T4 & T5 & T6). rewrite T3, T4, T5, T6. split; [split; auto|]. auto. }
  destruct (dist_ok _ _ _ _ _ _ _ _ _ E) as [(s & r & Eg & -> & D)|(Eg & chain & seed & rnd1 & kp & rest & Rc & Rf & Gk & -> & D)].
  - destruct (G s r Eg D) as (T & Sp & _). split; [split; auto|]. split; [exact T|]. split; [exact Sp|]. split; [congruence|auto].
  - destruct (G _ _ (group_set_same w a d _) D) as (T & Sp & E1 & E2). split; [split; [exact W'|]|].
    + apply set_group_own; [exact K|]. intros s [<-|[]]. right.
      assert (L : 32 <= List.length rnd1).
      { unfold gen_keypair, gen_private_key, read_full in Gk. destruct (Nat.ltb_spec (List.length rnd1) 32); [discriminate|lia]. }
      destruct (gen_pair_for C rnd1 L) as (p & Gp & (L1 & Q1 & Q2 & _)). rewrite Gk in Gp. injection Gp as <- _.
      unfold new_gstate. change (gs_pub _) with (pub_bytes (kp_pub kp)). change (gs_priv _) with (sk_bytes (kp_priv kp)).
      rewrite Q1, Q2, mont_clamp by exact L1. reflexivity.
    + split; [exact T|]. split; [exact Sp|]. split; [|congruence]. intros _. rewrite E1, E2. cbn [new_gstate gs_chain gs_iter]. split; [|reflexivity].
      exact (random_chain_id_lt _ _ Rc).
Qed.
Lemma dist_fresh : forall C a d sysrnd rnd w, CryptoOk C -> own_device C w -> w_groups w a d = None ->
  4 <= List.length sysrnd -> 64 <= List.length rnd -> exists m w', run0 (new_sender_dist C a d sysrnd rnd) w = (Ok m, w').
Proof.
  intros C a d sr rnd w H [W K] E L1 L2. unfold run0, new_sender_dist. unfold pdo at 1. cbn [run exec_f fallible hd_fault exec]. rewrite E.
  unfold random_chain_id, read_full. destruct (Nat.ltb_spec (List.length sr) 4); [lia|]. cbn [plift].
  destruct (Nat.ltb_spec (List.length rnd) 32); [lia|].
  assert (L3 : 32 <= List.length (skipn 32 rnd)) by (rewrite skipn_length; lia).
  destruct (gen_pair_for C (skipn 32 rnd) L3) as (p & Gp & (Lp & Ep & _)). rewrite Gp. cbn [fst plift].
  assert (Lk : List.length (kp_pub p) = 32) by (rewrite Ep; apply ed_to_mont_length).
  unfold gr_add, gs_public. change (gs_pub (new_gstate ?v ?c ?i ?s ?k ?q)) with (pub_bytes k). rewrite (new_public_key_bytes _ Lk). cbn [bind plift].
  cbn [gr_remove gr_remove_chain filter List.length Nat.leb max_gstates app plift]. unfold pdo. cbn [run exec_f fallible exec hd_fault tl].
  unfold dist_of_state, gs_public. cbn [gr_state bind]. change (gs_pub (new_gstate ?v ?c ?i ?s ?k ?q)) with (pub_bytes k). rewrite (new_public_key_bytes _ Lk).
  cbn [bind plift run]. eauto.
Qed.

(** The messages sent after it. *)
Lemma sent_genuine : forall C a d sysrnd rnd fs w m w1 l w2, CryptoOk C -> own_device C w ->
  run (new_sender_dist C a d sysrnd rnd) fs w = (Ok m, w1) -> gsends C a d w1 l w2 ->
  (dm_iter m + N.of_nat (List.length l) < two32)%N ->
  forall j pt x, nth_error l j = Some (pt, x) -> genuine C (channel_of m) (dm_iter m + N.of_nat j) pt x /\
    group_message C (chain_at C (dm_chainkey m) j) (dm_iter m + N.of_nat j) (dm_chain m) d (dm_signing m) pt x.
Proof.
  intros C a d sr rnd fs w m w1 l w2 H O E G B j pt x Q. destruct (dist_describes _ _ _ _ _ _ _ _ _ H O E) as (O1 & T & Sp & _).
  destruct (gconsecutive _ _ _ _ _ _ G _ _ _ _ H O1 Sp B) as [I1 _]. apply I1 in Q. split; [|exact Q].
  unfold genuine, channel_of. cbn [cn_first cn_key cn_chain cn_dist cn_signing]. split; [lia|].
  replace (N.to_nat (dm_iter m + N.of_nat j - dm_iter m)) with j by lia. destruct T as (_ & T & _). rewrite T. exact Q.
Qed.

(** Two concurrent senders. *)
Lemma gencrypt_total : forall C rnd d s pt, CryptoOk C -> wf_gstate s -> List.length (gs_priv s) = 32 -> 64 <= List.length rnd ->
  exists m, gencrypt_state C rnd d s pt = Ok (m, gs_set_chainkey s (gc_next C (gs_chainkey s))).
Proof.
  intros C rnd d s pt H W L Lr. unfold gencrypt_state. destruct (derive_gmsgkey_at C (gs_chainkey s) H) as (_ & Lc & Lv & _).
  assert (Lg : legal_key (gk_cipher (gc_message_key C (gs_chainkey s)))) by (unfold legal_key; rewrite Lc; auto).
  destruct (cbc_inverse C _ _ pt H Lg Lv) as (ct & pd & -> & _). cbn [bind]. unfold gs_private, new_private_key. rewrite L. cbn [Nat.eqb negb bind].
  match goal with |- context [new_senderkey C rnd ?v d ?c ?i ct ?k] => destruct (new_senderkey_total C v rnd d c i ct k Lr) as (m & rest & ->) end.
  cbn [fst bind]. eauto.
Qed.
Lemma gconcurrent : forall C a d w chain signing n key pt1 pt2 rnd1 rnd2, CryptoOk C -> own_device C w ->
  speaks w a d chain signing n key -> sender_of w a d -> 64 <= List.length rnd1 -> 64 <= List.length rnd2 ->
  exists m1 m2 w', run2 [true; false] (gencrypt C a d rnd1 pt1) (gencrypt C a d rnd2 pt2) w = (Ok m1, Ok m2, w') /\
    group_message C key n chain d signing pt1 m1 /\ group_message C key n chain d signing pt2 m2.
Proof.
  intros C a d w chain signing n key pt1 pt2 rnd1 rnd2 H [W K] (s & r & Eg & Ec & Ep & Ei & Es) (s' & r' & Eg' & Lp) L1 L2.
  rewrite Eg in Eg'. injection Eg' as <- <-.
  assert (Ws : wf_gstate s) by (destruct (proj2 W _ _ _ Eg) as (_ & _ & F); inversion F; auto).
  assert (Ow : gs_priv s = [] \/ gs_pub s = Byte.x05 :: mont_pub C (gs_priv s)) by (eapply K; [exact Eg|left; reflexivity]).
  destruct (gencrypt_total C rnd1 d s pt1 H Ws Lp L1) as (m1 & G1). destruct (gencrypt_total C rnd2 d s pt2 H Ws Lp L2) as (m2 & G2).
  exists m1, m2. eexists. split.
  - unfold gencrypt, pdo. cbn [run2 pstep exec_f fallible exec]. rewrite Eg. cbn [gr_state plift]. rewrite G1, G2.
    cbn [plift gr_set_first]. unfold run0. cbn [run exec_f fallible hd_fault tl exec]. reflexivity.
  - rewrite <- Ec, <- Ei, <- Es. split; eapply gencrypt_message; eauto.
Qed.
Lemma reachable_own_device : forall C ts w, CryptoOk C -> reachable C (ts, w) -> own_device C w.
Proof. intros C ts w H R. split; [exact (reachable_wf C H ts w R)|exact (reachable_own C ts w H R)]. Qed.
