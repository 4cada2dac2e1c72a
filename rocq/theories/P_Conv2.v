(** The double ratchet, continued: a new chain, and sending. *)
From Verif Require Import M_Base M_Crypto M_Aes M_Curve M_Proto M_Message M_Ratchet M_State M_Store M_Session
  S_Crypto S_Message S_State S_Shape S_Ratchet S_Session S_Aes S_X3dh S_Conv
  P_Base P_Proto P_Curve P_State P_Shape P_Ratchet P_Message P_Aes P_Chain P_Decrypt P_Receive P_Encrypt P_Record P_Init P_Conv P_X3dh.
From Coq Require Import ZifyBool ZifyNat ZifyN.
Local Open Scope nat_scope.

Lemma forall2_app : forall {A B} (R : A -> B -> Prop) l1 l2 m1 m2, Forall2 R l1 m1 -> Forall2 R l2 m2 -> Forall2 R (l1 ++ l2) (m1 ++ m2).
Proof. intros A B R l1 l2 m1 m2 F G. induction F; [exact G|]. cbn. constructor; auto. Qed.
Lemma forall2_len : forall {A B} (R : A -> B -> Prop) l m, Forall2 R l m -> List.length l = List.length m.
Proof. intros A B R l m F. induction F; cbn; auto. Qed.
Lemma forall2_skipn : forall {A B} (R : A -> B -> Prop) n l m, Forall2 R l m -> Forall2 R (skipn n l) (skipn n m).
Proof. intros A B R n. induction n as [|n IH]; intros l m F; [exact F|]. destruct F; cbn; [constructor|auto]. Qed.
Lemma forall2_keep : forall {A B} (R : A -> B -> Prop) n l m, Forall2 R l m -> Forall2 R (keep_last n l) (keep_last n m).
Proof. intros A B R n l m F. unfold keep_last. rewrite (forall2_len R l m F). apply forall2_skipn. exact F. Qed.
Lemma in_keep : forall {A} n (l : list A) x, In x (keep_last n l) -> In x l.
Proof. intros A n l x I. unfold keep_last in I. rewrite <- (firstn_skipn (List.length l - n) l). apply in_or_app. right. exact I. Qed.
Lemma keep_last_snoc : forall {A} n (l : list A) x, keep_last (S n) (l ++ [x]) = keep_last n l ++ [x].
Proof.
  intros A n l x. unfold keep_last. rewrite app_length. cbn [List.length]. replace (List.length l + 1 - S n) with (List.length l - n) by lia.
  rewrite skipn_app. replace (List.length l - n - List.length l) with 0 by lia. reflexivity.
Qed.

Lemma nodup_keep : forall {A} n (l : list A), NoDup l -> NoDup (keep_last n l).
Proof.
  intros A n l N. unfold keep_last. generalize (List.length l - n). intro j. revert l N.
  induction j as [|j IH]; intros l N; [exact N|]. destruct l as [|y l]; [constructor|]. inversion N; subst. cbn. auto.
Qed.

Section Conv2.
Variable C : Crypto.
Hypothesis H : CryptoOk C.
Variables root0 chain0 : bytes.
Hypothesis Lroot0 : List.length root0 = 32.
Hypothesis Lchain0 : List.length chain0 = 32.
Notation kpub := (kpub C). Notation kchain := (kchain C root0 chain0). Notation kroot := (kroot C root0 chain0).
Notation keys_ok := (keys_ok C). Notation view_ok := (view_ok C root0 chain0). Notation party_ok := (party_ok C root0 chain0).

Lemma clamped_private : forall key, List.length key = 32 -> exists ours, new_private_key C (clamp key) = Ok ours /\ holds ours key.
Proof.
  intros key L. unfold new_private_key. rewrite clamp_length, L. cbn [Nat.eqb negb]. eexists. split; [reflexivity|].
  right. reflexivity.
Qed.

Lemma recv_new : forall ks me peer p s n pt m rnd, party_ok ks me peer p s ->
  List.length ks = S (S (p_epoch p)) -> 32 <= List.length rnd -> keys_ok (ks ++ [firstn 32 rnd]) ->
  go_u32 n -> (n <= 25000)%N -> let k := S (p_epoch p) in
  whisper C (chain_at C (kchain ks k) (N.to_nat n)) n (kpub ks k) peer me pt m ->
  exists s', decrypt_session C rnd s m = (Ok (pt, s'), skipn 32 rnd) /\
    party_ok (ks ++ [firstn 32 rnd]) me peer (party_after p k n) s' /\ kept s s'.
Proof using H Lroot0 Lchain0.
  intros ks me peer p s n pt m rnd P Lk Lrnd K' G J k Wh.
  set (x := [firstn 32 rnd]) in *. set (ks' := ks ++ x) in *.
  assert (K : keys_ok ks).
  { destruct K' as [F ND]. split; [apply Forall_app in F; apply F|]. unfold ks' in ND. rewrite map_app in ND. revert ND.
    clear. induction (map (mont_pub C) ks) as [|y l IH]; intro ND; [constructor|]. inversion ND as [|? ? N1 N2]; subst.
    constructor; [intro I0; apply N1; apply in_or_app; left; exact I0|auto]. }
  pose proof (views_lt_keys C root0 chain0 Lroot0 Lchain0 _ _ _ _ _ P) as VL.
  pose proof (party_ok_app C root0 chain0 Lroot0 Lchain0 ks x me peer p s P) as P'.
  pose proof P as (W & E1 & E2 & L & R & (sc & S1 & S2 & S3 & S4) & Gs & F & ND & Lt).
  assert (Lk' : List.length ks' = S (S k)) by (unfold ks', x; rewrite app_length; cbn; lia).
  destruct (clamped_private (kkey ks (p_epoch p)) (kkey_len C ks _ K L)) as (ours & No & Ho). rewrite <- S3 in No.
  assert (Cr : create_chain C (ss_root s) ours (kpub ks k) = Ok (kroot ks k, mkChainKey (kchain ks k) 0)).
  { rewrite R. unfold k. apply (create_recv C H root0 chain0 Lroot0 Lchain0 ks (p_epoch p) ours K); [lia|exact Ho]. }
  destruct (gen_pair_for C rnd Lrnd) as (kp & Gk & Pk). destruct Pk as (Lf & Pk1 & Pk2 & Pk3).
  assert (Ex : kkey ks' (S k) = firstn 32 rnd).
  { unfold kkey, ks'. rewrite app_nth2 by lia. replace (S k - List.length ks) with 0 by lia. reflexivity. }
  assert (Cs : create_chain C (kroot ks k) (kp_priv kp) (kpub ks k) = Ok (kroot ks' (S k), mkChainKey (kchain ks' (S k)) 0)).
  { rewrite <- (kroot_app C root0 chain0 Lroot0 Lchain0 ks x k), <- (kpub_app C ks x k) by lia.
    apply (create_send C H root0 chain0 Lroot0 Lchain0 ks' k (kp_priv kp) K'); [lia|]. rewrite Ex. exact Pk3. }
  assert (Fn : st_receiver_chain s (kpub ks k) = None).
  { unfold st_receiver_chain. apply (find_no_view C root0 chain0 ks (p_views p) (ss_receivers s) k K F VL); [lia|].
    intro I0. apply in_map_iff in I0. destruct I0 as (v & Ev & Iv). rewrite Forall_forall in Lt. specialize (Lt v Iv). lia. }
  pose proof (decrypt_new C rnd s sc _ ours _ _ kp _ _ _ n (kpub ks k) peer me pt m H W (kpub_len C ks k) G E2 E1 Fn S1 (proj1 S4) No Cr Gk Cs
     (or_introl J) Wh) as D. cbn [ck_key pck_index] in D.
  eexists. split; [exact D|].
  pose proof (whisper_wf _ _ _ _ _ _ _ _ H Wh (kpub_len C ks k) G) as Wm.
  destruct (decrypt_session_inv _ _ _ _ _ _ _ H W Wm D) as (W' & (_ & Q1 & Q2 & Q3 & Q4 & Q5) & Q6 & _).
  split; [|split; [exact Q5|split; [exact Q6|split; [exact Q4|exact Q3]]]].
  assert (Pa : party_after p k n = mkParty (S k) 0 (last_n 5 (p_views p ++ [mkView k n (last_n 2000 (positions 0 n))]))).
  { unfold party_after, k. rewrite Nat.eqb_refl. reflexivity. }
  rewrite Pa. split; [exact W'|]. split; [rewrite Q1; exact E1|]. split; [rewrite Q2; exact E2|].
  cbn [p_epoch p_sent p_views]. split; [lia|]. split; [reflexivity|]. split.
  { eexists. split; [reflexivity|]. cbn [pc_ratchet pc_ratchet_priv pc_key ck_index ck_key]. rewrite Pk1, Pk2. unfold P_Conv.kpub. rewrite Ex. auto. }
  split; [reflexivity|].
  assert (Lv : List.length (p_views p) <= 5).
  { rewrite (forall2_len _ _ _ F). apply (wf_receivers_of s W). }
  assert (ND' : NoDup (map rv_epoch (p_views p ++ [mkView k 0 []]))).
  { rewrite map_app. cbn [map rv_epoch]. revert ND Lt. clear. unfold k. generalize (p_views p) (p_epoch p). intros l e. induction l as [|v l IH]; intros ND Lt.
    - cbn. constructor; [intros []|constructor].
    - cbn [map app]. inversion ND as [|? ? N1 N2]; subst. inversion Lt as [|? ? L1 L2]; subst. constructor; [|auto].
      intro I0. apply in_app_or in I0. destruct I0 as [I0|[I0|[]]]; [exact (N1 I0)|lia]. }
  split; [|split].
  - set (v0 := mkView k 0 []). set (c0 := mkPChain (pub_bytes (kpub ks k)) [] (Some (mkPChainKey 0 (kchain ks k))) []).
    assert (F' : Forall2 (view_ok ks') (p_views p) (ss_receivers s)) by (destruct P' as (_ & _ & _ & _ & _ & _ & _ & F' & _); exact F').
    assert (V0 : view_ok ks' v0 c0).
    { unfold P_Conv.view_ok, v0, c0. cbn [rv_epoch rv_idx rv_saved pc_ratchet pc_key pc_msgkeys].
      unfold ks'. rewrite kpub_app, kchain_app by lia. split; [reflexivity|]. split; [reflexivity|]. split; [reflexivity|]. split; [constructor|split; reflexivity]. }
    assert (F5 : Forall2 (view_ok ks') (keep_last 5 (p_views p ++ [v0])) (keep_last 5 (ss_receivers s ++ [c0]))).
    { apply forall2_keep, forall2_app; [exact F'|]. constructor; [exact V0|constructor]. }
    pose proof (upd_view C root0 chain0 ks' _ _ k (fun c => with_chainkey (with_msgkeys c
         (skip_list C (N.to_nat (n - 0)) (mkChainKey (kchain ks k) 0) (pc_msgkeys c)))
         (mkPChainKey (ck_index (ck_iter C (N.to_nat (n - 0)) (mkChainKey (kchain ks k) 0)))
                      (ck_key (ck_iter C (N.to_nat (n - 0)) (mkChainKey (kchain ks k) 0))))) (view_after n) K' F5) as U.
    cbn [ss_receivers st_clear_unack with_pending after_ahead with_receivers after_dh st_set_sender_chain with_sender with_prevctr st_add_receiver_chain
      with_root pck_index pck_key ck_index ck_key].
    change max_receiver_chains with 5. rewrite trim_front_keep by (rewrite app_length, <- (forall2_len _ _ _ F); cbn; lia).
    assert (Eq : map (fun v => if Nat.eqb (rv_epoch v) k then view_after n v else v) (keep_last 5 (p_views p ++ [v0])) =
                 last_n 5 (p_views p ++ [mkView k n (last_n 2000 (positions 0 n))])).
    { change (@last_n rview) with (@keep_last rview). rewrite !keep_last_snoc, map_app. f_equal.
      - rewrite map_ext_in with (g := fun v => v); [apply map_id|]. intros v Iv. apply in_keep in Iv. rewrite Forall_forall in Lt. specialize (Lt v Iv).
        destruct (Nat.eqb_spec (rv_epoch v) k); [unfold k in *; lia|reflexivity].
      - unfold v0. cbn [map rv_epoch]. rewrite Nat.eqb_refl. unfold view_after. cbn [rv_idx rv_epoch rv_saved].
        destruct (N.ltb_spec n 0); [lia|]. cbn [app].  reflexivity. }
    rewrite Eq in U. replace (pub_bytes (kpub ks' k)) with (pub_bytes (kpub ks k)) in U by (unfold ks'; rewrite kpub_app by lia; reflexivity).
    apply U.
    + rewrite <- keep_last_map. apply nodup_keep. exact ND'.
    + apply Forall_forall. intros v Iv. apply in_keep in Iv. apply in_app_or in Iv. destruct Iv as [Iv|[<-|[]]].
      * rewrite Forall_forall in VL. specialize (VL v Iv). unfold ks'. rewrite app_length. lia.
      * cbn [v0 rv_epoch]. lia.
    + lia.
    + intros v c Iv Ev Vo. apply in_keep in Iv. apply in_app_or in Iv. destruct Iv as [Iv|[<-|[]]].
      { rewrite Forall_forall in Lt. specialize (Lt v Iv). unfold k in Ev. lia. }
      pose proof (view_ahead C root0 chain0 Lroot0 Lchain0 ks' v0 c n) as X. cbn [v0 rv_idx rv_epoch] in X.
      replace (kchain ks' k) with (kchain ks k) in X by (unfold ks'; rewrite kchain_app by lia; reflexivity).
      apply X; [lia|exact G| |exact Vo]. destruct Vo as (_ & _ & -> & _). cbn. lia.
  - change (@last_n rview) with (@keep_last rview). rewrite <- keep_last_map, map_app. rewrite map_app in ND'. apply nodup_keep. exact ND'.
  - change (@last_n rview) with (@keep_last rview). apply Forall_forall. intros v Iv. apply in_keep in Iv. apply in_app_or in Iv. destruct Iv as [Iv|[<-|[]]].
    + rewrite Forall_forall in Lt. specialize (Lt v Iv). unfold k. lia.
    + cbn [rv_epoch]. lia.
Qed.

(** *** Sending *)
Lemma send_next : forall ks me peer p s pt, party_ok ks me peer p s -> (p_sent p + 1 < 4294967296)%N ->
  exists m out s', encrypt_state C s pt = Ok (out, s', peer) /\
    whisper C (chain_at C (kchain ks (p_epoch p)) (N.to_nat (p_sent p))) (p_sent p) (kpub ks (p_epoch p)) me peer pt m /\
    framed s me m out /\
    party_ok ks me peer (mkParty (p_epoch p) (p_sent p + 1) (p_views p)) s' /\
    ss_alice_base s' = ss_alice_base s /\ ss_pending s' = ss_pending s /\ ss_local_reg s' = ss_local_reg s /\ ss_remote_reg s' = ss_remote_reg s.
Proof using H Lroot0 Lchain0.
  intros ks me peer p s pt P G. pose proof P as (W & E1 & E2 & L & R & (sc & S1 & S2 & S3 & S4) & Gs & F & ND & Lt).
  destruct (encrypt_state_exact C s pt H W) as (sc' & k & rt & local & remote & m & out & A1 & A2 & A3 & A4 & A5 & A6 & A7 & A8 & A9 & A10 & A11).
  rewrite S1 in A1. injection A1 as <-. rewrite (proj1 S4) in A2. injection A2 as <-. cbn [pck_key pck_index] in *.
  rewrite S2 in A3. apply pub_bytes_inj in A3. subst rt. rewrite E1 in A5. apply pub_bytes_inj in A5. subst local.
  rewrite E2 in A6. apply pub_bytes_inj in A6. subst remote.
  exists m, out. eexists. split; [exact A11|]. split; [exact A9|]. split; [exact A10|]. split; [|cbn; auto].
  destruct (encrypt_state_wf C s pt _ _ _ H W A11) as [W' _].
  split; [exact W'|]. cbn [ss_local ss_remote ss_root ss_sender ss_receivers with_sender p_epoch p_sent p_views].
  split; [exact E1|]. split; [exact E2|]. split; [exact L|]. split; [exact R|]. split.
  { eexists. split; [reflexivity|]. cbn [pc_ratchet pc_ratchet_priv pc_key with_chainkey]. split; [exact S2|]. split; [exact S3|].
    split; [|exact (proj2 S4)]. destruct S4 as [S4 _]. rewrite u32_small by (unfold two32; lia). do 2 f_equal. replace (N.to_nat (p_sent p + 1)) with (N.to_nat (p_sent p) + 1) by lia.
    rewrite <- chain_at_add by exact H. reflexivity. }
  split; [exact G|]. auto.
Qed.
End Conv2.
