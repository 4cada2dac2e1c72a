(** Group sending, and what receivers can never do. *)
From Verif Require Import M_Base M_Crypto M_Aes M_Curve M_Proto M_Uuid M_Message M_Ratchet M_State M_Store M_Session M_Group
  S_Crypto S_Message S_State S_Shape S_Ratchet S_Session S_Curve S_Aes S_Wire S_Uuid S_Api S_Group S_GroupMsg S_Isolation S_X3dh
  P_Base P_Proto P_Curve P_State P_Shape P_Ratchet P_Message P_Aes P_Chain P_Decrypt P_Init P_Record P_Verify P_CryptoTop P_Prog P_Group P_Api P_Isolation P_Bundle P_X3dh
  P_History P_GroupMsg P_Member P_Keep.
From Coq Require Import ZifyBool ZifyNat ZifyN.
Local Open Scope nat_scope.

Lemma mont_clamp : forall C k, List.length k = 32 -> mont_pub C (clamp k) = mont_pub C k.
Proof. intros C k L. unfold mont_pub. rewrite scalar_clamp by exact L. reflexivity. Qed.

Lemma gencrypt_needs_key : forall C rnd d s pt x, gencrypt_state C rnd d s pt = Ok x -> List.length (gs_priv s) = 32.
Proof.
  intros C rnd d s pt x E. unfold gencrypt_state in E.
  destruct (cbc_encrypt C _ _ pt) as [ct| |]; cbn [bind] in E; [|discriminate..].
  unfold gs_private, new_private_key in E. destruct (Nat.eqb_spec (List.length (gs_priv s)) 32) as [L|L]; [exact L|].
  cbn [negb bind] in E. discriminate.
Qed.
Lemma gencrypt_same : forall C rnd d s pt msg s', gencrypt_state C rnd d s pt = Ok (msg, s') ->
  gs_priv s' = gs_priv s /\ gs_pub s' = gs_pub s /\ gs_chain s' = gs_chain s.
Proof. intros C rnd d s pt msg s' E. apply gencrypt_state_next in E. subst s'. auto. Qed.
Lemma gnext_same : forall C s m, CryptoOk C -> wf_gstate s ->
  gs_priv (gnext C s m) = gs_priv s /\ gs_pub (gnext C s m) = gs_pub s /\ gs_chain (gnext C s m) = gs_chain s.
Proof.
  intros C s m H W. unfold gnext. destruct (gmessage_key C s (sm_iter m)) as [o s'] eqn:E.
  destruct (gmessage_key_wf C s _ o s' H W E) as (_ & E1 & E2 & E3 & _). auto.
Qed.

Lemma reachable_own : forall C ts w, CryptoOk C -> reachable C (ts, w) -> own_keys C w.
Proof.
  intros C ts w H R. apply reachable_any in R.
  assert (K : keeps (fun _ _ s => gs_priv s = [] \/ gs_pub s = Byte.x05 :: mont_pub C (gs_priv s)) w).
  { eapply reachable_keep; [exact H| | | | |exact R].
    - intros a m _ _. left. reflexivity.
    - intros a d sr rnd chain seed rnd1 kp rest _ _ _ G. right.
      assert (L : 32 <= List.length rnd1).
      { unfold gen_keypair, gen_private_key, read_full in G. destruct (Nat.ltb_spec (List.length rnd1) 32); [discriminate|lia]. }
      destruct (gen_pair_for C rnd1 L) as (p & Gp & (L1 & E1 & E2 & _)). rewrite G in Gp. injection Gp as <- _.
      unfold new_gstate. change (gs_pub _) with (pub_bytes (kp_pub kp)). change (gs_priv _) with (sk_bytes (kp_priv kp)).
      rewrite E1, E2, mont_clamp by exact L1. reflexivity.
    - intros a d rnd pt s msg s' _ _ Q E. apply gencrypt_same in E. destruct E as (-> & -> & _). exact Q.
    - intros a m s _ _ W _ Q. destruct (gnext_same C s m H W) as (-> & -> & _). exact Q. }
  intros a d r s E J. specialize (K a d r E). rewrite Forall_forall in K. apply K. exact J.
Qed.

(** C49. *)
Lemma gencrypt_ok : forall C a d rnd pt fs w m w', run (gencrypt C a d rnd pt) fs w = (Ok m, w') ->
  exists s r, w_groups w a d = Some (s :: r) /\
    gencrypt_state C rnd d s pt = Ok (m, gs_set_chainkey s (gc_next C (gs_chainkey s))) /\
    w' = set_group (if w_shared w then set_group w a d (gs_set_chainkey s (gc_next C (gs_chainkey s)) :: r) else w) a d
           (gs_set_chainkey s (gc_next C (gs_chainkey s)) :: r).
Proof.
  intros C a d rnd pt fs w m w' E. unfold gencrypt in E. unfold pdo at 1 in E. cbn [run exec_f fallible] in E.
  destruct (hd_fault fs); cbn [exec run] in E; [|discriminate..].
  destruct (w_groups w a d) as [[|s r]|] eqn:Er; cbn [gr_state plift run] in E; [discriminate| |discriminate].
  destruct (gencrypt_state C rnd d s pt) as [[msg s']| |] eqn:G; cbn [plift run] in E; [|discriminate..].
  pose proof (gencrypt_state_next _ _ _ _ _ _ _ G) as Es. exists s, r. split; [reflexivity|].
  unfold pdo in E. cbn [run exec_f fallible exec] in E. cbn [gr_set_first] in E.
  destruct (hd_fault (tl (tl fs))); cbn [run exec] in E; [|discriminate..].
  injection E as <- <-. subst s'. split; [exact G|reflexivity].
Qed.
Lemma receivers_silent : forall C a d ts w, CryptoOk C -> reachable_with C (no_own_key a d) (ts, w) ->
  forall rnd pt fs m, fst (run (gencrypt C a d rnd pt) fs w) <> Ok m.
Proof.
  intros C a d ts w H R rnd pt fs m E.
  assert (K : keeps (fun b e s => b = a -> e = d -> gs_priv s = []) w).
  { eapply reachable_keep; [exact H| | | | |exact R].
    - intros b x _ _ _ _. reflexivity.
    - intros b e sr rn chain seed rnd1 kp rest Pn _ _ _ -> ->. exfalso. apply Pn. auto.
    - intros b e rn p s msg s' _ _ Q G Eb Ee. apply gencrypt_same in G. destruct G as (-> & _). auto.
    - intros b x s _ _ W _ Q Eb Ee. destruct (gnext_same C s x H W) as (-> & _). auto. }
  destruct (run (gencrypt C a d rnd pt) fs w) as [o w'] eqn:Er. cbn [fst] in E. subst o.
  destruct (gencrypt_ok _ _ _ _ _ _ _ _ _ Er) as (s & r & Eg & G & _). apply gencrypt_needs_key in G.
  specialize (K a d _ Eg). inversion K as [|? ? K1 _]; subst. rewrite (K1 eq_refl eq_refl) in G. discriminate.
Qed.

(** C45. *)
Definition not_before (n : N) (s : gstate) : Prop :=
  (n <= gs_iter s)%N /\ Forall (fun k => (n <= gm_iter k)%N) (gs_keys s).
Lemma gsaved_range : forall C k s, wf_gstate s -> (gs_iter s + N.of_nat k < two32)%N ->
  Forall (fun x => (gs_iter s <= gm_iter x)%N) (gsaved_from C k (gs_chainkey s)).
Proof.
  intros C k s W B. apply Forall_forall. intros x J. unfold gsaved_from in J. apply in_map_iff in J. destruct J as (i & <- & J).
  apply in_seq in J. cbn [gsaved gm_iter]. rewrite gc_iter_index by apply W. cbn [gs_chainkey gc_iter]. unfold u32. rewrite N.mod_small by lia. lia.
Qed.
Lemma not_before_next : forall C n s m, wf_gstate s -> (sm_iter m + 1 < two32)%N -> not_before n s -> not_before n (gnext C s m).
Proof.
  intros C n s m W B [Ni Nk]. unfold gnext. rewrite gmessage_key_exact by exact W.
  destruct (N.ltb_spec (sm_iter m) (gs_iter s)) as [L|L].
  - destruct (take_gmk (sm_iter m) (gs_keys s)) as [[k l]|] eqn:T; [|split; auto]. cbn [snd]. split; [exact Ni|].
    apply take_gmk_some in T. destruct T as (x & y & E & -> & _). cbn [gs_with_keys gs_keys]. rewrite E in Nk. apply Forall_app in Nk.
    destruct Nk as [N1 N2]. inversion N2; subst. apply Forall_app. auto.
  - destruct (N.ltb_spec 25000 (sm_iter m - gs_iter s)); cbn [snd]; [split; auto|]. unfold gafter_ahead, not_before.
    cbn [gs_set_chainkey gs_with_keys gs_iter gs_keys gc_next gc_iter]. rewrite gc_iter_index by apply W. cbn [gs_chainkey gc_iter].
    assert (Eu : u32 (gs_iter s + N.of_nat (N.to_nat (sm_iter m - gs_iter s))) = sm_iter m).
    { replace (gs_iter s + N.of_nat (N.to_nat (sm_iter m - gs_iter s)))%N with (sm_iter m) by lia. apply N.mod_small. lia. }
    rewrite Eu. split; [unfold u32; rewrite N.mod_small by lia; lia|]. apply keep_last_forall. apply Forall_app. split; [exact Nk|].
    eapply Forall_impl; [|apply gsaved_range; [exact W|lia]]. cbn. intros; lia.
Qed.
Lemma late_joiner : forall C a d chain n ts w, CryptoOk C -> reachable_with C (joined_at a d chain n) (ts, w) ->
  forall m fs pt, sm_dist m = d -> sm_chain m = chain -> (sm_iter m < n)%N -> fst (run (gdecrypt C a m) fs w) <> Ok pt.
Proof.
  intros C a d chain n ts w H R m fs pt Ed Ec L E.
  assert (K : wf_device w /\ keeps (fun b e s => b = a -> e = d -> gs_priv s = [] /\ (gs_chain s = chain -> not_before n s)) w).
  { eapply reachable_keep; [exact H| | | | |exact R].
    - intros b x _ Px -> Ee. split; [reflexivity|]. intro Ech. split; [|constructor]. apply Px; auto.
    - intros b e sr rn ch seed rnd1 kp rest Pn _ _ _ -> ->. exfalso. apply Pn. auto.
    - intros b e rn p s msg s' _ _ Q G Eb Ee. destruct (Q Eb Ee) as [Q1 _]. apply gencrypt_needs_key in G. rewrite Q1 in G. discriminate.
    - intros b x s Wx Px W Es Q Eb Ee. destruct (Q Eb Ee) as [Q1 Q2]. destruct (gnext_same C s x H W) as (E1 & _ & E3). rewrite E1, E3.
      split; [exact Q1|]. intro Ech. apply not_before_next; [exact W| |auto]. apply Px; auto. congruence. }
  destruct K as [W K]. destruct (gdecrypt_cases C a m fs w W) as [(_ & _ & N1)|(r & s & key & Er & Ef & Wr & Ws & _ & _ & _ & Eq & _)]; [exact (N1 pt E)|].
  rewrite Eq in E. cbv zeta in E. rewrite Ed in *. specialize (K a d r Er). rewrite Forall_forall in K. apply gr_find_spec in Ef; [|apply Wr].
  destruct Ef as [J Es]. destruct (K s J eq_refl eq_refl) as [_ K2]. destruct (K2 ltac:(congruence)) as [Ni Nk].
  unfold gresult in E. rewrite gmessage_key_exact in E by exact Ws. rewrite (proj2 (N.ltb_lt _ _)) in E by lia.
  destruct (take_gmk (sm_iter m) (gs_keys s)) as [[k l]|] eqn:T.
  - apply take_gmk_some in T. destruct T as (x & y & Ek & _ & Ei & _). rewrite Ek in Nk. apply Forall_app in Nk. destruct Nk as [_ Nk].
    inversion Nk; subst. lia.
  - cbn [fst bind] in E. discriminate.
Qed.

(** Sending. *)
Lemma gencrypt_message : forall C rnd d s pt m s' signing, CryptoOk C -> wf_gstate s ->
  gs_pub s = Byte.x05 :: signing -> (gs_priv s = [] \/ gs_pub s = Byte.x05 :: mont_pub C (gs_priv s)) ->
  gencrypt_state C rnd d s pt = Ok (m, s') ->
  group_message C (gs_seed s) (gs_iter s) (gs_chain s) d signing pt m.
Proof.
  intros C rnd d s pt m s' signing H W Ep Own E. pose proof (gencrypt_needs_key _ _ _ _ _ _ E) as L.
  destruct Own as [Q|Own]; [rewrite Q in L; discriminate|]. rewrite Ep in Own. injection Own as ->.
  unfold gencrypt_state in E. destruct (cbc_encrypt C _ _ pt) as [ct| |] eqn:Ec; cbn [bind] in E; [|discriminate..].
  destruct (gs_private C s) as [key| |] eqn:Ek; cbn [bind] in E; [|discriminate..].
  rewrite (gs_ver_wf s W) in E. change (3 mod 256)%N with 3%N in E.
  assert (Epub : sk_pub key = mont_pub C (gs_priv s)).
  { unfold gs_private, new_private_key in Ek. rewrite L in Ek. cbn [Nat.eqb negb] in Ek. injection Ek as <-. reflexivity. }
  unfold gs_private in Ek. unfold new_senderkey in E. set (ser := version_prefix 3 :: _) in E.
  destruct (sign C key rnd [ser]) as [[sg| |] r0] eqn:Sg; cbn [fst bind] in E; [|discriminate..].
  apply (f_equal (fun x => match x with Ok (a, _) => a | _ => m end)) in E. subst m.
  destruct (sign_verifies C H _ key rnd sg r0 [ser] [ser] Ek Sg eq_refl) as [L64 V].
  split; [reflexivity|]. split; [reflexivity|]. split; [reflexivity|]. split; [reflexivity|]. split.
  - apply verify_signed. unfold verify_senderkey. cbn [sm_raw]. rewrite app_length, L64.
    replace (Nat.ltb (List.length ser + 64) 64) with false by (symmetry; apply Nat.ltb_ge; lia).
    replace (List.length ser + 64 - 64) with (List.length ser) by lia.
    rewrite firstn_app_exact, skipn_app_exact, <- Epub. exact V.
  - exists (gc_message_key C (gs_chainkey s)). split; [|exact Ec]. apply (derive_gmsgkey_at C (gs_chainkey s) H).
Qed.

Lemma set_group_own : forall C w a d r, own_keys C w -> (forall s, In s r -> gs_priv s = [] \/ gs_pub s = Byte.x05 :: mont_pub C (gs_priv s)) ->
  own_keys C (set_group w a d r).
Proof.
  intros C w a d r K F b e x s. cbn. destruct (addr_eqb b a && distid_eqb e d); [|apply K]. intro E. injection E as <-. apply F.
Qed.
Lemma gencrypt_dev : forall C a d rnd pt fs w, CryptoOk C -> own_device C w -> own_device C (snd (run (gencrypt C a d rnd pt) fs w)) /\
  forall n, own_device C (crash n (gencrypt C a d rnd pt) fs w).
Proof.
  intros C a d rnd pt fs w H [W K].
  assert (G : forall n f w0, wf_device w0 /\ keeps (fun _ _ s => gs_priv s = [] \/ gs_pub s = Byte.x05 :: mont_pub C (gs_priv s)) w0 ->
     forall {A} (p : prog A), pall (fun X o => shape_ok X o /\ keep_ok (fun _ _ s => gs_priv s = [] \/ gs_pub s = Byte.x05 :: mont_pub C (gs_priv s)) X o)
       (fun X o x => shape_ans X o x /\ keep_ans (fun _ _ s => gs_priv s = [] \/ gs_pub s = Byte.x05 :: mont_pub C (gs_priv s)) X o x) p ->
     let R := fun w1 => wf_device w1 /\ keeps (fun _ _ s => gs_priv s = [] \/ gs_pub s = Byte.x05 :: mont_pub C (gs_priv s)) w1 in
     R (snd (run p f w0)) /\ R (crash n p f w0)).
  { intros n f w0 K0 A p. revert n f w0 K0. induction p as [r|X o k IH]; intros n f w0 K0 Pa R.
    - cbn [run snd]. split; [exact K0|]. revert f w0 K0. induction n as [|n IHn]; intros f w0 K0; cbn [crash pstep]; auto.
    - destruct Pa as [P1 P2]. destruct (keep_exec _ X o (hd_fault f) w0 K0 P1) as [I1 I2]. cbn [run].
      destruct (exec_f o (hd_fault f) w0) as [x w1] eqn:E. cbn [fst snd] in I1, I2. split.
      + exact (proj1 (IH x n (tl f) w1 I1 (P2 x I2))).
      + destruct n as [|n]; [exact K0|]. cbn [crash pstep]. rewrite E. exact (proj2 (IH x n (tl f) w1 I1 (P2 x I2))). }
  assert (Pa : pall (fun X o => shape_ok X o /\ keep_ok (fun _ _ s => gs_priv s = [] \/ gs_pub s = Byte.x05 :: mont_pub C (gs_priv s)) X o)
       (fun X o x => shape_ans X o x /\ keep_ans (fun _ _ s => gs_priv s = [] \/ gs_pub s = Byte.x05 :: mont_pub C (gs_priv s)) X o x) (gencrypt C a d rnd pt)).
  { apply pall_and; [apply gencrypt_shape; exact H|]. apply (gencrypt_keep C (fun _ => True)); [|exact I].
    intros b e rn p s msg s' _ _ Q E. apply gencrypt_same in E. destruct E as (-> & -> & _). exact Q. }
  assert (K' : wf_device w /\ keeps (fun _ _ s => gs_priv s = [] \/ gs_pub s = Byte.x05 :: mont_pub C (gs_priv s)) w).
  { split; [exact W|]. intros b e r E. apply Forall_forall. intros s J. eapply K; eauto. }
  assert (B : forall w1, wf_device w1 /\ keeps (fun _ _ s => gs_priv s = [] \/ gs_pub s = Byte.x05 :: mont_pub C (gs_priv s)) w1 -> own_device C w1).
  { intros w1 [W1 K1]. split; [exact W1|]. intros b e r s E J. specialize (K1 b e r E). rewrite Forall_forall in K1. auto. }
  split; [exact (B _ (proj1 (G 0 fs w K' _ _ Pa)))|]. intro n. exact (B _ (proj2 (G n fs w K' _ _ Pa))).
Qed.

Lemma gsend_one : forall C a d rnd pt fs w m w' chain signing n key, CryptoOk C -> own_device C w ->
  speaks w a d chain signing n key -> run (gencrypt C a d rnd pt) fs w = (Ok m, w') ->
  group_message C key n chain d signing pt m /\
  speaks w' a d chain signing ((n + 1) mod two32) (c_hmac C key [Byte.x02]).
Proof.
  intros C a d rnd pt fs w m w' chain signing n key H [W K] (s & r & Eg & Ec & Ep & Ei & Es) E.
  destruct (gencrypt_ok _ _ _ _ _ _ _ _ _ E) as (s0 & r0 & Eg0 & G & ->). rewrite Eg in Eg0. injection Eg0 as <- <-. split.
  - rewrite <- Ec, <- Ei, <- Es. eapply gencrypt_message; [exact H| |exact Ep| |exact G].
    + destruct (proj2 W _ _ _ Eg) as (_ & _ & F). inversion F; auto.
    + eapply K; [exact Eg|left; reflexivity].
  - exists (gs_set_chainkey s (gc_next C (gs_chainkey s))), r. split; [apply group_set_same|]. rewrite <- Ei, <- Es. auto.
Qed.
Lemma speaks_w : forall w a d chain signing n key chain' signing' n' key',
  speaks w a d chain signing n key -> speaks w a d chain' signing' n' key' -> n = n' /\ key = key' /\ chain = chain' /\ signing = signing'.
Proof.
  intros w a d chain signing n key chain' signing' n' key' (s & r & E & E1 & E2 & E3 & E4) (s' & r' & E' & E1' & E2' & E3' & E4').
  rewrite E in E'. injection E' as <- <-. rewrite E2 in E2'. injection E2' as <-. subst. auto.
Qed.

(** Every attempt and every crash leaves the position or advances it by one. *)
Lemma gattempt : forall C a d rnd pt fs w, wf_device w -> forall w', w' = snd (run (gencrypt C a d rnd pt) fs w) \/ (exists k, w' = crash k (gencrypt C a d rnd pt) fs w) ->
  forall chain signing n key, speaks w a d chain signing n key ->
  speaks w' a d chain signing n key \/ speaks w' a d chain signing ((n + 1) mod two32) (c_hmac C key [Byte.x02]).
Proof.
  intros C a d rnd pt fs w W w' Hw chain signing n key Sp.
  set (R := fun w1 w2 => w1 = w -> w2 = w \/ exists s r, w_groups w a d = Some (s :: r) /\
     w_groups w2 a d = Some (gs_set_chainkey s (gc_next C (gs_chainkey s)) :: r)).
  assert (Done : (w' = w \/ exists s r, w_groups w a d = Some (s :: r) /\ w_groups w' a d = Some (gs_set_chainkey s (gc_next C (gs_chainkey s)) :: r))).
  { clear R. unfold gencrypt in Hw. destruct Hw as [Hw|[k Hw]].
    - unfold pdo at 1 in Hw. cbn [run exec_f fallible] in Hw. destruct (hd_fault fs); cbn [exec run snd] in Hw; auto.
      destruct (w_groups w a d) as [[|s r]|] eqn:Er; cbn [gr_state plift run snd] in Hw; auto.
      destruct (gencrypt_state C rnd d s pt) as [[msg s']| |] eqn:G; cbn [plift run snd] in Hw; auto.
      apply gencrypt_state_next in G. subst s'. unfold pdo in Hw. cbn [run exec_f fallible exec gr_set_first] in Hw.
      destruct (hd_fault (tl (tl fs))); cbn [run snd] in Hw; (destruct (w_shared w); [|try (left; exact Hw)]);
        right; exists s, r; (split; [reflexivity|rewrite Hw; apply group_set_same]).
    - destruct k as [|k]; cbn [crash] in Hw; auto. unfold pdo at 1 in Hw. cbn [pstep exec_f fallible] in Hw.
      destruct (hd_fault fs); cbn [exec] in Hw; [|rewrite crash_ret in Hw; auto..].
      destruct (w_groups w a d) as [[|s r]|] eqn:Er; cbn [gr_state plift] in Hw; [rewrite crash_ret in Hw; auto| |rewrite crash_ret in Hw; auto].
      destruct (gencrypt_state C rnd d s pt) as [[msg s']| |] eqn:G; cbn [plift] in Hw; [|rewrite crash_ret in Hw; auto..].
      apply gencrypt_state_next in G. subst s'. unfold pdo in Hw. cbn [gr_set_first] in Hw.
      destruct k as [|k]; cbn [crash pstep exec_f fallible exec] in Hw; auto.
      assert (T : w' = (if w_shared w then set_group w a d (gs_set_chainkey s (gc_next C (gs_chainkey s)) :: r) else w) ->
         w' = w \/ exists s0 r0, Some (s :: r) = Some (s0 :: r0) /\ w_groups w' a d = Some (gs_set_chainkey s0 (gc_next C (gs_chainkey s0)) :: r0)).
      { intros ->. destruct (w_shared w); auto. right. exists s, r. split; [reflexivity|apply group_set_same]. }
      destruct k as [|k]; cbn [crash pstep exec_f fallible exec] in Hw; [apply T; exact Hw|].
      destruct (hd_fault (tl (tl fs))); cbn [crash] in Hw; rewrite crash_ret in Hw; [right|apply T; exact Hw|right];
        (exists s, r; split; [reflexivity|rewrite Hw; apply group_set_same]). }
  destruct Done as [->|(s & r & E1 & E2)]; [left; exact Sp|]. right. destruct Sp as (s0 & r0 & E & Ec & Ep & Ei & Es).
  rewrite E1 in E. injection E as <- <-. eexists. exists r. split; [exact E2|]. rewrite <- Ei, <- Es. auto.
Qed.

Lemma chain_at_S : forall C k j, chain_at C k (S j) = chain_at C (c_hmac C k [Byte.x02]) j.
Proof. intros C k j. change (S j) with (1 + j). rewrite (chain_at_add C k 1 j). reflexivity. Qed.

(** Consecutive iterations. *)
Lemma gconsecutive : forall C a d w l w', gsends C a d w l w' -> forall chain signing n key, CryptoOk C -> own_device C w ->
  speaks w a d chain signing n key -> (n + N.of_nat (List.length l) < two32)%N ->
  (forall j pt m, nth_error l j = Some (pt, m) ->
     group_message C (chain_at C key j) (n + N.of_nat j) chain d signing pt m) /\
  speaks w' a d chain signing (n + N.of_nat (List.length l)) (chain_at C key (List.length l)).
Proof.
  intros C a d w l w' G. induction G as [w|w rnd pt fs m w1 l w2 E G IH]; intros chain signing n key H O Sp B.
  - split; [intros [|j] pt m Q; discriminate|]. cbn [List.length N.of_nat]. rewrite N.add_0_r. exact Sp.
  - cbn [List.length] in B. destruct (gsend_one _ _ _ _ _ _ _ _ _ _ _ _ _ H O Sp E) as [M Sp1].
    rewrite N.mod_small in Sp1 by lia.
    assert (O1 : own_device C w1).
    { replace w1 with (snd (run (gencrypt C a d rnd pt) fs w)) by (rewrite E; reflexivity). apply gencrypt_dev; auto. }
    destruct (IH chain signing (n + 1)%N _ H O1 Sp1 ltac:(lia)) as [I1 I2]. split.
    + intros [|j] p x Q; cbn [nth_error] in Q.
      * injection Q as <- <-. cbn [N.of_nat]. rewrite N.add_0_r. exact M.
      * apply I1 in Q. rewrite chain_at_S. replace (n + N.of_nat (S j))%N with (n + 1 + N.of_nat j)%N by lia. exact Q.
    + cbn [List.length]. rewrite chain_at_S. replace (n + N.of_nat (S (List.length l)))%N with (n + 1 + N.of_nat (List.length l))%N by lia. exact I2.
Qed.
(** With failures and crashes: strictly increasing. *)
Lemma gincreasing : forall C a d k w l w', gtries C a d k w l w' -> forall chain signing n key, CryptoOk C -> own_device C w ->
  speaks w a d chain signing n key -> (n + N.of_nat k < two32)%N ->
  (forall j pt m, nth_error l j = Some (pt, m) -> sm_dist m = d /\ sm_chain m = chain /\ (n <= sm_iter m < n + N.of_nat k)%N /\
     group_message C (chain_at C key (N.to_nat (sm_iter m - n))) (sm_iter m) chain d signing pt m) /\
  (forall j1 j2 pt1 m1 pt2 m2, j1 < j2 -> nth_error l j1 = Some (pt1, m1) -> nth_error l j2 = Some (pt2, m2) -> (sm_iter m1 < sm_iter m2)%N).
Proof.
  intros C a d k w l w' G. induction G as [w|k w rnd pt fs m w1 l w2 E G IH|k w rnd pt fs r w1 l w2 E Nr G IH|k w rnd pt fs c l w2 G IH|k w w1 l w2 O1 Eg G IH];
    intros chain signing n key H O Sp B.
  - split; [intros [|j] ? ? Q; discriminate|intros [|j1] ? ? ? ? ? ? Q; discriminate].
  - destruct (gsend_one _ _ _ _ _ _ _ _ _ _ _ _ _ H O Sp E) as [M Sp1]. rewrite N.mod_small in Sp1 by lia.
    assert (O1 : own_device C w1).
    { replace w1 with (snd (run (gencrypt C a d rnd pt) fs w)) by (rewrite E; reflexivity). apply gencrypt_dev; auto. }
    destruct (IH chain signing (n + 1)%N _ H O1 Sp1 ltac:(lia)) as [I1 I2].
    assert (Ei : sm_iter m = n) by apply M. split.
    + intros [|j] p x Q; cbn [nth_error] in Q.
      * injection Q as <- <-. split; [apply M|]. split; [apply M|]. split; [lia|]. rewrite Ei, N.sub_diag. exact M.
      * apply I1 in Q. destruct Q as (Q1 & Q2 & Q3 & Q4). split; [exact Q1|]. split; [exact Q2|]. split; [lia|].
        rewrite <- chain_at_S in Q4. replace (S (N.to_nat (sm_iter x - (n + 1)))) with (N.to_nat (sm_iter x - n)) in Q4 by lia. exact Q4.
    + intros [|j1] [|j2] p1 x1 p2 x2 L Q1 Q2; [lia| |lia|]; cbn [nth_error] in *.
      * injection Q1 as <- <-. apply I1 in Q2. destruct Q2 as (_ & _ & Q2 & _). lia.
      * eapply I2; [|exact Q1|exact Q2]. lia.
  - assert (Ew : w1 = snd (run (gencrypt C a d rnd pt) fs w)) by (rewrite E; reflexivity).
    assert (O1 : own_device C w1) by (rewrite Ew; apply gencrypt_dev; auto).
    destruct (gattempt C a d rnd pt fs w (proj1 O) w1 (or_introl Ew) _ _ _ _ Sp) as [Sp1|Sp1].
    + destruct (IH _ _ _ _ H O1 Sp1 ltac:(lia)) as [I1 I2]. split; [|exact I2]. intros j p x Q. apply I1 in Q.
      destruct Q as (Q1 & Q2 & Q3 & Q4). split; [exact Q1|]. split; [exact Q2|]. split; [lia|exact Q4].
    + rewrite N.mod_small in Sp1 by lia. destruct (IH _ _ _ _ H O1 Sp1 ltac:(lia)) as [I1 I2]. split; [|exact I2]. intros j p x Q. apply I1 in Q.
      destruct Q as (Q1 & Q2 & Q3 & Q4). split; [exact Q1|]. split; [exact Q2|]. split; [lia|].
      rewrite <- chain_at_S in Q4. replace (S (N.to_nat (sm_iter x - (n + 1)))) with (N.to_nat (sm_iter x - n)) in Q4 by lia. exact Q4.
  - set (w1 := crash c (gencrypt C a d rnd pt) fs w) in *.
    assert (O1 : own_device C w1) by (apply gencrypt_dev; auto).
    destruct (gattempt C a d rnd pt fs w (proj1 O) w1 (or_intror (ex_intro _ c eq_refl)) _ _ _ _ Sp) as [Sp1|Sp1].
    + destruct (IH _ _ _ _ H O1 Sp1 ltac:(lia)) as [I1 I2]. split; [|exact I2]. intros j p x Q. apply I1 in Q.
      destruct Q as (Q1 & Q2 & Q3 & Q4). split; [exact Q1|]. split; [exact Q2|]. split; [lia|exact Q4].
    + rewrite N.mod_small in Sp1 by lia. destruct (IH _ _ _ _ H O1 Sp1 ltac:(lia)) as [I1 I2]. split; [|exact I2]. intros j p x Q. apply I1 in Q.
      destruct Q as (Q1 & Q2 & Q3 & Q4). split; [exact Q1|]. split; [exact Q2|]. split; [lia|].
      rewrite <- chain_at_S in Q4. replace (S (N.to_nat (sm_iter x - (n + 1)))) with (N.to_nat (sm_iter x - n)) in Q4 by lia. exact Q4.
  - assert (Sp1 : speaks w1 a d chain signing n key) by (unfold speaks in *; rewrite Eg; exact Sp).
    destruct (IH _ _ _ _ H O1 Sp1 ltac:(lia)) as [I1 I2]. split; [|exact I2]. intros j p x Q. apply I1 in Q.
    destruct Q as (Q1 & Q2 & Q3 & Q4). split; [exact Q1|]. split; [exact Q2|]. split; [lia|exact Q4].
Qed.
