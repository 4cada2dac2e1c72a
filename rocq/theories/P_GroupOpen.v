(** Group decryption answers exactly what the followed state can open. *)
From Verif Require Import M_Base M_Crypto M_Aes M_Curve M_Proto M_Uuid M_Message M_Ratchet M_State M_Store M_Session M_Group
  S_Crypto S_Message S_State S_Shape S_Ratchet S_Session S_Curve S_Aes S_Wire S_Uuid S_Api S_Conv S_Group S_GroupMsg S_GroupOpen
  P_Base P_Proto P_Curve P_State P_Shape P_Ratchet P_Message P_Aes P_Chain P_Decrypt P_Init P_Record P_Verify P_CryptoTop P_Prog P_Group P_Api P_Isolation P_Bundle P_GroupMsg P_Member.
From Coq Require Import ZifyBool ZifyNat ZifyN.
Local Open Scope nat_scope.

Section Open.
Context (C : Crypto) (H : CryptoOk C).

Lemma from_unique : forall seed i m1 m2, gkeys_from C seed i m1 -> gkeys_from C seed i m2 -> m1 = m2.
Proof using.
  intros seed i [c1 v1 s1 i1] [c2 v2 s2 i2] (E1 & L1 & V1 & S1 & I1) (E2 & L2 & V2 & S2 & I2). cbn in *.
  rewrite <- E2 in E1. apply app_inj_len in E1; [|congruence]. destruct E1. congruence.
Qed.
Lemma derive_from : forall seed i, gkeys_from C seed i (derive_gmsgkey C seed i).
Proof using H.
  intros seed i. unfold gkeys_from, derive_gmsgkey. cbn [gk_iv gk_cipher gk_seed gk_iter].
  assert (E : hkdf C seed None (str "WhisperGroup") 48 = rfc_hkdf C None seed (str "WhisperGroup") 48) by apply hkdf_rfc.
  assert (L : List.length (hkdf C seed None (str "WhisperGroup") 48) = 48) by (apply (hkdf_length C H); lia).
  rewrite firstn_skipn, E. split; [reflexivity|]. rewrite <- E, skipn_length, firstn_length, L. auto.
Qed.

Lemma take_split : forall i (k : gmk) l1 l2, gm_iter k = i -> (forall x, In x l1 -> gm_iter x <> i) -> take_gmk i (l1 ++ k :: l2) = Some (k, l1 ++ l2).
Proof using.
  intros i k l1. induction l1 as [|x l1 IH]; intros l2 E N; cbn [take_gmk app].
  - apply N.eqb_eq in E. rewrite E. reflexivity.
  - destruct (N.eqb_spec (gm_iter x) i) as [Q|_]; [destruct (N x (or_introl eq_refl) Q)|]. rewrite IH; [reflexivity|exact E|intros y Hy; apply N; right; exact Hy].
Qed.

Lemma ahead_state : forall s n d, wf_gstate s -> go_u32 n -> n = (gs_iter s + N.of_nat d)%N ->
  gafter_ahead C s n = mkGState (gs_version s) (gs_chain s) ((n + 1) mod 2 ^ 32) (chain_at C (gs_seed s) (S d)) (gs_pub s) (gs_priv s)
           (last_n 2000 (gs_keys s ++ map (fun i => mkGmk (gs_iter s + N.of_nat i) (seed_at C (gs_seed s) i)) (seq 0 d))).
Proof using.
  intros s n d Ws G E. assert (Gs : go_u32 (gc_iter (gs_chainkey s))) by apply Ws. unfold go_u32 in G. unfold gafter_ahead.
  replace (N.to_nat (n - gs_iter s)) with d by lia. unfold gs_set_chainkey, gs_with_keys, gc_next. cbn [gs_version gs_chain gs_pub gs_priv gs_keys gc_iter gc_key].
  rewrite gc_iter_index, gc_iter_key by exact Gs. cbn [gs_chainkey gc_iter gc_key]. f_equal.
  - unfold u32, two32. rewrite N.add_mod_idemp_l by discriminate. f_equal. lia.
  - unfold keep_last, last_n, gsaved_from. assert (Q : map (fun i => gsaved C (gc_iter_n C i (gs_chainkey s))) (seq 0 d) = map (fun i => mkGmk (gs_iter s + N.of_nat i) (seed_at C (gs_seed s) i)) (seq 0 d)).
    { apply map_ext_in. intros i J. apply in_seq in J. unfold gsaved, seed_at. rewrite gc_iter_index, gc_iter_key by exact Gs. cbn [gs_chainkey gc_iter gc_key]. f_equal.
      unfold u32, two32. apply N.mod_small. lia. }
    rewrite Q. reflexivity.
Qed.
Lemma ahead_key : forall s n d, wf_gstate s -> go_u32 n -> n = (gs_iter s + N.of_nat d)%N ->
  gkeys_from C (seed_at C (gs_seed s) d) n (gc_message_key C (gc_iter_n C (N.to_nat (n - gs_iter s)) (gs_chainkey s))).
Proof using H.
  intros s n d Ws G E. assert (Gs : go_u32 (gc_iter (gs_chainkey s))) by apply Ws. unfold go_u32 in G.
  replace (N.to_nat (n - gs_iter s)) with d by lia. unfold gc_message_key. rewrite gc_iter_index, gc_iter_key by exact Gs. cbn [gs_chainkey gc_iter gc_key].
  replace (u32 (gs_iter s + N.of_nat d)) with n; [apply derive_from|]. unfold u32, two32. rewrite N.mod_small; lia.
Qed.

Lemma turn_key : forall s n mk s', wf_gstate s -> go_u32 n -> (gmessage_key C s n = (Ok mk, s') <-> gturn C s n mk s').
Proof using H.
  intros s n mk s' Ws G. rewrite gmessage_key_exact by exact Ws. split.
  - destruct (N.ltb_spec n (gs_iter s)) as [Q|Q].
    + destruct (take_gmk n (gs_keys s)) as [[k l]|] eqn:T; [|discriminate]. intro E. injection E as <- <-.
      destruct (take_gmk_some _ _ _ _ T) as (l1 & l2 & E1 & E2 & E3 & E4). apply (gt_saved C s n _ _ l1 k l2); auto.
      * rewrite E3. apply derive_from.
      * rewrite E2. reflexivity.
    + destruct (N.ltb_spec 25000 (n - gs_iter s)) as [Q2|Q2]; [discriminate|]. intro E. injection E as <- <-.
      assert (En : n = (gs_iter s + N.of_nat (N.to_nat (n - gs_iter s)))%N) by lia.
      apply (gt_ahead C s n _ _ (N.to_nat (n - gs_iter s))); [exact En|lia|apply ahead_key; auto|apply ahead_state; auto].
  - intros [d En Ld K Es|l1 k l2 L E1 E2 N K Es].
    + destruct (N.ltb_spec n (gs_iter s)) as [Q|Q]; [lia|]. destruct (N.ltb_spec 25000 (n - gs_iter s)) as [Q2|Q2]; [lia|].
      f_equal; [f_equal; apply (from_unique (seed_at C (gs_seed s) d) n); [apply ahead_key; auto|exact K]|]. rewrite Es. apply ahead_state; auto.
    + destruct (N.ltb_spec n (gs_iter s)) as [Q|Q]; [|lia]. rewrite E1, (take_split n k l1 l2 E2 N). f_equal; [|subst s'; reflexivity].
      f_equal. apply (from_unique (gm_seed k) n); [rewrite E2; apply derive_from|exact K].
Qed.
Lemma turn_one : forall s n mk s' mk' s'', wf_gstate s -> go_u32 n -> gturn C s n mk s' -> gturn C s n mk' s'' -> mk = mk' /\ s' = s''.
Proof using H.
  intros s n mk s' mk' s'' Ws G T1 T2. apply turn_key in T1; [|auto..]. apply turn_key in T2; [|auto..]. rewrite T1 in T2. injection T2 as <- <-. auto.
Qed.
Lemma turn_chain : forall s n mk s', gturn C s n mk s' -> gs_chain s' = gs_chain s.
Proof using. intros s n mk s' [d _ _ _ ->|l1 k l2 _ _ _ _ _ ->]; reflexivity. Qed.

Lemma opens_one : forall w a m s pt s' t pt' t', wf_device w -> go_u32 (sm_iter m) ->
  follows w a (sm_dist m) (sm_chain m) s -> gopens C s m pt s' -> follows w a (sm_dist m) (sm_chain m) t -> gopens C t m pt' t' -> s = t /\ pt = pt' /\ s' = t'.
Proof using H.
  intros w a m s pt s' t pt' t' W G F1 O1 F2 O2. pose proof (follows_unique _ _ _ _ _ _ W F1 F2) as <-. split; [reflexivity|].
  destruct (follows_find _ _ _ _ _ W F1) as (r & _ & _ & _ & Ws). destruct O1 as (_ & k1 & mk1 & _ & _ & T1 & D1). destruct O2 as (_ & k2 & mk2 & _ & _ & T2 & D2).
  destruct (turn_one _ _ _ _ _ _ Ws G T1 T2) as [<- <-]. rewrite D1 in D2. injection D2 as <-. auto.
Qed.

Lemma group_opened : forall w a m s pt s', wf_device w -> go_u32 (sm_iter m) -> follows w a (sm_dist m) (sm_chain m) s -> gopens C s m pt s' ->
  exists w', run0 (gdecrypt C a m) w = (Ok pt, w') /\ follows w' a (sm_dist m) (sm_chain m) s'.
Proof using H.
  intros w a m s pt s' W G Fo (V & key & mk & Ep & Sg & T & D). destruct (follows_find _ _ _ _ _ W Fo) as (r & Er & Wr & Ef & Ws).
  unfold run0. rewrite (gdecrypt_runs C a m [] w r s key Wr Er Ef Ws Ep Sg V eq_refl). cbv zeta. unfold gresult, gnext.
  pose proof (turn_chain _ _ _ _ T) as Ec. apply turn_key in T; [|auto..]. rewrite T. cbn [fst snd bind hd_fault tl]. rewrite D.
  eexists. split; [reflexivity|]. exists (gr_set (sm_chain m) s' r). split; [apply group_set_same|]. split; [eapply gr_set_in; eauto|].
  destruct Fo as (_ & _ & _ & E). congruence.
Qed.

(** Nothing opens it: an error. The group states stay as they are, except that on shared records the state moves on when the message
    is signed and in range but its body cannot be decrypted. *)
Lemma group_refused : forall w a m, wf_device w -> go_u32 (sm_iter m) -> 64 <= List.length (sm_raw m) ->
  (forall s pt s', follows w a (sm_dist m) (sm_chain m) s -> ~ gopens C s m pt s') ->
  exists e w', run0 (gdecrypt C a m) w = (Err e, w') /\
    ((forall b d, w_groups w' b d = w_groups w b d) \/
     w_shared w = true /\ exists s key mk s' e', follows w a (sm_dist m) (sm_chain m) s /\ gs_pub s = Byte.x05 :: key /\ signed_by C key m /\
       gturn C s (sm_iter m) mk s' /\ cbc_decrypt C (gk_cipher mk) (gk_iv mk) (sm_body m) = Err e' /\ follows w' a (sm_dist m) (sm_chain m) s').
Proof using H.
  intros w a m W G L N. unfold run0.
  destruct (gdecrypt_cases C a m [] w W) as [(Es & _ & No)|(r & s & key & Er & Ef & Wr & Ws & Ep & Sg & V & R & _)].
  - destruct (run (gdecrypt C a m) [] w) as [x w'] eqn:E. cbn [fst snd] in *. subst w'. destruct x as [pt|e|]; [destruct (No pt eq_refl)|exists e, w; auto|exfalso].
    revert E. unfold gdecrypt, pdo at 1. cbn [run exec_f fallible hd_fault exec]. destruct (w_groups w a (sm_dist m)) as [r|] eqn:Er; [|discriminate].
    destruct (gr_find (sm_chain m) r) as [s|] eqn:Ef; [|discriminate]. destruct (negb (sm_version m =? gs_ver s)%N); [discriminate|].
    destruct (gs_public_wf s) as (key & _ & _ & ->); [|cbn [plift]].
    { destruct (proj2 W _ _ _ Er) as (_ & ND & F). apply (gr_find_spec _ _ ND) in Ef. rewrite Forall_forall in F. apply F, Ef. }
    assert (NP : verify_senderkey C m key <> Panic).
    { unfold verify_senderkey. destruct (Nat.ltb_spec (List.length (sm_raw m)) 64); [lia|]. apply verify_no_panic. }
    destruct (verify_senderkey C m key) as [v|e|] eqn:Vs; [|discriminate|contradiction]. cbn [plift]. destruct v; [|discriminate]. cbn [negb].
    destruct (gmessage_key C s (sm_iter m)) as [o s'] eqn:Gm. unfold pdo. cbn [run exec_f fallible exec].
    destruct o as [mk|e|]; cbn [plift run]; [|discriminate|].
    + pose proof (cbc_decrypt_result C (gk_cipher mk) (gk_iv mk) (sm_body m) H) as D. destruct (cbc_decrypt _ _ _ _) as [pt|e|]; [|discriminate|contradiction].
      cbn [plift run exec_f fallible exec]. discriminate.
    + revert Gm. rewrite gmessage_key_exact by (destruct (proj2 W _ _ _ Er) as (_ & ND & F); apply (gr_find_spec _ _ ND) in Ef; rewrite Forall_forall in F; apply F, Ef).
      destruct (sm_iter m <? gs_iter s)%N; [destruct (take_gmk (sm_iter m) (gs_keys s)) as [[k l]|]; discriminate|]. destruct (25000 <? sm_iter m - gs_iter s)%N; discriminate.
  - cbv zeta in R. rewrite R. pose proof (follows_of_find _ _ _ _ _ _ Wr Er Ef) as Fo.
    assert (Same : gnext C s m = s -> forall b d, w_groups (if w_shared w then set_group w a (sm_dist m) (gr_set (sm_chain m) (gnext C s m) r) else w) b d = w_groups w b d).
    { intros -> b d. rewrite (gr_set_same _ _ _ Ef). destruct (w_shared w); [|reflexivity]. cbn.
      destruct (addr_eqb b a) eqn:Qa; [|reflexivity]. destruct (distid_eqb d (sm_dist m)) eqn:Qd; [|reflexivity]. cbn [andb].
      apply addr_eqb_eq in Qa. apply distid_eqb_spec in Qd. subst. auto. }
    unfold gresult, gnext in *. destruct (gmessage_key C s (sm_iter m)) as [o s'] eqn:Gm. cbn [fst snd] in *. destruct o as [mk|e|]; cbn [bind].
    + apply turn_key in Gm; [|auto..]. pose proof (cbc_decrypt_result C (gk_cipher mk) (gk_iv mk) (sm_body m) H) as D.
      destruct (cbc_decrypt C (gk_cipher mk) (gk_iv mk) (sm_body m)) as [pt|e|] eqn:Ed; [|clear D|contradiction].
      * exfalso. apply (N s pt s' Fo). split; [exact V|]. exists key, mk. auto.
      * exists e. destruct (w_shared w) eqn:Sh; [|exists w; auto]. eexists. split; [reflexivity|]. right. split; [reflexivity|]. exists s, key, mk, s', e.
        split; [exact Fo|]. split; [exact Ep|]. split; [exact Sg|]. split; [exact Gm|]. split; [exact Ed|].
        exists (gr_set (sm_chain m) s' r). split; [apply group_set_same|]. split; [eapply gr_set_in; eauto|]. rewrite (turn_chain _ _ _ _ Gm). destruct Fo as (_ & _ & _ & Ec). exact Ec.
    + exists e. eexists. split; [reflexivity|]. left. apply Same. revert Gm. rewrite gmessage_key_exact by exact Ws.
      destruct (sm_iter m <? gs_iter s)%N; [destruct (take_gmk (sm_iter m) (gs_keys s)) as [[k l]|]; intro Q; [discriminate|injection Q as _ <-; reflexivity]|].
      destruct (25000 <? sm_iter m - gs_iter s)%N; intro Q; [injection Q as _ <-; reflexivity|discriminate].
    + exfalso. revert Gm. rewrite gmessage_key_exact by exact Ws.
      destruct (sm_iter m <? gs_iter s)%N; [destruct (take_gmk (sm_iter m) (gs_keys s)) as [[k l]|]; discriminate|]. destruct (25000 <? sm_iter m - gs_iter s)%N; discriminate.
Qed.

Lemma verify_not_duplicate : forall m key, verify_senderkey C m key <> Err EDuplicate.
Proof using.
  intros m key. unfold verify_senderkey, verify_signature. destruct (List.length (sm_raw m) <? 64); [discriminate|]. destruct (negb _); [discriminate|].
  unfold verify25519. destruct (_ <? 64); [discriminate|]. assert (U : forall u b, utoy u b <> Err EDuplicate).
  { intros u b. unfold utoy. destruct (negb _); [discriminate|]. cbv zeta. destruct (N.eqb _ _); discriminate. }
  match goal with |- context [utoy ?u ?b] => pose proof (U u b); destruct (utoy u b) as [y|e|]; cbn [bind]; [discriminate|congruence|discriminate] end.
Qed.
Lemma cbc_not_duplicate : forall k iv b, cbc_decrypt C k iv b <> Err EDuplicate.
Proof using.
  intros k iv b. unfold cbc_decrypt. destruct (negb _); [discriminate|]. destruct (_ || _)%bool; [discriminate|]. destruct (negb _); [discriminate|].
  unfold pkcs7unpad. destruct (List.length _); [discriminate|]. cbv zeta. destruct (_ || _)%bool; [discriminate|]. destruct (_ <? _); discriminate.
Qed.
(** "Duplicate" is answered exactly when the message is the signer's and its iteration is behind and not saved. *)
Lemma group_duplicate : forall w a m, wf_device w ->
  (fst (run0 (gdecrypt C a m) w) = Err EDuplicate <->
   sm_version m = 3%N /\ exists s key, follows w a (sm_dist m) (sm_chain m) s /\ gs_pub s = Byte.x05 :: key /\ signed_by C key m /\
     (sm_iter m < gs_iter s)%N /\ forall k, In k (gs_keys s) -> gm_iter k <> sm_iter m).
Proof using.
  intros w a m W. unfold run0. split.
  - intro E. assert (X : exists r s key, w_groups w a (sm_dist m) = Some r /\ gr_find (sm_chain m) r = Some s /\ wf_grecord r /\ wf_gstate s /\
      gs_pub s = Byte.x05 :: key /\ signed_by C key m /\ sm_version m = 3%N).
    { revert E. unfold gdecrypt, pdo at 1. cbn [run exec_f fallible hd_fault exec]. destruct (w_groups w a (sm_dist m)) as [r|] eqn:Er; [|discriminate].
      destruct (gr_find (sm_chain m) r) as [s|] eqn:Ef; [|discriminate]. destruct (negb (sm_version m =? gs_ver s)%N) eqn:V; [discriminate|].
      pose proof (proj2 W _ _ _ Er) as Wr.
      assert (Ws : wf_gstate s) by (destruct Wr as (_ & ND & F); apply (gr_find_spec _ _ ND) in Ef; rewrite Forall_forall in F; apply F, Ef).
      destruct (gs_public_wf s Ws) as (key & _ & Ep & ->). cbn [plift]. pose proof (verify_not_duplicate m key) as ND.
      destruct (verify_senderkey C m key) as [v|e|] eqn:Vs; [|cbn [plift run fst]; congruence|discriminate]. cbn [plift]. destruct v; [|discriminate]. intros _.
      exists r, s, key. split; [reflexivity|]. split; [exact Ef|]. split; [exact Wr|]. split; [exact Ws|]. split; [exact Ep|]. split; [apply verify_signed; exact Vs|].
      rewrite (gs_ver_wf s Ws) in V. apply negb_false_iff, N.eqb_eq in V. exact V. }
    destruct X as (r & s & key & Er & Ef & Wr & Ws & Ep & Sg & V). rewrite (gdecrypt_runs C a m [] w r s key Wr Er Ef Ws Ep Sg V eq_refl) in E. cbv zeta in E.
    split; [exact V|]. exists s, key. pose proof (follows_of_find _ _ _ _ _ _ Wr Er Ef) as Fo. split; [exact Fo|]. split; [exact Ep|]. split; [exact Sg|].
    unfold gresult in E. rewrite gmessage_key_exact in E by exact Ws. destruct (N.ltb_spec (sm_iter m) (gs_iter s)) as [Q|Q].
    + split; [exact Q|]. destruct (take_gmk (sm_iter m) (gs_keys s)) as [[k l]|] eqn:T; [|apply take_gmk_none; exact T]. exfalso. cbn [fst bind] in E.
      match type of E with context [cbc_decrypt C ?x ?y ?z] => pose proof (cbc_not_duplicate x y z); destruct (cbc_decrypt C x y z); cbn in E; congruence end.
    + exfalso. destruct (25000 <? sm_iter m - gs_iter s)%N; cbn [fst bind] in E; [discriminate|].
      match type of E with context [cbc_decrypt C ?x ?y ?z] => pose proof (cbc_not_duplicate x y z); destruct (cbc_decrypt C x y z); cbn in E; congruence end.
  - intros (V & s & key & Fo & Ep & Sg & L & N). destruct (follows_find _ _ _ _ _ W Fo) as (r & Er & Wr & Ef & Ws).
    rewrite (gdecrypt_runs C a m [] w r s key Wr Er Ef Ws Ep Sg V eq_refl). cbv zeta. unfold gresult. rewrite gmessage_key_exact by exact Ws.
    destruct (N.ltb_spec (sm_iter m) (gs_iter s)) as [Q|Q]; [|lia]. apply take_gmk_none in N. rewrite N. reflexivity.
Qed.
End Open.
