(** Chain keys and key derivation (C19). *)
From Verif Require Import M_Base M_Crypto M_Curve M_Ratchet S_Crypto S_Ratchet S_Message P_Base P_Curve.
From Coq Require Import ZifyBool ZifyNat ZifyN.

Section Hkdf.
Context (C : Crypto) (H : CryptoOk C).

Lemma hkdf_blocks_length : forall prk info prev i n, List.length (hkdf_blocks C prk info prev i n) = 32 * n.
Proof using H.
  intros prk info prev i n. revert prev i. induction n as [|n IH]; intros; cbn [hkdf_blocks]; [reflexivity|].
  rewrite app_length, IH, (ok_hmac_len C H). lia.
Qed.

Lemma hkdf_length : forall secret salt info n, n <= 255 * 32 -> List.length (hkdf C secret salt info n) = n.
Proof using H.
  intros. unfold hkdf. rewrite firstn_length, hkdf_blocks_length.
  assert (n <= 32 * ((n + 31) / 32)); [|lia].
  pose proof (Nat.div_mod (n + 31) 32). pose proof (Nat.mod_upper_bound (n + 31) 32). lia.
Qed.
End Hkdf.

Lemma hkdf_blocks_rfc : forall C prk info n i,
  hkdf_blocks C prk info (rfc_T C prk info i) (N.of_nat (S i)) n =
  List.concat (map (rfc_T C prk info) (seq (S i) n)).
Proof.
  intros C prk info n. induction n as [|n IH]; intro i; [reflexivity|].
  specialize (IH (S i)).
  change (seq (S i) (S n)) with (S i :: seq (S (S i)) n).
  rewrite map_cons, concat_cons. rewrite <- IH.
  replace (N.of_nat (S (S i))) with (N.of_nat (S i) + 1)%N by lia. reflexivity.
Qed.

Lemma hkdf_rfc : forall C secret salt info n, hkdf C secret salt info n = rfc_hkdf C salt secret info n.
Proof.
  intros. unfold hkdf, rfc_hkdf. f_equal. exact (hkdf_blocks_rfc C _ _ _ 0).
Qed.

Lemma skipn_plus : forall {A} n m (l : list A), skipn (n + m) l = skipn m (skipn n l).
Proof.
  intros A n. induction n as [|n IH]; intros m l; [reflexivity|].
  destruct l; [|apply IH]. cbn [skipn Nat.add]. symmetry. apply skipn_nil.
Qed.

Lemma app_inj_len : forall {A} (a b c d : list A), List.length a = List.length c -> a ++ b = c ++ d -> a = c /\ b = d.
Proof.
  intros A a. induction a as [|x a IH]; intros b [|y c] d L E; try discriminate; [auto|].
  injection E as -> E. destruct (IH b c d) as [-> ->]; auto.
Qed.

Definition ck_iter (C : Crypto) (n : nat) (c : chainkey) : chainkey := Nat.iter n (ck_next C) c.
Definition gc_iter_n (C : Crypto) (n : nat) (c : gchainkey) : gchainkey := Nat.iter n (gc_next C) c.

Lemma ck_iter_key : forall C n c, ck_key (ck_iter C n c) = chain_at C (ck_key c) n.
Proof.
  intros C n c. unfold ck_iter, chain_at. induction n as [|n IH]; [reflexivity|].
  simpl. rewrite IH. reflexivity.
Qed.

Lemma u32_add : forall a b, u32 (u32 a + b) = u32 (a + b).
Proof. intros. unfold u32. rewrite N.add_mod_idemp_l; [reflexivity|]. vm_compute; discriminate. Qed.

Lemma ck_iter_index : forall C n c, go_u32 (ck_index c) ->
  ck_index (ck_iter C n c) = u32 (ck_index c + N.of_nat n).
Proof.
  intros C n c G. unfold ck_iter. induction n as [|n IH].
  - cbn [Nat.iter]. simpl. rewrite N.add_0_r, u32_small; auto.
  - simpl. rewrite IH. rewrite u32_add. f_equal. lia.
Qed.

Lemma gc_iter_key : forall C n c, gc_key (gc_iter_n C n c) = chain_at C (gc_key c) n.
Proof.
  intros C n c. unfold gc_iter_n, chain_at. induction n as [|n IH]; [reflexivity|].
  simpl. rewrite IH. reflexivity.
Qed.

Lemma gc_iter_index : forall C n c, go_u32 (gc_iter c) ->
  gc_iter (gc_iter_n C n c) = u32 (gc_iter c + N.of_nat n).
Proof.
  intros C n c G. unfold gc_iter_n. induction n as [|n IH].
  - cbn [Nat.iter]. simpl. rewrite N.add_0_r, u32_small; auto.
  - simpl. rewrite IH. rewrite u32_add. f_equal. lia.
Qed.

Lemma ck_iter_add : forall C n m c, ck_iter C (n + m) c = ck_iter C n (ck_iter C m c).
Proof. intros. unfold ck_iter. induction n as [|n IH]; [reflexivity|]. simpl. rewrite IH. reflexivity. Qed.
Lemma ck_iter_swap : forall C n c, ck_iter C n (ck_next C c) = ck_next C (ck_iter C n c).
Proof. intros. unfold ck_iter. induction n as [|n IH]; [reflexivity|]. simpl. rewrite IH. reflexivity. Qed.
Lemma gc_iter_add : forall C n m c, gc_iter_n C (n + m) c = gc_iter_n C n (gc_iter_n C m c).
Proof. intros. unfold gc_iter_n. induction n as [|n IH]; [reflexivity|]. simpl. rewrite IH. reflexivity. Qed.
Lemma gc_iter_swap : forall C n c, gc_iter_n C n (gc_next C c) = gc_next C (gc_iter_n C n c).
Proof. intros. unfold gc_iter_n. induction n as [|n IH]; [reflexivity|]. simpl. rewrite IH. reflexivity. Qed.

Lemma derive_message_keys_at : forall C c, CryptoOk C ->
  keys_at C (ck_key c) (ck_index c) (ck_message_keys C c).
Proof.
  intros C c H. unfold ck_message_keys, derive_message_keys, keys_at.
  cbn [mk_cipher mk_mac mk_iv mk_counter].
  pose proof (hkdf_length C H (c_hmac C (ck_key c) [Byte.x01]) None (str "WhisperMessageKeys") 80) as L.
  rewrite <- hkdf_rfc. set (o := hkdf _ _ _ _ _) in *. clearbody o. specialize (L ltac:(lia)).
  rewrite !firstn_length, !skipn_length, L.
  split; [|cbn; auto].
  rewrite (skipn_plus 32 32 o : skipn 64 o = _), firstn_skipn, firstn_skipn. reflexivity.
Qed.

Lemma derive_gmsgkey_at : forall C c, CryptoOk C ->
  gkeys_at C (gc_key c) (gc_iter c) (gc_message_key C c).
Proof.
  intros C c H. unfold gc_message_key, derive_gmsgkey, gkeys_at.
  cbn [gk_cipher gk_iv gk_seed gk_iter].
  pose proof (hkdf_length C H (c_hmac C (gc_key c) [Byte.x01]) None (str "WhisperGroup") 48) as L.
  rewrite <- hkdf_rfc. set (o := hkdf _ _ _ _ _) in *. clearbody o. specialize (L ltac:(lia)).
  rewrite firstn_length, skipn_length, L, firstn_skipn. repeat split.
Qed.

(** C19: the keys n positions after a chain key depend only on that key and n. *)
Lemma chain_position_keys : forall C c n, CryptoOk C -> go_u32 (ck_index c) ->
  keys_at C (chain_at C (ck_key c) n) ((ck_index c + N.of_nat n) mod 4294967296)%N
    (ck_message_keys C (ck_iter C n c)).
Proof.
  intros C c n H G. pose proof (derive_message_keys_at C (ck_iter C n c) H) as K.
  rewrite ck_iter_key, ck_iter_index in K by exact G. exact K.
Qed.

Lemma gchain_position_keys : forall C c n, CryptoOk C -> go_u32 (gc_iter c) ->
  gkeys_at C (chain_at C (gc_key c) n) ((gc_iter c + N.of_nat n) mod 4294967296)%N
    (gc_message_key C (gc_iter_n C n c)).
Proof.
  intros C c n H G. pose proof (derive_gmsgkey_at C (gc_iter_n C n c) H) as K.
  rewrite gc_iter_key, gc_iter_index in K by exact G. exact K.
Qed.

Lemma keys_at_unique : forall C k i m m', keys_at C k i m -> keys_at C k i m' -> m = m'.
Proof.
  intros C k i [a b c d] [a' b' c' d'] (E & L1 & L2 & L3 & I) (E' & L1' & L2' & L3' & I').
  cbn [mk_cipher mk_mac mk_iv mk_counter] in *. rewrite <- E' in E.
  apply app_inj_len in E; [|congruence]. destruct E as [-> E].
  apply app_inj_len in E; [|congruence]. destruct E as [-> ->]. subst. reflexivity.
Qed.

(** Lengths of derived keys. *)
Lemma derive_keys_total : forall C secret, CryptoOk C -> exists r c, derive_keys C secret = Ok (r, c) /\
  List.length r = 32 /\ List.length (ck_key c) = 32 /\ ck_index c = 0%N.
Proof.
  intros C secret H. unfold derive_keys.
  pose proof (hkdf_length C H secret None (str "WhisperText") 64) as L.
  set (o := hkdf _ _ _ _ _) in *. clearbody o. specialize (L ltac:(lia)).
  unfold new_root_key, new_chain_key. rewrite firstn_length, skipn_length, L.
  cbn [Nat.min Nat.sub Nat.eqb negb bind]. do 2 eexists. split; [reflexivity|].
  rewrite firstn_length. cbn [ck_key ck_index]. rewrite skipn_length, L. auto.
Qed.

Lemma create_chain_total : forall C root ours theirs d, CryptoOk C ->
  agreement C ours theirs = Ok d ->
  exists r c, create_chain C root ours theirs = Ok (r, c) /\
    List.length r = 32 /\ List.length (ck_key c) = 32 /\ ck_index c = 0%N.
Proof.
  intros C root ours theirs d H A. unfold create_chain. rewrite A. cbn [bind].
  pose proof (hkdf_length C H d (Some root) (str "WhisperRatchet") 64) as L.
  set (o := hkdf _ _ _ _ _) in *. clearbody o. specialize (L ltac:(lia)).
  unfold new_root_key, new_chain_key. rewrite firstn_length, skipn_length, L.
  cbn [Nat.min Nat.sub Nat.eqb negb bind]. do 2 eexists. split; [reflexivity|].
  rewrite firstn_length. cbn [ck_key ck_index]. rewrite skipn_length, L. auto.
Qed.

Lemma create_chain_inv : forall C root ours theirs r c, create_chain C root ours theirs = Ok (r, c) ->
  List.length r = 32 /\ List.length (ck_key c) = 32 /\ ck_index c = 0%N /\
  exists d, agreement C ours theirs = Ok d.
Proof.
  intros C root ours theirs r c E. unfold create_chain in E.
  destruct (agreement C ours theirs) as [d| |]; [|discriminate..]. cbn [bind] in E.
  unfold new_root_key, new_chain_key in E.
  destruct (Nat.eqb_spec (List.length (firstn 32 (hkdf C d (Some root) (str "WhisperRatchet") 64))) 32); cbn [negb bind] in E; [|discriminate].
  destruct (Nat.eqb_spec (List.length (skipn 32 (hkdf C d (Some root) (str "WhisperRatchet") 64))) 32); cbn [negb bind] in E; [|discriminate].
  injection E as <- <-. cbn [ck_key ck_index]. eauto.
Qed.

Lemma create_chain_no_panic : forall C root ours theirs, create_chain C root ours theirs <> Panic.
Proof.
  intros. unfold create_chain. pose proof (agreement_no_panic C ours theirs).
  destruct (agreement C ours theirs); cbn [bind]; [|discriminate|contradiction].
  unfold new_root_key, new_chain_key. destruct (negb _); cbn [bind]; [discriminate|].
  destruct (negb _); cbn [bind]; discriminate.
Qed.
