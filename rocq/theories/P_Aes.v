From Verif Require Import M_Base M_Crypto M_Aes M_Curve S_Crypto S_Aes P_Base.
From Coq Require Import ZifyBool ZifyNat ZifyN.
Ltac Zify.zify_post_hook ::= Z.div_mod_to_equations.

Lemma legal_key_ok : forall key, legal_key key <-> aes_key_ok key = true.
Proof.
  intro key. unfold legal_key, aes_key_ok.
  rewrite !orb_true_iff, !Nat.eqb_eq. tauto.
Qed.

Lemma skipn_skipn' : forall {A} a b (l : list A), skipn a (skipn b l) = skipn (b + a) l.
Proof.
  intros A a b; revert a. induction b as [|b IH]; intros a l; [reflexivity|].
  destruct l as [|x l]; [destruct a; reflexivity|]. apply IH.
Qed.

Lemma blk_0 : forall b, blk 0 b = firstn 16 b.
Proof. reflexivity. Qed.
Lemma blk_S : forall i b, blk (S i) b = blk i (skipn 16 b).
Proof. intros. unfold blk. rewrite skipn_skipn'. f_equal. f_equal. lia. Qed.
Lemma blk_app0 : forall a b, List.length a = 16 -> blk 0 (a ++ b) = a.
Proof. intros. rewrite blk_0. apply firstn_app_len; auto. Qed.
Lemma blk_appS : forall i a b, List.length a = 16 -> blk (S i) (a ++ b) = blk i b.
Proof. intros. rewrite blk_S. f_equal. apply skipn_app_len; auto. Qed.

Section A.
Context (C : Crypto) (H : CryptoOk C).

Lemma cbc_enc_length : forall key n prev pt, aes_key_ok key = true ->
  List.length prev = 16 -> List.length pt = 16 * n ->
  List.length (cbc_enc_blocks C key prev n pt) = 16 * n.
Proof using H.
  intros key; induction n as [|n IH]; intros prev pt Hk Hp Hl; [reflexivity|].
  cbn [cbc_enc_blocks]. rewrite app_length.
  assert (L : List.length (xor_bytes (firstn 16 pt) prev) = 16)
    by (rewrite xor_bytes_length; rewrite firstn_length; lia).
  pose proof (ok_aes_enc_len C H key _ Hk L) as LE.
  rewrite LE, IH; auto; [lia|rewrite skipn_length; lia].
Qed.

Lemma cbc_enc_spec : forall key n prev pt, aes_key_ok key = true ->
  List.length prev = 16 -> List.length pt = 16 * n ->
  forall i, i < n ->
  blk i (cbc_enc_blocks C key prev n pt) =
  c_aes_enc C key (xor_bytes (blk i pt) (chain_in prev (cbc_enc_blocks C key prev n pt) i)).
Proof using H.
  intros key; induction n as [|n IH]; intros prev pt Hk Hp Hl i Hi; [lia|].
  cbn [cbc_enc_blocks].
  assert (L : List.length (xor_bytes (firstn 16 pt) prev) = 16)
    by (rewrite xor_bytes_length; rewrite firstn_length; lia).
  pose proof (ok_aes_enc_len C H key _ Hk L) as LE.
  destruct i as [|i].
  - rewrite blk_app0 by auto. reflexivity.
  - rewrite blk_appS by auto. rewrite IH; auto; try lia.
    + f_equal. f_equal; [symmetry; apply blk_S|].
      destruct i as [|i]; cbn [chain_in]; [rewrite blk_app0; auto|rewrite blk_appS; auto].
    + rewrite skipn_length; lia.
Qed.

Lemma cbc_dec_enc : forall key n prev pt, aes_key_ok key = true ->
  List.length prev = 16 -> List.length pt = 16 * n ->
  cbc_dec_blocks C key prev n (cbc_enc_blocks C key prev n pt) = pt.
Proof using H.
  intros key; induction n as [|n IH]; intros prev pt Hk Hp Hl.
  - destruct pt; [reflexivity|simpl in Hl; lia].
  - cbn [cbc_enc_blocks cbc_dec_blocks].
    assert (L : List.length (xor_bytes (firstn 16 pt) prev) = 16)
      by (rewrite xor_bytes_length; rewrite firstn_length; lia).
    pose proof (ok_aes_enc_len C H key _ Hk L) as LE.
    rewrite firstn_app_len, skipn_app_len by auto.
    rewrite (ok_aes_inv C H) by auto.
    rewrite xor_bytes_cancel by (rewrite firstn_length; lia).
    rewrite IH; auto; [apply firstn_skipn|rewrite skipn_length; lia].
Qed.

Lemma cbc_dec_length : forall key n prev ct, aes_key_ok key = true ->
  List.length prev = 16 -> List.length ct = 16 * n ->
  List.length (cbc_dec_blocks C key prev n ct) = 16 * n.
Proof using H.
  intros key; induction n as [|n IH]; intros prev ct Hk Hp Hl; [reflexivity|].
  cbn [cbc_dec_blocks].
  assert (L : List.length (firstn 16 ct) = 16) by (rewrite firstn_length; lia).
  pose proof (ok_aes_dec_len C H key _ Hk L) as LD.
  rewrite app_length, xor_bytes_length by lia.
  rewrite LD, IH; auto; [lia|rewrite skipn_length; lia].
Qed.

Lemma cbc_dec_spec : forall key n prev ct, aes_key_ok key = true ->
  List.length prev = 16 -> List.length ct = 16 * n ->
  forall i, i < n ->
  blk i (cbc_dec_blocks C key prev n ct) =
  xor_bytes (c_aes_dec C key (blk i ct)) (chain_in prev ct i).
Proof using H.
  intros key; induction n as [|n IH]; intros prev ct Hk Hp Hl i Hi; [lia|].
  cbn [cbc_dec_blocks].
  assert (L : List.length (firstn 16 ct) = 16) by (rewrite firstn_length; lia).
  assert (LX : List.length (xor_bytes (c_aes_dec C key (firstn 16 ct)) prev) = 16)
    by (pose proof (ok_aes_dec_len C H key _ Hk L); rewrite xor_bytes_length; lia).
  destruct i as [|i].
  - rewrite blk_app0 by auto. reflexivity.
  - rewrite blk_appS by auto. rewrite IH; auto; try lia.
    + rewrite <- blk_S. f_equal. destruct i as [|i]; cbn [chain_in]; [reflexivity|].
      symmetry; apply blk_S.
    + rewrite skipn_length; lia.
Qed.

Lemma pad_length : forall pt, List.length (pkcs7pad pt) = List.length pt + (16 - List.length pt mod 16).
Proof. intro. unfold pkcs7pad. rewrite app_length, repeat_length. reflexivity. Qed.
Lemma pad_length_div : forall pt, List.length (pkcs7pad pt) = 16 * (List.length (pkcs7pad pt) / 16).
Proof. intro. rewrite pad_length. lia. Qed.

Lemma is_padded_pad : forall pt, is_padded pt (pkcs7pad pt).
Proof.
  intro pt. exists (16 - List.length pt mod 16). repeat split; try lia.
Qed.

Lemma nth_repeat_last : forall {A} (x d : A) k, nth k (repeat x (S k)) d = x.
Proof. intros A x d. induction k; simpl; auto. Qed.

Lemma unpad_pad : forall pt, pkcs7unpad (pkcs7pad pt) = Ok pt.
Proof.
  intro pt. unfold pkcs7unpad. rewrite pad_length.
  set (n := 16 - List.length pt mod 16).
  assert (Hn : 1 <= n <= 16) by (unfold n; lia).
  destruct (List.length pt + n) as [|k] eqn:E; [lia|].
  assert (Hx : nth k (pkcs7pad pt) Byte.x00 = n2b (N.of_nat n)).
  { unfold pkcs7pad. fold n. rewrite app_nth2 by lia.
    destruct n as [|m] eqn:En; [lia|].
    replace (k - List.length pt) with m by lia. apply nth_repeat_last. }
  rewrite Hx, b2n_n2b_small by lia.
  destruct (N.ltb_spec (N.of_nat n) 1); [lia|].
  destruct (N.ltb_spec 16 (N.of_nat n)); [lia|]. cbn [orb].
  rewrite Nat2N.id.
  destruct (Nat.ltb_spec (S k) n); [lia|].
  f_equal. unfold pkcs7pad. apply firstn_app_len. lia.
Qed.

Lemma cbc_roundtrip : forall key iv pt, aes_key_ok key = true -> List.length iv = 16 ->
  exists ct, cbc_encrypt C key iv pt = Ok ct
   /\ List.length ct mod 16 = 0 /\ List.length pt < List.length ct <= List.length pt + 16
   /\ cbc_decrypt C key iv ct = Ok pt
   /\ is_cbc_enc C key iv (pkcs7pad pt) ct.
Proof using H.
  intros key iv pt Hk Hi. unfold cbc_encrypt. rewrite Hk, Hi. cbn [negb Nat.eqb].
  eexists; split; [reflexivity|].
  set (n := List.length (pkcs7pad pt) / 16).
  assert (Hl : List.length (pkcs7pad pt) = 16 * n) by apply pad_length_div.
  assert (Hc : List.length (cbc_enc_blocks C key iv n (pkcs7pad pt)) = 16 * n)
    by (apply cbc_enc_length; auto).
  pose proof (pad_length pt) as Hp.
  repeat split; try lia.
  - unfold cbc_decrypt. rewrite Hk, Hi, Hc. cbn [negb].
    destruct (Nat.eqb_spec (16 * n) 0); [lia|].
    destruct (Nat.eqb_spec ((16 * n) mod 16) 0); [|lia]. cbn [orb negb Nat.eqb].
    replace (16 * n / 16) with n by lia.
    rewrite cbc_dec_enc; auto. apply unpad_pad.
  - intros i Hi'. apply cbc_enc_spec; auto.
Qed.

Lemma cbc_encrypt_total : forall key iv pt, cbc_encrypt C key iv pt <> Panic.
Proof. intros. unfold cbc_encrypt. destruct (negb _); [discriminate|]. destruct (negb _); discriminate. Qed.

Lemma cbc_encrypt_ok_iff : forall key iv pt,
  (exists ct, cbc_encrypt C key iv pt = Ok ct) <-> (legal_key key /\ List.length iv = 16).
Proof.
  intros. rewrite legal_key_ok. unfold cbc_encrypt.
  destruct (aes_key_ok key); cbn [negb].
  - destruct (Nat.eqb_spec (List.length iv) 16); cbn [negb]; split; intros; try tauto; eauto;
      destruct H0; discriminate || tauto.
  - split; [intros [? ?]; discriminate|intros [? _]; discriminate].
Qed.

(** Exact behaviour of CBCDecrypt. *)
Lemma cbc_decrypt_exact : forall key iv ct,
  (legal_key key /\ ct <> [] /\ List.length ct mod 16 = 0 /\ List.length iv = 16 ->
   exists d, is_cbc_dec C key iv ct d /\
     let n := b2n (last d Byte.x00) in
     (((1 <= n <= 16)%N /\
       cbc_decrypt C key iv ct = Ok (firstn (List.length d - N.to_nat n) d))
      \/ (~ (1 <= n <= 16)%N /\ exists e, cbc_decrypt C key iv ct = Err e)))
  /\ (~ (legal_key key /\ ct <> [] /\ List.length ct mod 16 = 0 /\ List.length iv = 16) ->
      exists e, cbc_decrypt C key iv ct = Err e).
Proof using H.
  intros key iv ct. split.
  - intros (Hk & Hne & Hm & Hi). rewrite legal_key_ok in Hk.
    assert (L0 : List.length ct <> 0) by (destruct ct; simpl; congruence).
    set (n := List.length ct / 16). assert (Hl : List.length ct = 16 * n) by (unfold n; lia).
    exists (cbc_dec_blocks C key iv n ct).
    assert (Ld := cbc_dec_length key n iv ct Hk Hi Hl).
    split; [split; [lia|]; intros i Hlt; apply cbc_dec_spec; auto|].
    unfold cbc_decrypt. rewrite Hk, Hi. cbn [negb].
    destruct (Nat.eqb_spec (List.length ct) 0); [lia|].
    destruct (Nat.eqb_spec (List.length ct mod 16) 0); [|lia]. cbn [orb negb Nat.eqb].
    fold n. set (d := cbc_dec_blocks C key iv n ct) in *.
    assert (Hlast : forall k, List.length d = S k -> nth k d Byte.x00 = last d Byte.x00).
    { clear. intros k. revert k. induction d as [|x d IH]; intros k E; [discriminate|].
      simpl in E. injection E as E. destruct d as [|y d].
      - simpl in E. subst. reflexivity.
      - destruct k as [|k]; [discriminate|]. change (nth k (y :: d) Byte.x00 = last (y :: d) Byte.x00). apply IH; auto. }
    cbv zeta. unfold pkcs7unpad.
    destruct (List.length d) as [|k] eqn:Ek; [lia|].
    rewrite (Hlast k eq_refl). set (m := b2n (last d Byte.x00)).
    destruct (N.ltb_spec m 1); cbn [orb]; [right; split; [lia|eauto]|].
    destruct (N.ltb_spec 16 m); [right; split; [lia|eauto]|].
    left. split; [lia|].
    destruct (Nat.ltb_spec (S k) (N.to_nat m)); [lia|]. reflexivity.
  - intro Hn. unfold cbc_decrypt. rewrite legal_key_ok in Hn.
    destruct (aes_key_ok key); cbn [negb]; [|eauto].
    destruct (Nat.eqb_spec (List.length ct) 0); cbn [orb]; [eauto|].
    destruct (Nat.eqb_spec (List.length ct mod 16) 0); cbn [negb]; [|eauto].
    destruct (Nat.eqb_spec (List.length iv) 16); cbn [negb]; [|eauto].
    exfalso. apply Hn. repeat split; auto. destruct ct; [simpl in *; lia|discriminate].
Qed.
End A.
