(** AES decryption undoes encryption. *)
From Verif Require Import M_Base M_Crypto M_Aes P_Base R_Aes.
From Coq Require Import Lia Btauto.

Lemma inv_sbox_ok : forall b, inv_sbox (sbox b) = b.
Proof. destruct b; reflexivity. Qed.
Lemma xtime_num : forall b, b2n (xtime b) = N.lxor (N.land (N.shiftl (b2n b) 1) 255) (if N.testbit (b2n b) 7 then 27 else 0)%N.
Proof. destruct b; reflexivity. Qed.
Lemma xtime_xor : forall a b, xtime (bxor a b) = bxor (xtime a) (xtime b).
Proof.
  intros a b. apply b2n_inj. rewrite b2n_bxor, !xtime_num, b2n_bxor, N.lxor_spec, N.shiftl_lxor.
  set (x := N.shiftl (b2n a) 1). set (y := N.shiftl (b2n b) 1). apply N.bits_inj. intro i.
  destruct (N.testbit (b2n a) 7), (N.testbit (b2n b) 7); cbn [xorb]; rewrite ?N.lxor_spec, ?N.land_spec, ?N.lxor_spec, ?N.land_spec, ?N.bits_0; btauto.
Qed.
Lemma mix_ok : forall c, inv_mix_col (mix_col c) = c.
Proof.
  intros [a b c d]. unfold inv_mix_col, mix_col. cbn [c0 c1 c2 c3]. unfold mul9, mul11, mul13, mul14, mul3, x4. rewrite !xtime_xor.
  f_equal; apply b2n_inj; rewrite !b2n_bxor; apply N.bits_inj; intro i; rewrite !N.lxor_spec; btauto.
Qed.
Lemma add_key_twice : forall s k, add_round_key (add_round_key s k) k = s.
Proof. intros [[] [] [] []] [[] [] [] []]. unfold add_round_key, col_xor. cbn [R_Aes.s0 R_Aes.s1 R_Aes.s2 R_Aes.s3 R_Aes.c0 R_Aes.c1 R_Aes.c2 R_Aes.c3]. rewrite !bxor_cancel. reflexivity. Qed.
Lemma shift_ok : forall s, inv_shift_rows (shift_rows s) = s.
Proof. intros [[] [] [] []]. reflexivity. Qed.
Lemma sub_ok : forall s, inv_sub_bytes (sub_bytes s) = s.
Proof.
  intros [[] [] [] []]. unfold inv_sub_bytes, sub_bytes, st_map, col_map. cbn [R_Aes.s0 R_Aes.s1 R_Aes.s2 R_Aes.s3 R_Aes.c0 R_Aes.c1 R_Aes.c2 R_Aes.c3]. rewrite !inv_sbox_ok. reflexivity.
Qed.
Lemma mix_st_ok : forall s, st_map inv_mix_col (st_map mix_col s) = s.
Proof. intros [a b c d]. unfold st_map. cbn [R_Aes.s0 R_Aes.s1 R_Aes.s2 R_Aes.s3]. rewrite !mix_ok. reflexivity. Qed.
Lemma rounds_ok : forall ks s, dec_rounds ks (enc_rounds ks s) = s.
Proof.
  induction ks as [|k ks IH]; intro s; [reflexivity|]. destruct ks as [|k' ks].
  - cbn [dec_rounds enc_rounds]. rewrite add_key_twice, shift_ok. apply sub_ok.
  - change (dec_rounds (k :: k' :: ks)) with (fun s => inv_sub_bytes (inv_shift_rows (st_map inv_mix_col (add_round_key (dec_rounds (k' :: ks) s) k)))).
    change (enc_rounds (k :: k' :: ks) s) with (enc_rounds (k' :: ks) (add_round_key (st_map mix_col (shift_rows (sub_bytes s))) k)).
    cbv beta. rewrite IH, add_key_twice, mix_st_ok, shift_ok. apply sub_ok.
Qed.
Lemma st_bytes_len : forall s, List.length (st_bytes s) = 16%nat. Proof. reflexivity. Qed.
Lemma st_back : forall s, st_of (st_bytes s) = s.
Proof. intros [[] [] [] []]. reflexivity. Qed.
Lemma st_forth : forall b, List.length b = 16%nat -> st_bytes (st_of b) = b.
Proof. intros b L. do 16 (destruct b as [|? b]; [discriminate L|]). destruct b; [reflexivity|discriminate L]. Qed.
Lemma real_aes_inv : forall k b, List.length b = 16%nat -> real_aes_dec k (real_aes_enc k b) = b.
Proof.
  intros k b L. unfold real_aes_dec, real_aes_enc. destruct (round_keys k) as [|k0 r]; [reflexivity|].
  rewrite st_back, rounds_ok, add_key_twice. apply st_forth, L.
Qed.
Lemma real_aes_enc_len : forall k b, List.length b = 16%nat -> List.length (real_aes_enc k b) = 16%nat.
Proof. intros k b L. unfold real_aes_enc. destruct (round_keys k); [exact L|reflexivity]. Qed.
Lemma real_aes_dec_len : forall k b, List.length b = 16%nat -> List.length (real_aes_dec k b) = 16%nat.
Proof. intros k b L. unfold real_aes_dec. destruct (round_keys k); [exact L|reflexivity]. Qed.
