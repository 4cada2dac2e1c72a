(** Stored sessions in bytes. *)
From Verif Require Import M_Base M_Crypto M_Curve M_Proto M_Ratchet M_State M_Store M_Session
  S_Crypto S_Message S_State S_Shape S_Ratchet S_Session S_Api S_Group S_Size
  P_Base P_Proto P_Shape P_Api P_Size.
Local Open Scope N_scope.

Lemma vsize_mono : forall a b, a <= b -> vsize a <= vsize b.
Proof. intros a b L. unfold vsize. apply N.add_le_mono_l, N.div_le_mono; [discriminate|]. apply N.log2_le_mono. exact L. Qed.
Lemma fields_app : forall a b, size (enc_fields (a ++ b)) = size (enc_fields a) + size (enc_fields b).
Proof. intros a b. unfold enc_fields. rewrite map_app, concat_app, size_app. reflexivity. Qed.
Lemma fields_one : forall f, size (enc_fields [f]) = size (enc_field f).
Proof. intro f. unfold enc_fields. cbn [map List.concat]. rewrite app_nil_r. reflexivity. Qed.
Lemma u32_le : forall n x, n < 15 -> go_u32 x -> size (enc_fields (p3_u32 n x)) <= 6.
Proof.
  intros n x L G. unfold p3_u32. destruct (N.eqb x 0); [discriminate|]. unfold go_u32 in G. rewrite fields_one, num_size by lia. unfold num_field.
  pose proof (vsize_mono x 4294967295 ltac:(lia)) as V. change (vsize 4294967295) with 5 in V. lia.
Qed.
Lemma bytes_le : forall n b l, n < 15 -> List.length b = l -> N.of_nat l < 128 -> size (enc_fields (p3_bytes n b)) <= 2 + N.of_nat l.
Proof.
  intros n b l L E G. subst l. unfold p3_bytes. destruct b as [|x b]; [vm_compute; discriminate|]. rewrite fields_one.
  rewrite len_size; [|exact L|unfold go_slice; lia]. unfold len_field.
  pose proof (vsize_mono (size (x :: b)) 127 ltac:(unfold size; lia)) as V. change (vsize 127) with 1 in V. unfold size in *. lia.
Qed.
Lemma sub_le : forall n fs l, n < 15 -> size (enc_fields fs) <= l -> l < 9223372036854775808 -> size (enc_field (n, WLen (enc_fields fs))) <= len_field l.
Proof.
  intros n fs l L E G. rewrite len_size; [|exact L|unfold go_slice, size in *; lia]. unfold len_field. pose proof (vsize_mono _ _ E). lia.
Qed.
Lemma subs_le : forall n k l m, n < 15 -> (List.length k <= m)%nat -> Forall (fun fs => size (enc_fields fs) <= l) k -> l < 9223372036854775808 ->
  size (enc_fields (p_subs n k)) <= N.of_nat m * len_field l.
Proof.
  intros n k l m Ln Lk F G. apply N.le_trans with (N.of_nat (List.length k) * len_field l); [|apply N.mul_le_mono_r; lia]. clear Lk.
  induction F as [|fs k E F IH]; [vm_compute; discriminate|]. unfold p_subs in *. cbn [map List.length].
  match goal with |- size (enc_fields (?a :: ?b)) <= _ => change (a :: b) with ([a] ++ b) end. rewrite fields_app, fields_one.
  pose proof (sub_le n fs l Ln E G). rewrite Nat2N.inj_succ. lia.
Qed.
Lemma key33_le : forall n b, n < 15 -> key33 b -> size (enc_fields (p3_bytes n b)) <= 35.
Proof. intros n b L (k & Lk & ->). apply (bytes_le n _ 33 L); [cbn [List.length]; rewrite Lk; reflexivity|reflexivity]. Qed.
Lemma msgkey_le : forall k, wf_msgkey k -> size (enc_fields (pmsgkey_fields k)) <= 92.
Proof.
  intros k (G & L1 & L2 & L3). unfold pmsgkey_fields. rewrite !fields_app.
  pose proof (u32_le 1 _ eq_refl G). pose proof (bytes_le 2 _ 32 eq_refl L1 eq_refl). pose proof (bytes_le 3 _ 32 eq_refl L2 eq_refl). pose proof (bytes_le 4 _ 16 eq_refl L3 eq_refl). lia.
Qed.
Lemma chain_le : forall c, wf_chain c -> (pc_ratchet_priv c = [] \/ List.length (pc_ratchet_priv c) = 32%nat) -> size (enc_fields (pchain_fields c)) <= 188111.
Proof.
  intros c (K & (k & Ek & G & Lk) & Ln & F) P. unfold pchain_fields. rewrite !fields_app, Ek. cbn [option_map p_sub]. rewrite fields_one.
  pose proof (key33_le 1 _ eq_refl K) as H1.
  assert (H2 : size (enc_fields (p3_bytes 2 (pc_ratchet_priv c))) <= 34).
  { destruct P as [->|P]; [vm_compute; discriminate|]. apply (bytes_le 2 _ 32 eq_refl P eq_refl). }
  assert (H3 : size (enc_fields (pchainkey_fields k)) <= 40).
  { unfold pchainkey_fields. rewrite fields_app. pose proof (u32_le 1 _ eq_refl G). pose proof (bytes_le 2 _ 32 eq_refl Lk eq_refl). lia. }
  pose proof (sub_le 3 _ 40 eq_refl H3 eq_refl) as H4. change (len_field 40) with 42 in H4.
  assert (H5 : size (enc_fields (p_subs 4 (map pmsgkey_fields (pc_msgkeys c)))) <= N.of_nat 2000 * len_field 92).
  { apply subs_le; [reflexivity|rewrite map_length; exact Ln| |reflexivity]. apply Forall_map. eapply Forall_impl; [|exact F]. exact msgkey_le. }
  assert (E : N.of_nat 2000 * len_field 92 = 188000) by (vm_compute; reflexivity). rewrite E in H5. lia.
Qed.
Lemma pending_le : forall p, wf_pending p -> size (enc_fields (ppending_fields p)) <= 52.
Proof.
  intros p (G & _ & K). unfold ppending_fields. rewrite !fields_app. pose proof (u32_le 1 _ eq_refl G). pose proof (key33_le 2 _ eq_refl K).
  assert (size (enc_fields (p3_int32 3 (pp_signed p))) <= 11); [|lia]. unfold p3_int32. destruct (Z.eqb (pp_signed p) 0); [vm_compute; discriminate|].
  assert (Q : int32_varint (pp_signed p) < 18446744073709551616) by (unfold int32_varint; pose proof (Z.mod_pos_bound (pp_signed p) 18446744073709551616 eq_refl); lia).
  rewrite fields_one, num_size by (reflexivity || exact Q). unfold num_field. pose proof (vsize_mono (int32_varint (pp_signed p)) 18446744073709551615 ltac:(lia)) as V.
  change (vsize 18446744073709551615) with 10 in V. lia.
Qed.
Lemma state_le : forall s, wf_state s -> size (state_bytes s) <= 1128907.
Proof.
  intros s (V & K1 & K2 & Lr & Gp & (c & Es & Wc & Wp) & (Ln & F) & Pd & G1 & G2 & K3). unfold state_bytes, state_fields. rewrite !fields_app, Es. cbn [option_map p_sub].
  rewrite fields_one. pose proof (chain_le c Wc (or_intror Wp)) as H1. pose proof (sub_le 6 _ _ eq_refl H1 eq_refl) as H2. change (len_field 188111) with 188115 in H2.
  assert (H3 : size (enc_fields (p_subs 7 (map pchain_fields (ss_receivers s)))) <= N.of_nat 5 * len_field 188111).
  { apply subs_le; [reflexivity|rewrite map_length; exact Ln| |reflexivity]. apply Forall_map. eapply Forall_impl; [|exact F]. intros x [Wx Px]. apply chain_le; [exact Wx|left; exact Px]. }
  change (N.of_nat 5 * len_field 188111) with 940575 in H3.
  assert (H4 : size (enc_fields (p_sub 9 (option_map ppending_fields (ss_pending s)))) <= 54).
  { destruct (ss_pending s) as [p|] eqn:Ep; cbn [option_map p_sub]; [|vm_compute; discriminate]. rewrite fields_one.
    pose proof (sub_le 9 _ _ eq_refl (pending_le p (Pd p eq_refl)) eq_refl) as Q. exact Q. }
  assert (H5 : size (enc_fields (p3_u32 1 (ss_version s))) <= 6) by (apply u32_le; [reflexivity|rewrite V; reflexivity]).
  pose proof (key33_le 2 _ eq_refl K1). pose proof (key33_le 3 _ eq_refl K2). pose proof (bytes_le 4 _ 32 eq_refl Lr eq_refl).
  pose proof (u32_le 5 _ eq_refl Gp). pose proof (u32_le 10 _ eq_refl G1). pose proof (u32_le 11 _ eq_refl G2). pose proof (key33_le 13 _ eq_refl K3). lia.
Qed.
Theorem session_bytes : forall C ts w a r, CryptoOk C -> reachable C (ts, w) -> w_sess w a = Some r ->
  (forall s, rc_current r = Some s -> size (state_bytes s) <= 1128907) /\
  (List.length (rc_previous r) <= 40)%nat /\ forall b, In b (rc_previous r) -> size b <= 1128907.
Proof.
  intros C ts w a r H R E. destruct (proj1 (proj1 (reachable_wf C H ts w R)) a r E) as (Wc & Lp & F).
  split; [intros s Es; apply state_le, Wc, Es|]. split; [exact Lp|]. intros b Ib. rewrite Forall_forall in F. destruct (F b Ib) as (s & Ws & ->). apply state_le. exact Ws.
Qed.
