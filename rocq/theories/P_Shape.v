(** Data of the right shape: archived states read back exactly. *)
From Verif Require Import M_Base M_Crypto M_Curve M_Proto M_Ratchet M_State
  S_Crypto S_Message S_State S_Shape P_Base P_Proto P_Curve P_State.
From Coq Require Import ZifyBool ZifyNat ZifyN.

Lemma key33_bytes : forall k, List.length k = 32 -> key33 (pub_bytes k).
Proof. intros k H. exists k. auto. Qed.
Lemma key33_len : forall b, key33 b -> List.length b = 33.
Proof. intros b (k & H & ->). simpl. lia. Qed.
Lemma key33_parse : forall b, key33 b -> exists k, List.length k = 32 /\ b = pub_bytes k /\ new_public_key b = Ok k.
Proof. intros b (k & H & ->). exists k. split; auto. split; [reflexivity|]. apply new_public_key_bytes; auto. Qed.

(** Sizes of encodings. *)
Lemma fields_size_app : forall a b, fields_size (a ++ b) = fields_size a + fields_size b.
Proof. induction a as [|[n w] a IH]; intro b; [reflexivity|]. cbn [app fields_size]. rewrite IH. lia. Qed.
Lemma p3_u32_size : forall n v, fields_size (p3_u32 n v) <= 20.
Proof. intros. unfold p3_u32. destruct (N.eqb v 0); cbn [fields_size wval_size]; lia. Qed.
Lemma p3_int32_size : forall n v, fields_size (p3_int32 n v) <= 20.
Proof. intros. unfold p3_int32. destruct (Z.eqb v 0); cbn [fields_size wval_size]; lia. Qed.
Lemma p3_bytes_size : forall n b, fields_size (p3_bytes n b) <= 20 + List.length b.
Proof. intros. unfold p3_bytes. destruct b; cbn [fields_size wval_size List.length]; lia. Qed.
Lemma p_sub_size : forall n o, fields_size (p_sub n o) <= match o with Some fs => 20 + fields_size fs | None => 0 end.
Proof.
  intros n [fs|]; cbn [p_sub]; [|reflexivity]. cbn [fields_size wval_size].
  pose proof (enc_fields_size fs). lia.
Qed.
Lemma p_subs_size : forall {A} (f : A -> list field) n l B, (forall x, In x l -> fields_size (f x) <= B) ->
  fields_size (p_subs n (map f l)) <= List.length l * (20 + B).
Proof.
  intros A f n l B H. unfold p_subs. induction l as [|x l IH]; [reflexivity|].
  cbn [map fields_size wval_size List.length].
  pose proof (enc_fields_size (f x)). pose proof (H x (or_introl eq_refl)).
  specialize (IH (fun y Hy => H y (or_intror Hy))). lia.
Qed.

Lemma msgkey_size : forall k, wf_msgkey k -> fields_size (pmsgkey_fields k) <= 160.
Proof.
  intros k (_ & L1 & L2 & L3). unfold pmsgkey_fields. rewrite !fields_size_app.
  pose proof (p3_u32_size 1 (pmk_index k)). pose proof (p3_bytes_size 2 (pmk_cipher k)).
  pose proof (p3_bytes_size 3 (pmk_mac k)). pose proof (p3_bytes_size 4 (pmk_iv k)). lia.
Qed.

Lemma chain_size : forall c, wf_chain c -> List.length (pc_ratchet_priv c) <= 32 ->
  (N.of_nat (fields_size (pchain_fields c)) <= 400000)%N.
Proof.
  intros c (K & (k & Ek & _ & Lk) & Lm & Fm) Lp. unfold pchain_fields. rewrite !fields_size_app, Ek.
  pose proof (p3_bytes_size 1 (pc_ratchet c)). pose proof (p3_bytes_size 2 (pc_ratchet_priv c)).
  pose proof (p_sub_size 3 (option_map pchainkey_fields (Some k))) as S. cbn [option_map] in *.
  unfold pchainkey_fields in S at 2. rewrite fields_size_app in S.
  pose proof (p3_u32_size 1 (pck_index k)). pose proof (p3_bytes_size 2 (pck_key k)).
  pose proof (p_subs_size pmsgkey_fields 4 (pc_msgkeys c) 160) as M.
  rewrite Forall_forall in Fm. specialize (M (fun x Hx => msgkey_size x (Fm x Hx))).
  rewrite (key33_len _ K) in *. revert M Lm. generalize (List.length (pc_msgkeys c)). intros. lia.
Qed.

Lemma state_size : forall s, wf_state s -> go_slice (state_bytes s).
Proof.
  intros s (V & K1 & K2 & Lr & Gp & (c & Ec & Wc & Lc) & (Lrc & Frc) & Pd & G1 & G2 & K3).
  unfold go_slice, state_bytes. pose proof (enc_fields_size (state_fields s)) as E.
  assert (F : (N.of_nat (fields_size (state_fields s)) <= 4000000)%N).
  { unfold state_fields. rewrite !fields_size_app, Ec.
    pose proof (p3_u32_size 1 (ss_version s)). pose proof (p3_bytes_size 2 (ss_local s)).
    pose proof (p3_bytes_size 3 (ss_remote s)). pose proof (p3_bytes_size 4 (ss_root s)).
    pose proof (p3_u32_size 5 (ss_prevctr s)).
    pose proof (p_sub_size 6 (option_map pchain_fields (Some c))) as S. cbn [option_map] in *.
    pose proof (chain_size c Wc ltac:(lia)).
    assert (M : (N.of_nat (fields_size (p_subs 7 (map pchain_fields (ss_receivers s)))) <= 5 * 400020)%N).
    { pose proof (p_subs_size pchain_fields 7 (ss_receivers s) (N.to_nat 400000)) as M.
      rewrite Forall_forall in Frc.
      specialize (M (fun x Hx => ltac:(destruct (Frc x Hx) as [W Z];
        pose proof (chain_size x W ltac:(rewrite Z; cbn; lia)); lia))).
      revert M Lrc. generalize (List.length (ss_receivers s)). intros n M Lrc.
      apply N.le_trans with (N.of_nat (n * (20 + N.to_nat 400000))); [lia|].
      rewrite Nat2N.inj_mul. rewrite Nat2N.inj_add, N2Nat.id. apply N.mul_le_mono; lia. }
    pose proof (p_sub_size 9 (option_map ppending_fields (ss_pending s))) as P.
    assert (P' : fields_size (p_sub 9 (option_map ppending_fields (ss_pending s))) <= 113).
    { destruct (ss_pending s) as [p|]; cbn [option_map] in *; [|lia].
      destruct (Pd p eq_refl) as (_ & _ & K). unfold ppending_fields in P at 2.
      rewrite !fields_size_app in P. pose proof (p3_u32_size 1 (pp_prekey p)).
      pose proof (p3_bytes_size 2 (pp_base p)). pose proof (p3_int32_size 3 (pp_signed p)).
      rewrite (key33_len _ K) in *. lia. }
    pose proof (p3_u32_size 10 (ss_remote_reg s)). pose proof (p3_u32_size 11 (ss_local_reg s)).
    pose proof (p3_bytes_size 13 (ss_alice_base s)).
    rewrite (key33_len _ K1), (key33_len _ K2), (key33_len _ K3) in *. lia. }
  lia.
Qed.

Lemma wf_go_chain : forall c, wf_chain c -> go_chain c.
Proof.
  intros c (_ & (k & Ek & G & _) & _ & F). split.
  - intros k' E. congruence.
  - intros k' I. rewrite Forall_forall in F. apply F in I. apply I.
Qed.

Lemma wf_go_state : forall s, wf_state s -> go_state s.
Proof.
  intros s (V & K1 & K2 & Lr & Gp & (c & Ec & Wc & Lc) & (Lrc & Frc) & Pd & G1 & G2 & K3).
  repeat split; auto.
  - rewrite V. reflexivity.
  - intros k E. assert (c0 = c) by congruence. subst. apply (wf_go_chain c Wc). auto.
  - intros k E. assert (c0 = c) by congruence. subst. apply (wf_go_chain c Wc). auto.
  - rewrite Forall_forall in Frc. destruct (Frc _ H) as [W _]. apply (wf_go_chain _ W).
  - rewrite Forall_forall in Frc. destruct (Frc _ H) as [W _]. apply (wf_go_chain _ W).
  - apply (Pd _ H).
  - apply (Pd _ H).
  - apply (Pd _ H).
Qed.

Lemma wf_roundtrip : forall s, wf_state s -> state_parse (state_bytes s) = Ok s.
Proof. intros s W. apply state_roundtrip; [apply wf_go_state|apply state_size]; auto. Qed.

(** The archived states of a record, read back. *)
Lemma parse_all_wf : forall l, Forall (fun b => exists s, wf_state s /\ b = state_bytes s) l ->
  exists ss, parse_all l = Ok ss /\ Forall wf_state ss /\ l = map state_bytes ss.
Proof.
  intros l F. induction F as [|b l (s & W & ->) _ (ss & E & Fs & ->)].
  - exists []. auto.
  - exists (s :: ss). cbn [parse_all map]. rewrite wf_roundtrip by exact W. cbn [bind].
    rewrite E. cbn [bind]. auto.
Qed.

Lemma wf_record_parse : forall r, wf_record r ->
  exists ss, rc_previous_states r = Ok ss /\ Forall wf_state ss /\ rc_previous r = map state_bytes ss /\
    List.length ss <= 40.
Proof.
  intros r (_ & L & F). destruct (parse_all_wf _ F) as (ss & E & Fs & M). exists ss.
  rewrite M, map_length in L. auto.
Qed.
