(** Two identities for one address, for C57. *)
From Verif Require Import M_Base M_Crypto M_Aes M_Curve M_Uuid M_Message M_Ratchet M_State M_Store M_Session M_Group
  S_Crypto S_Message S_State S_Shape S_Ratchet S_Session S_Api S_Send S_Group S_Curve S_X3dh S_Receive S_Conv S_History S_Bundle S_Pin
  P_Base P_Curve P_Shape P_Ratchet P_Chain P_Encrypt P_Send P_X3dh P_CryptoTop P_History P_Establish P_Trust P_Pin K_Toy K_World K_Receive K_Conv.
Local Open Scope nat_scope.

(** The in-memory trust policy. *)
Definition careful_world (shared : bool) : world :=
  mkWorld (fun _ => None) (fun _ => None) (fun _ => None) (fun _ => None) (fun _ _ => None) (pair_of toy alice_key) 12%N inmem_policy shared.
Lemma careful_policy : forall sh, first_use_policy (careful_world sh).
Proof.
  intros sh a k k' d E. cbn [careful_world w_policy] in E. apply inmem_trust in E. destruct E as [E|E]; [discriminate|injection E as <-; reflexivity].
Qed.
Lemma careful_wf : forall sh, wf_device (careful_world sh).
Proof.
  intro sh. split; [split; [cbn; discriminate|split; [apply ed_to_mont_length|apply small_u32; reflexivity]]|cbn; discriminate].
Qed.
Definition eve_key : bytes := b32 Byte.x61.
Definition eve_world : world :=
  mkWorld (fun _ => None) (fun _ => None) (fun _ => None)
    (fun i => if N.eqb i 3%N then Some (new_prekeyrec (pair_of toy bob_signed_key)) else None)
    (fun _ _ => None) (pair_of toy eve_key) 13%N all_trusted true.
Definition eve_bundle (sig : bytes) : bundle :=
  mkBundle 13%N None None 3%N (Some (mont_pub toy bob_signed_key)) sig (Some (mont_pub toy eve_key)).
Lemma eve_bundle_signed : exists sig, bundle_signed toy (eve_bundle sig).
Proof.
  destruct (signatures toy toy_ok) as (Sg & V & _).
  assert (E : exists k, new_private_key toy eve_key = Ok k /\ sk_pub k = mont_pub toy eve_key) by (eexists; split; reflexivity).
  destruct E as (k & E & Ep). destruct (Sg eve_key k (repeat Byte.x55 64) [Byte.x05 :: mont_pub toy bob_signed_key] E) as (sig & _ & _ & Vs);
    [rewrite repeat_length; apply le_n|]. exists sig. specialize (Vs _ eq_refl). rewrite Ep in Vs. apply V in Vs. destruct Vs as (r & t & y & Q1 & Q2 & Q3 & Q4).
  cbn [List.concat] in Q4. rewrite app_nil_r in Q4. exists (mont_pub toy eve_key), (mont_pub toy bob_signed_key), r, t, y. auto 10.
Qed.
Lemma eve_published : forall sig, published toy eve_world (eve_bundle sig) eve_key bob_signed_key None.
Proof.
  intro sig. split; [apply pair_of_for, b32_len|]. split; [reflexivity|]. split; [reflexivity|]. split; [|split; reflexivity].
  destruct (pair_stored toy bob_signed_key (pair_of toy bob_signed_key)) as (p & E & P); [apply pair_of_for, b32_len|].
  eexists. exists p. split; [reflexivity|]. auto.
Qed.
Lemma two_identities : forall sh, exists b1 b2 k1 k2 w1 w2,
  bd_identity b1 = Some k1 /\ bd_identity b2 = Some k2 /\ k1 <> k2 /\ first_use_policy (careful_world sh) /\
  run0 (process_bundle toy (conv_at true) alice_rnd b1) (careful_world sh) = (Ok tt, w1) /\
  run0 (process_bundle toy (conv_at true) alice_rnd b2) (careful_world sh) = (Ok tt, w2).
Proof.
  intro sh. destruct (bob_bundle_signed None) as [sig1 S1]. destruct eve_bundle_signed as [sig2 S2].
  exists (bob_bundle None sig1), (eve_bundle sig2), (mont_pub toy bob_key), (mont_pub toy eve_key).
  assert (PA : pair_for toy alice_key (w_pair (careful_world sh))) by (apply pair_of_for, b32_len).
  assert (Lr : 64 <= List.length alice_rnd) by (unfold alice_rnd; rewrite app_length, !b32_len; apply le_n).
  destruct (bundle_works toy toy_ok (bob_bundle None sig1) (conv_at true) (careful_world sh) (bob_world 7 true) alice_key bob_key bob_signed_key None alice_rnd
    (careful_wf sh) PA (bob_published 7 None sig1 true (or_introl eq_refl) ltac:(discriminate)) S1 Lr eq_refl) as (w1 & E1 & _).
  destruct (bundle_works toy toy_ok (eve_bundle sig2) (conv_at true) (careful_world sh) eve_world alice_key eve_key bob_signed_key None alice_rnd
    (careful_wf sh) PA (eve_published sig2) S2 Lr eq_refl) as (w2 & E2 & _).
  exists w1, w2. split; [reflexivity|]. split; [reflexivity|]. split; [apply toy_pub_neq; vm_compute; reflexivity|].
  split; [apply careful_policy|]. auto.
Qed.
(** After the first of them the key is stored; the other one is refused. *)
