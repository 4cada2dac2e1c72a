(** Conversations over a byte transport: C72. *)
From Verif Require Import M_Base M_Crypto M_Aes M_Curve M_Message M_Ratchet M_State M_Store M_Session M_Group
  S_Crypto S_Message S_Shape S_Ratchet S_Session S_Api S_Send S_Group S_GroupMsg S_X3dh S_Receive S_Conv S_History S_Header S_Size S_Transit
  P_GroupTop P_Transit K_Toy K_World K_Receive K_Conv K_Group.
Local Open Scope nat_scope.

(** * C72 *)
(** Every message of every history, sent as bytes and parsed again, is the message that
    EncryptMessage returned: decrypting the bytes is decrypting the message. *)
Theorem c72_in_transit : forall C b at_ base dev par keys notes x, CryptoOk C -> history C at_ b base dev par keys notes -> In x notes ->
  (size (nt_text x) < 2 ^ 62)%N ->
  unposted (posted (nt_cipher x)) = Ok (nt_cipher x) /\
  forall a rnd, receive_bytes C a rnd (posted (nt_cipher x)) = decrypt_message C a rnd (nt_cipher x).
Proof. exact transit. Qed.
Print Assumptions c72_in_transit.
(** So C23 holds for bytes. *)
Theorem c72_delivered : forall C b at_ base dev par keys notes side ep n pt c rnd, CryptoOk C ->
  history C at_ b base dev par keys notes -> In (mkNote (negb side) ep n pt c) notes -> (size pt < 2 ^ 62)%N ->
  receivable (par side) ep n -> fresh C keys (par side) ep rnd ->
  w_policy (dev side) (at_ side) (w_ident (dev side) (at_ side)) (kp_pub (w_pair (dev (negb side)))) Receiving = true ->
  exists w', run0 (receive_bytes C (at_ side) rnd (posted c)) (dev side) = (Ok pt, w').
Proof. intros C b at_ base dev par keys notes side ep n pt c rnd H. exact (delivered_bytes C H b at_ base dev par keys notes side ep n pt c rnd). Qed.
Print Assumptions c72_delivered.
(** No two messages of a history have the same bytes, even for equal plaintexts. *)
Theorem c72_bytes_differ : forall C b at_ base dev par keys notes x y, CryptoOk C -> history C at_ b base dev par keys notes ->
  In x notes -> In y notes -> (size (nt_text x) < 2 ^ 62)%N -> (size (nt_text y) < 2 ^ 62)%N ->
  posted (nt_cipher x) = posted (nt_cipher y) -> x = y.
Proof. intros C b at_ base dev par keys notes x y H. exact (bytes_differ C H b at_ base dev par keys notes x y). Qed.
Print Assumptions c72_bytes_differ.
(** Groups: the distribution message and every message sent under it. *)
Theorem c72_group : forall C a d sysrnd rnd fs w m w1 l w2, CryptoOk C -> own_device C w -> List.length d = 16 ->
  run (new_sender_dist C a d sysrnd rnd) fs w = (Ok m, w1) -> gsends C a d w1 l w2 ->
  (forall b, gjoin_bytes b (dm_raw m) = process_dist b m) /\
  forall pt x, In (pt, x) l -> (size pt < 2 ^ 62)%N -> forall b, greceive_bytes C b (sm_raw x) = gdecrypt C b x.
Proof. exact gtransit. Qed.
Print Assumptions c72_group.
Example c72_case : exists b base dev par keys c1 c2 c3 c4,
  history toy conv_at b base dev par keys
    [mkNote true 3 0 (str "four") c4; mkNote false 2 0 (str "three") c3; mkNote true 1 1 (str "two") c2; mkNote true 1 0 (str "one") c1] /\
  unposted (posted c4) = Ok c4 /\ unposted (posted c1) = Ok c1 /\ posted c1 <> posted c2.
Proof.
  destruct conversation as (b & base & dev & par & keys & c1 & c2 & c3 & c4 & Hy & _).
  exists b, base, dev, par, keys, c1, c2, c3, c4. split; [exact Hy|].
  split; [exact (proj1 (c72_in_transit _ _ _ _ _ _ _ _ (mkNote true 3 0 (str "four") c4) toy_ok Hy (or_introl eq_refl) eq_refl))|].
  split; [refine (proj1 (c72_in_transit _ _ _ _ _ _ _ _ (mkNote true 1 0 (str "one") c1) toy_ok Hy _ eq_refl)); cbn [In]; auto|].
  intro E. assert (X : mkNote true 1 0 (str "one") c1 = mkNote true 1 1 (str "two") c2).
  { refine (c72_bytes_differ _ _ _ _ _ _ _ _ (mkNote true 1 0 (str "one") c1) (mkNote true 1 1 (str "two") c2) toy_ok Hy _ _ eq_refl eq_refl E); cbn [In]; auto. }
  apply (f_equal nt_counter) in X. discriminate.
Qed.
Example c72_group_case : exists m w1 l w2, run0 (new_sender_dist toy gx_addr gx_dist gx_sys gx_rnd) (alice_world true) = (Ok m, w1) /\
  gsends toy gx_addr gx_dist w1 l w2 /\ map fst l = [str "hello"; str "again"] /\ parse_dist (dm_raw m) = Ok m /\
  forall pt x, In (pt, x) l -> parse_senderkey (sm_raw x) = Ok x.
Proof.
  destruct gx_created as (m & w1 & E & Sd). destruct (dist_describes _ _ _ _ _ _ _ _ _ toy_ok (alice_own true) E) as (O1 & _).
  destruct (gx_send toy gx_addr gx_dist gx_rnd [str "hello"; str "again"] w1 toy_ok (proj1 O1) Sd gx_rnd_len) as (l & w2 & G & Em).
  exists m, w1, l, w2. split; [exact E|]. split; [exact G|]. split; [exact Em|]. split; [exact (dist_posted _ _ gx_dist _ _ _ _ _ _ toy_ok (alice_own true) eq_refl E)|].
  intros pt x J. apply (sends_posted _ _ gx_dist _ _ _ toy_ok eq_refl G (proj1 O1) pt x J).
  apply (in_map fst) in J. cbn [fst] in J. rewrite Em in J. destruct J as [<-|[<-|[]]]; reflexivity.
Qed.
