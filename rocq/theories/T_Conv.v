(** Theorems about whole conversations. See MANIFEST.json. *)
From Verif Require Import M_Base M_Crypto M_Aes M_Curve M_Proto M_Message M_Ratchet M_State M_Store M_Session M_Group
  S_Crypto S_Message S_Ratchet S_Session S_Shape S_Api S_Send S_Group S_X3dh S_Receive S_Conv S_History S_Bundle
  P_History P_Establish P_Frames P_IdZero K_Toy K_World K_Receive K_Conv K_IdZero.
Local Open Scope nat_scope.

(** C21. A published, signed bundle of a trusted identity: all three calls succeed and the
    owner reads the plaintext, with or without a one-time pre-key. *)
Theorem c21_established : forall C b at_ wA wB ia ib sb ob rnd rndB pt, CryptoOk C ->
  wf_device wA -> wf_device wB -> wf_bundle b -> pair_for C ia (w_pair wA) -> published C wB b ib sb ob ->
  64 <= List.length rnd -> 32 <= List.length rndB ->
  unused_base wB (at_ false) (mont_pub C (firstn 32 rnd)) ->
  NoDup [mont_pub C sb; mont_pub C (firstn 32 (skipn 32 rnd)); mont_pub C (firstn 32 rndB)] ->
  bundle_signed C b ->
  w_policy wA (at_ true) (w_ident wA (at_ true)) (mont_pub C ib) Sending = true ->
  w_policy wA (at_ true) (Some (mont_pub C ib)) (mont_pub C ib) Sending = true ->
  w_policy wB (at_ false) (w_ident wB (at_ false)) (mont_pub C ia) Receiving = true ->
  exists wA1 c wA2 wB1, run0 (process_bundle C (at_ true) rnd b) wA = (Ok tt, wA1) /\
    run0 (encrypt_message C (at_ true) pt) wA1 = (Ok c, wA2) /\
    run0 (decrypt_message C (at_ false) rndB c) wB = (Ok pt, wB1).
Proof. intros C b at_ wA wB ia ib sb ob rnd rndB pt H WA WB Wb PA Pub Lr LB Un Nd. exact (established C H b at_ wA wB ia ib sb ob rnd rndB WA WB Wb PA Pub Lr LB Un Nd pt). Qed.
Print Assumptions c21_established.
(** Whatever failures the stores have, if the three calls return without error then the
    plaintext is right and both ends hold matching keys: those of X3DH and of one and two
    Diffie-Hellman ratchet steps. *)
Theorem c21_matching_keys : forall C b at_ wA wB ia ib sb ob rnd rndB pt pt' fs1 fs2 fs3 wA1 c wA2 wB1, CryptoOk C ->
  wf_device wA -> wf_device wB -> wf_bundle b -> pair_for C ia (w_pair wA) -> published C wB b ib sb ob ->
  64 <= List.length rnd -> 32 <= List.length rndB ->
  unused_base wB (at_ false) (mont_pub C (firstn 32 rnd)) ->
  NoDup [mont_pub C sb; mont_pub C (firstn 32 (skipn 32 rnd)); mont_pub C (firstn 32 rndB)] ->
  run (process_bundle C (at_ true) rnd b) fs1 wA = (Ok tt, wA1) ->
  run (encrypt_message C (at_ true) pt) fs2 wA1 = (Ok c, wA2) ->
  run (decrypt_message C (at_ false) rndB c) fs3 wB = (Ok pt', wB1) ->
  let a := firstn 32 (skipn 32 rnd) in let r := firstn 32 rndB in
  let one := ratchet_step C (x3dh_root C ia (firstn 32 rnd) ib sb ob) (c_x25519 C a (mont_pub C sb)) in
  let two := ratchet_step C (fst one) (c_x25519 C r (mont_pub C a)) in
  pt' = pt /\ exists sA sB,
    current_keys wA2 (at_ true) sA (fst one) (mont_pub C a) (c_hmac C (snd one) [Byte.x02]) 1 /\
    current_keys wB1 (at_ false) sB (fst two) (mont_pub C r) (snd two) 0 /\
    ss_remote sA = Byte.x05 :: mont_pub C ib /\ ss_remote sB = Byte.x05 :: mont_pub C ia /\
    receiving_at sB (mont_pub C a) (snd one) 0 [].
Proof.
  intros C b at_ wA wB ia ib sb ob rnd rndB pt pt' fs1 fs2 fs3 wA1 c wA2 wB1 H WA WB Wb PA Pub Lr LB Un Nd E1 E2 E3.
  exact (agreed C H b at_ wA wB ia ib sb ob rnd rndB WA WB Wb PA Pub Lr LB Un Nd pt pt' fs1 fs2 fs3 wA1 c wA2 wB1 E1 E2 E3).
Qed.
Print Assumptions c21_matching_keys.
(** Alice and Bob, with one-time pre-key 7 and without. *)
Example c21_case : forall once, once = None \/ once = Some 7%N -> exists sig wA1 c wA2 wB1,
  run0 (process_bundle toy (conv_at true) alice_rnd (bob_bundle once sig)) (alice_world true) = (Ok tt, wA1) /\
  run0 (encrypt_message toy (conv_at true) (str "hello")) wA1 = (Ok c, wA2) /\
  run0 (decrypt_message toy (conv_at false) (b32 Byte.x43) c) (bob_world 7 true) = (Ok (str "hello"), wB1).
Proof.
  intros once O. destruct (bob_bundle_signed once) as [sig Sg]. exists sig.
  eapply (c21_established toy (bob_bundle once sig) conv_at (alice_world true) (bob_world 7 true) alice_key bob_key bob_signed_key _ alice_rnd
    (b32 Byte.x43) (str "hello") toy_ok (alice_wf true) (bob_wf 7 true)).
  - apply bob_bundle_wf. intros i E. destruct O as [-> | ->]; [discriminate|]. injection E as <-. apply small_u32. reflexivity.
  - apply pair_of_for, b32_len.
  - apply (bob_published 7); [exact O|discriminate].
  - unfold alice_rnd. rewrite app_length, !b32_len. apply le_n.
  - rewrite b32_len. apply le_n.
  - apply none_unused. reflexivity.
  - exact conv_fresh.
  - exact Sg.
  - reflexivity.
  - reflexivity.
  - reflexivity.
Qed.

(** C22. False for id 0 (every other id, and none: C21, [published]). The initiator uses the
    one-time key but its messages do not name it ... *)
Theorem c22_id_zero_not_named_exact : forall C a rnd b fs w w1 l w2, CryptoOk C -> wf_device w -> wf_bundle b ->
  run (process_bundle C a rnd b) fs w = (Ok tt, w1) -> sends_ok C a w1 l w2 -> bd_prekey_id b = Some 0%N ->
  forall pt c, In (pt, c) l -> exists pm, c = CPreKey pm /\ pm_prekey_id pm = None.
Proof.
  intros C a rnd b fs w w1 l w2 H W Wb E Sn E0 pt c I0. destruct (initiated C a rnd b fs w w1 l w2 H W Wb E Sn pt c I0) as (pm & m & -> & F).
  rewrite E0 in F. exists pm. split; [reflexivity|apply F].
Qed.
Print Assumptions c22_id_zero_not_named_exact.
(** ... so the responder leaves it out of the secret, and accepts the message only if the two
    different MAC keys happen to give one tag ... *)
Theorem c22_id_zero_needs_collision_exact : forall C ia ib sb o rnd a aB b fs w w1 pt fs1 c w2 wB rndB fs2 pt' wB', CryptoOk C ->
  wf_device w -> wf_device wB -> wf_bundle b -> pair_for C ia (w_pair w) -> pair_for C ib (w_pair wB) -> List.length o = 32 ->
  bd_identity b = Some (mont_pub C ib) -> bd_signed b = Some (mont_pub C sb) ->
  (exists x p, w_signed wB (bd_signed_id b) = Some x /\ prekeyrec_pair C x = Ok p /\ pair_for C sb p) ->
  bd_prekey_id b = Some 0%N -> bd_prekey b = Some (mont_pub C o) -> 64 <= List.length rnd -> w_sess wB aB = None ->
  run (process_bundle C a rnd b) fs w = (Ok tt, w1) -> run (encrypt_message C a pt) fs1 w1 = (Ok c, w2) ->
  run (decrypt_message C aB rndB c) fs2 wB = (Ok pt', wB') ->
  exists pm mk mk0 t, c = CPreKey pm /\
    keys_at C (x3dh_first_chain C ia (firstn 32 rnd) ib sb (Some o) (firstn 32 (skipn 32 rnd))) 0 mk /\
    keys_at C (x3dh_first_chain C ia (firstn 32 rnd) ib sb None (firstn 32 (skipn 32 rnd))) 0 mk0 /\
    sg_raw (pm_message pm) = t ++ firstn 8 (c_hmac C (mk_mac mk) ((Byte.x05 :: mont_pub C ia) ++ (Byte.x05 :: mont_pub C ib) ++ t)) /\
    sg_raw (pm_message pm) = t ++ firstn 8 (c_hmac C (mk_mac mk0) ((Byte.x05 :: mont_pub C ia) ++ (Byte.x05 :: mont_pub C ib) ++ t)).
Proof. intros C ia ib sb o rnd a aB b fs w w1 pt fs1 c w2 wB rndB fs2 pt' wB' H. exact (zero_id_collides C H ia ib sb o rnd a aB b fs w w1 pt fs1 c w2 wB rndB fs2 pt' wB'). Qed.
Print Assumptions c22_id_zero_needs_collision_exact.
(** ... and there are primitives for which they do not. *)
Theorem c22_id_zero_usable_refuted : forall pt, exists C a aB rndA b w wB wA1 c wA2, CryptoOk C /\ wf_device w /\ wf_device wB /\ wf_bundle b /\ bundle_signed C b /\
  bd_prekey_id b = Some 0%N /\
  (exists ib sb ob x p y q, pair_for C ib (w_pair wB) /\ bd_identity b = Some (mont_pub C ib) /\
     bd_signed b = Some (mont_pub C sb) /\ w_signed wB (bd_signed_id b) = Some x /\ prekeyrec_pair C x = Ok p /\ pair_for C sb p /\
     bd_prekey b = Some (mont_pub C ob) /\ w_prekeys wB 0%N = Some y /\ prekeyrec_pair C y = Ok q /\ pair_for C ob q) /\
  run0 (process_bundle C a rndA b) w = (Ok tt, wA1) /\ run0 (encrypt_message C a pt) wA1 = (Ok c, wA2) /\
  (forall k k' d, w_policy wB aB k k' d = true) /\ w_sess wB aB = None /\
  forall rnd fs pt', fst (run (decrypt_message C aB rnd c) fs wB) <> Ok pt'.
Proof.
  intro pt. destruct (id_zero_unusable pt) as (C & b & w & wB & wA1 & c & wA2 & U).
  exists C, (conv_at true), (conv_at false), alice_rnd, b, w, wB, wA1, c, wA2. exact U.
Qed.
Print Assumptions c22_id_zero_usable_refuted.
(** Ids that work. *)
Theorem c22_other_ids_usable_partial : forall C b at_ wA wB ia ib sb o id rnd rndB pt, CryptoOk C ->
  wf_device wA -> wf_device wB -> wf_bundle b -> pair_for C ia (w_pair wA) -> published C wB b ib sb (Some o) ->
  bd_prekey_id b = Some id -> (0 < id)%N ->
  64 <= List.length rnd -> 32 <= List.length rndB ->
  unused_base wB (at_ false) (mont_pub C (firstn 32 rnd)) ->
  NoDup [mont_pub C sb; mont_pub C (firstn 32 (skipn 32 rnd)); mont_pub C (firstn 32 rndB)] ->
  bundle_signed C b ->
  w_policy wA (at_ true) (w_ident wA (at_ true)) (mont_pub C ib) Sending = true ->
  w_policy wA (at_ true) (Some (mont_pub C ib)) (mont_pub C ib) Sending = true ->
  w_policy wB (at_ false) (w_ident wB (at_ false)) (mont_pub C ia) Receiving = true ->
  exists wA1 c wA2 wB1, run0 (process_bundle C (at_ true) rnd b) wA = (Ok tt, wA1) /\
    run0 (encrypt_message C (at_ true) pt) wA1 = (Ok c, wA2) /\
    run0 (decrypt_message C (at_ false) rndB c) wB = (Ok pt, wB1).
Proof. intros C b at_ wA wB ia ib sb o id rnd rndB pt H WA WB Wb PA Pub _ _ Lr LB Un Nd. exact (established C H b at_ wA wB ia ib sb (Some o) rnd rndB WA WB Wb PA Pub Lr LB Un Nd pt). Qed.
Print Assumptions c22_other_ids_usable_partial.
(** The case of [c21_case] with id 7. *)
Example c22_case : exists sig, published toy (bob_world 7 true) (bob_bundle (Some 7%N) sig) bob_key bob_signed_key (Some bob_once_key) /\
  bundle_signed toy (bob_bundle (Some 7%N) sig).
Proof.
  destruct (bob_bundle_signed (Some 7%N)) as (sig & Sg). exists sig. split; [|exact Sg].
  apply (bob_published 7 (Some 7%N) sig true); [right; reflexivity|discriminate].
Qed.

(** C23. After any history a message of the other party that is receivable is delivered. *)
Theorem c23_delivered : forall C b at_ base dev par keys notes side ep n pt c rnd, CryptoOk C ->
  history C at_ b base dev par keys notes -> In (mkNote (negb side) ep n pt c) notes ->
  receivable (par side) ep n -> fresh C keys (par side) ep rnd ->
  w_policy (dev side) (at_ side) (w_ident (dev side) (at_ side)) (kp_pub (w_pair (dev (negb side)))) Receiving = true ->
  exists w', run0 (decrypt_message C (at_ side) rnd c) (dev side) = (Ok pt, w').
Proof. intros C b at_ base dev par keys notes side ep n pt c rnd H. exact (delivered C H b at_ base dev par keys notes side ep n pt c rnd). Qed.
Print Assumptions c23_delivered.
(** Whatever the stores do, an answer without error is the plaintext that was sent. *)
Theorem c23_never_wrong : forall C b at_ base dev par keys notes side ep n pt c rnd fs pt' w', CryptoOk C ->
  history C at_ b base dev par keys notes -> In (mkNote (negb side) ep n pt c) notes ->
  receivable (par side) ep n -> fresh C keys (par side) ep rnd ->
  run (decrypt_message C (at_ side) rnd c) fs (dev side) = (Ok pt', w') -> pt' = pt.
Proof. intros C b at_ base dev par keys notes side ep n pt c rnd fs pt' w' H. exact (answered C H b at_ base dev par keys notes side ep n pt c rnd fs pt' w'). Qed.
Print Assumptions c23_never_wrong.
(** Both parties can go on sending. *)
Theorem c23_sendable : forall C b at_ base dev par keys notes side pt, CryptoOk C ->
  history C at_ b base dev par keys notes -> (side = true \/ p_epoch (par false) <> 0) -> (p_sent (par side) + 1 < 4294967296)%N ->
  w_policy (dev side) (at_ side) (w_ident (dev side) (at_ side)) (kp_pub (w_pair (dev (negb side)))) Sending = true ->
  exists c w', run0 (encrypt_message C (at_ side) pt) (dev side) = (Ok c, w').
Proof. intros C b at_ base dev par keys notes side pt H. exact (sendable C H b at_ base dev par keys notes side pt). Qed.
Print Assumptions c23_sendable.
(** A history with four messages, the first two delivered in the wrong order. *)
Example c23_case : exists b base dev par keys c1 c2 c3 c4,
  history toy conv_at b base dev par keys
    [mkNote true 3 0 (str "four") c4; mkNote false 2 0 (str "three") c3; mkNote true 1 1 (str "two") c2; mkNote true 1 0 (str "one") c1] /\
  par true = mkParty 3 1 [mkView 0 0 []; mkView 2 0 []] /\
  par false = mkParty 2 1 [mkView 1 1 []] /\ open_policy dev.
Proof. exact conversation. Qed.
(** Its last message is receivable. *)
Example c23_case_receivable : receivable (mkParty 2 1 [mkView 1 1 []]) 3 0.
Proof. apply rec_new; [reflexivity|discriminate]. Qed.

(** C36. In every history: a pre-key message exactly in the initiator's first epoch, which
    ends with the first message it receives; a whisper message otherwise. *)
Theorem c36_framing_in_history : forall C b at_ base dev par keys notes side ep n pt c, CryptoOk C ->
  history C at_ b base dev par keys notes -> In (mkNote side ep n pt c) notes ->
  (exists m, c = CSignal m /\ ~ (side = true /\ ep = 1)) \/
  (side = true /\ ep = 1) /\ exists pm reg m, c = CPreKey pm /\
    prekey_frame pm reg (bd_prekey_id b) (bd_signed_id b) base (kp_pub (w_pair (dev true))) m.
Proof. intros C b at_ base dev par keys notes side ep n pt c H. exact (frames C H b at_ base dev par keys notes side ep n pt c). Qed.
Print Assumptions c36_framing_in_history.
(** Any bundle at all: after it was processed everything sent is a pre-key message with its
    ids (a one-time id 0 is dropped, see C22) and the base key generated then ... *)
Theorem c36_framed_until_received : forall C a rnd b fs w w1 l w2, CryptoOk C -> wf_device w -> wf_bundle b ->
  run (process_bundle C a rnd b) fs w = (Ok tt, w1) -> sends_ok C a w1 l w2 ->
  forall pt c, In (pt, c) l -> exists pm m, c = CPreKey pm /\
    prekey_frame pm (w_reg w) (match bd_prekey_id b with Some 0%N => None | x => x end) (bd_signed_id b)
      (mont_pub C (firstn 32 rnd)) (kp_pub (w_pair w)) m.
Proof. exact initiated. Qed.
Print Assumptions c36_framed_until_received.
(** ... and after any message was decrypted, everything sent is a whisper message. *)
Theorem c36_plain_after_received : forall C a rnd c fs w pt w1 l w2, CryptoOk C -> wf_device w -> wf_ciphertext c ->
  run (decrypt_message C a rnd c) fs w = (Ok pt, w1) -> pt <> [] \/ (exists pm, c = CPreKey pm) ->
  sends_ok C a w1 l w2 -> forall pt' c', In (pt', c') l -> exists m, c' = CSignal m.
Proof. exact acknowledged. Qed.
Print Assumptions c36_plain_after_received.
(** In the history above the first two messages are pre-key messages, the others not. *)
Example c36_case : exists b base dev par keys c1 c2 c3 c4 p1 p2 m3 m4,
  history toy conv_at b base dev par keys
    [mkNote true 3 0 (str "four") c4; mkNote false 2 0 (str "three") c3; mkNote true 1 1 (str "two") c2; mkNote true 1 0 (str "one") c1] /\
  c1 = CPreKey p1 /\ c2 = CPreKey p2 /\ c3 = CSignal m3 /\ c4 = CSignal m4.
Proof.
  destruct conversation as (b & base & dev & par & keys & c1 & c2 & c3 & c4 & Hy & _).
  pose proof (fun side ep n pt c => c36_framing_in_history toy b conv_at base dev par keys _ side ep n pt c toy_ok Hy) as F.
  destruct (F true 1 0%N (str "one") c1) as [(m & _ & X)|(_ & p1 & _ & _ & E1 & _)]; [cbn; auto|destruct X; auto|].
  destruct (F true 1 1%N (str "two") c2) as [(m & _ & X)|(_ & p2 & _ & _ & E2 & _)]; [cbn; auto|destruct X; auto|].
  destruct (F false 2 0%N (str "three") c3) as [(m3 & E3 & _)|([X _] & _)]; [cbn; auto| |discriminate].
  destruct (F true 3 0%N (str "four") c4) as [(m4 & E4 & _)|([_ X] & _)]; [cbn; auto| |discriminate].
  exists b, base, dev, par, keys, c1, c2, c3, c4, p1, p2, m3, m4. auto.
Qed.

(** C53. *)
Theorem c53_signed_id_kept : forall C a rnd b fs w w1 l w2, CryptoOk C -> wf_device w -> wf_bundle b ->
  run (process_bundle C a rnd b) fs w = (Ok tt, w1) -> sends_ok C a w1 l w2 ->
  forall pt c, In (pt, c) l -> exists pm, c = CPreKey pm /\ pm_signed_id pm = bd_signed_id b.
Proof.
  intros C a rnd b fs w w1 l w2 H W Wb E Sn pt c I0. destruct (initiated C a rnd b fs w w1 l w2 H W Wb E Sn pt c I0) as (pm & m & -> & F).
  exists pm. split; [reflexivity|apply F].
Qed.
Print Assumptions c53_signed_id_kept.
(** Bob's signed pre-key id is 4294967295, stored as -1. *)
Example c53_case : to_int32 4294967295 = (-1)%Z /\ exists sig wA1 c wA2,
  run0 (process_bundle toy (conv_at true) alice_rnd (bob_bundle None sig)) (alice_world true) = (Ok tt, wA1) /\
  sends_ok toy (conv_at true) wA1 [(str "hello", c)] wA2 /\ bd_signed_id (bob_bundle None sig) = 4294967295%N.
Proof.
  split; [reflexivity|]. destruct (c21_case None (or_introl eq_refl)) as (sig & wA1 & c & wA2 & wB1 & E1 & E2 & _).
  exists sig, wA1, c, wA2. split; [exact E1|]. split; [|reflexivity]. eapply sok_cons; [exact E2|constructor].
Qed.
