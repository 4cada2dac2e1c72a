(** Concrete cases for one-time pre-keys. *)
From Verif Require Import M_Base M_Crypto M_Aes M_Curve M_Proto M_Message M_Ratchet M_State M_Store M_Session M_Group
  S_Crypto S_Message S_State S_Shape S_Ratchet S_Session S_Api S_Send S_Group S_X3dh S_Receive S_Conv S_History S_Bundle S_Isolation S_Apart S_Once
  P_Base P_Send P_History P_Bundle P_Establish P_Frames K_Toy K_World K_Receive K_Conv.
Local Open Scope nat_scope.

Definition carol_at : addr := mkAddr "carol"%string 5%N.
(** First messages from the address [x], with the base key made from [r]. *)
Lemma first_from : forall (x : addr) (r : Byte.byte) (once : option N) sh, once = None \/ once = Some 7%N -> exists pm w', pm_prekey_id pm = once /\ wf_prekeymsg pm /\
  pm_base pm = mont_pub toy (b32 r) /\
  run0 (decrypt_message toy x (b32 Byte.x43) (CPreKey pm)) (bob_world 7 sh) = (Ok (str "hello"), w').
Proof.
  intros x r once sh O. destruct (bob_bundle_signed once) as [sig Sg]. set (b := bob_bundle once sig).
  set (at_ := fun side : bool => if side then conv_at true else x). set (rnd := b32 r ++ b32 Byte.x42).
  assert (Wb : wf_bundle b) by (apply bob_bundle_wf; intros i E; destruct O as [-> | ->]; [discriminate|]; injection E as <-; apply small_u32; reflexivity).
  assert (Rb : firstn 32 rnd = b32 r) by (unfold rnd; rewrite firstn_app, b32_len, Nat.sub_diag, firstn_all2 by (rewrite b32_len; apply le_n); apply app_nil_r).
  assert (Rr : firstn 32 (skipn 32 rnd) = b32 Byte.x42).
  { unfold rnd. rewrite skipn_app, b32_len, Nat.sub_diag, skipn_all2 by (rewrite b32_len; apply le_n). reflexivity. }
  destruct (established toy toy_ok b at_ (alice_world true) (bob_world 7 sh) alice_key bob_key bob_signed_key (match once with Some _ => Some bob_once_key | None => None end) rnd (b32 Byte.x43)
    (alice_wf true) (bob_wf 7 sh) Wb) with (pt := str "hello") as (wA1 & c & wA2 & wB1 & E1 & E2 & E3).
  - apply pair_of_for, b32_len.
  - apply (bob_published 7 once); [exact O|discriminate].
  - unfold rnd. rewrite app_length, !b32_len. apply le_n.
  - rewrite b32_len. apply le_n.
  - apply none_unused. reflexivity.
  - rewrite Rr. exact conv_fresh.
  - exact Sg.
  - reflexivity.
  - reflexivity.
  - reflexivity.
  - destruct (initiated toy (conv_at true) rnd b [] (alice_world true) wA1 [(str "hello", c)] wA2 toy_ok (alice_wf true) Wb E1) with (pt := str "hello") (c := c) as (pm & m & -> & F).
    + eapply sok_cons; [exact E2|constructor].
    + left. reflexivity.
    + exists pm, wB1. destruct F as (F1 & F2 & F3 & F4 & F5 & F6 & F7). rewrite Rb in F5.
      split; [rewrite F3; cbn [b bob_bundle bd_prekey_id]; destruct O as [-> | ->]; reflexivity|]. split; [|split; [exact F5|exact E3]].
      destruct (bundle_awaiting toy (conv_at true) rnd b [] (alice_world true) wA1 toy_ok (alice_wf true) Wb E1) as (W1 & _).
      exact (sent_wf _ _ _ _ _ _ _ toy_ok W1 E2).
Qed.
(** Two initiators use one-time pre-key 7. *)
Lemma same_prekey : forall sh, exists pm1 pm2 w1 w2, pm_prekey_id pm1 = Some 7%N /\ pm_prekey_id pm2 = Some 7%N /\ pm_base pm1 <> pm_base pm2 /\
  wf_prekeymsg pm1 /\ wf_prekeymsg pm2 /\ unused_base (bob_world 7 sh) carol_at (pm_base pm2) /\
  run0 (decrypt_message toy (conv_at false) (b32 Byte.x43) (CPreKey pm1)) (bob_world 7 sh) = (Ok (str "hello"), w1) /\
  run0 (decrypt_message toy carol_at (b32 Byte.x43) (CPreKey pm2)) (bob_world 7 sh) = (Ok (str "hello"), w2).
Proof.
  intro sh. destruct (first_from (conv_at false) Byte.x41 (Some 7%N) sh (or_intror eq_refl)) as (pm1 & w1 & I1 & W1 & B1 & E1).
  destruct (first_from carol_at Byte.x45 (Some 7%N) sh (or_intror eq_refl)) as (pm2 & w2 & I2 & W2 & B2 & E2).
  exists pm1, pm2, w1, w2. split; [exact I1|]. split; [exact I2|]. split.
  - rewrite B1, B2. apply toy_pub_neq. vm_compute. reflexivity.
  - split; [exact W1|]. split; [exact W2|]. split; [apply none_unused; reflexivity|]. auto.
Qed.
(** A message that uses no one-time pre-key, and the same message naming number 9, which
    does not exist. *)
Lemma missing_case : forall sh, exists pm w1, w_prekeys (bob_world 7 sh) 9%N = None /\
  run0 (decrypt_message toy (conv_at false) (b32 Byte.x43) (CPreKey (with_prekey_id pm None))) (bob_world 7 sh) = (Ok (str "hello"), w1).
Proof.
  intro sh. destruct (first_from (conv_at false) Byte.x41 None sh (or_introl eq_refl)) as (pm & w1 & I1 & _ & _ & E1). exists pm, w1. split; [reflexivity|].
  replace (with_prekey_id pm None) with pm; [exact E1|]. destruct pm as [v g i sg bs idn mm rw]. cbn [pm_prekey_id] in I1. subst i. reflexivity.
Qed.
(** Two first messages that do not name the same one-time pre-key. *)
Lemma different_prekey : forall sh, exists pm1 pm2 w1 w2,
  apart (CDecrypt (conv_at false) (b32 Byte.x43) (CPreKey pm1)) (CDecrypt carol_at (b32 Byte.x43) (CPreKey pm2)) /\
  run0 (decrypt_message toy (conv_at false) (b32 Byte.x43) (CPreKey pm1)) (bob_world 7 sh) = (Ok (str "hello"), w1) /\
  run0 (decrypt_message toy carol_at (b32 Byte.x43) (CPreKey pm2)) (bob_world 7 sh) = (Ok (str "hello"), w2).
Proof.
  intro sh. destruct (first_from (conv_at false) Byte.x41 (Some 7%N) sh (or_intror eq_refl)) as (pm1 & w1 & I1 & W1 & B1 & E1).
  destruct (first_from carol_at Byte.x45 None sh (or_introl eq_refl)) as (pm2 & w2 & I2 & W2 & B2 & E2).
  exists pm1, pm2, w1, w2. split; [|auto]. unfold apart. cbn [scope_of prekey_named]. rewrite I1, I2. split; [discriminate|right; discriminate].
Qed.
