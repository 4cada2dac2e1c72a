(** Two devices that initiate at the same time. *)
From Verif Require Import M_Base M_Crypto M_Aes M_Curve M_Uuid M_Message M_Ratchet M_State M_Store M_Session M_Group
  S_Crypto S_Message S_State S_Shape S_Ratchet S_Session S_Api S_Send S_Group S_Curve S_X3dh S_Receive S_Conv S_History S_Bundle
  P_Base P_Curve P_Shape P_Ratchet P_Chain P_Encrypt P_Send P_X3dh P_CryptoTop P_History P_Establish P_Bundle P_Atomic P_Cross K_Toy K_World K_Receive K_Conv.
Local Open Scope nat_scope.

(** The device with identity key [b32 x] and signed pre-key [b32 y], and its bundle. *)
Definition plain_device (x y : Byte.byte) (shared : bool) : world :=
  mkWorld (fun _ => None) (fun _ => None) (fun _ => None)
    (fun i => if N.eqb i 3%N then Some (new_prekeyrec (pair_of toy (b32 y))) else None)
    (fun _ _ => None) (pair_of toy (b32 x)) 13%N all_trusted shared.
Definition plain_bundle (x y : Byte.byte) (sig : bytes) : bundle :=
  mkBundle 13%N None None 3%N (Some (mont_pub toy (b32 y))) sig (Some (mont_pub toy (b32 x))).
Lemma plain_wf : forall x y sh, wf_device (plain_device x y sh).
Proof.
  intros x y sh. split; [split; [cbn; discriminate|split; [apply ed_to_mont_length|apply small_u32; reflexivity]]|cbn; discriminate].
Qed.
Lemma plain_bundle_wf : forall x y sig, wf_bundle (plain_bundle x y sig).
Proof.
  intros x y sig. unfold wf_bundle, wf_key. cbn [plain_bundle bd_reg bd_prekey_id bd_prekey bd_signed_id bd_signed bd_identity].
  split; [apply small_u32; reflexivity|]. split; [discriminate|]. split; [discriminate|]. split; [apply small_u32; reflexivity|].
  split; intros k E; injection E as <-; apply ed_to_mont_length.
Qed.
Lemma plain_signed : forall x y, exists sig, bundle_signed toy (plain_bundle x y sig).
Proof.
  intros x y. destruct (signatures toy toy_ok) as (Sg & V & _).
  assert (E : exists k, new_private_key toy (b32 x) = Ok k /\ sk_pub k = mont_pub toy (b32 x)) by (eexists; split; reflexivity).
  destruct E as (k & E & Ep). destruct (Sg (b32 x) k (repeat Byte.x55 64) [Byte.x05 :: mont_pub toy (b32 y)] E) as (sig & _ & _ & Vs);
    [rewrite repeat_length; apply le_n|]. exists sig. specialize (Vs _ eq_refl). rewrite Ep in Vs. apply V in Vs. destruct Vs as (r & t & z & Q1 & Q2 & Q3 & Q4).
  cbn [List.concat] in Q4. rewrite app_nil_r in Q4. exists (mont_pub toy (b32 x)), (mont_pub toy (b32 y)), r, t, z. auto 10.
Qed.
Lemma plain_published : forall x y sig sh, published toy (plain_device x y sh) (plain_bundle x y sig) (b32 x) (b32 y) None.
Proof.
  intros x y sig sh. split; [apply pair_of_for, b32_len|]. split; [reflexivity|]. split; [reflexivity|]. split; [|split; reflexivity].
  destruct (pair_stored toy (b32 y) (pair_of toy (b32 y))) as (p & E & P); [apply pair_of_for, b32_len|].
  eexists. exists p. split; [reflexivity|]. auto.
Qed.
(** Device x processes the bundle of device u and sends. *)
Lemma plain_begins : forall a x y u v e r sh sig pt, bundle_signed toy (plain_bundle u v sig) ->
  mont_pub toy (b32 r) <> mont_pub toy (b32 v) ->
  exists w1 c w2, run0 (process_bundle toy a (b32 e ++ b32 r) (plain_bundle u v sig)) (plain_device x y sh) = (Ok tt, w1) /\
    run0 (encrypt_message toy a pt) w1 = (Ok c, w2).
Proof.
  intros a x y u v e r sh sig pt Sg Nk.
  assert (Lr : 64 <= List.length (b32 e ++ b32 r)) by (rewrite app_length, !b32_len; apply le_n).
  assert (Sk : firstn 32 (skipn 32 (b32 e ++ b32 r)) = b32 r).
  { rewrite skipn_app, b32_len, Nat.sub_diag, skipn_all2 by (rewrite b32_len; apply le_n). reflexivity. }
  pose proof (plain_published u v sig sh) as Pub.
  destruct (bundle_works toy toy_ok (plain_bundle u v sig) a (plain_device x y sh) (plain_device u v sh) (b32 x) (b32 u) (b32 v) None (b32 e ++ b32 r)
    (plain_wf x y sh) (pair_of_for toy (b32 x) (b32_len x)) Pub Sg Lr eq_refl) as (w1 & E1 & I1 & Po1).
  assert (H1 : history toy (fun _ : bool => a) (plain_bundle u v sig) (mont_pub toy (firstn 32 (b32 e ++ b32 r)))
      (upd (fun s : bool => if s then plain_device x y sh else plain_device u v sh) true w1) start_party
      [mont_pub toy (b32 v); mont_pub toy (firstn 32 (skipn 32 (b32 e ++ b32 r)))] []).
  { apply (h_start toy (fun _ : bool => a) _ _ (fun s : bool => if s then plain_device x y sh else plain_device u v sh) (b32 x) (b32 u) (b32 v) None _ [] w1
      (plain_wf x y sh) (plain_wf u v sh) (plain_bundle_wf u v sig) (pair_of_for toy (b32 x) (b32_len x)) Pub Lr eq_refl); [apply none_unused; reflexivity| |exact E1].
    rewrite Sk. exact Nk. }
  destruct (sendable toy toy_ok (plain_bundle u v sig) (fun _ : bool => a) _ _ _ _ _ true pt H1 (or_introl eq_refl)) as (c & w2 & E2); [reflexivity| |].
  - cbn [upd Bool.eqb negb]. rewrite Po1. reflexivity.
  - exists w1, c, w2. split; [exact E1|exact E2].
Qed.
Lemma two_fresh : forall x y z, N.eqb (scalar_of (b32 x)) (scalar_of (b32 y)) = false -> N.eqb (scalar_of (b32 x)) (scalar_of (b32 z)) = false ->
  N.eqb (scalar_of (b32 y)) (scalar_of (b32 z)) = false -> NoDup [mont_pub toy (b32 x); mont_pub toy (b32 y); mont_pub toy (b32 z)].
Proof.
  intros x y z E1 E2 E3. apply toy_pub_neq in E1, E2, E3. repeat constructor; cbn [In]; intro J; repeat destruct J as [J|J]; try exact J; congruence.
Qed.
Definition crossing (aA aB : addr) (wA wB : world) (bA bB : bundle) (ia ib sa sb : bytes) (rA rB dA dB : bytes) (wA1 wA2 wB1 wB2 : world) (cA cB : ciphertext) (ptA ptB : bytes) : Prop :=
  wf_device wA /\ wf_device wB /\ wf_bundle bA /\ wf_bundle bB /\ published toy wA bA ia sa None /\ published toy wB bB ib sb None /\
  64 <= List.length rA /\ 64 <= List.length rB /\ 32 <= List.length dA /\ 32 <= List.length dB /\
  unused_base wA aB (mont_pub toy (firstn 32 rB)) /\ unused_base wB aA (mont_pub toy (firstn 32 rA)) /\ mont_pub toy (firstn 32 rA) <> mont_pub toy (firstn 32 rB) /\
  NoDup [mont_pub toy sb; mont_pub toy (firstn 32 (skipn 32 rA)); mont_pub toy (firstn 32 dB)] /\
  NoDup [mont_pub toy sa; mont_pub toy (firstn 32 (skipn 32 rB)); mont_pub toy (firstn 32 dA)] /\
  run0 (process_bundle toy aB rA bB) wA = (Ok tt, wA1) /\ run0 (encrypt_message toy aB ptA) wA1 = (Ok cA, wA2) /\
  run0 (process_bundle toy aA rB bA) wB = (Ok tt, wB1) /\ run0 (encrypt_message toy aA ptB) wB1 = (Ok cB, wB2) /\
  w_policy wA = all_trusted /\ w_policy wB = all_trusted.
Lemma crossing_case : forall sh, exists bA bB wA1 wA2 wB1 wB2 cA cB,
  crossing (conv_at false) (conv_at true) (plain_device Byte.x31 Byte.x32 sh) (plain_device Byte.x33 Byte.x34 sh) bA bB
    (b32 Byte.x31) (b32 Byte.x33) (b32 Byte.x32) (b32 Byte.x34)
    (b32 Byte.x41 ++ b32 Byte.x42) (b32 Byte.x51 ++ b32 Byte.x52) (b32 Byte.x61) (b32 Byte.x62) wA1 wA2 wB1 wB2 cA cB (str "hello") (str "hi").
Proof.
  intro sh. destruct (plain_signed Byte.x31 Byte.x32) as [sA SA]. destruct (plain_signed Byte.x33 Byte.x34) as [sB SB].
  destruct (plain_begins (conv_at true) Byte.x31 Byte.x32 Byte.x33 Byte.x34 Byte.x41 Byte.x42 sh sB (str "hello") SB) as (wA1 & cA & wA2 & E1 & E2);
    [apply toy_pub_neq; vm_compute; reflexivity|].
  destruct (plain_begins (conv_at false) Byte.x33 Byte.x34 Byte.x31 Byte.x32 Byte.x51 Byte.x52 sh sA (str "hi") SA) as (wB1 & cB & wB2 & E3 & E4);
    [apply toy_pub_neq; vm_compute; reflexivity|].
  assert (F1 : forall e r, firstn 32 (b32 e ++ b32 r) = b32 e) by (intros; rewrite firstn_app, b32_len, Nat.sub_diag, firstn_all2 by (rewrite b32_len; apply le_n); apply app_nil_r).
  assert (F2 : forall e r, firstn 32 (skipn 32 (b32 e ++ b32 r)) = b32 r).
  { intros. rewrite skipn_app, b32_len, Nat.sub_diag, skipn_all2 by (rewrite b32_len; apply le_n). reflexivity. }
  assert (F3 : forall e, firstn 32 (b32 e) = b32 e) by (intro; apply firstn_all2; rewrite b32_len; apply le_n).
  exists (plain_bundle Byte.x31 Byte.x32 sA), (plain_bundle Byte.x33 Byte.x34 sB), wA1, wA2, wB1, wB2, cA, cB. unfold crossing. rewrite !F2, !F1, !F3.
  split; [apply plain_wf|]. split; [apply plain_wf|]. split; [apply plain_bundle_wf|]. split; [apply plain_bundle_wf|].
  split; [apply plain_published|]. split; [apply plain_published|]. rewrite !app_length, !b32_len.
  split; [apply le_n|]. split; [apply le_n|]. split; [apply le_n|]. split; [apply le_n|].
  split; [apply none_unused; reflexivity|]. split; [apply none_unused; reflexivity|].
  split; [apply toy_pub_neq; vm_compute; reflexivity|].
  split; [apply two_fresh; vm_compute; reflexivity|]. split; [apply two_fresh; vm_compute; reflexivity|]. auto 10.
Qed.
Lemma run_shared : forall A (p : prog A) fs w, w_shared (snd (run p fs w)) = w_shared w.
Proof.
  intros A p. induction p as [x|X o k IH]; intros fs w; [reflexivity|]. cbn [run].
  assert (Q : w_shared (snd (exec_f o (hd_fault fs) w)) = w_shared w).
  { pose proof (P_Atomic.exec_shared X o w) as Q. unfold exec_f. destruct (fallible o), (hd_fault fs); try destruct (exec o w); first [exact Q|reflexivity]. }
  destruct (exec_f o (hd_fault fs) w) as [x w']. rewrite IH. exact Q.
Qed.
Lemma crossing_keeps : forall sh : bool, exists w a rnd c x w' r s, wf_device w /\ 32 <= List.length rnd /\
  w_shared w = sh /\ w_sess w a = Some r /\ rc_current r = Some s /\ run0 (decrypt_message toy a rnd c) w = (Ok x, w').
Proof.
  intro sh. destruct (crossing_case sh) as (bA & bB & wA1 & wA2 & wB1 & wB2 & cA & cB & K).
  destruct K as (WA & WB & BA & BB & PA & PB & L1 & L2 & L3 & L4 & U1 & U2 & Ne & D1 & D2 & E1 & E2 & E3 & E4 & Q1 & Q2).
  assert (L1' : 32 <= List.length (b32 Byte.x41 ++ b32 Byte.x42)) by (rewrite app_length, !b32_len; lia).
  destruct (begun toy _ _ _ [] _ _ _ [] _ _ toy_ok WA BB L1' E1 E2) as (W2 & _ & _ & _ & _ & _ & (r & s & R & Rs & _) & _).
  destruct (crossed toy _ _ _ _ _ _ _ _ _ _ _ _ _ _ _ _ [] [] [] [] _ _ _ _ _ _ _ _ toy_ok WA WB BA BB PA PB L1 L2 L3 L4 U1 U2 Ne D1 D2 E1 E2 E3 E4)
    as (wA3 & wB3 & _ & _ & _ & _ & _ & _ & G & _); [rewrite Q1; reflexivity|rewrite Q2; reflexivity|].
  pose proof (run_shared _ (encrypt_message toy (conv_at true) (str "hello")) [] wA1) as S1. unfold run0 in E1, E2. rewrite E2 in S1.
  pose proof (run_shared _ (process_bundle toy (conv_at true) (b32 Byte.x41 ++ b32 Byte.x42) bB) [] (plain_device Byte.x31 Byte.x32 sh)) as S2. rewrite E1 in S2.
  cbn [snd] in S1, S2. cbn [plain_device w_shared] in S2. rewrite S2 in S1.
  exists wA2, (conv_at true), (b32 Byte.x61), cB, (str "hi"), wA3, r, s. auto 10.
Qed.
