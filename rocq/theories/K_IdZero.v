(** Refutation of C22: primitives, two devices and a bundle whose one-time pre-key has
    id 0. *)
From Verif Require Import M_Base M_Crypto M_Aes M_Curve M_Uuid M_Message M_Ratchet M_State M_Store M_Session M_Group
  S_Crypto S_Message S_State S_Shape S_Ratchet S_Session S_Api S_Send S_Group S_Curve S_X3dh S_Receive S_Conv S_History S_Bundle
  P_Base P_Curve P_Shape P_Ratchet P_Chain P_Encrypt P_Send P_SendTop P_Bundle P_X3dh P_CryptoTop P_History P_Establish P_Frames P_IdZero K_Toy K_World K_Receive K_Conv.
From Coq Require Import ZifyBool ZifyNat ZifyN.
Local Open Scope nat_scope.
Ltac Zify.zify_post_hook ::= Z.div_mod_to_equations.

(** The primitives of K_Toy.v with another HMAC: 32 copies of one byte, so that the keys
    derived from different secrets are easily told apart. *)
Definition hd0 (b : bytes) : N := match b with x :: _ => b2n x | [] => 0 end.
Definition one_byte (k m : bytes) : N := ((hd0 k + hd0 m + N.of_nat (List.length m)) mod 256)%N.
Definition with_hmac (C : Crypto) (h : bytes -> bytes -> bytes) : Crypto :=
  mkCrypto h (c_sha512 C) (c_aes_enc C) (c_aes_dec C) (c_x25519 C) (c_edbase C) (c_edverify C).
Lemma with_hmac_ok : forall C h, CryptoOk C -> (forall k m, List.length (h k m) = 32) -> CryptoOk (with_hmac C h).
Proof. intros C h [A1 A2 A3 A4 A5 A6 A7 A8 A9 A10 A11 A12] L. constructor; assumption. Qed.
Definition zx : Crypto := with_hmac toy (fun k m => repeat (n2b (one_byte k m)) 32).
Lemma zx_ok : CryptoOk zx.
Proof. apply with_hmac_ok; [exact toy_ok|]. intros k m. apply repeat_length. Qed.
Lemma hd0_hmac : forall k m, hd0 (c_hmac zx k m) = one_byte k m.
Proof. intros k m. cbn [c_hmac zx with_hmac repeat hd0]. rewrite b2n_n2b. unfold one_byte. apply N.mod_small. apply N.mod_lt. discriminate. Qed.
Lemma len_hmac : forall k m, List.length (c_hmac zx k m) = 32.
Proof. intros. apply repeat_length. Qed.
Lemma hd0_app : forall a b, a <> [] -> hd0 (a ++ b) = hd0 a.
Proof. intros [|x a] b N; [congruence|reflexivity]. Qed.

(** The second 32 bytes of HKDF output, by their common byte. *)
Lemma hkdf_second : forall salt sec info n, 33 <= n -> info <> [] ->
  let prk := one_byte (match salt with Some s => s | None => repeat Byte.x00 32 end) sec in
  hd0 (skipn 32 (rfc_hkdf zx salt sec info n)) =
   ((prk + (prk + hd0 info + N.of_nat (List.length info) + 1) + N.of_nat (List.length info) + 33) mod 256)%N.
Proof.
  intros salt sec info n L Ni prk. unfold rfc_hkdf. set (p := c_hmac zx _ sec).
  assert (Hp : hd0 p = prk) by (unfold p; apply hd0_hmac).
  assert (E : exists k, (n + 31) / 32 = S (S k)).
  { exists ((n + 31) / 32 - 2). assert (2 <= (n + 31) / 32) by (apply Nat.div_le_lower_bound; lia). lia. }
  destruct E as (k & ->). cbn [seq map List.concat]. set (t1 := rfc_T zx p info 1). set (t2 := rfc_T zx p info 2).
  assert (L1 : List.length t1 = 32) by apply len_hmac. assert (L2 : List.length t2 = 32) by apply len_hmac.
  rewrite skipn_firstn_comm. rewrite skipn_app. rewrite (skipn_all2 t1) by (rewrite L1; apply le_n). rewrite L1, Nat.sub_diag. cbn [app skipn].
  assert (Q : forall m (x : bytes), 1 <= m -> hd0 (firstn m x) = hd0 x) by (intros [|m] [|y x] Lm; try lia; reflexivity).
  rewrite Q by lia. rewrite hd0_app by (intro Z; rewrite Z in L2; discriminate).
  assert (H1 : hd0 t1 = ((prk + hd0 info + N.of_nat (List.length info) + 1) mod 256)%N).
  { unfold t1. cbn [rfc_T app]. rewrite hd0_hmac. unfold one_byte. rewrite Hp, hd0_app by exact Ni. rewrite app_length. cbn [List.length]. f_equal. lia. }
  unfold t2. cbn [rfc_T]. change (c_hmac zx p ([] ++ info ++ [n2b (N.of_nat 1)])) with t1. rewrite hd0_hmac. unfold one_byte.
  rewrite Hp, hd0_app by (intro Z; rewrite Z in L1; discriminate). rewrite H1, !app_length, L1. cbn [List.length].
  replace (N.of_nat (32 + (List.length info + 1))) with (N.of_nat (List.length info) + 33)%N by lia.
  clear. revert prk. intro prk. generalize (hd0 info) (N.of_nat (List.length info)) prk. intros; lia.
Qed.

Lemma hkdf_first : forall salt sec info n, 1 <= n -> info <> [] ->
  hd0 (rfc_hkdf zx salt sec info n) =
   ((one_byte (match salt with Some s => s | None => repeat Byte.x00 32 end) sec + hd0 info + N.of_nat (List.length info) + 1) mod 256)%N.
Proof.
  intros salt sec info n L Ni. unfold rfc_hkdf. set (p := c_hmac zx _ sec).
  assert (E : exists k, (n + 31) / 32 = S k).
  { exists ((n + 31) / 32 - 1). assert (1 <= (n + 31) / 32) by (apply Nat.div_le_lower_bound; lia). lia. }
  destruct E as (k & ->). cbn [seq map List.concat]. assert (L1 : List.length (rfc_T zx p info 1) = 32) by apply len_hmac.
  assert (Q : forall m (x : bytes), 1 <= m -> hd0 (firstn m x) = hd0 x) by (intros [|m] [|y x] Lm; try lia; reflexivity).
  rewrite Q by lia. rewrite hd0_app by (intro Z; rewrite Z in L1; discriminate). cbn [rfc_T app]. rewrite hd0_hmac. unfold one_byte at 1.
  unfold p. rewrite hd0_hmac, hd0_app by exact Ni. rewrite app_length. cbn [List.length]. f_equal. lia.
Qed.

Lemma shift0 : forall d l : N, ((2 + d + l) mod 256 = ((226 + d + l) mod 256 + 32) mod 256)%N.
Proof. intros. lia. Qed.
Lemma shift1 : forall c a b x y, (a = (b + c) mod 256 -> (a + x + y) mod 256 = ((b + x + y) mod 256 + c) mod 256)%N.
Proof. intros c a b x y ->. lia. Qed.
Lemma shift2 : forall c a b u v x y z, (a = (b + c) mod 256 ->
  (a + (a + u + v + x) + y + z) mod 256 = ((b + (b + u + v + x) + y + z) mod 256 + 2 * c) mod 256)%N.
Proof. intros c a b u v x y z ->. lia. Qed.
Lemma shift3 : forall a b t, (a = (b + 128) mod 256 -> (a + t) mod 256 <> (b + t) mod 256)%N.
Proof. intros a b t ->. lia. Qed.
Lemma cst1 : (hd0 (repeat Byte.x00 32)) = 0%N.
Proof. reflexivity. Qed.
Lemma cst2 : (hd0 [Byte.x01]) = 1%N.
Proof. reflexivity. Qed.
Lemma cst3 : (hd0 (str "WhisperMessageKeys")) = 87%N.
Proof. reflexivity. Qed.
Lemma cst4 : (hd0 (str "WhisperRatchet")) = 87%N.
Proof. reflexivity. Qed.
Lemma cst5 : (N.of_nat (List.length (str "WhisperMessageKeys"))) = 18%N.
Proof. reflexivity. Qed.
Lemma cst6 : (N.of_nat (List.length (str "WhisperRatchet"))) = 14%N.
Proof. reflexivity. Qed.
Lemma cst7 : (N.of_nat (List.length [Byte.x01])) = 1%N.
Proof. reflexivity. Qed.
Lemma cst8 : (N.of_nat 32) = 32%N.
Proof. reflexivity. Qed.
Lemma cst9 : (N.of_nat (128 + 32)) = 160%N.
Proof. reflexivity. Qed.
Lemma cst10 : (N.of_nat 128) = 128%N.
Proof. reflexivity. Qed.
Lemma cst11 : (hd0 (str "WhisperText")) = 87%N.
Proof. reflexivity. Qed.
Lemma cst12 : (N.of_nat (List.length (str "WhisperText"))) = 11%N.
Proof. reflexivity. Qed.
Lemma cst13 : ((255 + 160 + 87 + 11 + 1) mod 256 = 2)%N.
Proof. reflexivity. Qed.
Lemma cst14 : ((255 + 128 + 87 + 11 + 1) mod 256 = 226)%N.
Proof. reflexivity. Qed.
Lemma mac_byte : forall key m, keys_at zx key 0 m ->
  hd0 (mk_mac m) = ((((0 + ((hd0 key + 1 + 1) mod 256) + 32) mod 256) + (((0 + ((hd0 key + 1 + 1) mod 256) + 32) mod 256) + 87 + 18 + 1) + 18 + 33) mod 256)%N.
Proof.
  intros key m (Q & L1 & L2 & _).
  assert (E : hd0 (mk_mac m) = hd0 (skipn 32 (rfc_hkdf zx None (c_hmac zx key [Byte.x01]) (str "WhisperMessageKeys") 80))).
  { rewrite <- Q, <- L1, skipn_app, Nat.sub_diag, skipn_all. cbn [app skipn]. rewrite hd0_app; [reflexivity|].
    intro Z. rewrite Z in L2. discriminate. }
  rewrite E, hkdf_second by (discriminate || lia). cbv zeta. unfold one_byte at 1 2. rewrite hd0_hmac, len_hmac. unfold one_byte. 
  rewrite cst1, cst2, cst3, cst5, cst7, cst8. reflexivity.
Qed.
Lemma root_byte : forall ia e ib sb ob, 
  hd0 (x3dh_root zx ia e ib sb ob) = ((255 + N.of_nat (List.length (x3dh zx ia e ib sb ob)) + 87 + 11 + 1) mod 256)%N.
Proof.
  intros ia e ib sb ob. unfold x3dh_root, x3dh_keys. assert (Z : hd0 (x3dh zx ia e ib sb ob) = 255%N) by reflexivity.
  revert Z. generalize (x3dh zx ia e ib sb ob). intros z Z.
  assert (F : forall x, hd0 (firstn 32 x) = hd0 x) by (intros [|? ?]; reflexivity). rewrite F.
  rewrite hkdf_first by (discriminate || lia). unfold one_byte. rewrite Z, cst1, cst11, cst12. generalize (N.of_nat (List.length z)). clear. intros; lia.
Qed.
Lemma chain_byte : forall ia e ib sb ob rk, hd0 (x3dh_first_chain zx ia e ib sb ob rk) =
  (let p := ((hd0 (x3dh_root zx ia e ib sb ob) + hd0 (c_x25519 zx rk (mont_pub zx sb)) + N.of_nat (List.length (c_x25519 zx rk (mont_pub zx sb)))) mod 256)%N in
   (p + (p + 87 + 14 + 1) + 14 + 33) mod 256)%N.
Proof.
  intros. unfold x3dh_first_chain. rewrite hkdf_second by (discriminate || lia). cbv zeta. unfold one_byte. rewrite cst4, cst6. reflexivity.
Qed.
Lemma secret_len : forall ia e ib sb ob, List.length ia = 32 -> List.length e = 32 -> (forall o, ob = Some o -> List.length o = 32) ->
  N.of_nat (List.length (x3dh zx ia e ib sb ob)) = match ob with Some _ => 160%N | None => 128%N end.
Proof.
  intros ia e ib sb ob Li Le Lo. unfold x3dh. assert (M32 : forall k, List.length (mont_pub zx k) = 32) by (intro; apply ed_to_mont_length).
  rewrite !app_length, repeat_length, !(ok_x_len zx zx_ok) by auto. destruct ob as [o|]; [|reflexivity]. rewrite (ok_x_len zx zx_ok) by auto. reflexivity.
Qed.
(** The tags of the first message under the two secrets differ. *)
Lemma tags_differ : forall ia e ib sb o rk mk mk0 text, List.length ia = 32 -> List.length e = 32 -> List.length o = 32 ->
  keys_at zx (x3dh_first_chain zx ia e ib sb (Some o) rk) 0 mk -> keys_at zx (x3dh_first_chain zx ia e ib sb None rk) 0 mk0 ->
  firstn 8 (c_hmac zx (mk_mac mk) text) <> firstn 8 (c_hmac zx (mk_mac mk0) text).
Proof.
  intros ia e ib sb o rk mk mk0 text Li Le Lo K K0 E.
  assert (T : forall k, hd0 (firstn 8 (c_hmac zx k text)) = ((hd0 k + (hd0 text + N.of_nat (List.length text))) mod 256)%N).
  { intro k. assert (F : forall x, hd0 (firstn 8 x) = hd0 x) by (intros [|? ?]; reflexivity). rewrite F, hd0_hmac. unfold one_byte. f_equal. rewrite N.add_assoc. reflexivity. }
  apply (f_equal hd0) in E. rewrite !T in E. clear T. apply mac_byte in K. apply mac_byte in K0. rewrite K, K0 in E. clear K K0. rewrite !chain_byte, !root_byte in E.
  rewrite !secret_len in E; auto; [|discriminate|intros o' Q; injection Q as <-; exact Lo].
  revert E. generalize (hd0 (c_x25519 zx rk (mont_pub zx sb))) (N.of_nat (List.length (c_x25519 zx rk (mont_pub zx sb)))) (hd0 text + N.of_nat (List.length text))%N.
  clear. intros d l t E. rewrite cst13, cst14 in E. cbv zeta in E.
  set (a := ((2 + d + l) mod 256)%N) in E. set (b := ((226 + d + l) mod 256)%N) in E.
  assert (R1 : (a = (b + 32) mod 256)%N) by apply shift0. clearbody a b.
  set (a1 := ((a + (a + 87 + 14 + 1) + 14 + 33) mod 256)%N) in E. set (b1 := ((b + (b + 87 + 14 + 1) + 14 + 33) mod 256)%N) in E.
  assert (R2 : (a1 = (b1 + 64) mod 256)%N) by (apply (shift2 32); exact R1). clearbody a1 b1.
  set (a2 := ((a1 + 1 + 1) mod 256)%N) in E. set (b2 := ((b1 + 1 + 1) mod 256)%N) in E.
  assert (R3 : (a2 = (b2 + 64) mod 256)%N) by (apply shift1; exact R2). clearbody a2 b2.
  set (a3 := ((0 + a2 + 32) mod 256)%N) in E. set (b3 := ((0 + b2 + 32) mod 256)%N) in E.
  assert (R4 : (a3 = (b3 + 64) mod 256)%N) by (unfold a3, b3; rewrite !N.add_0_l; pose proof (shift1 64 a2 b2 0 32 R3) as Q; rewrite !N.add_0_r in Q; exact Q). clearbody a3 b3.
  set (a4 := ((a3 + (a3 + 87 + 18 + 1) + 18 + 33) mod 256)%N) in E. set (b4 := ((b3 + (b3 + 87 + 18 + 1) + 18 + 33) mod 256)%N) in E.
  assert (R5 : (a4 = (b4 + 128) mod 256)%N) by (apply (shift2 64); exact R4). clearbody a4 b4. exact (shift3 a4 b4 t R5 E).
Qed.

(** Alice, and Bob with signed pre-key 5 and one-time pre-key 0. *)
Definition zx_alice (shared : bool) : world :=
  mkWorld (fun _ => None) (fun _ => None) (fun _ => None) (fun _ => None) (fun _ _ => None) (pair_of zx alice_key) 12%N all_trusted shared.
Definition zx_bob (shared : bool) : world :=
  mkWorld (fun _ => None) (fun _ => None)
    (fun i => if N.eqb i 0%N then Some (new_prekeyrec (pair_of zx bob_once_key)) else None)
    (fun i => if N.eqb i 5%N then Some (new_prekeyrec (pair_of zx bob_signed_key)) else None)
    (fun _ _ => None) (pair_of zx bob_key) 13%N all_trusted shared.
Definition zx_bundle (sig : bytes) : bundle :=
  mkBundle 13%N (Some 0%N) (Some (mont_pub zx bob_once_key)) 5%N (Some (mont_pub zx bob_signed_key)) sig (Some (mont_pub zx bob_key)).
Lemma zx_alice_wf : forall sh, wf_device (zx_alice sh).
Proof. intro sh. split; [split; [cbn; discriminate|split; [apply ed_to_mont_length|apply small_u32; reflexivity]]|cbn; discriminate]. Qed.
Lemma zx_bob_wf : forall sh, wf_device (zx_bob sh).
Proof. intro sh. split; [split; [cbn; discriminate|split; [apply ed_to_mont_length|apply small_u32; reflexivity]]|cbn; discriminate]. Qed.
Lemma zx_bundle_wf : forall sig, wf_bundle (zx_bundle sig).
Proof.
  intro sig. unfold wf_bundle, wf_key. cbn [zx_bundle bd_reg bd_prekey_id bd_prekey bd_signed_id bd_signed bd_identity].
  split; [apply small_u32; reflexivity|]. split; [intros i E; injection E as <-; apply small_u32; reflexivity|].
  split; [intros k E; injection E as <-; apply ed_to_mont_length|]. split; [apply small_u32; reflexivity|].
  split; intros k E; injection E as <-; apply ed_to_mont_length.
Qed.
Lemma zx_bundle_signed : exists sig, bundle_signed zx (zx_bundle sig).
Proof.
  destruct (signatures zx zx_ok) as (Sg & V & _).
  assert (E : exists k, new_private_key zx bob_key = Ok k /\ sk_pub k = mont_pub zx bob_key) by (eexists; split; reflexivity).
  destruct E as (k & E & Ep). destruct (Sg bob_key k (repeat Byte.x55 64) [Byte.x05 :: mont_pub zx bob_signed_key] E) as (sig & _ & _ & Vs);
    [rewrite repeat_length; apply le_n|]. exists sig. specialize (Vs _ eq_refl). rewrite Ep in Vs. apply V in Vs. destruct Vs as (r & t & y & Q1 & Q2 & Q3 & Q4).
  cbn [List.concat] in Q4. rewrite app_nil_r in Q4. exists (mont_pub zx bob_key), (mont_pub zx bob_signed_key), r, t, y. auto 10.
Qed.
Lemma id_zero_unusable : forall pt, exists C b w wB wA1 c wA2, CryptoOk C /\ wf_device w /\ wf_device wB /\ wf_bundle b /\ bundle_signed C b /\
  (* Bob published [b], with his one-time pre-key under id 0 *)
  bd_prekey_id b = Some 0%N /\
  (exists ib sb ob x p y q, pair_for C ib (w_pair wB) /\ bd_identity b = Some (mont_pub C ib) /\
     bd_signed b = Some (mont_pub C sb) /\ w_signed wB (bd_signed_id b) = Some x /\ prekeyrec_pair C x = Ok p /\ pair_for C sb p /\
     bd_prekey b = Some (mont_pub C ob) /\ w_prekeys wB 0%N = Some y /\ prekeyrec_pair C y = Ok q /\ pair_for C ob q) /\
  (* Alice sends; Bob, who trusts everyone and has no session yet, never gets the text *)
  run0 (process_bundle C (conv_at true) alice_rnd b) w = (Ok tt, wA1) /\ run0 (encrypt_message C (conv_at true) pt) wA1 = (Ok c, wA2) /\
  (forall k k' d, w_policy wB (conv_at false) k k' d = true) /\ w_sess wB (conv_at false) = None /\
  forall rnd fs pt', fst (run (decrypt_message C (conv_at false) rnd c) fs wB) <> Ok pt'.
Proof.
  intro pt. destruct zx_bundle_signed as (sig & Sg). pose proof (zx_bundle_wf sig) as Wb.
  assert (PA : pair_for zx alice_key (w_pair (zx_alice true))) by (apply pair_of_for, b32_len).
  assert (PB : pair_for zx bob_key (w_pair (zx_bob true))) by (apply pair_of_for, b32_len).
  destruct (pair_stored zx bob_signed_key (pair_of zx bob_signed_key)) as (p & Ep & Ps); [apply pair_of_for, b32_len|].
  destruct (pair_stored zx bob_once_key (pair_of zx bob_once_key)) as (q & Eq & Po); [apply pair_of_for, b32_len|].
  destruct (initiator_works zx zx_ok alice_key bob_key bob_signed_key bob_once_key alice_rnd (conv_at true) (zx_bundle sig) (zx_alice true)
    (zx_alice_wf true) Wb PA (b32_len _) (b32_len _) (b32_len _) eq_refl eq_refl eq_refl (le_n 64) Sg (fun _ _ _ => eq_refl) pt) as (w1 & c & w2 & E1 & E2).
  exists zx, (zx_bundle sig), (zx_alice true), (zx_bob true), w1, c, w2.
  split; [exact zx_ok|]. split; [apply zx_alice_wf|]. split; [apply zx_bob_wf|]. split; [exact Wb|]. split; [exact Sg|]. split; [reflexivity|].
  split; [exists bob_key, bob_signed_key, bob_once_key; eexists; exists p; eexists; exists q; split; [exact PB|]; split; [reflexivity|]; split; [reflexivity|]; split; [reflexivity|]; split; [exact Ep|]; split; [exact Ps|]; split; [reflexivity|]; split; [reflexivity|]; split; [exact Eq|exact Po]|].
  split; [exact E1|]. split; [exact E2|]. split; [reflexivity|]. split; [reflexivity|].
  intros rnd fs pt' Q. destruct (run (decrypt_message zx (conv_at false) rnd c) fs (zx_bob true)) as [r wB'] eqn:E3. cbn [fst] in Q. subst r.
  destruct (zero_id_collides zx zx_ok alice_key bob_key bob_signed_key bob_once_key alice_rnd (conv_at true) (conv_at false) (zx_bundle sig) [] (zx_alice true) w1 pt [] c w2
    (zx_bob true) rnd fs pt' wB' (zx_alice_wf true) (zx_bob_wf true) Wb PA PB (b32_len _) eq_refl eq_refl) as (pm & mk & mk0 & text & _ & K & K0 & Tag1 & Tag2); auto.
  - eexists. exists p. split; [reflexivity|]. auto.
  - assert (Tag : firstn 8 (c_hmac zx (mk_mac mk) ((Byte.x05 :: mont_pub zx alice_key) ++ (Byte.x05 :: mont_pub zx bob_key) ++ text)) =
      firstn 8 (c_hmac zx (mk_mac mk0) ((Byte.x05 :: mont_pub zx alice_key) ++ (Byte.x05 :: mont_pub zx bob_key) ++ text)))
      by (rewrite Tag1 in Tag2; exact (app_inv_head _ _ _ Tag2)).
    exact (tags_differ _ _ _ _ _ _ _ _ _ (b32_len _) (eq_refl : List.length (firstn 32 alice_rnd) = 32) (b32_len _) K K0 Tag).
Qed.
