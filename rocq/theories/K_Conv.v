(** Two concrete devices and a bundle, for T_Conv.v. *)
From Verif Require Import M_Base M_Crypto M_Aes M_Curve M_Uuid M_Message M_Ratchet M_State M_Store M_Session M_Group
  S_Crypto S_Message S_State S_Shape S_Ratchet S_Session S_Api S_Send S_Group S_Curve S_X3dh S_Receive S_Conv S_History S_Bundle
  P_Base P_Curve P_Shape P_Ratchet P_Chain P_Encrypt P_Send P_X3dh P_CryptoTop P_History P_Establish K_Toy K_World K_Receive.
Local Open Scope nat_scope.

Definition alice_key : bytes := b32 Byte.x31.
Definition bob_once_key : bytes := b32 Byte.x25.
Definition all_trusted : addr -> option pubkey -> pubkey -> direction -> bool := fun _ _ _ _ => true.
(** Alice, and Bob with signed pre-key 4294967295 and one-time pre-key [id]. *)
Definition alice_world (shared : bool) : world :=
  mkWorld (fun _ => None) (fun _ => None) (fun _ => None) (fun _ => None) (fun _ _ => None) (pair_of toy alice_key) 12%N all_trusted shared.
Definition bob_world (id : N) (shared : bool) : world :=
  mkWorld (fun _ => None) (fun _ => None)
    (fun i => if N.eqb i id then Some (new_prekeyrec (pair_of toy bob_once_key)) else None)
    (fun i => if N.eqb i 4294967295%N then Some (new_prekeyrec (pair_of toy bob_signed_key)) else None)
    (fun _ _ => None) (pair_of toy bob_key) 13%N all_trusted shared.
Definition conv_at (side : bool) : addr := if side then mkAddr "bob"%string 1%N else mkAddr "alice"%string 2%N.
Definition bob_bundle (once : option N) (sig : bytes) : bundle :=
  mkBundle 13%N once (match once with Some _ => Some (mont_pub toy bob_once_key) | None => None end)
    4294967295%N (Some (mont_pub toy bob_signed_key)) sig (Some (mont_pub toy bob_key)).
Definition alice_rnd : bytes := b32 Byte.x41 ++ b32 Byte.x42.

Lemma toy_pub_inj : forall a b, List.length a = 32 -> List.length b = 32 -> mont_pub toy a = mont_pub toy b -> scalar_of a = scalar_of b.
Proof.
  intros a b La Lb E. unfold mont_pub in E. cbn [c_edbase toy] in E. destruct (scalar_range a La) as [_ Ha]. destruct (scalar_range b Lb) as [_ Hb].
  pose proof (toy_utoy _ Ha) as Ua. rewrite E, (toy_utoy _ Hb) in Ua. apply (f_equal (fun x => match x with Ok y => le2n y | _ => 0%N end)) in Ua. cbv beta iota in Ua.
  rewrite !toy_edbase_le2n in Ua by assumption. lia.
Qed.
Lemma toy_pub_neq : forall x y, N.eqb (scalar_of (b32 x)) (scalar_of (b32 y)) = false -> mont_pub toy (b32 x) <> mont_pub toy (b32 y).
Proof. intros x y E Q. apply toy_pub_inj in Q; try apply b32_len. rewrite Q, N.eqb_refl in E. discriminate. Qed.

Lemma alice_wf : forall sh, wf_device (alice_world sh).
Proof.
  intro sh. split; [split; [cbn; discriminate|split; [apply ed_to_mont_length|apply small_u32; reflexivity]]|cbn; discriminate].
Qed.
Lemma bob_wf : forall id sh, wf_device (bob_world id sh).
Proof.
  intros id sh. split; [split; [cbn; discriminate|split; [apply ed_to_mont_length|apply small_u32; reflexivity]]|cbn; discriminate].
Qed.
Lemma bob_bundle_wf : forall once sig, (forall i, once = Some i -> go_u32 i) -> wf_bundle (bob_bundle once sig).
Proof.
  intros once sig G. unfold wf_bundle, wf_key. cbn [bob_bundle bd_reg bd_prekey_id bd_prekey bd_signed_id bd_signed bd_identity].
  split; [apply small_u32; reflexivity|]. split; [exact G|].
  split; [destruct once; [|discriminate]; intros k E; injection E as <-; apply ed_to_mont_length|]. split; [apply small_u32; reflexivity|].
  split; intros k E; injection E as <-; apply ed_to_mont_length.
Qed.
(** The bundle that Bob publishes, signed. *)
Lemma bob_bundle_signed : forall once, exists sig, bundle_signed toy (bob_bundle once sig).
Proof.
  intro once. destruct (signatures toy toy_ok) as (Sg & V & _).
  assert (E : exists k, new_private_key toy bob_key = Ok k /\ sk_pub k = mont_pub toy bob_key) by (eexists; split; reflexivity).
  destruct E as (k & E & Ep). destruct (Sg bob_key k (repeat Byte.x55 64) [Byte.x05 :: mont_pub toy bob_signed_key] E) as (sig & _ & _ & Vs);
    [rewrite repeat_length; apply le_n|]. exists sig. specialize (Vs _ eq_refl). rewrite Ep in Vs. apply V in Vs. destruct Vs as (r & t & y & Q1 & Q2 & Q3 & Q4).
  cbn [List.concat] in Q4. rewrite app_nil_r in Q4. exists (mont_pub toy bob_key), (mont_pub toy bob_signed_key), r, t, y. auto 10.
Qed.
Lemma bob_published : forall id once sig sh, once = None \/ once = Some id -> id <> 0%N ->
  published toy (bob_world id sh) (bob_bundle once sig) bob_key bob_signed_key (match once with Some _ => Some bob_once_key | None => None end).
Proof.
  intros id once sig sh O Ni. split; [apply pair_of_for, b32_len|]. split; [reflexivity|]. split; [reflexivity|]. split.
  - destruct (pair_stored toy bob_signed_key (pair_of toy bob_signed_key)) as (p & E & P); [apply pair_of_for, b32_len|].
    eexists. exists p. split; [reflexivity|]. auto.
  - destruct O as [-> | ->]; [split; reflexivity|]. split; [reflexivity|].
    destruct (pair_stored toy bob_once_key (pair_of toy bob_once_key)) as (p & E & P); [apply pair_of_for, b32_len|].
    exists id. eexists. exists p. split; [reflexivity|]. split; [exact Ni|]. split; [cbn; rewrite N.eqb_refl; reflexivity|]. auto.
Qed.
Lemma alice_rnd_base : firstn 32 alice_rnd = b32 Byte.x41.
Proof. reflexivity. Qed.
Lemma alice_rnd_ratchet : firstn 32 (skipn 32 alice_rnd) = b32 Byte.x42.
Proof. reflexivity. Qed.
Lemma conv_fresh : NoDup [mont_pub toy bob_signed_key; mont_pub toy (b32 Byte.x42); mont_pub toy (b32 Byte.x43)].
Proof.
  repeat constructor; cbn [In]; intro I; repeat destruct I as [I|I]; try exact I; revert I; apply toy_pub_neq; vm_compute; reflexivity.
Qed.

(** A conversation: two messages delivered in the wrong order, a reply, an answer. *)
Lemma run_policy : forall {A} (p : prog A) fs w, w_policy (snd (run p fs w)) = w_policy w.
Proof.
  intros A p. induction p as [r|X o k IH]; intros fs w; cbn [run]; [reflexivity|].
  assert (E : w_policy (snd (exec_f o (hd_fault fs) w)) = w_policy w).
  { unfold exec_f. destruct (fallible o), (hd_fault fs); destruct o; cbn; try reflexivity; destruct (w_shared w); reflexivity. }
  destruct (exec_f o (hd_fault fs) w) as [x w']. cbn [snd] in *. rewrite IH. exact E.
Qed.
Definition open_policy (dev : bool -> world) : Prop := forall side, w_policy (dev side) = all_trusted.
Lemma open_upd : forall dev side w', open_policy dev -> w_policy w' = all_trusted -> open_policy (upd dev side w').
Proof. intros dev side w' O E y. unfold upd. destruct (Bool.eqb y side); auto. Qed.
Lemma conv_send : forall b base dev par keys notes side pt, history toy conv_at b base dev par keys notes -> open_policy dev ->
  (side = true \/ p_epoch (par false) <> 0) -> (p_sent (par side) + 1 < 4294967296)%N ->
  exists c dev', open_policy dev' /\ history toy conv_at b base dev' (upd par side (sent_one (par side))) keys
    (mkNote side (p_epoch (par side)) (p_sent (par side)) pt c :: notes).
Proof.
  intros b base dev par keys notes side pt Hy O Sd G.
  destruct (sendable toy toy_ok b conv_at _ _ _ _ _ side pt Hy Sd G) as (c & w' & E); [rewrite O; reflexivity|].
  exists c, (upd dev side w'). split; [|eapply h_send; eauto]. apply open_upd; [exact O|].
  pose proof (run_policy (encrypt_message toy (conv_at side) pt) [] (dev side)) as Q. unfold run0 in E. rewrite E, O in Q. exact Q.
Qed.
Lemma conv_receive : forall b base dev par keys notes side k n pt c rnd, history toy conv_at b base dev par keys notes -> open_policy dev ->
  In (mkNote (negb side) k n pt c) notes -> receivable (par side) k n -> fresh toy keys (par side) k rnd ->
  exists dev', open_policy dev' /\ history toy conv_at b base dev' (upd par side (party_after (par side) k n)) (keys_after toy keys (par side) k rnd) notes.
Proof.
  intros b base dev par keys notes side k n pt c rnd Hy O I0 Rv Fr.
  destruct (delivered toy toy_ok b conv_at _ _ _ _ _ side k n pt c rnd Hy I0 Rv Fr) as (w' & E); [rewrite O; reflexivity|].
  exists (upd dev side w'). split; [|eapply h_receive; eauto]. apply open_upd; [exact O|].
  pose proof (run_policy (decrypt_message toy (conv_at side) rnd c) [] (dev side)) as Q. unfold run0 in E. rewrite E, O in Q. exact Q.
Qed.
Lemma none_unused : forall w a base, w_sess w a = None -> unused_base w a base.
Proof. intros w a base E r s Q. rewrite E in Q. discriminate. Qed.
Lemma conversation : exists b base dev par keys c1 c2 c3 c4,
  history toy conv_at b base dev par keys
    [mkNote true 3 0 (str "four") c4; mkNote false 2 0 (str "three") c3; mkNote true 1 1 (str "two") c2; mkNote true 1 0 (str "one") c1] /\
  par true = mkParty 3 1 [mkView 0 0 []; mkView 2 0 []] /\
  par false = mkParty 2 1 [mkView 1 1 []] /\ open_policy dev.
Proof.
  destruct (bob_bundle_signed (Some 7%N)) as [sig Sg]. set (b := bob_bundle (Some 7%N) sig) in *.
  set (dev := fun y : bool => if y then alice_world true else bob_world 7 true).
  assert (Pub : published toy (dev false) b bob_key bob_signed_key (Some bob_once_key)).
  { apply (bob_published 7 (Some 7%N) sig true); [right; reflexivity|discriminate]. }
  assert (PA : pair_for toy alice_key (w_pair (dev true))) by (apply pair_of_for, b32_len).
  assert (Wb : wf_bundle b) by (apply bob_bundle_wf; intros i E; injection E as <-; apply small_u32; reflexivity).
  assert (Lr : 64 <= List.length alice_rnd) by (unfold alice_rnd; rewrite app_length, !b32_len; apply le_n).
  destruct (bundle_works toy toy_ok b (conv_at true) (dev true) (dev false) alice_key bob_key bob_signed_key (Some bob_once_key) alice_rnd
    (alice_wf true) PA Pub Sg Lr eq_refl) as (w1 & E1 & _ & Po1).
  pose proof conv_fresh as Nd.
  assert (H1 : history toy conv_at b (mont_pub toy (firstn 32 alice_rnd)) (upd dev true w1) start_party
     [mont_pub toy bob_signed_key; mont_pub toy (firstn 32 (skipn 32 alice_rnd))] []).
  { eapply (h_start toy conv_at b _ dev alice_key bob_key bob_signed_key (Some bob_once_key) alice_rnd [] w1); eauto.
    - apply alice_wf.
    - apply bob_wf.
    - apply none_unused. reflexivity.
    - rewrite alice_rnd_ratchet. apply toy_pub_neq. vm_compute. reflexivity. }
  assert (O1 : open_policy (upd dev true w1)) by (intros []; [exact Po1|reflexivity]).
  rewrite alice_rnd_ratchet in H1. revert H1 O1. generalize (mont_pub toy (firstn 32 alice_rnd)) (upd dev true w1). intros base d1 H1 O1.
  destruct (conv_send _ _ _ _ _ _ true (str "one") H1 O1 (or_introl eq_refl) ltac:(reflexivity)) as (c1 & d2 & O2 & H2).
  destruct (conv_send _ _ _ _ _ _ true (str "two") H2 O2 (or_introl eq_refl) ltac:(reflexivity)) as (c2 & d3 & O3 & H3).
  destruct (conv_receive _ _ _ _ _ _ false 1 1 (str "two") c2 (b32 Byte.x43) H3 O3) as (d4 & O4 & H4).
  { left. reflexivity. }
  { apply rec_new; [reflexivity|discriminate]. }
  { intros _. split; [rewrite b32_len; apply le_n|]. change (firstn 32 (b32 Byte.x43)) with (b32 Byte.x43). inversion Nd as [|? ? N1 N2]; subst. inversion N2 as [|? ? N3 _]; subst.
    intros [E|[E|[]]]; [apply N1; right; left; symmetry; exact E|apply N3; left; symmetry; exact E]. }
  destruct (conv_receive _ _ _ _ _ _ false 1 0 (str "one") c1 [] H4 O4) as (d5 & O5 & H5).
  { right. left. reflexivity. }
  { eapply rec_saved with (v := mkView 1 1 [0%N]); [left; reflexivity|reflexivity|reflexivity|left; reflexivity]. }
  { intro E. discriminate E. }
  destruct (conv_send _ _ _ _ _ _ false (str "three") H5 O5) as (c3 & d6 & O6 & H6); [right; discriminate|reflexivity|].
  destruct (conv_receive _ _ _ _ _ _ true 2 0 (str "three") c3 (b32 Byte.x44) H6 O6) as (d7 & O7 & H7).
  { left. reflexivity. }
  { apply rec_new; [reflexivity|discriminate]. }
  { intros _. split; [rewrite b32_len; apply le_n|]. change (firstn 32 (b32 Byte.x44)) with (b32 Byte.x44).
    cbn [keys_after Nat.eqb p_epoch start_party upd Bool.eqb party_after sent_one app In]. change (firstn 32 (b32 Byte.x43)) with (b32 Byte.x43).
    intros I0; repeat destruct I0 as [I0|I0]; try exact I0; revert I0; apply toy_pub_neq; vm_compute; reflexivity. }
  destruct (conv_send _ _ _ _ _ _ true (str "four") H7 O7 (or_introl eq_refl) ltac:(reflexivity)) as (c4 & d8 & O8 & H8).
  exists b, base, d8. eexists. eexists. exists c1, c2, c3, c4. split; [exact H8|]. split; [reflexivity|]. split; [reflexivity|exact O8].
Qed.
