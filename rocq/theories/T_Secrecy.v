(** What the thief of a device can decrypt: C77 and C78. *)
From Verif Require Import M_Base M_Crypto M_Aes M_Curve M_Message M_Ratchet M_State M_Store M_Session
  S_Crypto S_Message S_Shape S_Ratchet S_Session S_Api S_Send S_Group S_X3dh S_Receive S_Conv S_History S_Used S_Speak S_Secrecy
  P_History P_Captured K_Toy K_World K_Receive K_Conv K_Cut K_Theft.
Local Open Scope nat_scope.

(** * C77 *)
(** A device is stolen in the middle of a conversation, which goes on. There are private keys
    so that the stored session consists of exactly the listed terms and every message before
    and after the theft is the listed encryption and tag; and from these, its stores and all
    recorded messages the thief can derive a plaintext exactly if it is exposed. *)
Theorem c77_exact : forall C b at_ base dev par keys notes dev1 par1 keys1 notes1 side, CryptoOk C ->
  history C at_ b base dev par keys notes -> later C at_ b base dev par keys notes dev1 par1 keys1 notes1 ->
  exists pr tx, names C pr b base dev keys1 /\
    (forall s, side = true \/ p_epoch (par false) <> 0 -> current_session (dev side) (at_ side) = Some s ->
       session_secrets s = map (value C pr tx) (held (one_time b) (par side))) /\
    (forall x m, In x notes1 -> inner (nt_cipher x) = Some m -> tx (nt_epoch x) (nt_counter x) = nt_text x /\
       sg_body m = value C pr tx (body_of (one_time b) (nt_epoch x) (nt_counter x)) /\
       exists ser text, sg_raw m = ser ++ value C pr tx (tag_of (one_time b) (nt_epoch x) (nt_counter x) text)) /\
    (forall x, In x notes1 ->
       (stolen C b side (dev side) (par side) notes1 x <-> exposed C b side (dev side) (par side) (nt_epoch x) (nt_counter x))).
Proof. intros C b at_ base dev par keys notes dev1 par1 keys1 notes1 side H. exact (captured C H b at_ base dev par keys notes dev1 par1 keys1 notes1 side). Qed.
Print Assumptions c77_exact.
(** The conversation of K_Conv.v (C23). The thief of the initiator's device, at its end, reads
    the responder's last message and none that the initiator sent. *)
Example c77_exact_case : exists b base dev par keys c1 c2 c3 c4,
  let x1 := mkNote true 1 0 (str "one") c1 in let x2 := mkNote true 1 1 (str "two") c2 in
  let x3 := mkNote false 2 0 (str "three") c3 in let x4 := mkNote true 3 0 (str "four") c4 in let notes := [x4; x3; x2; x1] in
  history toy conv_at b base dev par keys notes /\
  ~ stolen toy b true (dev true) (par true) notes x1 /\ ~ stolen toy b true (dev true) (par true) notes x2 /\
  stolen toy b true (dev true) (par true) notes x3 /\ ~ stolen toy b true (dev true) (par true) notes x4.
Proof.
  destruct conversation as (b & base & dev & par & keys & c1 & c2 & c3 & c4 & Hy & Pt & Pf & _).
  exists b, base, dev, par, keys, c1, c2, c3, c4. cbv zeta. split; [exact Hy|].
  pose proof (robbed_iff toy toy_ok b conv_at _ _ _ _ _ _ _ _ _ true Hy (l_now _ _ _ _ _ _ _ _)) as Q. rewrite Pt in Q. rewrite Pt.
  assert (O : forall k n, exposed toy b true (dev true) (mkParty 3 1 [mkView 0 0 []; mkView 2 0 []]) k n ->
    (k = 0 \/ k = 2) \/ k = 3 /\ (1 <= n)%N \/ k = 4).
  { intros k n [(v & [<-|[<-|[]]] & E & _)|[(_ & X)|((X & _) & _)]]; [cbn in E; auto|cbn in E; auto|cbn in X; tauto|discriminate]. }
  repeat split; try (intro D; apply Q in D; [|cbn [In]; tauto]; apply O in D; cbn [nt_epoch nt_counter] in D).
  - destruct D as [[D|D]|[[D _]|D]]; discriminate.
  - destruct D as [[D|D]|[[D _]|D]]; discriminate.
  - apply Q; [cbn [In]; tauto|]. left. exists (mkView 2 0 []). split; [right; left; reflexivity|]. split; [reflexivity|]. left. apply N.le_refl.
  - destruct D as [[D|D]|[[_ D]|D]]; [discriminate|discriminate| |discriminate]. apply D. reflexivity.
Qed.
(** Forward secrecy does not hold for received messages: one that has just been read in its
    turn can be read by the thief, in every conversation. *)
Theorem c77_read_refuted : forall C b at_ base dev par keys notes dev1 par1 keys1 notes1 side k n pt c rnd fs pt' w', CryptoOk C ->
  history C at_ b base dev par keys notes -> In (mkNote (negb side) k n pt c) notes -> receivable (par side) k n ->
  fresh C keys (par side) k rnd -> run (decrypt_message C (at_ side) rnd c) fs (dev side) = (Ok pt', w') ->
  (forall v, In v (p_views (par side)) -> rv_epoch v = k -> (rv_idx v <= n)%N) ->
  let dev0 := upd dev side w' in let par0 := upd par side (party_after (par side) k n) in
  later C at_ b base dev0 par0 (keys_after C keys (par side) k rnd) notes dev1 par1 keys1 notes1 ->
  stolen C b side (dev0 side) (par0 side) notes1 (mkNote (negb side) k n pt c).
Proof. intros C b at_ base dev par keys notes dev1 par1 keys1 notes1 side k n pt c rnd fs pt' w' H. exact (just_read C H b at_ base dev par keys notes dev1 par1 keys1 notes1 side k n pt c rnd fs pt' w'). Qed.
Print Assumptions c77_read_refuted.
Example c77_read_case : exists b base dev par keys c1 c2,
  let x1 := mkNote true 1 0 (str "one") c1 in let x2 := mkNote true 1 1 (str "two") c2 in
  history toy conv_at b base dev par keys [x2; x1] /\ stolen toy b false (dev false) (par false) [x2; x1] x2.
Proof.
  destruct half_way as (b & base & dev & par & keys & c1 & c2 & Hy & Pt & Pf & _).
  exists b, base, dev, par, keys, c1, c2. cbv zeta. split; [exact Hy|].
  apply (robbed_iff toy toy_ok b conv_at _ _ _ _ _ _ _ _ _ false Hy (l_now _ _ _ _ _ _ _ _)); [left; reflexivity|].
  rewrite Pf. left. exists (mkView 1 1 [0%N]). split; [left; reflexivity|]. split; [reflexivity|]. left. apply N.le_refl.
Qed.
(** Of the messages of epochs that have begun to arrive, the thief reads those that the
    device itself could still decrypt, and those of the first epoch as long as the device
    has the pre-keys of the set-up (forever, if no one-time pre-key was used and the signed
    pre-key is kept). *)
Theorem c77_received_exact : forall C b at_ base dev par keys notes dev1 par1 keys1 notes1 x m s, CryptoOk C ->
  history C at_ b base dev par keys notes -> later C at_ b base dev par keys notes dev1 par1 keys1 notes1 -> In x notes ->
  let side := negb (nt_from x) in
  inner (nt_cipher x) = Some m -> current_session (dev side) (at_ side) = Some s -> nt_epoch x < p_epoch (par side) ->
  (stolen C b side (dev side) (par side) notes1 x <-> can_read C s m (nt_text x) \/ setup_open C b side (dev side) /\ nt_epoch x = 1).
Proof. intros C b at_ base dev par keys notes dev1 par1 keys1 notes1 x m s H. exact (read_iff C H b at_ base dev par keys notes dev1 par1 keys1 notes1 x m s). Qed.
Print Assumptions c77_received_exact.
(** The responder of the conversation withdraws its signed pre-key. Then the thief cannot
    read "one", which the responder read last. *)
Example c77_received_case : exists b base dev par keys c1 c2 c3 c4 m1 s,
  let x1 := mkNote true 1 0 (str "one") c1 in let x2 := mkNote true 1 1 (str "two") c2 in
  let x3 := mkNote false 2 0 (str "three") c3 in let x4 := mkNote true 3 0 (str "four") c4 in let notes := [x4; x3; x2; x1] in
  history toy conv_at b base dev par keys notes /\ inner c1 = Some m1 /\ current_session (dev false) (conv_at false) = Some s /\
  1 < p_epoch (par false) /\ ~ can_read toy s m1 (str "one") /\ ~ stolen toy b false (dev false) (par false) notes x1.
Proof.
  destruct conversation as (b & base & dev & par & keys & c1 & c2 & c3 & c4 & Hy & Pt & Pf & _).
  set (x1 := mkNote true 1 0 (str "one") c1) in *.
  destruct (P_Header.headers toy toy_ok b conv_at _ _ _ _ _ x1 Hy ltac:(cbn [In]; tauto)) as (m1 & I1 & _).
  assert (Nz : p_epoch (par false) <> 0) by (rewrite Pf; discriminate).
  destruct (history_in_step toy toy_ok b conv_at _ _ _ _ _ Hy) as (k & ks & (_ & _ & _ & _ & _ & _ & _ & _ & Wd & _ & Ss & _)).
  destruct (Ss false (or_intror Nz)) as (r & s & R1 & R2 & _).
  assert (Es : current_session (dev false) (conv_at false) = Some s) by (unfold current_session; rewrite R1; exact R2).
  assert (Hy' : history toy conv_at b base (upd dev false (withdrawn (dev false))) par keys
     [mkNote true 3 0 (str "four") c4; mkNote false 2 0 (str "three") c3; mkNote true 1 1 (str "two") c2; x1]).
  { apply h_other; [exact Hy|]. split; [apply withdrawn_wf, Wd|]. split; [reflexivity|]. left. split; [right; exact Nz|reflexivity]. }
  exists b, base, (upd dev false (withdrawn (dev false))), par, keys, c1, c2, c3, c4, m1, s. cbv zeta.
  assert (Ex : ~ exists v, In v (p_views (par false)) /\ rv_epoch v = 1 /\ ((rv_idx v <= 0)%N \/ In 0%N (rv_saved v))).
  { rewrite Pf. intros (v & [<-|[]] & _ & [X|[]]). apply X. reflexivity. }
  split; [exact Hy'|]. split; [exact I1|]. split; [exact Es|]. split; [rewrite Pf; apply le_n|]. split.
  - intro X. apply Ex. apply (P_Used.read_exact toy toy_ok b conv_at _ _ _ _ _ x1 m1 s Hy ltac:(cbn [In]; tauto) I1 (or_intror Nz) Es). exact X.
  - intro D. apply (robbed_iff toy toy_ok b conv_at _ _ _ _ _ _ _ _ _ false Hy' (l_now _ _ _ _ _ _ _ _)) in D; [|cbn [In]; tauto].
    destruct D as [D|[(_ & [[D _]|D])|[D _]]]; [exact (Ex D)|rewrite Pf in D; discriminate|rewrite Pf in D; discriminate|].
    exact (withdrawn_closed _ _ _ _ D).
Qed.
(** Before the first message arrives, the responder's device opens all of the first epoch. *)
Theorem c77_not_yet : forall C b at_ base dev par keys notes dev1 par1 keys1 notes1 x, CryptoOk C ->
  history C at_ b base dev par keys notes -> p_epoch (par false) = 0 -> later C at_ b base dev par keys notes dev1 par1 keys1 notes1 ->
  In x notes1 -> (stolen C b false (dev false) (par false) notes1 x <-> nt_epoch x = 1).
Proof. exact not_yet_iff. Qed.
Print Assumptions c77_not_yet.
Example c77_not_yet_case : exists b base dev par keys c1, let x1 := mkNote true 1 0 (str "one") c1 in
  history toy conv_at b base dev par keys [x1] /\ p_epoch (par false) = 0 /\ stolen toy b false (dev false) (par false) [x1] x1.
Proof.
  destruct just_sent as (b & base & dev & par & keys & c1 & Hy & Z & _). exists b, base, dev, par, keys, c1. cbv zeta.
  split; [exact Hy|]. split; [exact Z|]. apply (not_yet_iff toy b conv_at _ _ _ _ _ _ _ _ _ _ toy_ok Hy Z (l_now _ _ _ _ _ _ _ _)); [left; reflexivity|reflexivity].
Qed.
(** Forward secrecy does hold for the messages that the device has sent, except for the
    responder's first ones while it has the pre-keys of the set-up. *)
Theorem c77_sent_safe : forall C b at_ base dev par keys notes dev1 par1 keys1 notes1 x, CryptoOk C ->
  history C at_ b base dev par keys notes -> later C at_ b base dev par keys notes dev1 par1 keys1 notes1 -> In x notes ->
  let side := nt_from x in ~ (setup_open C b side (dev side) /\ p_epoch (par side) = 2) -> ~ stolen C b side (dev side) (par side) notes1 x.
Proof. intros C b at_ base dev par keys notes dev1 par1 keys1 notes1 x H. exact (own_safe C H b at_ base dev par keys notes dev1 par1 keys1 notes1 x). Qed.
Print Assumptions c77_sent_safe.
Example c77_sent_case : exists b base dev par keys c1 c2 c3 c4,
  let x1 := mkNote true 1 0 (str "one") c1 in let x2 := mkNote true 1 1 (str "two") c2 in
  let x3 := mkNote false 2 0 (str "three") c3 in let x4 := mkNote true 3 0 (str "four") c4 in let notes := [x4; x3; x2; x1] in
  history toy conv_at b base dev par keys notes /\ ~ stolen toy b true (dev true) (par true) notes x4 /\
  ~ (setup_open toy b true (dev true) /\ p_epoch (par true) = 2).
Proof.
  destruct conversation as (b & base & dev & par & keys & c1 & c2 & c3 & c4 & Hy & Pt & Pf & _).
  exists b, base, dev, par, keys, c1, c2, c3, c4. cbv zeta. split; [exact Hy|].
  assert (X : ~ (setup_open toy b true (dev true) /\ p_epoch (par true) = 2)) by (intros [(X & _) _]; discriminate). split; [|exact X].
  exact (own_safe toy toy_ok b conv_at _ _ _ _ _ _ _ _ _ (mkNote true 3 0 (str "four") c4) Hy (l_now _ _ _ _ _ _ _ _) ltac:(cbn [In]; tauto) X).
Qed.

(** * C78 *)
(** The conversation heals: two epochs after the one that the device was in when everything
    on it was stolen, nothing that either party sends can be read with the loot. *)
Theorem c78_healed : forall C b at_ base dev par keys notes dev1 par1 keys1 notes1 side x, CryptoOk C ->
  history C at_ b base dev par keys notes -> later C at_ b base dev par keys notes dev1 par1 keys1 notes1 -> In x notes1 ->
  p_epoch (par side) + 2 <= nt_epoch x -> ~ stolen C b side (dev side) (par side) notes1 x.
Proof. intros C b at_ base dev par keys notes dev1 par1 keys1 notes1 side x H. exact (healed C H b at_ base dev par keys notes dev1 par1 keys1 notes1 side x). Qed.
Print Assumptions c78_healed.
(** The initiator's device is stolen as soon as it has set up the conversation. The thief
    reads the first three messages, not the fourth. *)
Example c78_healed_case : exists b base dev keys dev1 par1 keys1 c1 c2 c3 c4,
  let x1 := mkNote true 1 0 (str "one") c1 in let x2 := mkNote true 1 1 (str "two") c2 in
  let x3 := mkNote false 2 0 (str "three") c3 in let x4 := mkNote true 3 0 (str "four") c4 in let notes1 := [x4; x3; x2; x1] in
  history toy conv_at b base dev start_party keys [] /\ later toy conv_at b base dev start_party keys [] dev1 par1 keys1 notes1 /\
  let stolen := stolen toy b true (dev true) (start_party true) notes1 in stolen x1 /\ stolen x2 /\ stolen x3 /\ ~ stolen x4.
Proof.
  destruct conversation as (b & base & dev1 & par1 & keys1 & c1 & c2 & c3 & c4 & Hy & _).
  destruct (from_start _ _ _ _ _ _ _ _ Hy) as (dev & keys & H0 & L).
  exists b, base, dev, keys, dev1, par1, keys1, c1, c2, c3, c4. cbv zeta. split; [exact H0|]. split; [exact L|].
  pose proof (robbed_iff toy toy_ok b conv_at _ _ _ _ _ _ _ _ _ true H0 L) as Q.
  split; [|split; [|split]].
  - apply Q; [cbn [In]; tauto|]. right. left. split; [discriminate|]. left. split; [reflexivity|]. apply N.le_0_l.
  - apply Q; [cbn [In]; tauto|]. right. left. split; [discriminate|]. left. split; [reflexivity|]. apply N.le_0_l.
  - apply Q; [cbn [In]; tauto|]. right. left. split; [discriminate|]. right. reflexivity.
  - exact (healed toy toy_ok b conv_at _ _ _ _ _ _ _ _ _ true (mkNote true 3 0 (str "four") c4) H0 L ltac:(cbn [In]; tauto) (le_n 3)).
Qed.
