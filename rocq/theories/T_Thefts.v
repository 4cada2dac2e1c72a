(** Any number of thefts and leaks: C79. *)
From Verif Require Import M_Base M_Crypto M_Aes M_Curve M_Message M_Ratchet M_State M_Store M_Session
  S_Crypto S_Message S_Shape S_Ratchet S_Session S_Api S_Send S_Group S_X3dh S_Receive S_Conv S_History S_Used S_Speak S_Secrecy S_Thefts
  P_History P_Captured P_Thefts K_Toy K_World K_Receive K_Conv K_Cut K_Theft.
Local Open Scope nat_scope.

(** * C79 *)
(** Both devices are copied any number of times, and any set [X] of private keys leaks as
    well. Every stolen session and every message consist of exactly the listed terms, and a
    plaintext can be derived exactly if it is open. *)
Theorem c79_exact : forall C b at_ base dev par keys notes l, CryptoOk C -> heist C at_ b base dev par keys notes l ->
  exists pr tx, names C pr b base dev keys /\
    (forall th s, In th l -> th_side th = true \/ p_epoch (th_party th) <> 0 -> current_session (th_device th) (at_ (th_side th)) = Some s ->
       session_secrets s = map (value C pr tx) (held (one_time b) (th_party th))) /\
    (forall x m, In x notes -> inner (nt_cipher x) = Some m -> tx (nt_epoch x) (nt_counter x) = nt_text x /\
       sg_body m = value C pr tx (body_of (one_time b) (nt_epoch x) (nt_counter x)) /\
       exists ser text, sg_raw m = ser ++ value C pr tx (tag_of (one_time b) (nt_epoch x) (nt_counter x) text)) /\
    (forall X x, In x notes -> (plundered C b X l notes x <-> opened C b X l x)).
Proof. intros C b at_ base dev par keys notes l H. exact (plunder C H b at_ base dev par keys notes l). Qed.
Print Assumptions c79_exact.
(** The initiator of the conversation of K_Conv.v is robbed when it has set it up, in epoch 1,
    and at the end, in epoch 3: all four messages are open, also "four", which neither of the
    thefts would open by itself. *)
Example c79_exact_case : exists b base dev par keys c1 c2 c3 c4 th1 th2,
  let x1 := mkNote true 1 0 (str "one") c1 in let x2 := mkNote true 1 1 (str "two") c2 in
  let x3 := mkNote false 2 0 (str "three") c3 in let x4 := mkNote true 3 0 (str "four") c4 in let notes := [x4; x3; x2; x1] in
  let no := fun _ : atom => False in
  heist toy conv_at b base dev par keys notes [th2; th1] /\ heist toy conv_at b base dev par keys notes [th1] /\ heist toy conv_at b base dev par keys notes [th2] /\
  (forall x, In x notes -> plundered toy b no [th2; th1] notes x) /\ ~ plundered toy b no [th1] notes x4 /\ ~ plundered toy b no [th2] notes x4.
Proof.
  destruct conversation as (b & base & dev & par & keys & c1 & c2 & c3 & c4 & Hy & Pt & _).
  destruct (from_start _ _ _ _ _ _ _ _ Hy) as (dev0 & keys0 & H0 & L).
  set (th1 := mkTheft true (dev0 true) (start_party true)). set (th2 := mkTheft true (dev true) (par true)).
  assert (G1 : heist toy conv_at b base dev par keys _ [th1]) by (eapply g_later; [apply g_steal, g_none, H0|exact L]).
  pose proof (g_steal _ _ _ _ _ _ _ _ _ true G1) as G12. pose proof (g_steal _ _ _ _ _ _ _ _ _ true (g_none _ _ _ _ _ _ _ _ Hy)) as G2. fold th2 in G12, G2.
  exists b, base, dev, par, keys, c1, c2, c3, c4, th1, th2. cbv zeta. split; [exact G12|]. split; [exact G1|]. split; [exact G2|].
  assert (Nb : forall side w, ~ device_keys toy b true w (ARatchet side)) by (intros k w (_ & X & _); discriminate).
  split; [|split].
  - intros x J. apply (plundered_iff toy toy_ok b conv_at _ _ _ _ _ _ _ x G12 J).
    assert (Ep : nt_epoch x = 1 \/ 1 < nt_epoch x <= 4) by (destruct J as [<-|[<-|[<-|[<-|[]]]]]; cbn [nt_epoch]; auto; right; repeat constructor).
    destruct Ep as [Ep|Ep].
    + right. left. exists (start_party true). cbn [map th_party th1 th2]. split; [right; left; reflexivity|]. split; [discriminate|]. split; [exact Ep|]. apply N.le_0_l.
    + apply (plundered_iff toy toy_ok b conv_at _ _ _ _ _ _ (fun _ => False) x G12 J).
      apply (two_thefts toy toy_ok b conv_at _ _ _ _ _ _ _ x th1 th2 G12 J); [right; left; reflexivity|left; reflexivity|discriminate| |exact Ep].
      cbn [th2 th_party]. rewrite Pt. reflexivity.
  - apply (all_healed toy toy_ok b conv_at _ _ _ _ _ _ _ _ 1 G1); [left; reflexivity| |intros j []|apply le_n].
    intros th [<-|[]]. apply le_n.
  - intro D. apply (plundered_iff toy toy_ok b conv_at _ _ _ _ _ _ _ _ G2 ltac:(left; reflexivity)) in D. unfold opened in D. cbn [map th_party th2 nt_epoch nt_counter] in D. rewrite Pt in D.
    destruct D as [(p & v & [<-|[]] & _ & [<-|[<-|[]]] & E & _)|[(p & [<-|[]] & _ & _ & X)|(j & E & R & _)]]; [discriminate E|discriminate E|apply X; reflexivity|].
    injection E as <-.
    assert (R' : forall j, root_open (one_time b) [mkParty 3 1 [mkView 0 0 []; mkView 2 0 []]] (leaked toy b (fun _ => False) [th2]) j -> 3 <= j).
    { intros j Q. induction Q as [p [<-|[]] _|S1 S2 S3 S4|k Q IH S]; [apply le_n| |apply le_S, IH].
      exfalso. destruct S3 as [[[[]|(th & [<-|[]] & X)]|(p & [<-|[]] & _ & X)]|[[[]|(th & [<-|[]] & X)]|(p & [<-|[]] & _ & X)]]; try discriminate X.
      - exact X.
      - exact (Nb _ _ X). }
    specialize (R' _ R). inversion R' as [|? R1]. inversion R1 as [|? R2]. inversion R2.
Qed.
(** The network alone learns nothing, even if both identity keys and the one-time pre-key leak
    at any time: a message is safe as long as the base key and the signed pre-key are. *)
Theorem c79_network : forall C b at_ base dev par keys notes (X : atom -> Prop) x, CryptoOk C -> history C at_ b base dev par keys notes -> In x notes ->
  ~ X ABase -> ~ X (ARatchet 0) -> ~ plundered C b X [] notes x.
Proof. intros C b at_ base dev par keys notes X x H. exact (identities_only C H b at_ base dev par keys notes X x). Qed.
Print Assumptions c79_network.
Example c79_network_case : exists b base dev par keys c1, let x1 := mkNote true 1 0 (str "one") c1 in
  let X := fun a => a = AIdent true \/ a = AIdent false \/ a = AOneTime in
  history toy conv_at b base dev par keys [x1] /\ ~ X ABase /\ ~ X (ARatchet 0) /\ ~ plundered toy b X [] [x1] x1.
Proof.
  destruct just_sent as (b & base & dev & par & keys & c1 & Hy & _). exists b, base, dev, par, keys, c1. cbv zeta.
  split; [exact Hy|]. assert (X1 : ~ (ABase = AIdent true \/ ABase = AIdent false \/ ABase = AOneTime)) by (intros [X|[X|X]]; discriminate).
  assert (X2 : ~ (ARatchet 0 = AIdent true \/ ARatchet 0 = AIdent false \/ ARatchet 0 = AOneTime)) by (intros [X|[X|X]]; discriminate).
  split; [exact X1|]. split; [exact X2|].
  exact (identities_only toy toy_ok b conv_at _ _ _ _ _ (fun a => a = AIdent true \/ a = AIdent false \/ a = AOneTime) _ Hy (or_introl eq_refl) X1 X2).
Qed.
(** Two epochs after the last of any number of thefts and leaked ratchet keys, everything is
    safe again, whatever else has leaked. *)
Theorem c79_healed : forall C b at_ base dev par keys notes l (X : atom -> Prop) x last, CryptoOk C -> heist C at_ b base dev par keys notes l -> In x notes ->
  (forall th, In th l -> p_epoch (th_party th) <= last) -> (forall j, X (ARatchet j) -> j <= last) ->
  last + 2 <= nt_epoch x -> ~ plundered C b X l notes x.
Proof. intros C b at_ base dev par keys notes l X x last H. exact (all_healed C H b at_ base dev par keys notes l X x last). Qed.
Print Assumptions c79_healed.
(** Everything of the set-up leaks, and both devices are robbed at once when it is done. *)
Example c79_healed_case : exists b base dev par keys c1 c2 c3 c4 l,
  let x1 := mkNote true 1 0 (str "one") c1 in let x2 := mkNote true 1 1 (str "two") c2 in
  let x3 := mkNote false 2 0 (str "three") c3 in let x4 := mkNote true 3 0 (str "four") c4 in let notes := [x4; x3; x2; x1] in
  let X := fun a => a = AIdent true \/ a = AIdent false \/ a = ABase \/ a = AOneTime \/ a = ARatchet 0 \/ a = ARatchet 1 in
  heist toy conv_at b base dev par keys notes l /\ map th_side l = [false; true] /\ ~ plundered toy b X l notes x4.
Proof.
  destruct conversation as (b & base & dev & par & keys & c1 & c2 & c3 & c4 & Hy & _).
  destruct (from_start _ _ _ _ _ _ _ _ Hy) as (dev0 & keys0 & H0 & L).
  assert (G : heist toy conv_at b base dev par keys _ [mkTheft false (dev0 false) (start_party false); mkTheft true (dev0 true) (start_party true)])
    by (eapply g_later; [apply g_steal, g_steal, g_none, H0|exact L]).
  exists b, base, dev, par, keys, c1, c2, c3, c4. eexists. cbv zeta. split; [exact G|]. split; [reflexivity|].
  apply (all_healed toy toy_ok b conv_at _ _ _ _ _ _ _ _ 1 G); [left; reflexivity| | |apply le_n].
  - intros th [<-|[<-|[]]]; repeat constructor.
  - intros j [E|[E|[E|[E|[E|E]]]]]; try discriminate E; injection E as ->; repeat constructor.
Qed.
(** Two thefts of a device in successive epochs of its own open all that lies between, up to
    the peer's next epoch: more than each of them does (example above). *)
Theorem c79_two_thefts : forall C b at_ base dev par keys notes l X x th1 th2, CryptoOk C -> heist C at_ b base dev par keys notes l -> In x notes -> In th1 l -> In th2 l ->
  p_epoch (th_party th1) <> 0 -> p_epoch (th_party th2) = p_epoch (th_party th1) + 2 ->
  p_epoch (th_party th1) < nt_epoch x <= p_epoch (th_party th1) + 3 -> plundered C b X l notes x.
Proof. intros C b at_ base dev par keys notes l X x th1 th2 H. exact (two_thefts C H b at_ base dev par keys notes l X x th1 th2). Qed.
Print Assumptions c79_two_thefts.
