(** Accepted messages are the peer's or forgeries (C74). *)
From Verif Require Import M_Base M_Crypto M_Aes M_Curve M_Proto M_Message M_Ratchet M_State M_Store M_Session M_Group
  S_Crypto S_Message S_State S_Shape S_Ratchet S_Session S_Aes S_Api S_Send S_Group S_Curve S_X3dh S_Receive S_Conv S_History S_Header S_Size S_Transit S_Used S_Speak
  P_Base P_Proto P_Curve P_State P_Shape P_Ratchet P_Message P_Aes P_Chain P_Decrypt P_Receive P_Encrypt P_Record P_Prog P_Api
  P_Init P_Send P_Conv P_X3dh P_Conv2 P_Bundle P_DecApi P_DecTop P_DecMore P_Replay P_Trust P_History P_Size P_Header P_Transit P_Used.
From Coq Require Import ZifyBool ZifyNat ZifyN.
Local Open Scope nat_scope.

Lemma tagged_split : forall C key s r raw, CryptoOk C -> tagged C key s r raw ->
  raw = firstn (List.length raw - 8) raw ++ firstn 8 (c_hmac C key ((Byte.x05 :: s) ++ (Byte.x05 :: r) ++ firstn (List.length raw - 8) raw)).
Proof.
  intros C key s r raw H (ser & E).
  assert (L : List.length (firstn 8 (c_hmac C key ((Byte.x05 :: s) ++ (Byte.x05 :: r) ++ ser))) = 8) by (rewrite firstn_length, (ok_hmac_len C H); reflexivity).
  assert (Q : firstn (List.length raw - 8) raw = ser).
  { rewrite E at 2. apply firstn_app_len. rewrite E, app_length, L. lia. }
  rewrite Q. exact E.
Qed.
Lemma same_text_raw : forall C key s r m m', CryptoOk C -> tagged C key s r (sg_raw m) -> tagged C key s r (sg_raw m') ->
  tagged_text m' = tagged_text m -> sg_raw m' = sg_raw m.
Proof.
  intros C key s r m m' H T T' E. unfold tagged_text in E. rewrite (tagged_split _ _ _ _ _ H T), (tagged_split _ _ _ _ _ H T'), E. reflexivity.
Qed.

Lemma parse_signal_wf : forall x m, parse_signal x = Ok m -> wf_signal m.
Proof.
  intros x m E. destruct (parse_signal_accepts _ _ E) as (v & body & tr & fs & kr & Ex & Lt & _ & _ & _ & Lr & V & Raw & G & _).
  split; [exact Lr|]. split; [exact G|]. split; [|exact V]. rewrite Raw, Ex. cbn [List.length]. rewrite app_length, Lt. lia.
Qed.
Lemma parse_prekey_wf : forall x m, parse_prekey_msg x = Ok m -> wf_prekeymsg m.
Proof.
  intros x m E. destruct (parse_prekey_accepts _ _ E) as (v & body & fs & k1 & k2 & Ex & _ & _ & _ & Lb & _ & Li & _ & P & V & _ & _ & _ & _ & G1 & G2 & G3).
  split; [exact V|]. split; [exact Lb|]. split; [exact Li|]. split; [exact G1|]. split; [exact G2|]. split; [exact G3|]. exact (parse_signal_wf _ _ P).
Qed.

Section Speak.
Variable C : Crypto.
Hypothesis H : CryptoOk C.
Variable b : bundle.
Variable at_ : bool -> addr.

(** The keys a session assigns to a position of the peer are those the peer used. *)
Lemma position_keys : forall k ks base dev par keys notes side s ep n mk, in_step C b at_ k ks base dev par keys notes ->
  side = true \/ p_epoch (par false) <> 0 -> current_session (dev side) (at_ side) = Some s -> ep < List.length ks ->
  in_reach (par side) ep -> message_keys_of C s (kpub C ks ep) n mk ->
  keys_at C (chain_at C (kchain C (sroot C k) (schain C k) ks ep) (N.to_nat n)) n mk.
Proof using H.
  intros k ks base dev par keys notes side s ep n mk St Sd Es Lep Rch Mk.
  destruct Mk as [(c & ck & Ic & Rt & Kc & [[Ln (x & Ix & Xn & Em)]|(Ln & _ & Ka)])|(Nc & _ & sc & root' & ck & Sc & _ & Hk & L1 & L2 & Ka)].
  - eapply held_keys; eauto. right. exists c, x. auto.
  - eapply held_keys; eauto. left. exists c, ck. auto 10.
  - destruct St as (So & _ & Eks & Ko & _ & Lk & Adj & _ & _ & _ & Ss & _).
    destruct (Ss side Sd) as (r & s0 & R1 & R2 & (P1 & P2 & P3 & P4 & P5 & (sc' & C1 & C2 & C3 & C4 & C5) & P6 & P7 & P8 & P9) & _).
    unfold current_session in Es. rewrite R1 in Es. assert (s0 = s) by congruence. subst s0. clear Es.
    assert (sc' = sc) by congruence. subst sc'. destruct Rch as [J|Ee].
    + exfalso. apply in_map_iff in J. destruct J as (v & <- & Iv). destruct (forall2_in_l _ _ _ _ P7 Iv) as (c & Ic & (V1 & _)). exact (Nc c Ic V1).
    + set (e := p_epoch (par side)) in *. subst ep.
      assert (Lx : List.length (kkey ks e) = 32) by (apply (kkey_len C); auto).
      assert (Lx' : List.length (kkey ks (S e)) = 32) by (apply (kkey_len C); auto).
      assert (D : c_x25519 C (pc_ratchet_priv sc) (kpub C ks (S e)) = c_x25519 C (kkey ks (S e)) (kpub C ks e)).
      { rewrite C3, (ok_x_clamp C H) by exact Lx. unfold kpub. apply (ok_dh C H); auto. }
      rewrite D, P5 in Hk.
      assert (Ec : ck = kchain C (sroot C k) (schain C k) ks (S e)).
      { unfold kchain. cbn [sched snd]. change (fst (sched C (sroot C k) (schain C k) ks e)) with (kroot C (sroot C k) (schain C k) ks e).
        rewrite <- Hk. rewrite <- L1 at 1. rewrite skipn_app_exact. reflexivity. }
      rewrite <- Ec. exact Ka.
Qed.


Lemma parse_raw : forall x m, parse_signal x = Ok m -> sg_raw m = x.
Proof.
  intros x m E. unfold parse_signal in E. destruct x as [|v r]; [discriminate|]. destruct (negb _); [discriminate|]. destruct (Nat.ltb _ _); [discriminate|].
  destruct (dec_fields _); [|discriminate]. destruct (new_public_key _); cbn [bind] in E; [|discriminate..].
  apply (f_equal (fun y => match y with Ok a => sg_raw a | _ => sg_raw m end)) in E. symmetry. exact E.
Qed.
Lemma parse_inner : forall x m, parse_prekey_msg x = Ok m -> parse_signal (sg_raw (pm_message m)) = Ok (pm_message m).
Proof.
  intros x m E. unfold parse_prekey_msg in E. destruct x as [|v r]; [discriminate|]. destruct (negb _); [discriminate|].
  destruct (dec_fields _) as [fs|]; [|discriminate]. destruct (new_public_key _); cbn [bind] in E; [|discriminate..]. destruct (new_public_key _); cbn [bind] in E; [|discriminate..].
  destruct (parse_signal _) as [msg| |] eqn:P; cbn [bind] in E; [|discriminate..].
  apply (f_equal (fun y => match y with Ok a => pm_message a | _ => pm_message m end)) in E. cbn [pm_message] in E. rewrite <- E.
  rewrite (parse_raw _ _ P). exact P.
Qed.
Lemma note_parses : forall base dev par keys notes x m, history C at_ b base dev par keys notes -> In x notes ->
  (size (nt_text x) < 2 ^ 62)%N -> inner (nt_cipher x) = Some m -> parse_signal (sg_raw m) = Ok m.
Proof using H.
  intros base dev par keys notes x m Hy J Sz Im. pose proof (in_transit C H b at_ _ _ _ _ _ _ Hy J Sz) as T.
  destruct (nt_cipher x) as [m0|pm|?|?]; cbn [inner] in Im; try discriminate; unfold unposted in T; cbn [posted fst snd] in T.
  - assert (m0 = m) by congruence. subst m0. destruct (parse_signal (sg_raw m)) as [q| |]; cbn [bind] in T; [|discriminate..].
    f_equal. apply (f_equal (fun y => match y with Ok (CSignal a) => a | _ => q end)) in T. exact T.
  - assert (pm_message pm = m) by congruence. subst m. destruct (parse_prekey_msg (pm_raw pm)) as [q| |] eqn:P; cbn [bind] in T; [|discriminate..].
    apply (f_equal (fun y => match y with Ok (CPreKey a) => a | _ => q end)) in T. cbv beta iota in T. subst q. exact (parse_inner _ _ P).
Qed.
Lemma note_whisper : forall k ks base dev par keys notes x m, in_step C b at_ k ks base dev par keys notes -> In x notes -> inner (nt_cipher x) = Some m ->
  nt_epoch x < List.length ks /\ go_u32 (nt_counter x) /\
  whisper C (chain_at C (kchain C (sroot C k) (schain C k) ks (nt_epoch x)) (N.to_nat (nt_counter x))) (nt_counter x)
     (kpub C ks (nt_epoch x)) (sid C k (nt_from x)) (sid C k (negb (nt_from x))) (nt_text x) m.
Proof using H.
  intros k ks base dev par keys notes x m St J Im. pose proof St as (So & _ & Eks & Ko & _ & Lk & _ & _ & _ & _ & _ & _ & Fn). rewrite Forall_forall in Fn.
  destruct (Fn x J) as ((Q & _) & G & m1 & Wh & Fo). split; [destruct (nt_from x); lia|]. split; [exact G|].
  assert (m1 = m).
  { destruct Fo as [[E _]|(_ & reg & pm & _ & E & (_ & _ & _ & _ & _ & _ & E7))]; rewrite E in Im; cbn [inner] in Im; congruence. }
  subst m1. exact Wh.
Qed.

(** The peer's message at the position of [m] with the same text, if there is one. *)
Definition says (p : party) (side : bool) (m : signal) (x : note) : Prop :=
  nt_from x = negb side /\ in_reach p (nt_epoch x) /\
  exists m', inner (nt_cipher x) = Some m' /\ sg_ratchet m' = sg_ratchet m /\ sg_counter m' = sg_counter m /\ tagged_text m' = tagged_text m.
Lemma says_dec : forall p side m x, says p side m x \/ ~ says p side m x.
Proof.
  intros p side m x. unfold says. destruct (Bool.bool_dec (nt_from x) (negb side)) as [E1|E1]; [|tauto].
  assert (E2 : in_reach p (nt_epoch x) \/ ~ in_reach p (nt_epoch x)).
  { unfold in_reach. destruct (in_dec Nat.eq_dec (nt_epoch x) (map rv_epoch (p_views p))); [tauto|]. destruct (Nat.eq_dec (nt_epoch x) (S (p_epoch p))); tauto. }
  destruct E2 as [E2|E2]; [|tauto]. destruct (inner (nt_cipher x)) as [m'|]; [|right; intros (_ & _ & m' & Q & _); discriminate].
  assert (Eb : forall u v : bytes, u = v \/ u <> v).
  { intros u v. destruct (bytes_eqb u v) eqn:Q; [left; apply bytes_eqb_eq; exact Q|right; intros ->; rewrite bytes_eqb_refl in Q; discriminate]. }
  destruct (Eb (sg_ratchet m') (sg_ratchet m)) as [Q1|Q1]; [|right; intros (_ & _ & y & Q & R & _); assert (y = m') by congruence; subst y; contradiction].
  destruct (N.eq_dec (sg_counter m') (sg_counter m)) as [Q2|Q2]; [|right; intros (_ & _ & y & Q & _ & R & _); assert (y = m') by congruence; subst y; contradiction].
  destruct (Eb (tagged_text m') (tagged_text m)) as [Q3|Q3]; [|right; intros (_ & _ & y & Q & _ & _ & R); assert (y = m') by congruence; subst y; contradiction].
  left. split; [exact E1|]. split; [exact E2|]. exists m'. auto.
Qed.
Lemma says_search : forall p side m l, (exists x, In x l /\ says p side m x) \/ forall x, In x l -> ~ says p side m x.
Proof.
  intros p side m l. induction l as [|x l IH]; [right; intros x []|]. destruct (says_dec p side m x) as [S0|S0]; [left; exists x; split; [left; reflexivity|exact S0]|].
  destruct IH as [(y & J & Sy)|IH]; [left; exists y; split; [right; exact J|exact Sy]|]. right. intros y [<-|J]; auto.
Qed.

Theorem speaker_reach : forall base dev par keys notes side s m pt, history C at_ b base dev par keys notes ->
  (forall x, In x notes -> (size (nt_text x) < 2 ^ 62)%N) ->
  side = true \/ p_epoch (par false) <> 0 -> current_session (dev side) (at_ side) = Some s -> parse_signal (sg_raw m) = Ok m ->
  opens C s m pt ->
  (exists x, In x notes /\ nt_from x = negb side /\ in_reach (par side) (nt_epoch x) /\ inner (nt_cipher x) = Some m /\ nt_text x = pt) \/
  forgery C s (par side) (kp_pub (w_pair (dev (negb side)))) (kp_pub (w_pair (dev side))) (fun x => In x notes /\ nt_from x = negb side) m.
Proof using H.
  intros base dev par keys notes side s m pt Hy Sz Sd Es Pm (mk & remote & local & Mk & Er & El & Tg & Dc).
  destruct (history_in_step C H b at_ _ _ _ _ _ Hy) as (k & ks & St).
  pose proof St as (So & _ & Eks & Ko & _ & Lk & _ & _ & _ & Pr & Ss & _).
  destruct (Ss side Sd) as (r & s0 & R1 & R2 & (P1 & P2 & P3 & _) & _).
  assert (s0 = s) by (unfold current_session in Es; rewrite R1 in Es; congruence). subst s0.
  assert (Ep : forall y, kp_pub (w_pair (dev y)) = sid C k y) by (intro y; destruct (Pr y) as (_ & Q & _); exact Q).
  rewrite P3 in Er. rewrite P2 in El. apply pub_bytes_inj in Er. apply pub_bytes_inj in El. subst remote local. rewrite !Ep.
  assert (Gen : forall x m', In x notes -> nt_from x = negb side -> in_reach (par side) (nt_epoch x) -> inner (nt_cipher x) = Some m' ->
    sg_ratchet m' = sg_ratchet m -> sg_counter m' = sg_counter m ->
    tagged C (mk_mac mk) (sid C k (negb side)) (sid C k side) (sg_raw m') /\ cbc_decrypt C (mk_cipher mk) (mk_iv mk) (sg_body m') = Ok (nt_text x)).
  { intros x m' J Fx Rch Im E1 E2. destruct (note_whisper _ _ _ _ _ _ _ _ _ St J Im) as (Lx & G & Wh). rewrite Fx, Bool.negb_involutive in Wh.
    destruct (whisper_fields _ _ _ _ _ _ _ _ Wh) as (_ & W1 & W2).
    rewrite <- E1, W1, <- E2, W2 in Mk.
    pose proof (position_keys _ _ _ _ _ _ _ _ _ _ _ _ St Sd Es Lx Rch Mk) as K.
    destruct (whisper_opens _ _ _ _ _ _ _ _ _ H Wh K) as [V D]. split; [|exact D].
    apply (verify_mac_tagged C m' (mk_mac mk) _ _ H); [apply K|exact V]. }
  destruct (says_search (par side) side m notes) as [(x & J & Fx & Rch & m' & Im & E1 & E2 & E3)|No].
  - left. destruct (Gen x m' J Fx Rch Im E1 E2) as [T' D']. pose proof (same_text_raw _ _ _ _ _ _ H Tg T' E3) as Raw.
    pose proof (note_parses _ _ _ _ _ _ _ Hy J (Sz x J) Im) as Pm'. rewrite Raw, Pm in Pm'.
    assert (m = m') by (apply (f_equal (fun y => match y with Ok a => a | _ => m end)) in Pm'; exact Pm'). subst m'.
    exists x. split; [exact J|]. split; [exact Fx|]. split; [exact Rch|]. split; [exact Im|]. rewrite D' in Dc.
    apply (f_equal (fun y => match y with Ok a => a | _ => pt end)) in Dc. exact Dc.
  - right. exists mk. split; [exact Mk|]. split; [exact Tg|]. intros x m' [J Fx] Rch Im E1 E2. split; [exact (proj1 (Gen x m' J Fx Rch Im E1 E2))|].
    intro E3. apply (No x J). split; [exact Fx|]. split; [exact Rch|]. exists m'. auto.
Qed.

Theorem speaker : forall base dev par keys notes side s m pt, history C at_ b base dev par keys notes ->
  (forall x, In x notes -> (size (nt_text x) < 2 ^ 62)%N) ->
  side = true \/ p_epoch (par false) <> 0 -> current_session (dev side) (at_ side) = Some s -> parse_signal (sg_raw m) = Ok m ->
  opens C s m pt ->
  (exists x, In x notes /\ nt_from x = negb side /\ inner (nt_cipher x) = Some m /\ nt_text x = pt) \/
  forgery C s (par side) (kp_pub (w_pair (dev (negb side)))) (kp_pub (w_pair (dev side))) (fun x => In x notes /\ nt_from x = negb side) m.
Proof using H.
  intros base dev par keys notes side s m pt Hy Sz Sd Es Pm O.
  destruct (speaker_reach _ _ _ _ _ _ _ _ _ Hy Sz Sd Es Pm O) as [(x & J & Fx & _ & Im & Tx)|F]; [left; exists x; auto|right; exact F].
Qed.

Theorem answered_by : forall base dev par keys notes side x rnd fs pt w', history C at_ b base dev par keys notes ->
  (forall y, In y notes -> (size (nt_text y) < 2 ^ 62)%N) -> side = true \/ p_epoch (par false) <> 0 ->
  run (receive_bytes C (at_ side) rnd x) fs (dev side) = (Ok pt, w') ->
  exists c m, unposted x = Ok c /\ inner c = Some m /\
    ((exists y, In y notes /\ nt_from y = negb side /\ inner (nt_cipher y) = Some m /\ nt_text y = pt) \/
     (exists s, current_session (dev side) (at_ side) = Some s /\
        forgery C s (par side) (kp_pub (w_pair (dev (negb side)))) (kp_pub (w_pair (dev side))) (fun y => In y notes /\ nt_from y = negb side) m) \/
     (exists s, other_session (dev side) (at_ side) c s /\ opens C s m pt) \/
     (exists r e, c = CSignal m /\ w_sess (dev side) (at_ side) = Some r /\ decrypt_record C rnd r m = Err e /\ pt = [])).
Proof using H.
  intros base dev par keys notes side x rnd fs pt w' Hy Sz Sd E. unfold receive_bytes in E.
  destruct (unposted x) as [c| |] eqn:U; cbn [plift run] in E; [|apply (f_equal fst) in E; discriminate..].
  destruct (history_in_step C H b at_ _ _ _ _ _ Hy) as (k & ks & (_ & _ & _ & _ & _ & _ & _ & _ & Wd & _)).
  assert (Wc : wf_ciphertext c /\ forall m, inner c = Some m -> parse_signal (sg_raw m) = Ok m).
  { unfold unposted in U. destruct (fst x).
    - destruct (parse_prekey_msg (snd x)) as [q| |] eqn:P; cbn [bind] in U; [|discriminate..]. assert (c = CPreKey q) by congruence. subst c. split.
      + exact (parse_prekey_wf _ _ P).
      + cbn [inner]. intros m Q. assert (pm_message q = m) by congruence. subst m. exact (parse_inner _ _ P).
    - destruct (parse_signal (snd x)) as [q| |] eqn:P; cbn [bind] in U; [|discriminate..]. assert (c = CSignal q) by congruence. subst c. split.
      + exact (parse_signal_wf _ _ P).
      + cbn [inner]. intros m Q. assert (q = m) by congruence. subst m. rewrite (parse_raw _ _ P). exact P. }
  destruct Wc as [Wc Pr]. exists c.
  destruct (answer_exact C (at_ side) rnd c fs (dev side) pt w' H (Wd side) Wc E) as [(m & s & Im & Sf & O)|(m & r & e & -> & R & D & Ept)].
  - exists m. split; [reflexivity|]. split; [exact Im|]. destruct Sf as [(r & R & [Cu|(bs & J & Pb)])|(pm & Ec & _ & F1 & F2 & F3)].
    + assert (Es : current_session (dev side) (at_ side) = Some s) by (unfold current_session; rewrite R; exact Cu).
      destruct (speaker _ _ _ _ _ _ _ _ _ Hy Sz Sd Es (Pr m Im) O) as [G|F]; [left; exact G|right; left; exists s; auto].
    + right. right. left. exists s. split; [left; exists r, bs; auto|exact O].
    + right. right. left. exists s. split; [right; exists pm; auto|exact O].
  - exists m. split; [reflexivity|]. split; [reflexivity|]. right. right. right. exists r, e. auto.
Qed.
End Speak.
