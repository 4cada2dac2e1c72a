(** The first message of a conversation (C74). *)
From Verif Require Import M_Base M_Crypto M_Aes M_Curve M_Proto M_Message M_Ratchet M_State M_Store M_Session M_Group
  S_Crypto S_Message S_State S_Shape S_Ratchet S_Session S_Aes S_Api S_Send S_Group S_Curve S_X3dh S_Receive S_Conv S_History S_Size S_Transit S_Schedule S_Speak
  P_Base P_Proto P_Curve P_State P_Shape P_Ratchet P_Message P_Aes P_Chain P_Decrypt P_Receive P_Encrypt P_Record P_Prog P_Api
  P_Init P_Send P_Conv P_X3dh P_Conv2 P_Bundle P_DecApi P_DecTop P_DecMore P_Replay P_Trust P_History P_Header P_Transit P_Used P_Speak.
From Coq Require Import ZifyBool ZifyNat ZifyN.
Local Open Scope nat_scope.

Section First.
Variable C : Crypto.
Hypothesis H : CryptoOk C.
Variable b : bundle.
Variable at_ : bool -> addr.

(** The peer's message with the ratchet key, counter and text of [m], if there is one. *)
Definition repeats (m : signal) (x : note) : Prop :=
  nt_from x = true /\ exists m', inner (nt_cipher x) = Some m' /\ sg_ratchet m' = sg_ratchet m /\ sg_counter m' = sg_counter m /\ tagged_text m' = tagged_text m.
Lemma repeats_search : forall m l, (exists x, In x l /\ repeats m x) \/ forall x, In x l -> ~ repeats m x.
Proof.
  intros m l.
  assert (Dec : forall x, repeats m x \/ ~ repeats m x).
  { intro x. unfold repeats. destruct (Bool.bool_dec (nt_from x) true) as [E1|E1]; [|tauto].
    destruct (inner (nt_cipher x)) as [m'|]; [|right; intros (_ & m' & Q & _); discriminate].
    assert (Eb : forall u v : bytes, u = v \/ u <> v).
    { intros u v. destruct (bytes_eqb u v) eqn:Q; [left; apply bytes_eqb_eq; exact Q|right; intros ->; rewrite bytes_eqb_refl in Q; discriminate]. }
    destruct (Eb (sg_ratchet m') (sg_ratchet m)) as [Q1|Q1]; [|right; intros (_ & y & Q & R & _); assert (y = m') by congruence; subst y; contradiction].
    destruct (N.eq_dec (sg_counter m') (sg_counter m)) as [Q2|Q2]; [|right; intros (_ & y & Q & _ & R & _); assert (y = m') by congruence; subst y; contradiction].
    destruct (Eb (tagged_text m') (tagged_text m)) as [Q3|Q3]; [|right; intros (_ & y & Q & _ & _ & R); assert (y = m') by congruence; subst y; contradiction].
    left. split; [exact E1|]. exists m'. auto. }
  induction l as [|x l IH]; [right; intros x []|]. destruct (Dec x) as [S0|S0]; [left; exists x; split; [left; reflexivity|exact S0]|].
  destruct IH as [(y & J & Sy)|IH]; [left; exists y; split; [right; exact J|exact Sy]|]. right. intros y [<-|J]; auto.
Qed.

Theorem first_speaker : forall base dev par keys notes x pm rnd fs pt w', history C at_ b base dev par keys notes ->
  (forall y, In y notes -> (size (nt_text y) < 2 ^ 62)%N) -> p_epoch (par false) = 0 ->
  unposted x = Ok (CPreKey pm) -> pm_base pm = base -> pm_identity pm = kp_pub (w_pair (dev true)) ->
  pm_prekey_id pm = bd_prekey_id b -> pm_signed_id pm = bd_signed_id b ->
  run (receive_bytes C (at_ false) rnd x) fs (dev false) = (Ok pt, w') ->
  (exists y, In y notes /\ nt_from y = true /\ inner (nt_cipher y) = Some (pm_message pm) /\ nt_text y = pt) \/
  first_forgery C b (kp_pub (w_pair (dev false))) base (kp_pub (w_pair (dev true))) (fun y => In y notes /\ nt_from y = true) (pm_message pm) \/
  (exists r s, w_sess (dev false) (at_ false) = Some r /\ state_in s r /\ opens C s (pm_message pm) pt).
Proof using H.
  intros base dev par keys notes x pm rnd fs pt w' Hy Sz Z U Fb Fi Fp Fs E.
  unfold receive_bytes in E. rewrite U in E. cbn [plift] in E.
  assert (Pw : wf_prekeymsg pm /\ parse_signal (sg_raw (pm_message pm)) = Ok (pm_message pm)).
  { unfold unposted in U. destruct (fst x); [|destruct (parse_signal (snd x)); discriminate].
    destruct (parse_prekey_msg (snd x)) as [q| |] eqn:P; cbn [bind] in U; [|discriminate..]. assert (q = pm) by congruence. subst q.
    split; [exact (parse_prekey_wf _ _ P)|exact (parse_inner _ _ P)]. }
  destruct Pw as [Wp Pp].
  destruct (history_in_step C H b at_ _ _ _ _ _ Hy) as (k & ks & St).
  pose proof St as (So & Eb & Eks & Ko & (l & El) & Lk & Adj & _ & Wd & Pr & _ & Nb & Nt).
  destruct (Nb Z) as (Ep & Pub & Un).
  assert (Ei : forall y, kp_pub (w_pair (dev y)) = sid C k y) by (intro y; destruct (Pr y) as (_ & Q & _); exact Q).
  rewrite Ei in Fi.
  assert (Fm : prekey_frame pm (pm_reg pm) (bd_prekey_id b) (bd_signed_id b) (mont_pub C (k_e k)) (sid C k true) (pm_message pm)).
  { unfold prekey_frame. rewrite <- Eb. destruct Wp as (V & _). auto 10. }
  destruct (responder_state C H b k (dev false) pm (pm_reg pm) (pm_message pm) So (Wd false) Pub) as (s & B & P0 & _ & _); [unfold wf_prekeymsg in Wp; tauto|exact Fm|].
  destruct (decrypt_prekey_inv _ _ _ _ _ _ _ _ E) as (r1 & r2 & id & w2 & T & Br & D & _).
  assert (Hs : rc_has_state (loaded (w_sess (dev false) (at_ false))) (pm_version pm) (pub_bytes (pm_base pm)) = Ok false).
  { apply no_state; [apply Wd|exact Wp|rewrite Fb; exact Un]. }
  destruct Br as [(Hs' & _)|(_ & _ & s1 & B1 & Er1 & _)]; [congruence|].
  assert (s1 = s) by (exact (bob_session_fun C _ _ _ _ B1 B)). subst s1.
  pose proof P0 as (Ws & P2 & P3 & _ & P5 & (sc & C1 & C2 & C3 & C4) & _ & P7 & _). cbn [p_views p_epoch] in *.
  pose proof (loaded_wf (dev false) (at_ false) (proj1 (Wd false))) as Wl. subst r1.
  destruct (decrypt_record_opens C rnd _ (pm_message pm) pt r2 H (promote_wf _ s Wl Ws) (wf_prekey_inner pm Wp) D) as (s2 & Si & O).
  apply state_in_promote in Si; [|exact Wl]. destruct Si as [->|Si].
  2:{ right. right. apply state_in_loaded in Si. destruct Si as (r & Er & Si). exists r, s2. auto. }
  destruct O as (mk & remote & local & Mk & Er & Elc & Tg & Dc).
  rewrite P3 in Er. rewrite P2 in Elc. apply pub_bytes_inj in Er. apply pub_bytes_inj in Elc. subst remote local.
  assert (Rv0 : ss_receivers s = []) by (inversion P7; congruence).
  destruct Mk as [(c & ck & Ic & _)|(_ & _ & sc' & root' & ck & Sc & _ & Hk & L1 & L2 & Ka)]; [rewrite Rv0 in Ic; destruct Ic|].
  assert (sc' = sc) by congruence. subst sc'.
  set (m := pm_message pm) in *.
  assert (Ls : List.length (k_sb k) = 32) by (unfold secrets_ok in So; tauto).
  rewrite C3 in Hk. change (kkey [k_sb k] 0) with (k_sb k) in Hk. rewrite (ok_x_clamp C H) in Hk by exact Ls. rewrite P5 in Hk.
  change (kroot C (sroot C k) (schain C k) [k_sb k] 0) with (sroot C k) in Hk.
  assert (Ec : ck = snd (ratchet_step C (sroot C k) (c_x25519 C (k_sb k) (sg_ratchet m)))).
  { unfold ratchet_step. cbn [snd]. rewrite <- Hk. rewrite <- L1 at 1. rewrite skipn_app_exact. reflexivity. }
  assert (Gen : forall y m', In y notes -> nt_from y = true -> inner (nt_cipher y) = Some m' -> sg_ratchet m' = sg_ratchet m -> sg_counter m' = sg_counter m ->
    tagged C (mk_mac mk) (sid C k true) (sid C k false) (sg_raw m') /\ cbc_decrypt C (mk_cipher mk) (mk_iv mk) (sg_body m') = Ok (nt_text y)).
  { intros y m' J Fy Im E1 E2. destruct (note_whisper C H b at_ _ _ _ _ _ _ _ _ _ St J Im) as (Lx & G & Wh). rewrite Fy in Wh.
    destruct (whisper_fields _ _ _ _ _ _ _ _ Wh) as (_ & W1 & W2).
    rewrite Forall_forall in Nt. destruct (Nt _ J) as ((Le & Ne) & _). rewrite Fy in Le. rewrite Z in Adj, Lk.
    assert (Ey : nt_epoch y = 1) by lia. rewrite Ey in *. cbn [negb] in Wh.
    assert (K : keys_at C (chain_at C (kchain C (sroot C k) (schain C k) ks 1) (N.to_nat (nt_counter y))) (nt_counter y) mk).
    { rewrite Ec, <- E1, <- E2, W1, W2 in Ka.
      replace (kchain C (sroot C k) (schain C k) ks 1) with (snd (ratchet_step C (sroot C k) (c_x25519 C (k_sb k) (kpub C ks 1)))); [exact Ka|].
      unfold kchain. cbn [sched snd fst]. unfold kpub, ratchet_step. cbn [snd].
      assert (Lx1 : List.length (kkey ks 1) = 32) by (apply (kkey_len C); auto).
      assert (Lx0 : kkey ks 0 = k_sb k) by (rewrite El; reflexivity). rewrite Lx0.
      rewrite (ok_dh C H (k_sb k) (kkey ks 1)) by auto. reflexivity. }
    destruct (whisper_opens _ _ _ _ _ _ _ _ _ H Wh K) as [V Dd]. split; [|exact Dd].
    apply (verify_mac_tagged C m' (mk_mac mk) _ _ H); [apply K|exact V]. }
  rewrite !Ei.
  destruct (repeats_search m notes) as [(y & J & Fy & m' & Im & E1 & E2 & E3)|No].
  - left. destruct (Gen y m' J Fy Im E1 E2) as [T' D']. pose proof (same_text_raw _ _ _ _ _ _ H Tg T' E3) as Raw.
    pose proof (note_parses C H b at_ _ _ _ _ _ _ _ Hy J (Sz y J) Im) as Pm'. rewrite Raw, Pp in Pm'.
    assert (Mm : m' = m) by (apply (f_equal (fun y => match y with Ok a => a | _ => m end)) in Pm'; symmetry; exact Pm').
    exists y. split; [exact J|]. split; [exact Fy|]. split; [congruence|]. rewrite Mm, Dc in D'.
    apply (f_equal (fun y => match y with Ok a => a | _ => pt end)) in D'. symmetry. exact D'.
  - right. left. exists (k_ia k), (k_e k), (k_ib k), (k_sb k), (k_ob k), mk. split; [reflexivity|]. split; [exact Eb|]. split; [reflexivity|].
    split; [|split; [rewrite Ec in Ka; exact Ka|]].
    + destruct Pub as (_ & Q1 & Q2 & _ & Q3). split; [exact Q1|]. split; [exact Q2|]. destruct (k_ob k); apply Q3.
    + split; [exact Tg|]. intros y m' [J Fy] Im E1 E2. split; [exact (proj1 (Gen y m' J Fy Im E1 E2))|].
      intro E3. apply (No y J). split; [exact Fy|]. exists m'. auto.
Qed.
End First.
