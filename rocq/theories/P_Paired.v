(** Conversations whose sessions were made from agreed parameters (C83). *)
From Verif Require Import M_Base M_Crypto M_Aes M_Curve M_Proto M_Message M_Ratchet M_State M_Store M_Session M_Group M_Records
  S_Crypto S_Message S_State S_Shape S_Ratchet S_Session S_Aes S_Api S_Send S_Group S_Curve S_X3dh S_Receive S_Conv S_History S_Paired
  P_Base P_Proto P_Curve P_State P_Shape P_Ratchet P_Message P_Aes P_Chain P_Decrypt P_Receive P_Encrypt P_Record P_Prog P_Api
  P_Init P_Send P_Conv P_X3dh P_Conv2 P_Bundle P_DecApi P_DecTop P_DecMore P_Replay P_Trust P_History.
From Coq Require Import ZifyBool ZifyNat ZifyN.
Local Open Scope nat_scope.

(** *** Nothing but HasSessionState looks at the base key *)
Definition rebase {A} (k : bytes) (r : res (A * state)) : res (A * state) :=
  match r with Ok (x, s) => Ok (x, with_alice_base s k) | Err e => Err e | Panic => Panic end.
Lemma chain_key_base : forall C rnd s k eph, get_chain_key C rnd (with_alice_base s k) eph =
  (rebase k (fst (get_chain_key C rnd s eph)), snd (get_chain_key C rnd s eph)).
Proof.
  intros C rnd s k eph. unfold get_chain_key.
  change (st_receiver_chain_key (with_alice_base s k) eph) with (st_receiver_chain_key s eph).
  change (st_root (with_alice_base s k)) with (st_root s).
  change (st_sender_ratchet_priv C (with_alice_base s k)) with (st_sender_ratchet_priv C s).
  change (st_sender_chain_key (with_alice_base s k)) with (st_sender_chain_key s).
  destruct (st_receiver_chain_key s eph) as [[ck|]|e|]; try reflexivity.
  destruct (do root <- _; _) as [[rr rc]|e|]; try reflexivity.
  destruct (gen_keypair C rnd) as [[kp|e|] rest]; try reflexivity.
  destruct (create_chain C rr (kp_priv kp) eph) as [[sr sc]|e|]; try reflexivity.
  destruct (st_sender_chain_key s) as [cur|e|]; reflexivity.
Qed.
Lemma skip_base : forall C n s k eph ck, skip_keys C n (with_alice_base s k) eph ck =
  match skip_keys C n s eph ck with Ok (s', c) => Ok (with_alice_base s' k, c) | Err e => Err e | Panic => Panic end.
Proof.
  intros C n. induction n as [|n IH]; intros s k eph ck; cbn [skip_keys]; [reflexivity|].
  unfold st_set_message_keys. change (st_receiver_chain (with_alice_base s k) eph) with (st_receiver_chain s eph).
  destruct (st_receiver_chain s eph); [|reflexivity]. cbn [bind].
  match goal with |- skip_keys C n ?x _ _ = _ => match goal with |- _ = match skip_keys C n ?y _ _ with _ => _ end => change x with (with_alice_base y k) end end.
  apply IH.
Qed.
Lemma msg_keys_base : forall C s k eph ck n, get_message_keys C (with_alice_base s k) eph ck n = rebase k (get_message_keys C s eph ck n).
Proof.
  intros C s k eph ck n. unfold get_message_keys. destruct (N.ltb n (ck_index ck)).
  - unfold st_take_message_keys. change (st_receiver_chain (with_alice_base s k) eph) with (st_receiver_chain s eph).
    destruct (st_receiver_chain s eph) as [c|]; [|reflexivity].
    cbv zeta. destruct (last_msgkey n (pc_msgkeys c)) as [x|]; [|reflexivity].
    destruct (new_message_keys (pmk_cipher x) (pmk_mac x) (pmk_iv x) n) as [y|e|]; reflexivity.
  - change (st_with_self (with_alice_base s k)) with (st_with_self s).
    destruct (if N.ltb max_jumps (n - ck_index ck) then st_with_self s else Ok true) as [self|e|]; cbn [bind]; [|reflexivity..].
    destruct self; cbn [negb]; [|reflexivity]. rewrite skip_base. destruct (skip_keys C _ s eph ck) as [[s' c]|e|]; cbn [bind]; [|reflexivity..].
    unfold st_set_receiver_chain_key. change (st_receiver_chain (with_alice_base s' k) eph) with (st_receiver_chain s' eph).
    destruct (st_receiver_chain s' eph); reflexivity.
Qed.
Lemma decrypt_base : forall C rnd s k m, decrypt_session C rnd (with_alice_base s k) m =
  (rebase k (fst (decrypt_session C rnd s m)), snd (decrypt_session C rnd s m)).
Proof.
  intros C rnd s k m. unfold decrypt_session. change (ss_sender (with_alice_base s k)) with (ss_sender s).
  change (st_version (with_alice_base s k)) with (st_version s). destruct (ss_sender s); [|reflexivity].
  destruct (negb (sg_version m =? st_version s)%N); [reflexivity|]. rewrite chain_key_base.
  destruct (get_chain_key C rnd s (sg_ratchet m)) as [[[ck s1]|e|] rest]; cbn [fst snd rebase]; [|reflexivity..].
  f_equal. rewrite msg_keys_base. destruct (get_message_keys C s1 (sg_ratchet m) ck (sg_counter m)) as [[mk s2]|e|]; cbn [rebase bind]; [|reflexivity..].
  change (st_remote_identity (with_alice_base s2 k)) with (st_remote_identity s2).
  change (st_local_identity (with_alice_base s2 k)) with (st_local_identity s2).
  destruct (st_remote_identity s2) as [[rid|]|e|]; cbn [bind]; [|reflexivity..].
  destruct (st_local_identity s2) as [lid|e|]; cbn [bind]; [|reflexivity..].
  destruct (verify_mac C m (mk_mac mk) rid lid) as [[|]|e|]; cbn [bind negb]; [|reflexivity..].
  destruct (cbc_decrypt C (mk_cipher mk) (mk_iv mk) (sg_body m)); reflexivity.
Qed.
Lemma encrypt_base : forall C s k pt c s' rid, encrypt_state C s pt = Ok (c, s', rid) ->
  encrypt_state C (with_alice_base s k) pt = Ok (c, with_alice_base s' k, rid).
Proof.
  intros C s k pt c s' rid. unfold encrypt_state.
  change (st_sender_chain_key (with_alice_base s k)) with (st_sender_chain_key s).
  change (st_sender_ratchet (with_alice_base s k)) with (st_sender_ratchet s).
  change (st_version (with_alice_base s k)) with (st_version s).
  change (st_remote_identity (with_alice_base s k)) with (st_remote_identity s).
  change (st_local_identity (with_alice_base s k)) with (st_local_identity s).
  change (st_unack (with_alice_base s k)) with (st_unack s).
  change (ss_prevctr (with_alice_base s k)) with (ss_prevctr s).
  change (ss_local_reg (with_alice_base s k)) with (ss_local_reg s).
  destruct (st_sender_chain_key s) as [ck|e|]; cbn [bind]; [|discriminate..].
  destruct (st_sender_ratchet s) as [eph|e|]; cbn [bind]; [|discriminate..].
  destruct (st_local_identity s) as [lid|e|]; cbn [bind]; [|discriminate..].
  destruct (st_remote_identity s) as [[r|]|e|]; cbn [bind]; [|discriminate..].
  destruct (cbc_encrypt C _ _ pt) as [ct|e|]; cbn [bind]; [|discriminate..].
  destruct (new_signal C _ _ eph _ _ ct lid r) as [msg|e|]; cbn [bind]; [|discriminate..].
  destruct (st_unack s) as [u|e|]; cbn [bind]; [|discriminate..].
  intro E. injection E as <- <- <-. unfold st_set_sender_chain_key. change (ss_sender (with_alice_base s k)) with (ss_sender s).
  destruct (ss_sender s); reflexivity.
Qed.

Section Paired.
Variable C : Crypto.
Hypothesis H : CryptoOk C.
Variable d : dealt.
Variable at_ : bool -> addr.
Let root := x3dh_root C (d_ia d) (d_e d) (d_ib d) (d_sb d) (d_ob d).
Let chain := x3dh_chain C (d_ia d) (d_e d) (d_ib d) (d_sb d) (d_ob d).
Notation me := (own_identity C d).

Definition dlens : Prop := List.length (d_ia d) = 32 /\ List.length (d_e d) = 32 /\ List.length (d_ib d) = 32 /\
  List.length (d_sb d) = 32 /\ List.length (d_rb d) = 32 /\ forall o, d_ob d = Some o -> List.length o = 32.
Lemma hand_lens : forall h, in_hand C d h -> dlens.
Proof using.
  intros h ((A & _) & (B & _) & (D & _) & (E & _) & (F & _) & O).
  repeat (split; [assumption|]). intros o Eo. rewrite Eo in O. destruct (h_ob h); [apply O|contradiction].
Qed.
Lemma plens : List.length root = 32 /\ List.length chain = 32.
Proof using H. apply x3dh_len. exact H. Qed.
Lemma m32 : forall k, List.length (mont_pub C k) = 32.
Proof using. intro. apply ed_to_mont_length. Qed.

(** *** Both sides of the set-up *)
Lemma bob_exact : forall h, in_hand C d h -> bob_side C d h =
  Ok (new_record (Some (st_set_sender_chain (fresh_state (pub_bytes (me false)) (pub_bytes (me true)) root) (h_rb h) (mkChainKey chain 0)))).
Proof using H.
  intros h Ih. pose proof (hand_lens h Ih) as (La & Le & Lb & Ls & Lr & Lo). destruct Ih as (Pa & Pe & Pb & Ps & Pr & Po).
  unfold bob_side, bob_record. 
  pose proof (init_bob_exact C H (d_ia d) (d_e d) (d_ib d) (d_sb d) (d_ob d) La Le Lb Ls Lo (h_ib h) (h_sb h) (h_ob h) Pb Ps Po) as E.
  unfold init_bob in *.
  destruct (agreement C (kp_priv (h_sb h)) (mont_pub C (d_ia d))) as [d1| |]; cbn [bind] in *; [|discriminate..].
  destruct (agreement C (kp_priv (h_ib h)) (mont_pub C (d_e d))) as [d2| |]; cbn [bind] in *; [|discriminate..].
  destruct (agreement C (kp_priv (h_sb h)) (mont_pub C (d_e d))) as [d3| |]; cbn [bind] in *; [|discriminate..].
  destruct (match h_ob h with Some ot => _ | None => _ end) as [sec| |]; cbn [bind] in *; [|discriminate..].
  destruct (match derive_keys C sec with Ok rc => rc | _ => _ end) as [rt ch]. cbn [bind].
  injection E as E1 E2 E3 E4. cbn [new_record]. unfold root, chain, own_identity.
  apply (f_equal (fun s => Ok (new_record (Some s)))). unfold st_set_sender_chain, fresh_state, with_sender. cbn.
  rewrite E1, E2, E3, E4. reflexivity.
Qed.
Lemma bob_party : forall h, in_hand C d h -> exists t, bob_side C d h = Ok (new_record (Some (with_alice_base t []))) /\
  party_ok C root chain [d_rb d] (me false) (me true) (mkParty 0 0 []) t /\ ss_pending t = None.
Proof using H.
  intros h Ih. pose proof (bob_exact h Ih) as E. pose proof (hand_lens h Ih) as (La & Le & Lb & Ls & Lr & Lo).
  set (s0 := st_set_sender_chain (fresh_state (pub_bytes (me false)) (pub_bytes (me true)) root) (h_rb h) (mkChainKey chain 0)) in *.
  exists (with_alice_base s0 (pub_bytes (mont_pub C (d_e d)))). split; [exact E|].
  destruct Ih as (Pa & Pe & Pb & Ps & (_ & P1 & P2 & P3) & Po). destruct plens as [L1 L2].
  assert (M : forall x, List.length (me x) = 32) by (intro; apply m32).
  assert (Wk : forall k, Some (h_rb h) = Some k -> List.length (kp_pub k) = 32 /\ List.length (sk_bytes (kp_priv k)) = 32).
  { intros k Ek. injection Ek as <-. rewrite P1, P2, clamp_length. split; [apply m32|exact Lr]. }
  assert (E0 : init_bob C (h_ib h) (Some (h_sb h)) (h_ob h) (Some (h_rb h)) (mont_pub C (d_ia d)) (mont_pub C (d_e d)) = Ok s0).
  { unfold bob_side, bob_record in E. destruct (init_bob C _ _ _ _ _ _) as [x|e|]; cbn [bind] in E; [|discriminate..].
    apply (f_equal (fun r => match r with Ok r => match rc_current r with Some s => s | None => x end | _ => x end)) in E. cbn in E. rewrite E. reflexivity. }
  destruct (init_bob_wf C _ _ _ _ _ _ _ H ltac:(rewrite (proj1 (proj2 Pb)); apply m32) (m32 (d_ia d)) Wk E0) as (Wf & Pn & El & Er).
  split; [|exact Pn].
  split. { specialize (Wf 0%N 0%N (mont_pub C (d_e d)) None eq_refl eq_refl (m32 (d_e d)) ltac:(discriminate)).
    rewrite with_pending_none in Wf by exact Pn. exact Wf. }
  split; [reflexivity|]. split; [reflexivity|]. split; [cbn; lia|]. split; [reflexivity|]. split.
  { eexists. split; [reflexivity|]. cbn. rewrite P1, P2. auto. }
  split; [reflexivity|]. split; [constructor|]. split; [constructor|constructor].
Qed.
Lemma alice_party : forall h rnd, in_hand C d h -> 32 <= List.length rnd ->
  exists t, alice_side C rnd d h = (Ok (new_record (Some (with_alice_base t []))), skipn 32 rnd) /\
  party_ok C root chain [d_rb d; firstn 32 rnd] (me true) (me false) (mkParty 1 0 [mkView 0 0 []]) t /\ ss_pending t = None.
Proof using H.
  intros h rnd Ih Lr0. pose proof (hand_lens h Ih) as (La & Le & Lb & Ls & Lr & Lo). destruct Ih as (Pa & Pe & Pb & Ps & Prb & Po).
  destruct (gen_pair_for C rnd Lr0) as (rp & G & Pr). set (rk := firstn 32 rnd) in *.
  pose proof (init_alice_party C H (d_ia d) (d_e d) (d_ib d) (d_sb d) (d_ob d) La Le Lb Ls Lo (h_ia h) (h_e h) rnd Pa Pe Lr0) as (s1 & E1 & _).
  assert (E : exists s0, init_alice C rnd (h_ia h) (h_e h) (mont_pub C (d_ib d)) (mont_pub C (d_sb d)) (option_map (mont_pub C) (d_ob d)) (mont_pub C (d_rb d)) = (Ok s0, skipn 32 rnd) /\
    s0 = st_set_sender_chain (st_add_receiver_chain (fresh_state (pub_bytes (me true)) (pub_bytes (me false)) (kroot C root chain [d_rb d; rk] 1))
       (mont_pub C (d_rb d)) (mkChainKey chain 0)) rp (mkChainKey (kchain C root chain [d_rb d; rk] 1) 0)).
  { eexists. split; [|reflexivity]. unfold init_alice. rewrite G. f_equal.
    rewrite (pair_agree C _ _ (d_sb d) H Pa Ls), (pair_agree C _ _ (d_ib d) H Pe Lb), (pair_agree C _ _ (d_sb d) H Pe Ls). cbn [bind].
    assert (Eo : forall a b t, match option_map (mont_pub C) (d_ob d) with
         | Some ot => do dh4 <- agreement C (kp_priv (h_e h)) ot; Ok (discontinuity ++ a ++ b ++ t ++ dh4)
         | None => Ok (discontinuity ++ a ++ b ++ t) end =
       Ok (discontinuity ++ a ++ b ++ t ++ match d_ob d with Some o => c_x25519 C (d_e d) (mont_pub C o) | None => [] end)).
    { intros a b t. destruct (d_ob d) as [o|]; cbn [option_map].
      - rewrite (pair_agree C _ _ o H Pe (Lo o eq_refl)). reflexivity.
      - rewrite !app_nil_r. reflexivity. }
    rewrite Eo. cbn [bind]. rewrite (derive_x3dh C _ H). cbn [bind].
    destruct plens as [R1 R2].
    change (firstn 32 (rfc_hkdf C None _ (str "WhisperText") 64)) with root.
    change (skipn 32 (rfc_hkdf C None _ (str "WhisperText") 64)) with chain.
    destruct Pr as (Lk & P1 & P2 & P3). destruct Pa as (_ & Pi1 & _).
    rewrite (create_from C H root chain R1 R2 root (kp_priv rp) (mont_pub C (d_rb d)) (c_x25519 C rk (mont_pub C (d_rb d))) R1 (m32 (d_rb d))).
    - cbn [bind]. rewrite Pi1. reflexivity.
    - apply (holds_x C H); auto.
    - apply (all_zero_x C H); auto. }
  destruct E as (s0 & E & Es).
  exists (with_alice_base s0 (pub_bytes (mont_pub C (d_e d)))). split.
  { unfold alice_side, alice_record. rewrite E. rewrite Es. reflexivity. }
  destruct (init_alice_wf C _ _ _ _ _ _ _ _ _ ltac:(rewrite (proj1 (proj2 Pa)); apply m32) (m32 (d_ib d)) (m32 (d_rb d)) E) as (Wf & Pn & _ & _).
  split; [|exact Pn].
  specialize (Wf 0%N 0%N (mont_pub C (d_e d)) None eq_refl eq_refl (m32 (d_e d)) ltac:(discriminate)).
  destruct Pr as (Lk & P1 & P2 & P3).
  split. { rewrite with_pending_none in Wf by exact Pn. rewrite Es in *. exact Wf. }
  rewrite Es. clear Es E Wf Pn s0 s1 E1.
  split; [reflexivity|]. split; [reflexivity|]. split; [cbn; lia|]. split; [reflexivity|]. split.
  { eexists. split; [reflexivity|]. cbn [pc_ratchet pc_ratchet_priv pc_key]. rewrite P1, P2. auto. }
  split; [reflexivity|]. split.
  { constructor; [|constructor]. split; [reflexivity|]. split; [reflexivity|]. split; [reflexivity|]. split; [constructor|split; reflexivity]. }
  split; [cbn; constructor; [intros []|constructor]|]. constructor; [cbn; lia|constructor].
Qed.

(** *** The invariant *)
Definition psess (ks : list bytes) (w : world) (a : addr) (side : bool) (p : party) : Prop :=
  exists t, current_session w a = Some (with_alice_base t []) /\
    party_ok C root chain ks (me side) (me (negb side)) p t /\ ss_pending t = None.
Definition pnote (ks : list bytes) (par : bool -> party) (nt : note) : Prop :=
  nt_epoch nt <= p_epoch (par (nt_from nt)) /\ go_u32 (nt_counter nt) /\
  exists m, whisper C (chain_at C (kchain C root chain ks (nt_epoch nt)) (N.to_nat (nt_counter nt))) (nt_counter nt)
     (kpub C ks (nt_epoch nt)) (me (nt_from nt)) (me (negb (nt_from nt))) (nt_text nt) m /\ nt_cipher nt = CSignal m.
Definition pstep_ok (ks : list bytes) (dev : bool -> world) (par : bool -> party) (keys : list pubkey) (notes : list note) : Prop :=
  keys = map (mont_pub C) ks /\ keys_ok C ks /\
  List.length ks = S (Nat.max (p_epoch (par true)) (p_epoch (par false))) /\
  (p_epoch (par true) = S (p_epoch (par false)) \/ p_epoch (par false) = S (p_epoch (par true))) /\
  (forall side, psess ks (dev side) (at_ side) side (par side)) /\ Forall (pnote ks par) notes.
Lemma session_record : forall w a s, current_session w a = Some s -> exists r, w_sess w a = Some r /\ rc_current r = Some s.
Proof using. intros w a s E. unfold current_session in E. destruct (w_sess w a) as [r|]; [|discriminate]. eauto. Qed.
Lemma psess_app : forall ks x w a side p, psess ks w a side p -> psess (ks ++ x) w a side p.
Proof using H. intros ks x w a side p (t & A & P & E). destruct plens as [L1 L2]. exists t. split; [exact A|]. split; [apply (party_ok_app C _ _ L1 L2); exact P|exact E]. Qed.
Lemma pnote_mono : forall ks x par par' nt, pnote ks par nt -> p_epoch (par (nt_from nt)) < List.length ks ->
  (forall side, p_epoch (par side) <= p_epoch (par' side)) -> pnote (ks ++ x) par' nt.
Proof using H.
  intros ks x par par' nt (A & B & m & W & F) L M. destruct plens as [L1 L2]. split; [specialize (M (nt_from nt)); lia|]. split; [exact B|].
  exists m. split; [rewrite kchain_app, kpub_app by (auto; lia); exact W|exact F].
Qed.
Lemma pstart : forall dev h rnd ra rb rest, in_hand C d h -> 32 <= List.length rnd ->
  mont_pub C (firstn 32 rnd) <> mont_pub C (d_rb d) ->
  alice_side C rnd d h = (Ok ra, rest) -> bob_side C d h = Ok rb ->
  w_sess (dev true) (at_ true) = Some ra -> w_sess (dev false) (at_ false) = Some rb ->
  pstep_ok [d_rb d; firstn 32 rnd] dev start_party [mont_pub C (d_rb d); mont_pub C (firstn 32 rnd)] [].
Proof using H.
  intros dev h rnd ra rb rest Ih Lr N0 Ea Eb Sa Sb. destruct (alice_party h rnd Ih Lr) as (t & Ea' & Pa & Na).
  destruct (bob_party h Ih) as (u & Eb' & Pb & Nb). destruct plens as [L1 L2].
  rewrite Ea' in Ea. apply (f_equal fst) in Ea. cbn [fst] in Ea. apply (f_equal (fun r => match r with Ok r => r | _ => ra end)) in Ea. cbn iota beta in Ea. subst ra.
  rewrite Eb' in Eb. apply (f_equal (fun r => match r with Ok r => r | _ => rb end)) in Eb. cbn iota beta in Eb. subst rb.
  pose proof (hand_lens h Ih) as (_ & _ & _ & _ & Lrb & _).
  split; [reflexivity|]. split.
  { split; [constructor; [exact Lrb|constructor; [apply firstn_length_le; exact Lr|constructor]]|].
    constructor; [intros [X|[]]; exact (N0 X)|constructor; [intros []|constructor]]. }
  split; [reflexivity|]. split; [left; reflexivity|]. split; [|constructor].
  intros []; cbn [start_party negb].
  - exists t. split; [unfold current_session; rewrite Sa; reflexivity|]. split; [exact Pa|exact Na].
  - exists u. split; [unfold current_session; rewrite Sb; reflexivity|]. split; [|exact Nb].
    change [d_rb d; firstn 32 rnd] with ([d_rb d] ++ [firstn 32 rnd]). apply (party_ok_app C _ _ L1 L2). exact Pb.
Qed.
Lemma psend : forall ks dev par keys notes side pt fs c w', pstep_ok ks dev par keys notes ->
  (p_sent (par side) + 1 < 4294967296)%N ->
  run (encrypt_message C (at_ side) pt) fs (dev side) = (Ok c, w') ->
  pstep_ok ks (upd dev side w') (upd par side (sent_one (par side))) keys
    (mkNote side (p_epoch (par side)) (p_sent (par side)) pt c :: notes).
Proof using H.
  intros ks dev par keys notes side pt fs c w' (Ek & K & Lk & Ee & Ss & Nt) Gc E.
  destruct (Ss side) as (t & Et & P & Pn). destruct (session_record _ _ _ Et) as (r & Er & Ec). destruct plens as [L1 L2].
  destruct (send_next C H root chain L1 L2 ks _ _ (par side) t pt P Gc) as (m & out & t' & En & Wh & Fr & P' & Ka & Kp & Kl & _).
  unfold framed in Fr. rewrite Pn in Fr. subst out. 
  destruct (encrypt_success _ _ _ _ _ _ _ _ _ _ _ _ Er Ec (encrypt_base C t [] pt _ _ _ En) E) as (-> & _ & Ew).
  assert (Ep : forall y, p_epoch (upd par side (sent_one (par side)) y) = p_epoch (par y)).
  { intro y. unfold upd. destruct (Bool.eqb y side) eqn:Q; [|reflexivity]. apply Bool.eqb_prop in Q. subst y. reflexivity. }
  split; [exact Ek|]. split; [exact K|]. rewrite !Ep. split; [exact Lk|]. split; [exact Ee|]. split.
  - intros y. unfold upd. destruct (Bool.eqb y side) eqn:Q; [apply Bool.eqb_prop in Q; subst y|apply (Ss y)].
    exists t'. split; [unfold current_session; rewrite Ew; cbn; rewrite addr_eqb_refl; reflexivity|]. split; [exact P'|]. rewrite Kp. exact Pn.
  - constructor.
    + split; [rewrite Ep; cbn; lia|]. split; [cbn [nt_counter]; unfold go_u32; lia|]. exists m. split; [exact Wh|reflexivity].
    + eapply Forall_impl; [|exact Nt]. intros nt (A1 & A2 & A3). split; [rewrite Ep; exact A1|]. split; [exact A2|exact A3].
Qed.
Lemma preceive : forall ks dev par keys notes side ep n pt c rnd,
  pstep_ok ks dev par keys notes -> In (mkNote (negb side) ep n pt c) notes -> receivable (par side) ep n ->
  fresh C keys (par side) ep rnd ->
  let p' := party_after (par side) ep n in let ks' := grown ks (par side) ep rnd in
  keys_ok C ks' /\ ep <= p_epoch (par (negb side)) /\
  (w_policy (dev side) (at_ side) (w_ident (dev side) (at_ side)) (me (negb side)) Receiving = true ->
   exists w', run0 (decrypt_message C (at_ side) rnd c) (dev side) = (Ok pt, w')) /\
  (forall fs pt' w', run (decrypt_message C (at_ side) rnd c) fs (dev side) = (Ok pt', w') ->
   pt' = pt /\ psess ks' w' (at_ side) side p').
Proof using H.
  intros ks dev par keys notes side ep n pt c rnd (Ek & K & Lk & Ee & Ss & Nt) I0 Rv Fr p' ks'.
  destruct (peer_epochs par side Ee) as [Ee' Em]. rewrite Em in Lk. subst keys.
  rewrite Forall_forall in Nt. destruct (Nt _ I0) as (Le & G & m & Wh & F). cbn [nt_epoch nt_from nt_counter nt_text nt_cipher] in *.
  rewrite Bool.negb_involutive in Wh. subst c.
  destruct (Ss side) as (t & Et & P & Pn). destruct (session_record _ _ _ Et) as (r & Er & Ec).
  destruct (advance C H (mkSecrets (d_ia d) (d_ib d) (d_sb d) (d_ob d) (d_e d)) ks side (par side) (p_epoch (par (negb side))) t ep n pt m rnd K P Lk Ee' Le Rv Fr G Wh)
    as (K' & t' & rest & D & P' & Kp).
  split; [exact K'|]. split; [exact Le|].
  assert (D' : decrypt_session C rnd (with_alice_base t []) m = (Ok (pt, with_alice_base t' []), rest)).
  { rewrite decrypt_base, D. reflexivity. }
  split.
  - intro T. eexists. cbn [decrypt_message]. unfold run0. destruct (decrypt_signal_runs C (at_ side) rnd m [] (dev side)) as [R _]. rewrite R. cbn [hd_fault tl]. rewrite Er.
    unfold signal_body, decrypt_record. rewrite Ec, D'. unfold pdo at 1. cbn [run exec_f fallible exec tl].
    match goal with |- run ?p [] ?w = _ => change (run p [] w) with (run0 p w) end.
    rewrite (signal_rest_completes (at_ side) pt (rc_set_state r (with_alice_base t' [])) _ (with_alice_base t' []) (me (negb side)) eq_refl).
    + reflexivity.
    + destruct P' as (_ & _ & P' & _). exact P'.
    + apply m32.
    + destruct (w_shared (dev side)); exact T.
  - intros fs pt' w' E. destruct (signal_result C _ _ _ _ _ _ _ _ _ _ _ _ Er Ec D' E) as (-> & Ew). split; [reflexivity|].
    exists t'. split; [unfold current_session; rewrite Ew; reflexivity|]. split; [exact P'|]. destruct Kp as (_ & Kp & _). exact Kp.
Qed.
Lemma preceived : forall ks dev par keys notes side ep n pt c rnd fs pt' w', pstep_ok ks dev par keys notes ->
  In (mkNote (negb side) ep n pt c) notes -> receivable (par side) ep n -> fresh C keys (par side) ep rnd ->
  run (decrypt_message C (at_ side) rnd c) fs (dev side) = (Ok pt', w') ->
  pstep_ok (grown ks (par side) ep rnd) (upd dev side w') (upd par side (party_after (par side) ep n))
    (keys_after C keys (par side) ep rnd) notes.
Proof using H.
  intros ks dev par keys notes side ep n pt c rnd fs pt' w' St I0 Rv Fr E.
  destruct (preceive ks dev par keys notes side ep n pt c rnd St I0 Rv Fr) as (K' & Le & _ & D). destruct (D fs pt' w' E) as (_ & S').
  destruct St as (Ek & K & Lk & Ee & Ss & Nt). destruct (peer_epochs par side Ee) as [Ee' Em].
  destruct (grown_len ks (par side) ep rnd (p_epoch (par (negb side))) n ltac:(rewrite <- Em; exact Lk) Ee' Le) as [Lk' Ee2].
  destruct (grown_app ks (par side) ep rnd) as [x Ex].
  assert (U : forall y, upd par side (party_after (par side) ep n) y = if Bool.eqb y side then party_after (par side) ep n else par y) by reflexivity.
  split; [rewrite Ek; unfold keys_after, grown; destruct (Nat.eqb _ _); [rewrite map_app; reflexivity|reflexivity]|].
  split; [exact K'|]. split; [rewrite Lk'; rewrite !U; destruct side; cbn [Bool.eqb negb]; f_equal; lia|].
  split; [rewrite !U; destruct side; cbn [Bool.eqb negb] in *; lia|]. split.
  - intro y. unfold upd. destruct (Bool.eqb y side) eqn:Q; [apply Bool.eqb_prop in Q; subst y; exact S'|]. rewrite Ex. apply psess_app, Ss.
  - rewrite Ex. rewrite Forall_forall in *. intros nt In_. apply (pnote_mono ks x par); [apply Nt; exact In_| |].
    + rewrite Lk. destruct (nt_from nt); lia.
    + intro y. unfold upd. destruct (Bool.eqb y side) eqn:Q; [apply Bool.eqb_prop in Q; subst y; apply after_epoch|lia].
Qed.
Theorem paired_in_step : forall dev par keys notes, paired C at_ d dev par keys notes -> exists ks, pstep_ok ks dev par keys notes.
Proof using H.
  intros dev par keys notes Hy. induction Hy as [dev h rnd ra rb rest Ih Lr N0 Ea Eb Sa Sb|dev par keys notes side pt fs c w' Hy (ks & St) G E|
    dev par keys notes side k n pt c rnd fs pt' w' Hy (ks & St) I0 Rv Fr E|dev par keys notes side w' Hy (ks & St) E].
  - eexists. eapply pstart; eauto.
  - exists ks. eapply psend; eauto.
  - eexists. eapply preceived; eauto.
  - exists ks. destruct St as (Ek & K & Lk & Ee & Ss & Nt). repeat (split; [assumption|]). split; [|exact Nt].
    intro y. unfold upd. destruct (Bool.eqb y side) eqn:Q; [apply Bool.eqb_prop in Q; subst y|apply Ss].
    destruct (Ss side) as (t & Et & P). exists t. rewrite E. auto.
Qed.

Theorem paired_delivered : forall dev par keys notes side ep n pt c rnd,
  paired C at_ d dev par keys notes -> In (mkNote (negb side) ep n pt c) notes ->
  receivable (par side) ep n -> fresh C keys (par side) ep rnd ->
  w_policy (dev side) (at_ side) (w_ident (dev side) (at_ side)) (me (negb side)) Receiving = true ->
  exists w', run0 (decrypt_message C (at_ side) rnd c) (dev side) = (Ok pt, w').
Proof using H.
  intros dev par keys notes side ep n pt c rnd Hy I0 Rv Fr T. destruct (paired_in_step _ _ _ _ Hy) as (ks & St).
  destruct (preceive ks dev par keys notes side ep n pt c rnd St I0 Rv Fr) as (_ & _ & D & _). exact (D T).
Qed.
Theorem paired_answered : forall dev par keys notes side ep n pt c rnd fs pt' w',
  paired C at_ d dev par keys notes -> In (mkNote (negb side) ep n pt c) notes ->
  receivable (par side) ep n -> fresh C keys (par side) ep rnd ->
  run (decrypt_message C (at_ side) rnd c) fs (dev side) = (Ok pt', w') -> pt' = pt.
Proof using H.
  intros dev par keys notes side ep n pt c rnd fs pt' w' Hy I0 Rv Fr E. destruct (paired_in_step _ _ _ _ Hy) as (ks & St).
  destruct (preceive ks dev par keys notes side ep n pt c rnd St I0 Rv Fr) as (_ & _ & _ & D). eapply D; eauto.
Qed.
Theorem paired_sendable : forall dev par keys notes side pt,
  paired C at_ d dev par keys notes -> (p_sent (par side) + 1 < 4294967296)%N ->
  w_policy (dev side) (at_ side) (w_ident (dev side) (at_ side)) (me (negb side)) Sending = true ->
  exists m w', run0 (encrypt_message C (at_ side) pt) (dev side) = (Ok (CSignal m), w').
Proof using H.
  intros dev par keys notes side pt Hy G T. destruct (paired_in_step _ _ _ _ Hy) as (ks & (_ & _ & _ & _ & Ss & _)).
  destruct (Ss side) as (t & Et & P & Pn). destruct (session_record _ _ _ Et) as (r & Er & Ec). destruct plens as [L1 L2].
  destruct (send_next C H root chain L1 L2 ks _ _ (par side) t pt P G) as (m & out & t' & En & Wh & Fr & _).
  unfold framed in Fr. rewrite Pn in Fr. subst out.
  exists m. eexists. eapply encrypt_completes; eauto. apply encrypt_base. exact En.
Qed.
End Paired.
