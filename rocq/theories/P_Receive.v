(** Exactly which keys decryption uses, and what it does to the state. *)
From Verif Require Import M_Base M_Crypto M_Aes M_Curve M_Proto M_Message M_Ratchet M_State M_Store M_Session
  S_Crypto S_Message S_State S_Shape S_Ratchet S_Session S_Aes
  P_Base P_Proto P_Curve P_State P_Shape P_Ratchet P_Message P_Aes P_Chain P_Decrypt.
From Coq Require Import ZifyBool ZifyNat ZifyN.
Local Open Scope nat_scope.

Lemma verify_mac_tagged : forall C m key s r, CryptoOk C -> List.length key = 32 ->
  verify_mac C m key s r = Ok true <-> tagged C key s r (sg_raw m).
Proof.
  intros C m key s r H L. unfold verify_mac. split.
  - destruct (Nat.ltb_spec (List.length (sg_raw m)) 8) as [|G]; [discriminate|].
    destruct (mac_ok C key s r (firstn (List.length (sg_raw m) - 8) (sg_raw m)) H L) as [-> _]. cbn [bind].
    intro E. apply (f_equal (fun x => match x with Ok a => a | _ => false end)) in E. apply bytes_eqb_eq in E.
    exists (firstn (List.length (sg_raw m) - 8) (sg_raw m)). change (Byte.x05 :: s) with (pub_bytes s).
    change (Byte.x05 :: r) with (pub_bytes r). rewrite E, firstn_skipn. reflexivity.
  - intros (ser & E). pose proof (proj2 (mac_ok C key s r ser H L)) as L8.
    change (Byte.x05 :: s) with (pub_bytes s) in E. change (Byte.x05 :: r) with (pub_bytes r) in E.
    assert (LE : List.length (sg_raw m) = List.length ser + 8) by (rewrite E, app_length, L8; reflexivity).
    destruct (Nat.ltb_spec (List.length (sg_raw m)) 8) as [|G]; [lia|].
    replace (List.length (sg_raw m) - 8) with (List.length ser) by lia.
    rewrite E, firstn_app, firstn_all, Nat.sub_diag, firstn_O, app_nil_r.
    rewrite skipn_app, skipn_all, Nat.sub_diag, skipn_O. cbn [app].
    destruct (mac_ok C key s r ser H L) as [-> _]. cbn [bind]. rewrite bytes_eqb_refl. reflexivity.
Qed.

Lemma find_chain_in_none : forall key l, find_chain key l = None ->
  forall c, In c l -> pc_ratchet c <> key.
Proof. intros key l F c I E. apply find_chain_none in F. apply F. rewrite <- E. apply in_map. exact I. Qed.

Lemma create_chain_rfc : forall C root ours theirs r c, CryptoOk C -> create_chain C root ours theirs = Ok (r, c) ->
  exists d, agreement C ours theirs = Ok d /\
    r ++ ck_key c = rfc_hkdf C (Some root) d (str "WhisperRatchet") 64 /\
    List.length r = 32 /\ List.length (ck_key c) = 32 /\ ck_index c = 0%N.
Proof.
  intros C root ours theirs r c H E. destruct (create_chain_inv _ _ _ _ _ _ E) as (L1 & L2 & I & d & A).
  exists d. split; [auto|]. split; [|auto]. unfold create_chain in E. rewrite A in E. cbn [bind] in E.
  rewrite <- hkdf_rfc. set (o := hkdf _ _ _ _ _) in *. clearbody o.
  unfold new_root_key, new_chain_key in E. destruct (negb _); cbn [bind] in E; [discriminate|].
  destruct (negb _); cbn [bind] in E; [discriminate|]. injection E as <- <-. cbn [ck_key]. apply firstn_skipn.
Qed.

Lemma agreement_x25519 : forall C kb ours u d, new_private_key C kb = Ok ours -> agreement C ours u = Ok d ->
  d = c_x25519 C kb u /\ exists x, In x d /\ x <> Byte.x00.
Proof.
  intros C kb ours u d E A.
  assert (K : sk_ecdh ours = kb).
  { unfold new_private_key in E. destruct (negb _); [discriminate|]. injection E as <-. reflexivity. }
  unfold agreement in A. destruct (negb _); [discriminate|]. rewrite K in A.
  destruct (all_zero (c_x25519 C kb u)) eqn:Z; [discriminate|]. injection A as <-. split; [reflexivity|].
  clear - Z. induction (c_x25519 C kb u) as [|x l IH]; [discriminate|].
  cbn [all_zero forallb] in Z. destruct (Byte.eqb x Byte.x00) eqn:B.
  - destruct (IH Z) as (y & I & N). exists y. split; [right|]; auto.
  - exists x. split; [left; auto|]. intros ->. discriminate.
Qed.

(** The two branches of messageKeys give the keys of the specification. *)
Lemma message_keys_sound : forall C s eph c k counter mk s', CryptoOk C -> wf_state s -> go_u32 counter ->
  st_receiver_chain s eph = Some c -> pc_key c = Some k ->
  get_message_keys C s eph (mkChainKey (pck_key k) (pck_index k)) counter = Ok (mk, s') ->
  ((counter < pck_index k)%N /\
    (exists x, In x (pc_msgkeys c) /\ pmk_index x = counter /\
       mk = mkMsgKeys (pmk_cipher x) (pmk_mac x) (pmk_iv x) counter) \/
   (pck_index k <= counter)%N /\ ((counter <= pck_index k + 25000)%N \/ ss_remote s = ss_local s) /\
   keys_at C (chain_at C (pck_key k) (N.to_nat (counter - pck_index k))) counter mk).
Proof.
  intros C s eph c k counter mk s' H W G F Ek E.
  rewrite (get_message_keys_exact C s eph c k counter H W F Ek) in E.
  destruct (N.ltb_spec counter (pck_index k)).
  - left. split; [auto|]. destruct (last_msgkey counter (pc_msgkeys c)) as [x|] eqn:X; [|discriminate].
    apply last_msgkey_some in X. destruct X as [I X]. injection E as <- <-. exists x. auto.
  - right. split; [auto|].
    destruct ((25000 <? counter - pck_index k) && negb (bytes_eqb (ss_remote s) (ss_local s)))%N eqn:B; [discriminate|].
    apply (f_equal (fun x => match x with Ok a => a | _ => (mk, s') end)) in E. cbv beta iota zeta in E.
    apply (f_equal fst) in E. cbn [fst] in E. split.
    + apply andb_false_iff in B. destruct B as [B|B].
      * left. lia.
      * right. apply negb_false_iff in B. apply bytes_eqb_eq in B. exact B.
    + rewrite <- E.
      destruct (wf_found s eph c W F) as ((_ & (k' & Ek' & Gk & _) & _) & _). rewrite Ek in Ek'. injection Ek' as <-.
      pose proof (chain_position_keys C (mkChainKey (pck_key k) (pck_index k)) (N.to_nat (counter - pck_index k)) H Gk) as P.
      cbn [ck_key ck_index] in P. rewrite N2Nat.id in P.
      replace ((pck_index k + (counter - pck_index k)) mod 4294967296)%N with counter in P; [exact P|].
      rewrite N.mod_small; unfold go_u32 in *; lia.
Qed.

Lemma decrypt_session_sound : forall C rnd s m pt s' rest, CryptoOk C -> wf_state s -> wf_signal m ->
  decrypt_session C rnd s m = (Ok (pt, s'), rest) -> opens C s m pt.
Proof.
  intros C rnd s m pt s' rest H W (Le & Gc & Lraw & Ver) E. unfold decrypt_session in E.
  pose proof W as W'. wf_split W'. rewrite Esc in E.
  rewrite (wf_version s W), Ver in E. cbn [N.eqb Pos.eqb negb] in E.
  destruct (get_chain_key C rnd s (sg_ratchet m)) as [[[ck s1]| |] r1] eqn:Eck; [|discriminate..].
  destruct (get_chain_key_wf _ _ _ _ _ _ _ W Le Eck) as (W1 & c & Fc & Ec).
  destruct (get_chain_key_same _ _ _ _ _ _ _ Eck) as [S1 _].
  destruct (get_message_keys C s1 (sg_ratchet m) ck (sg_counter m)) as [[mk s2]| |] eqn:Emk; cbn [bind] in E; [|discriminate..].
  assert (Emk' : get_message_keys C s1 (sg_ratchet m) (mkChainKey (pck_key (mkPChainKey (ck_index ck) (ck_key ck))) (pck_index (mkPChainKey (ck_index ck) (ck_key ck)))) (sg_counter m) = Ok (mk, s2)) by (destruct ck; exact Emk).
  destruct (get_message_keys_wf C s1 _ c _ _ mk s2 H W1 Fc Ec Emk') as (W2 & S2 & L1 & L2 & L3).
  pose proof (message_keys_sound C s1 _ c _ _ mk s2 H W1 Gc Fc Ec Emk') as K.
  destruct (wf_remote s2 W2) as (rid & _ & Er & Pr). rewrite Pr in E. cbn [bind] in E.
  destruct (wf_local s2 W2) as (lid & _ & El & Pl). rewrite Pl in E. cbn [bind] in E.
  destruct (verify_mac C m (mk_mac mk) rid lid) as [[|]| |] eqn:Ev; cbn [bind negb] in E; [|discriminate..].
  destruct (cbc_decrypt C (mk_cipher mk) (mk_iv mk) (sg_body m)) as [p| |] eqn:Ed; cbn [bind] in E; [|discriminate..].
  injection E as <- <- <-.
  destruct S1 as (_ & Q1 & Q2 & _).
  assert (Q1' : ss_local s2 = ss_local s) by (rewrite S2; cbn [with_receivers ss_local]; exact Q1).
  assert (Q2' : ss_remote s2 = ss_remote s) by (rewrite S2; cbn [with_receivers ss_remote]; exact Q2).
  exists mk, rid, lid. split; [|split; [|split; [|split]]].
  2:{ rewrite <- Q2'. exact Er. }
  2:{ rewrite <- Q1'. exact El. }
  2:{ apply verify_mac_tagged; auto. }
  2:{ exact Ed. }
  rewrite Q1, Q2 in K. clear Emk Emk' Ev Ed.
  unfold get_chain_key in Eck. pose proof (wf_receiver_key s (sg_ratchet m) W) as R.
  destruct (st_receiver_chain s (sg_ratchet m)) as [c0|] eqn:F.
  - destruct R as (k & Ek & Gk & Lk & R). rewrite R in Eck. injection Eck as <- <- <-.
    left. exists c, (mkPChainKey (pck_index k) (pck_key k)). cbn [ck_index ck_key] in *.
    apply find_chain_some in Fc. destruct Fc as [I X]. auto.
  - right. rewrite R, (wf_root s W) in Eck. cbn [bind] in Eck. unfold st_sender_ratchet_priv in Eck. rewrite Esc in Eck.
    destruct (new_private_key C (pc_ratchet_priv sc)) as [ours| |] eqn:Np; cbn [bind] in Eck; [|discriminate..].
    destruct (create_chain C (ss_root s) ours (sg_ratchet m)) as [[rroot rchain]| |] eqn:Cr; [|discriminate..].
    destruct (gen_keypair C rnd) as [[kp| |] r2] eqn:Gk; [|discriminate..].
    destruct (create_chain C rroot (kp_priv kp) (sg_ratchet m)) as [[sroot schain]| |]; cbn [bind] in Eck; [|discriminate..].
    destruct (st_sender_chain_key s) as [cur| |]; cbn [bind] in Eck; [|discriminate..].
    injection Eck as <- <- <-.
    destruct (create_chain_rfc _ _ _ _ _ _ H Cr) as (d & A & X & L4 & L5 & I0).
    destruct (agreement_x25519 _ _ _ _ _ Np A) as [-> NZ].
    split; [exact (find_chain_in_none _ _ F)|].
    cbn [pck_index pck_key] in K. rewrite I0 in K.
    destruct K as [[K _]|[_ [J K]]]; [lia|]. split; [destruct J; [left; lia|right; auto]|].
    rewrite N.sub_0_r in K. exists sc, rroot, (ck_key rchain). auto 10.
Qed.

(** The forward direction: a message whose keys the state has decrypts. *)
Definition after_saved (s : state) (eph : pubkey) (n : N) : state :=
  with_receivers s (upd_chain (pub_bytes eph) (fun c => with_msgkeys c
    (filter (fun k => negb (N.eqb (pmk_index k) n)) (pc_msgkeys c))) (ss_receivers s)).
Definition after_ahead (C : Crypto) (s : state) (eph : pubkey) (k : pchainkey) (n : N) : state :=
  let j := N.to_nat (n - pck_index k) in
  let ck := mkChainKey (pck_key k) (pck_index k) in
  with_receivers s (upd_chain (pub_bytes eph) (fun c =>
    with_chainkey (with_msgkeys c (skip_list C j ck (pc_msgkeys c)))
      (mkPChainKey (ck_index (ck_iter C j ck)) (ck_key (ck_iter C j ck)))) (ss_receivers s)).

Lemma get_message_keys_saved : forall C s eph c k n x, CryptoOk C -> wf_state s ->
  st_receiver_chain s eph = Some c -> pc_key c = Some k -> (n < pck_index k)%N ->
  last_msgkey n (pc_msgkeys c) = Some x ->
  get_message_keys C s eph (mkChainKey (pck_key k) (pck_index k)) n =
    Ok (mkMsgKeys (pmk_cipher x) (pmk_mac x) (pmk_iv x) n, after_saved s eph n).
Proof.
  intros C s eph c k n x H W F Ek L X. rewrite (get_message_keys_exact C s eph c k n H W F Ek).
  destruct (N.ltb_spec n (pck_index k)); [|lia]. rewrite X. reflexivity.
Qed.
Lemma get_message_keys_ahead : forall C s eph c k n, CryptoOk C -> wf_state s ->
  st_receiver_chain s eph = Some c -> pc_key c = Some k -> (pck_index k <= n)%N ->
  ((n <= pck_index k + 25000)%N \/ ss_remote s = ss_local s) ->
  get_message_keys C s eph (mkChainKey (pck_key k) (pck_index k)) n =
    Ok (ck_message_keys C (ck_iter C (N.to_nat (n - pck_index k)) (mkChainKey (pck_key k) (pck_index k))),
        after_ahead C s eph k n).
Proof.
  intros C s eph c k n H W F Ek L J. rewrite (get_message_keys_exact C s eph c k n H W F Ek).
  destruct (N.ltb_spec n (pck_index k)); [lia|].
  destruct ((25000 <? n - pck_index k) && negb (bytes_eqb (ss_remote s) (ss_local s)))%N eqn:B; [|reflexivity].
  apply andb_true_iff in B. destruct B as [B1 B2]. destruct J as [J|J]; [lia|].
  rewrite J, bytes_eqb_refl in B2. discriminate.
Qed.

(** The rest of decryptMessageSession, once the keys are known. *)
Lemma decrypt_session_run : forall C rnd s m ck s1 rest mk s2 remote local pt,
  CryptoOk C -> wf_state s -> wf_signal m ->
  get_chain_key C rnd s (sg_ratchet m) = (Ok (ck, s1), rest) ->
  get_message_keys C s1 (sg_ratchet m) ck (sg_counter m) = Ok (mk, s2) ->
  wf_state s2 -> ss_remote s2 = pub_bytes remote -> ss_local s2 = pub_bytes local ->
  verify_mac C m (mk_mac mk) remote local = Ok true ->
  cbc_decrypt C (mk_cipher mk) (mk_iv mk) (sg_body m) = Ok pt ->
  decrypt_session C rnd s m = (Ok (pt, st_clear_unack s2), rest).
Proof.
  intros C rnd s m ck s1 rest mk s2 remote local pt H W (Le & Gc & Lraw & Ver) E1 E2 W2 Er El VM D.
  unfold decrypt_session. pose proof W as W'. wf_split W'. rewrite Esc.
  rewrite (wf_version s W), Ver. cbn [N.eqb Pos.eqb negb]. rewrite E1, E2. cbn [bind].
  destruct (wf_remote s2 W2) as (rid & _ & Er' & Pr). rewrite Pr. cbn [bind].
  destruct (wf_local s2 W2) as (lid & _ & El' & Pl). rewrite Pl. cbn [bind].
  rewrite Er in Er'. rewrite El in El'. injection Er' as <-. injection El' as <-.
  rewrite VM. cbn [bind negb]. rewrite D. reflexivity.
Qed.

Lemma get_chain_key_known : forall C rnd s eph c k, wf_state s ->
  st_receiver_chain s eph = Some c -> pc_key c = Some k ->
  get_chain_key C rnd s eph = (Ok (mkChainKey (pck_key k) (pck_index k), s), rnd).
Proof.
  intros C rnd s eph c k W F Ek. unfold get_chain_key. pose proof (wf_receiver_key s eph W) as R.
  rewrite F in R. destruct R as (k' & Ek' & _ & _ & ->). rewrite Ek in Ek'. injection Ek' as <-. reflexivity.
Qed.

(** The state after a Diffie-Hellman step. *)
Definition after_dh (s : state) (eph : pubkey) (rchain : chainkey) (sroot : bytes) (kp : keypair)
    (schain : chainkey) (cur : N) : state :=
  st_set_sender_chain (with_prevctr (st_add_receiver_chain (with_root s sroot) eph rchain)
    (if (0 <? cur)%N then cur - 1 else 0)%N) kp schain.

Lemma get_chain_key_new : forall C rnd s eph sc k ours rroot rchain kp rest sroot schain, wf_state s ->
  st_receiver_chain s eph = None -> ss_sender s = Some sc -> pc_key sc = Some k ->
  new_private_key C (pc_ratchet_priv sc) = Ok ours ->
  create_chain C (ss_root s) ours eph = Ok (rroot, rchain) ->
  gen_keypair C rnd = (Ok kp, rest) ->
  create_chain C rroot (kp_priv kp) eph = Ok (sroot, schain) ->
  get_chain_key C rnd s eph = (Ok (rchain, after_dh s eph rchain sroot kp schain (pck_index k)), rest).
Proof.
  intros C rnd s eph sc k ours rroot rchain kp rest sroot schain W F Es Ek Np Cr G Cs.
  unfold get_chain_key. pose proof (wf_receiver_key s eph W) as R. rewrite F in R. rewrite R.
  rewrite (wf_root s W). cbn [bind]. unfold st_sender_ratchet_priv. rewrite Es, Np. cbn [bind]. rewrite Cr, G, Cs.
  cbn [bind]. destruct (wf_sender_key s W) as (sc' & k' & Es' & Ek' & _ & _ & Sk). rewrite Sk. cbn [bind].
  rewrite Es in Es'. injection Es' as <-. rewrite Ek in Ek'. injection Ek' as <-. reflexivity.
Qed.
