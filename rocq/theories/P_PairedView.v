(** What the two set-ups give and when they succeed (C83). *)
From Verif Require Import M_Base M_Crypto M_Aes M_Curve M_Proto M_Message M_Ratchet M_State M_Store M_Session M_Records
  S_Crypto S_Message S_State S_Shape S_Ratchet S_Session S_Aes S_Api S_Send S_Group S_Curve S_X3dh S_Receive S_Conv S_History S_Paired S_PairedView
  P_Base P_Proto P_Curve P_State P_Shape P_Ratchet P_Message P_Aes P_Chain P_Decrypt P_Receive P_Encrypt P_Record P_Init P_Conv P_X3dh P_Conv2 P_History P_Paired.
From Coq Require Import ZifyBool ZifyNat ZifyN.
Local Open Scope nat_scope.

Section View.
Variable C : Crypto.
Hypothesis H : CryptoOk C.

Lemma party_shows : forall r0 c0 ks a b p t r, List.length r0 = 32 -> List.length c0 = 32 -> List.length a = 32 -> List.length b = 32 ->
  party_ok C r0 c0 ks a b p t -> rc_current r = Some (with_alice_base t []) -> shows r a b (p_sent p).
Proof using H.
  intros r0 c0 ks a b p t r L1 L2 La Lb (W & E1 & E2 & _ & _ & (sc & S1 & _ & _ & S4 & _) & _) Er.
  unfold shows, rec_version, rec_local, rec_remote, rec_sender_key, on_current. rewrite Er.
  split; [|split; [|split]].
  - unfold st_version. cbn. destruct W as (W & _). rewrite W. reflexivity.
  - unfold st_local_identity. cbn. rewrite E1. apply new_public_key_bytes. exact La.
  - unfold st_remote_identity. cbn. rewrite E2. pose proof (new_public_key_bytes b Lb) as N0. unfold pub_bytes in *. rewrite N0. reflexivity.
  - unfold st_sender_chain_key. cbn. rewrite S1, S4. cbn [pck_key pck_index]. destruct W as (_ & _ & _ & _ & _ & (c & Ec & Wc & _) & _).
    rewrite S1 in Ec. injection Ec as <-. destruct Wc as (_ & (k & Ek & _ & Lk) & _). rewrite S4 in Ek. injection Ek as <-. cbn [pck_key] in Lk.
    unfold new_chain_key. rewrite Lk. cbn [Nat.eqb negb]. eexists. split; reflexivity.
Qed.
Variable d : dealt.

Theorem setup_agrees : forall h rnd, in_hand C d h -> 32 <= List.length rnd ->
  exists ra rb ck, alice_side C rnd d h = (Ok ra, skipn 32 rnd) /\ bob_side C d h = Ok rb /\
    shows ra (own_identity C d true) (own_identity C d false) 0 /\ shows rb (own_identity C d false) (own_identity C d true) 0 /\
    rec_receiver_key ra (mont_pub C (d_rb d)) = Ok (Some ck) /\ rec_sender_key rb = Ok ck.
Proof using H.
  intros h rnd Ih Lr. destruct (alice_party C H d h rnd Ih Lr) as (t & Ea & Pa & Na). destruct (bob_party C H d h Ih) as (u & Eb & Pb & Nb).
  destruct (plens C H d) as [L1 L2].
  pose proof (party_shows _ _ _ _ _ _ t (new_record (Some (with_alice_base t []))) L1 L2 (m32 C _) (m32 C _) Pa eq_refl) as Sa.
  pose proof (party_shows _ _ _ _ _ _ u (new_record (Some (with_alice_base u []))) L1 L2 (m32 C _) (m32 C _) Pb eq_refl) as Sb.
  exists (new_record (Some (with_alice_base t []))), (new_record (Some (with_alice_base u []))), (mkChainKey (x3dh_chain C (d_ia d) (d_e d) (d_ib d) (d_sb d) (d_ob d)) 0).
  split; [exact Ea|]. split; [exact Eb|]. split; [exact Sa|]. split; [exact Sb|].
  assert (K : new_chain_key (x3dh_chain C (d_ia d) (d_e d) (d_ib d) (d_sb d) (d_ob d)) 0 = Ok (mkChainKey (x3dh_chain C (d_ia d) (d_e d) (d_ib d) (d_sb d) (d_ob d)) 0)).
  { unfold new_chain_key. rewrite L2. reflexivity. }
  split.
  - destruct Pa as (_ & _ & _ & _ & _ & _ & _ & Vw & _). inversion Vw as [|v c vs cs V0 V1 E1 E2]; subst. inversion V1; subst.
    destruct V0 as (V0 & V2 & _). cbn [rv_epoch rv_idx rv_saved] in *.
    unfold rec_receiver_key, on_current, new_record, rc_current, st_receiver_chain_key, st_receiver_chain.
    change (ss_receivers (with_alice_base t [])) with (ss_receivers t). rewrite <- E2. cbn [find_chain]. rewrite V0. unfold kpub, kkey. cbn [nth].
    rewrite bytes_eqb_refl, V2. cbn [pck_key pck_index N.to_nat]. unfold kchain, chain_at. cbn. rewrite K. reflexivity.
  - destruct Pb as (_ & _ & _ & _ & _ & (sc & S1 & _ & _ & S4 & _) & _).
    unfold rec_sender_key, on_current, new_record, rc_current, st_sender_chain_key. change (ss_sender (with_alice_base u [])) with (ss_sender u).
    rewrite S1, S4. cbn [pck_key pck_index p_sent N.to_nat]. unfold kchain, chain_at. cbn. exact K.
Qed.
Theorem paired_shows : forall at_ dev par keys notes side, paired C at_ d dev par keys notes ->
  exists r, w_sess (dev side) (at_ side) = Some r /\
    shows r (own_identity C d side) (own_identity C d (negb side)) (p_sent (par side)).
Proof using H.
  intros at_ dev par keys notes side Hy. destruct (paired_in_step C H d at_ _ _ _ _ Hy) as (ks & (_ & _ & _ & _ & Ss & _)).
  destruct (Ss side) as (t & Et & P & _). destruct (session_record _ _ _ Et) as (r & Er & Ec). destruct (plens C H d) as [L1 L2].
  exists r. split; [exact Er|]. exact (party_shows _ _ _ _ _ _ t r L1 L2 (m32 C _) (m32 C _) P Ec).
Qed.

(** *** Arbitrary parameters *)
Lemma derive_some : forall sec, exists r c, derive_keys C sec = Ok (r, c) /\ List.length r = 32.
Proof using H.
  intro sec. rewrite (derive_x3dh C sec H). eexists. eexists. split; [reflexivity|]. rewrite firstn_length, (rfc_len C H) by lia. reflexivity.
Qed.
Lemma create_some : forall root k u, match agreement C k u with
  | Ok _ => exists r c, create_chain C root k u = Ok (r, c) | Err e => create_chain C root k u = Err e | Panic => False end.
Proof using H.
  intros root k u. unfold create_chain. destruct (agreement C k u) as [sec|e|] eqn:E; cbn [bind]; [|reflexivity|].
  - rewrite hkdf_rfc. assert (L : List.length (rfc_hkdf C (Some root) sec (str "WhisperRatchet") 64) = 64) by (apply (rfc_len C H); lia).
    set (x := rfc_hkdf C (Some root) sec (str "WhisperRatchet") 64) in *. clearbody x.
    unfold new_root_key, new_chain_key. rewrite firstn_length, skipn_length, L. cbn. eauto.
  - unfold agreement in E. destruct (negb _); [discriminate|]. cbv zeta in E. destruct (all_zero _); discriminate.
Qed.
Lemma agree_np : forall k u, agreement C k u <> Panic.
Proof using. intros k u E. unfold agreement in E. destruct (negb _); [discriminate|]. cbv zeta in E. destruct (all_zero _); discriminate. Qed.
Ltac no_agree := split; [split; [intros (? & ? & X); discriminate X|intros X; exfalso; unfold agrees, opt_agrees in X; decompose [and ex] X; congruence]|discriminate].
Theorem alice_succeeds : forall rnd ident base ti ts ot tr,
  ((exists r rest, alice_record C rnd ident base ti ts ot tr = (Ok r, rest)) <->
   32 <= List.length rnd /\ agrees C ident ts /\ agrees C base ti /\ agrees C base ts /\ opt_agrees C base ot /\
   exists new, gen_keypair C rnd = (Ok new, skipn 32 rnd) /\ agrees C new tr) /\
  fst (alice_record C rnd ident base ti ts ot tr) <> Panic.
Proof using H.
  intros rnd ident base ti ts ot tr. unfold alice_record, init_alice.
  destruct (Nat.ltb_spec (List.length rnd) 32) as [L|L].
  { assert (G : gen_keypair C rnd = (Err EEOF, [])).
    { unfold gen_keypair, gen_private_key, read_full. destruct (Nat.ltb_spec (List.length rnd) 32); [reflexivity|lia]. }
    rewrite G. split; [split; [intros (? & ? & X); discriminate X|lia]|discriminate]. }
  destruct (gen_pair_for C rnd L) as (new & G & _). rewrite G.
  destruct (agreement C (kp_priv ident) ts) as [d1|e|] eqn:A1; cbn [bind]; [|no_agree|destruct (agree_np _ _ A1)].
  destruct (agreement C (kp_priv base) ti) as [d2|e|] eqn:A2; cbn [bind]; [|no_agree|destruct (agree_np _ _ A2)].
  destruct (agreement C (kp_priv base) ts) as [d3|e|] eqn:A3; cbn [bind]; [|no_agree|destruct (agree_np _ _ A3)].
  assert (O : match match ot with Some o => do dh4 <- agreement C (kp_priv base) o; Ok (discontinuity ++ d1 ++ d2 ++ d3 ++ dh4)
     | None => Ok (discontinuity ++ d1 ++ d2 ++ d3) end with Ok _ => opt_agrees C base ot | Err _ => ~ opt_agrees C base ot | Panic => False end).
  { destruct ot as [o|]; [|exact I]. cbn [opt_agrees]. unfold agrees. destruct (agreement C (kp_priv base) o) as [x|e|] eqn:A4; cbn [bind]; [eauto| |destruct (agree_np _ _ A4)].
    intros [x X]; discriminate X. }
  destruct (match ot with Some o => _ | None => _ end) as [sec|e|]; cbn [bind]; [|split; [split; [intros (? & ? & X); discriminate X|intros X; exfalso; apply O; apply X]|discriminate]|destruct O].
  destruct (derive_some sec) as (r & c & -> & _). cbn [bind].
  pose proof (create_some r (kp_priv new) tr) as Cr. destruct (agreement C (kp_priv new) tr) as [d5|e|] eqn:A5; [|rewrite Cr; cbn [bind]|destruct Cr].
  - destruct Cr as (r' & c' & ->). cbn [bind]. split; [|discriminate]. split; [intros _|intros _; eauto].
    unfold agrees. split; [exact L|]. split; [eauto|]. split; [eauto|]. split; [eauto|]. split; [exact O|]. exists new. split; [reflexivity|eauto].
  - split; [split; [intros (? & ? & X); discriminate X|]|discriminate]. intros (_ & _ & _ & _ & _ & new' & En & (x & X)). exfalso.
    injection En as <-. congruence.
Qed.
Theorem bob_succeeds : forall ident signed onetime rp ti tb,
  ((exists r, bob_record C ident (Some signed) onetime (Some rp) ti tb = Ok r) <->
   agrees C signed ti /\ agrees C ident tb /\ agrees C signed tb /\ match onetime with Some o => agrees C o tb | None => True end) /\
  bob_record C ident (Some signed) onetime (Some rp) ti tb <> Panic.
Proof using H.
  intros ident signed onetime rp ti tb. unfold bob_record, init_bob.
  Ltac no_ag := split; [split; [intros (? & X); discriminate X|intros X; exfalso; unfold agrees in X; decompose [and ex] X; congruence]|discriminate].
  destruct (agreement C (kp_priv signed) ti) as [d1|e|] eqn:A1; cbn [bind]; [|no_ag|destruct (agree_np _ _ A1)].
  destruct (agreement C (kp_priv ident) tb) as [d2|e|] eqn:A2; cbn [bind]; [|no_ag|destruct (agree_np _ _ A2)].
  destruct (agreement C (kp_priv signed) tb) as [d3|e|] eqn:A3; cbn [bind]; [|no_ag|destruct (agree_np _ _ A3)].
  destruct onetime as [o|].
  - destruct (agreement C (kp_priv o) tb) as [d4|e|] eqn:A4; cbn [bind]; [|no_ag|destruct (agree_np _ _ A4)].
    destruct (match derive_keys C _ with Ok rc => rc | _ => _ end) as [r c]. cbn [bind]. split; [|discriminate]. unfold agrees. split; eauto 10.
  - cbn [bind]. destruct (match derive_keys C _ with Ok rc => rc | _ => _ end) as [r c]. cbn [bind]. split; [|discriminate]. unfold agrees. split; eauto 10.
Qed.
End View.

(** The accessors on any record: none panics; without a session each answers with the one error. *)
Lemma accessors : forall r,
  (rc_current r = None ->
     rec_version r = Err ENoCurrentSession /\ rec_local r = Err ENoCurrentSession /\ rec_remote r = Err ENoCurrentSession /\
     (forall u, rec_receiver_key r u = Err ENoCurrentSession) /\ rec_sender_key r = Err ENoCurrentSession) /\
  rec_version r <> Panic /\ rec_local r <> Panic /\ rec_remote r <> Panic /\ (forall u, rec_receiver_key r u <> Panic) /\ rec_sender_key r <> Panic.
Proof.
  intro r. unfold rec_version, rec_local, rec_remote, rec_receiver_key, rec_sender_key, on_current.
  destruct (rc_current r) as [s|]; (split; [intro Z; try discriminate Z; repeat split|]); [|repeat split; intros; discriminate].
  pose proof new_public_key_no_panic as K.
  assert (Q : forall k i, new_chain_key k i <> Panic) by (intros k i; unfold new_chain_key; match goal with |- context [if ?c then _ else _] => destruct c; discriminate end).
  split; [discriminate|]. split; [apply K|]. split.
  - unfold st_remote_identity. destruct (ss_remote s) as [|x l]; [discriminate|]. pose proof (K (x :: l)) as Z. destruct (new_public_key (x :: l)); [discriminate|discriminate|]. destruct (Z eq_refl).
  - split.
    + intro u. unfold st_receiver_chain_key. destruct (st_receiver_chain s u) as [c|]; [|discriminate].
      destruct (match pc_key c with Some k => (pck_key k, pck_index k) | None => ([], 0%N) end) as [k i].
      pose proof (Q k i) as Z. destruct (new_chain_key k i); [discriminate|discriminate|]. destruct (Z eq_refl).
    + unfold st_sender_chain_key. destruct (ss_sender s) as [c|]; [|discriminate]. destruct (pc_key c); [apply Q|discriminate].
Qed.
