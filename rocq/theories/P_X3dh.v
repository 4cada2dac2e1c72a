(** Both sides of X3DH. *)
From Verif Require Import M_Base M_Crypto M_Aes M_Curve M_Proto M_Message M_Ratchet M_State M_Store M_Session
  S_Crypto S_Message S_State S_Shape S_Ratchet S_Session S_Aes S_Conv S_X3dh
  P_Base P_Proto P_Curve P_State P_Shape P_Ratchet P_Message P_Aes P_Chain P_Decrypt P_Receive P_Encrypt P_Record P_Init P_Conv.
From Coq Require Import ZifyBool ZifyNat ZifyN.
Local Open Scope nat_scope.

Lemma x3dh_len : forall C ia e ib sb ob, CryptoOk C -> List.length (x3dh_root C ia e ib sb ob) = 32 /\ List.length (x3dh_chain C ia e ib sb ob) = 32.
Proof.
  intros C ia e ib sb ob H. unfold x3dh_root, x3dh_chain, x3dh_keys. rewrite firstn_length, skipn_length, (rfc_len C H) by lia. auto.
Qed.
Lemma derive_x3dh : forall C sec, CryptoOk C -> let d := rfc_hkdf C None sec (str "WhisperText") 64 in
  derive_keys C sec = Ok (firstn 32 d, mkChainKey (skipn 32 d) 0).
Proof.
  intros C sec H d. unfold derive_keys. rewrite hkdf_rfc. assert (L : List.length d = 64) by (apply (rfc_len C H); lia).
  change (rfc_hkdf C None sec (str "WhisperText") 64) with d. clearbody d. cbv zeta.
  unfold new_root_key, new_chain_key. rewrite firstn_length, skipn_length, L. reflexivity.
Qed.
Lemma pair_agree : forall C k p j, CryptoOk C -> pair_for C k p -> List.length j = 32 ->
  agreement C (kp_priv p) (mont_pub C j) = Ok (c_x25519 C k (mont_pub C j)).
Proof.
  intros C k p j H (L & _ & _ & Hd) Lj. unfold agreement. unfold mont_pub at 1. rewrite ed_to_mont_length. cbn [Nat.eqb negb].
  rewrite (holds_x C H _ k) by auto. rewrite (all_zero_x C H) by auto. reflexivity.
Qed.
Lemma pair_agree_other : forall C k p j, CryptoOk C -> pair_for C k p -> List.length j = 32 ->
  agreement C (kp_priv p) (mont_pub C j) = Ok (c_x25519 C j (mont_pub C k)).
Proof. intros C k p j H P L. rewrite (pair_agree C k p j H P L). f_equal. apply (ok_dh C H); [apply P|exact L]. Qed.
Lemma gen_pair_for : forall C rnd, 32 <= List.length rnd ->
  exists p, gen_keypair C rnd = (Ok p, skipn 32 rnd) /\ pair_for C (firstn 32 rnd) p.
Proof.
  intros C rnd L. unfold gen_keypair, gen_private_key, read_full. destruct (Nat.ltb_spec (List.length rnd) 32); [lia|].
  unfold new_private_key. rewrite firstn_length_le by exact L. cbn [Nat.eqb negb]. eexists. split; [reflexivity|].
  split; [apply firstn_length_le; exact L|]. cbn [kp_pub kp_priv sk_pub sk_bytes sk_ecdh]. auto.
Qed.
Lemma pair_stored : forall C k p, pair_for C k p ->
  exists p', prekeyrec_pair C (new_prekeyrec p) = Ok p' /\ pair_for C k p'.
Proof.
  intros C k p (L & E1 & E2 & E3). unfold prekeyrec_pair, new_keypair, new_prekeyrec. cbn [pr_priv pr_pub]. rewrite E1, E2.
  unfold new_private_key. rewrite clamp_length, L. cbn [Nat.eqb negb bind].
  assert (N : new_public_key (pub_bytes (mont_pub C k)) = Ok (mont_pub C k)).
  { apply new_public_key_bytes, ed_to_mont_length. }
  rewrite N. cbn [bind]. eexists. split; [reflexivity|]. split; [exact L|]. cbn [kp_pub kp_priv sk_pub sk_bytes sk_ecdh].
  split; [reflexivity|]. split; [|right; reflexivity]. apply clamp_idem. exact L.
Qed.

Section X3dh.
Variable C : Crypto.
Hypothesis H : CryptoOk C.
Variables ia e ib sb : bytes.
Variable ob : option bytes.
Hypotheses (La : List.length ia = 32) (Le : List.length e = 32) (Lb : List.length ib = 32) (Ls : List.length sb = 32).
Hypothesis Lo : forall o, ob = Some o -> List.length o = 32.
Let root := x3dh_root C ia e ib sb ob.
Let chain := x3dh_chain C ia e ib sb ob.

Lemma init_bob_exact : forall ident signed onetime, pair_for C ib ident -> pair_for C sb signed ->
  match ob, onetime with Some o, Some p => pair_for C o p | None, None => True | _, _ => False end ->
  init_bob C ident (Some signed) onetime (Some signed) (mont_pub C ia) (mont_pub C e) =
  Ok (st_set_sender_chain (fresh_state (pub_bytes (mont_pub C ib)) (pub_bytes (mont_pub C ia)) root) signed (mkChainKey chain 0)).
Proof using H La Le Lb Ls Lo.
  intros ident signed onetime Pi Ps Po. unfold init_bob.
  rewrite (pair_agree_other C sb signed ia H Ps La), (pair_agree_other C ib ident e H Pi Le), (pair_agree_other C sb signed e H Ps Le). cbn [bind].
  assert (E : forall t, match onetime with
       | Some ot => do dh4 <- agreement C (kp_priv ot) (mont_pub C e); Ok (discontinuity ++ c_x25519 C ia (mont_pub C sb) ++ c_x25519 C e (mont_pub C ib) ++ t ++ dh4)
       | None => Ok (discontinuity ++ c_x25519 C ia (mont_pub C sb) ++ c_x25519 C e (mont_pub C ib) ++ t) end =
     Ok (discontinuity ++ c_x25519 C ia (mont_pub C sb) ++ c_x25519 C e (mont_pub C ib) ++ t ++ match ob with Some o => c_x25519 C e (mont_pub C o) | None => [] end)).
  { intro t. destruct ob as [o|], onetime as [p|]; try contradiction.
    - rewrite (pair_agree_other C o p e H Po Le). reflexivity.
    - rewrite !app_nil_r. reflexivity. }
  rewrite E. cbn [bind]. rewrite (derive_x3dh C _ H). destruct Pi as (_ & -> & _). reflexivity.
Qed.
Lemma init_bob_party : forall ident signed onetime rr lr, pair_for C ib ident -> pair_for C sb signed ->
  match ob, onetime with Some o, Some p => pair_for C o p | None, None => True | _, _ => False end ->
  go_u32 rr -> go_u32 lr ->
  exists s0, init_bob C ident (Some signed) onetime (Some signed) (mont_pub C ia) (mont_pub C e) = Ok s0 /\
    let s := with_alice_base (with_regs (with_regs s0 (ss_remote_reg s0) lr) rr lr) (pub_bytes (mont_pub C e)) in
    party_ok C root chain [sb] (mont_pub C ib) (mont_pub C ia) (mkParty 0 0 []) s /\
    ss_pending s = None /\ ss_local_reg s = lr /\ ss_remote_reg s = rr /\ ss_alice_base s = pub_bytes (mont_pub C e).
Proof using H La Le Lb Ls Lo.
  intros ident signed onetime rr lr Pi Ps Po Gr Gl. pose proof (init_bob_exact ident signed onetime Pi Ps Po) as E.
  eexists. split; [exact E|]. cbv zeta. split; [|cbn; auto].
  assert (M32 : forall k, List.length (mont_pub C k) = 32) by (intro; apply ed_to_mont_length).
  destruct Ps as (_ & P1 & P2 & P3). pose proof Pi as (_ & Pi1 & _).
  assert (Wk : forall k, Some signed = Some k -> List.length (kp_pub k) = 32 /\ List.length (sk_bytes (kp_priv k)) = 32).
  { intros k Ek. injection Ek as <-. rewrite P1, P2, clamp_length. auto. }
  destruct (init_bob_wf C _ _ _ _ _ _ _ H ltac:(rewrite Pi1; apply M32) (M32 ia) Wk E) as (Wf & Pn & El & Er).
  specialize (Wf rr lr (mont_pub C e) None Gr Gl (M32 e)).
  split; [rewrite with_pending_none in Wf by exact Pn; apply Wf; discriminate|].
  split; [reflexivity|]. split; [reflexivity|]. split; [cbn; lia|]. split; [reflexivity|]. split.
  { eexists. split; [reflexivity|]. cbn. rewrite P1, P2. auto. }
  split; [reflexivity|]. split; [constructor|]. split; [constructor|constructor].
Qed.

Lemma init_alice_party : forall ident base rnd, pair_for C ia ident -> pair_for C e base -> 32 <= List.length rnd ->
  exists s0, init_alice C rnd ident base (mont_pub C ib) (mont_pub C sb) (option_map (mont_pub C) ob) (mont_pub C sb) = (Ok s0, skipn 32 rnd) /\
    forall pending rr lr, (forall p, pending = Some p -> wf_pending p) -> go_u32 rr -> go_u32 lr ->
    let s := with_alice_base (with_regs (with_pending s0 pending) rr lr) (pub_bytes (mont_pub C e)) in
    party_ok C root chain [sb; firstn 32 rnd] (mont_pub C ia) (mont_pub C ib) (mkParty 1 0 [mkView 0 0 []]) s /\
    ss_pending s = pending /\ ss_local_reg s = lr /\ ss_remote_reg s = rr /\ ss_alice_base s = pub_bytes (mont_pub C e).
Proof using H La Le Lb Ls Lo.
  intros ident base rnd Pi Pe Lr. assert (M32 : forall k, List.length (mont_pub C k) = 32) by (intro; apply ed_to_mont_length).
  destruct (gen_pair_for C rnd Lr) as (rp & G & Pr). set (rk := firstn 32 rnd) in *.
  assert (E : init_alice C rnd ident base (mont_pub C ib) (mont_pub C sb) (option_map (mont_pub C) ob) (mont_pub C sb) =
    (Ok (st_set_sender_chain (st_add_receiver_chain (fresh_state (pub_bytes (mont_pub C ia)) (pub_bytes (mont_pub C ib)) (kroot C root chain [sb; rk] 1))
       (mont_pub C sb) (mkChainKey chain 0)) rp (mkChainKey (kchain C root chain [sb; rk] 1) 0)), skipn 32 rnd)).
  { unfold init_alice. rewrite G. f_equal.
    rewrite (pair_agree C ia ident sb H Pi Ls), (pair_agree C e base ib H Pe Lb), (pair_agree C e base sb H Pe Ls). cbn [bind].
    assert (Eo : forall t, match option_map (mont_pub C) ob with
         | Some ot => do dh4 <- agreement C (kp_priv base) ot; Ok (discontinuity ++ c_x25519 C ia (mont_pub C sb) ++ c_x25519 C e (mont_pub C ib) ++ t ++ dh4)
         | None => Ok (discontinuity ++ c_x25519 C ia (mont_pub C sb) ++ c_x25519 C e (mont_pub C ib) ++ t) end =
       Ok (discontinuity ++ c_x25519 C ia (mont_pub C sb) ++ c_x25519 C e (mont_pub C ib) ++ t ++ match ob with Some o => c_x25519 C e (mont_pub C o) | None => [] end)).
    { intro t. destruct ob as [o|]; cbn [option_map].
      - rewrite (pair_agree C e base o H Pe (Lo o eq_refl)). reflexivity.
      - rewrite !app_nil_r. reflexivity. }
    rewrite Eo. cbn [bind]. rewrite (derive_x3dh C _ H). cbn [bind].
    destruct (x3dh_len C ia e ib sb ob H) as [R1 R2].
    change (firstn 32 (rfc_hkdf C None (discontinuity ++ c_x25519 C ia (mont_pub C sb) ++ c_x25519 C e (mont_pub C ib) ++ c_x25519 C e (mont_pub C sb) ++
      match ob with Some o => c_x25519 C e (mont_pub C o) | None => [] end) (str "WhisperText") 64)) with root.
    change (skipn 32 (rfc_hkdf C None (discontinuity ++ c_x25519 C ia (mont_pub C sb) ++ c_x25519 C e (mont_pub C ib) ++ c_x25519 C e (mont_pub C sb) ++
      match ob with Some o => c_x25519 C e (mont_pub C o) | None => [] end) (str "WhisperText") 64)) with chain.
    destruct Pr as (Lk & P1 & P2 & P3). destruct Pi as (_ & Pi1 & _).
    rewrite (create_from C H root chain R1 R2 root (kp_priv rp) (mont_pub C sb) (c_x25519 C rk (mont_pub C sb)) R1 (M32 sb)).
    - cbn [bind]. rewrite Pi1. reflexivity.
    - apply (holds_x C H); auto.
    - apply (all_zero_x C H); auto. }
  eexists. split; [exact E|]. intros pending rr lr Wp Gr Gl. cbv zeta. split; [|cbn; auto].
  destruct Pr as (Lk & P1 & P2 & P3). destruct Pi as (_ & Pi1 & _).
  destruct (init_alice_wf C _ _ _ _ _ _ _ _ _ ltac:(rewrite Pi1; apply M32) (M32 ib) (M32 sb) E) as (Wf & _ & _ & _).
  split; [exact (Wf rr lr (mont_pub C e) pending Gr Gl (M32 e) Wp)|].
  split; [reflexivity|]. split; [reflexivity|]. split; [cbn; lia|]. split; [reflexivity|]. split.
  { eexists. split; [reflexivity|]. cbn [pc_ratchet pc_ratchet_priv pc_key]. rewrite P1, P2. auto. }
  split; [reflexivity|]. split.
  { constructor; [|constructor]. split; [reflexivity|]. split; [reflexivity|]. split; [reflexivity|]. split; [constructor|split; reflexivity]. }
  split; [cbn; constructor; [intros []|constructor]|]. constructor; [cbn; lia|constructor].
Qed.
End X3dh.
