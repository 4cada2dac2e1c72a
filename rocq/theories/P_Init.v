(** Session initialisation: shape of the new states. *)
From Verif Require Import M_Base M_Crypto M_Aes M_Curve M_Proto M_Message M_Ratchet M_State M_Store M_Session
  S_Crypto S_Message S_State S_Shape S_Ratchet S_Session S_Aes S_Api
  P_Base P_Proto P_Curve P_State P_Shape P_Ratchet P_Message P_Aes P_Chain P_Decrypt P_Receive.
From Coq Require Import ZifyBool ZifyNat ZifyN.
Local Open Scope nat_scope.

Lemma new_private_key_len : forall C b k, new_private_key C b = Ok k ->
  List.length (sk_bytes k) = 32 /\ List.length (sk_pub k) = 32.
Proof.
  intros C b k E. unfold new_private_key in E. destruct (Nat.eqb_spec (List.length b) 32) as [L|]; cbn [negb] in E; [|discriminate].
  apply (f_equal (fun x => match x with Ok a => a | _ => k end)) in E. cbv beta iota in E. rewrite <- E.
  cbn [sk_bytes sk_pub]. split; [rewrite clamp_length; auto|apply ed_to_mont_length].
Qed.
Lemma prekeyrec_pair_wf : forall C x k, prekeyrec_pair C x = Ok k ->
  List.length (kp_pub k) = 32 /\ List.length (sk_bytes (kp_priv k)) = 32.
Proof.
  intros C x k E. unfold prekeyrec_pair, new_keypair in E.
  destruct (new_private_key C (pr_priv x)) as [sk| |] eqn:P; cbn [bind] in E; [|discriminate..].
  destruct (new_public_key (pr_pub x)) as [pk| |] eqn:Q; cbn [bind] in E; [|discriminate..].
  injection E as <-. cbn [kp_pub kp_priv]. split; [eapply new_public_key_len; eauto|].
  apply (new_private_key_len _ _ _ P).
Qed.

(** A freshly initialised session, with everything that is set afterwards. *)
Definition wf_fresh (s : state) : Prop :=
  forall remote_reg local_reg base pending,
    go_u32 remote_reg -> go_u32 local_reg -> List.length base = 32 ->
    (forall p, pending = Some p -> wf_pending p) ->
    wf_state (with_alice_base (with_regs (with_pending s pending) remote_reg local_reg) (pub_bytes base)).

Lemma init_alice_wf : forall C rnd ident base ti ts ot tr s rest, List.length (kp_pub ident) = 32 ->
  List.length ti = 32 -> List.length tr = 32 ->
  init_alice C rnd ident base ti ts ot tr = (Ok s, rest) ->
  wf_fresh s /\ ss_pending s = None /\ ss_local s = pub_bytes (kp_pub ident) /\ ss_remote s = pub_bytes ti.
Proof.
  intros C rnd ident base ti ts ot tr s rest Li Lt Ltr E. unfold init_alice in E.
  destruct (gen_keypair C rnd) as [[kp| |] r] eqn:G; [|discriminate..].
  destruct (agreement C (kp_priv ident) ts) as [d1| |]; cbn [bind] in E; [|discriminate..].
  destruct (agreement C (kp_priv base) ti) as [d2| |]; cbn [bind] in E; [|discriminate..].
  destruct (agreement C (kp_priv base) ts) as [d3| |]; cbn [bind] in E; [|discriminate..].
  match goal with H : context [bind ?x _] |- _ => destruct x as [sec| |]; cbn [bind] in H; [|discriminate..] end.
  destruct (derive_keys C sec) as [[root chain]| |] eqn:Dk; cbn [bind] in E; [|discriminate..].
  destruct (create_chain C root (kp_priv kp) tr) as [[sroot schain]| |] eqn:Cc; cbn [bind] in E; [|discriminate..].
  apply (f_equal (fun x => match x with (Ok a, _) => a | _ => s end)) in E. cbv beta iota in E. rewrite <- E.
  destruct (create_chain_inv _ _ _ _ _ _ Cc) as (L1 & L2 & I0 & _).
  destruct (gen_keypair_wf _ _ _ _ G) as [Gp Gs].
  assert (Dc : List.length (ck_key chain) = 32 /\ ck_index chain = 0%N).
  { unfold derive_keys in Dk. unfold new_root_key, new_chain_key in Dk.
    destruct (negb _); cbn [bind] in Dk; [discriminate|].
    destruct (Nat.eqb_spec (List.length (skipn 32 (hkdf C sec None (str "WhisperText") 64))) 32) as [L|];
      cbn [negb bind] in Dk; [|discriminate].
    apply (f_equal (fun x => match x with Ok a => snd a | _ => chain end)) in Dk. cbv beta iota in Dk. cbn [snd] in Dk.
    rewrite <- Dk. cbn [ck_key ck_index]. auto. }
  destruct Dc as [Lc Ic].
  split; [|split; [reflexivity|split; reflexivity]].
  intros rr lr b pd G1 G2 Lb Hp.
  unfold wf_state. cbn. rewrite I0, Ic.
  split; [reflexivity|]. split; [apply key33_bytes; auto|]. split; [apply key33_bytes; auto|].
  split; [auto|]. split; [reflexivity|]. split.
  { eexists. split; [reflexivity|]. split; [|exact Gs]. split; [apply key33_bytes; auto|].
    split; [eexists; split; [reflexivity|]; split; [reflexivity|auto]|]. cbn. split; [lia|constructor]. }
  split.
  { cbn. split; [lia|]. constructor; [|constructor]. split; [|reflexivity].
    split; [apply key33_bytes; auto|]. split; [eexists; split; [reflexivity|]; split; [reflexivity|auto]|].
    cbn. split; [lia|constructor]. }
  split; [exact Hp|]. split; [exact G1|]. split; [exact G2|]. apply key33_bytes; auto.
Qed.

Lemma init_bob_wf : forall C ident signed onetime rp ti tb s, CryptoOk C -> List.length (kp_pub ident) = 32 ->
  List.length ti = 32 ->
  (forall k, rp = Some k -> List.length (kp_pub k) = 32 /\ List.length (sk_bytes (kp_priv k)) = 32) ->
  init_bob C ident signed onetime rp ti tb = Ok s ->
  wf_fresh s /\ ss_pending s = None /\ ss_local s = pub_bytes (kp_pub ident) /\ ss_remote s = pub_bytes ti.
Proof.
  intros C ident signed onetime rp ti tb s H Li Lt Hr E. unfold init_bob in E.
  destruct signed as [signed|]; [|discriminate].
  destruct (agreement C (kp_priv signed) ti) as [d1| |]; cbn [bind] in E; [|discriminate..].
  destruct (agreement C (kp_priv ident) tb) as [d2| |]; cbn [bind] in E; [|discriminate..].
  destruct (agreement C (kp_priv signed) tb) as [d3| |]; cbn [bind] in E; [|discriminate..].
  match goal with H : context [bind ?x _] |- _ => destruct x as [sec| |]; cbn [bind] in H; [|discriminate..] end.
  destruct (derive_keys_total C sec H) as (root & chain & Dk & Lr & Lc & Ic). rewrite Dk in E.
  destruct rp as [rp|]; [|discriminate]. destruct (Hr rp eq_refl) as [Gp Gs].
  apply (f_equal (fun x => match x with Ok a => a | _ => s end)) in E. cbv beta iota in E. rewrite <- E.
  split; [|split; [reflexivity|split; reflexivity]].
  intros rr lr b pd G1 G2 Lb Hp.
  unfold wf_state. cbn. rewrite Ic.
  split; [reflexivity|]. split; [apply key33_bytes; auto|]. split; [apply key33_bytes; auto|].
  split; [auto|]. split; [reflexivity|]. split.
  { eexists. split; [reflexivity|]. split; [|exact Gs]. split; [apply key33_bytes; auto|].
    split; [eexists; split; [reflexivity|]; split; [reflexivity|auto]|]. cbn. split; [lia|constructor]. }
  split; [cbn; split; [lia|constructor]|].
  split; [exact Hp|]. split; [exact G1|]. split; [exact G2|]. apply key33_bytes; auto.
Qed.

Lemma with_pending_none : forall s, ss_pending s = None -> with_pending s None = s.
Proof. intros [] E. cbn in *. subst. reflexivity. Qed.
