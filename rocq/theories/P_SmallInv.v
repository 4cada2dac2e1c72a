(** No session ever holds a key of small order of the peer (C82). *)
From Verif Require Import M_Base M_Crypto M_Aes M_Curve M_Proto M_Uuid M_Message M_Ratchet M_State M_Store M_Session M_Group
  S_Crypto S_Message S_State S_Shape S_Ratchet S_Session S_Aes S_Api S_Send S_Group S_Receive S_Curve S_Bundle S_Conv S_X3dh S_SmallKeys
  P_Base P_Proto P_Curve P_State P_Shape P_Ratchet P_Message P_Aes P_Chain P_Decrypt P_Receive P_Encrypt P_Record P_Prog P_Group
  P_Init P_Send P_Bundle P_DecApi P_DecTop P_Conv P_X3dh P_DecMore P_Api R_Real P_Real P_SmallKeys P_SmallSess P_StateInv.
From Coq Require Import ZifyBool ZifyNat ZifyN.
Local Open Scope nat_scope.

Section Inv.
Variables (C : Crypto) (H : CryptoOk C) (bad : bytes -> Prop).
Hypothesis Hbad : forall k u s, List.length (sk_ecdh k) = 32 -> agreement C k u = Ok s -> ~ bad u.
Hypothesis Hown : forall rnd p rest, gen_keypair C rnd = (Ok p, rest) -> ~ bad (kp_pub p).

Definition clean (b : bytes) : Prop := forall k, b = Byte.x05 :: k -> ~ bad k.
Definition full (s : state) : Prop := clean (ss_remote s) /\ clean (ss_alice_base s) /\ Forall clean (map pc_ratchet (ss_receivers s)).
Lemma clean_pub : forall k, ~ bad k -> clean (pub_bytes k).
Proof. intros k N x E. unfold pub_bytes in E. injection E as <-. exact N. Qed.
Lemma upd_ratchets : forall key f l, (forall c, pc_ratchet (f c) = pc_ratchet c) -> map pc_ratchet (upd_chain key f l) = map pc_ratchet l.
Proof. intros key f l E. apply upd_chain_ratchets. exact E. Qed.
Definition alike (s s' : state) : Prop := ss_remote s' = ss_remote s /\ ss_alice_base s' = ss_alice_base s /\ map pc_ratchet (ss_receivers s') = map pc_ratchet (ss_receivers s).
Lemma alike_full : forall s s', alike s s' -> full s -> full s'.
Proof. intros s s' (A & B & D) (E & F & G). unfold full. rewrite A, B, D. auto. Qed.
Lemma alike_trans : forall a b c, alike a b -> alike b c -> alike a c.
Proof. intros a b c (A & B & D) (E & F & G). unfold alike. rewrite E, F, G. auto. Qed.
Lemma alike_refl : forall a, alike a a. Proof. intro a. unfold alike. auto. Qed.

Lemma skip_alike : forall n s eph ck s' ck', skip_keys C n s eph ck = Ok (s', ck') -> alike s s'.
Proof.
  induction n as [|n IH]; intros s eph ck s' ck' E; cbn [skip_keys] in E; [injection E as <- <-; apply alike_refl|].
  unfold st_set_message_keys in E. destruct (st_receiver_chain s eph); cbn [bind] in E; [|discriminate].
  apply IH in E. eapply alike_trans; [|exact E]. split; [reflexivity|]. split; [reflexivity|]. cbn [ss_receivers with_receivers]. apply upd_ratchets. reflexivity.
Qed.
Lemma keys_alike : forall s eph ck ctr mk s', get_message_keys C s eph ck ctr = Ok (mk, s') -> alike s s'.
Proof.
  intros s eph ck ctr mk s' E. unfold get_message_keys in E. destruct (N.ltb ctr (ck_index ck)).
  - unfold st_take_message_keys in E. destruct (st_receiver_chain s eph) as [c|]; [|discriminate].
    destruct (last_msgkey ctr (pc_msgkeys c)) as [k|]; cbv beta iota zeta in E; [|discriminate].
    destruct (new_message_keys _ _ _ _) as [m| |]; cbn [bind] in E; [|discriminate..]. injection E as _ <-.
    split; [reflexivity|]. split; [reflexivity|]. cbn [ss_receivers with_receivers]. apply upd_ratchets. reflexivity.
  - destruct (if N.ltb max_jumps _ then st_with_self s else Ok true) as [self| |]; cbn [bind] in E; [|discriminate..].
    destruct (negb self); [discriminate|]. destruct (skip_keys C _ s eph ck) as [[s1 ck1]| |] eqn:K; cbn [bind] in E; [|discriminate..].
    unfold st_set_receiver_chain_key in E. destruct (st_receiver_chain s1 eph); cbn [bind] in E; [|discriminate]. injection E as _ <-.
    eapply alike_trans; [eapply skip_alike; exact K|]. split; [reflexivity|]. split; [reflexivity|]. cbn [ss_receivers with_receivers]. apply upd_ratchets. reflexivity.
Qed.
Lemma create_chain_ok : forall root ours theirs r c, List.length (sk_ecdh ours) = 32 -> create_chain C root ours theirs = Ok (r, c) -> ~ bad theirs.
Proof.
  intros root ours theirs r c L E. unfold create_chain in E. destruct (agreement C ours theirs) as [d| |] eqn:D; cbn [bind] in E; [|discriminate..].
  exact (Hbad _ _ _ L D).
Qed.
Lemma Forall_trim : forall {A} (P : A -> Prop) n l, Forall P l -> Forall P (trim_front n l).
Proof. intros A P n l F. unfold trim_front. destruct (Nat.ltb _ _); [|exact F]. destruct l; [constructor|]. inversion F; auto. Qed.
Lemma map_trim : forall {A B} (f : A -> B) n l, map f (trim_front n l) = trim_front n (map f l).
Proof. intros A B f n l. unfold trim_front. rewrite map_length. destruct (Nat.ltb _ _); [|reflexivity]. destruct l; reflexivity. Qed.
Lemma chain_full : forall rnd s eph ck s' rest, get_chain_key C rnd s eph = (Ok (ck, s'), rest) -> full s -> full s'.
Proof.
  intros rnd s eph ck s' rest E F. unfold get_chain_key in E. destruct (st_receiver_chain_key s eph) as [[c|]| |]; [|..|discriminate|discriminate].
  { injection E as _ <- _. exact F. }
  destruct (st_root s) as [root| |]; cbn [bind] in E; [|discriminate..].
  destruct (st_sender_ratchet_priv C s) as [ours| |] eqn:O; cbn [bind] in E; [|discriminate..].
  destruct (create_chain C root ours eph) as [[rroot rchain]| |] eqn:K; [|discriminate..].
  assert (Lo : List.length (sk_ecdh ours) = 32).
  { unfold st_sender_ratchet_priv in O. destruct (ss_sender s); [|discriminate]. destruct (new_priv_ecdh _ _ _ O) as [L ->]. exact L. }
  destruct (gen_keypair C rnd) as [[kp| |] q]; [|discriminate..].
  destruct (create_chain C rroot (kp_priv kp) eph) as [[sroot schain]| |]; cbn [bind] in E; [|discriminate..].
  destruct (st_sender_chain_key s) as [cur| |]; cbn [bind] in E; [|discriminate..].
  apply (f_equal (fun x => match x with (Ok (_, y), _) => y | _ => s' end)) in E. cbv beta iota zeta in E. subst s'.
  destruct F as (A & B & D). split; [exact A|]. split; [exact B|].
  cbn [ss_receivers st_set_sender_chain with_sender with_prevctr st_add_receiver_chain with_receivers with_root]. rewrite map_trim. apply Forall_trim.
  rewrite map_app. apply Forall_app. split; [exact D|]. constructor; [|constructor]. cbn [pc_ratchet]. apply clean_pub. exact (create_chain_ok _ _ _ _ _ Lo K).
Qed.
Lemma session_full : forall rnd s m pt s' rest, decrypt_session C rnd s m = (Ok (pt, s'), rest) -> full s -> full s'.
Proof.
  intros rnd s m pt s' rest E F. unfold decrypt_session in E. destruct (ss_sender s); [|discriminate]. destruct (negb _); [discriminate|].
  destruct (get_chain_key C rnd s (sg_ratchet m)) as [[[ck s1]| |] q] eqn:K; [|discriminate..]. apply chain_full in K; [|exact F].
  destruct (get_message_keys C s1 (sg_ratchet m) ck (sg_counter m)) as [[mk s2]| |] eqn:G; cbn [bind] in E; [|discriminate..].
  apply keys_alike in G. destruct (st_remote_identity s2) as [[rid|]| |]; cbn [bind] in E; [|discriminate..].
  destruct (st_local_identity s2) as [lid| |]; cbn [bind] in E; [|discriminate..]. destruct (verify_mac _ _ _ _ _) as [v| |]; cbn [bind] in E; [|discriminate..].
  destruct (negb v); [discriminate|]. destruct (cbc_decrypt _ _ _ _) as [p0| |]; cbn [bind] in E; [|discriminate..]. injection E as _ <- _.
  apply (alike_full s2); [|apply (alike_full s1); auto]. split; [reflexivity|]. split; reflexivity.
Qed.

Lemma encrypt_full : forall s pt out s' rid, encrypt_state C s pt = Ok (out, s', rid) -> full s -> full s'.
Proof.
  intros s pt out s' rid E F. unfold encrypt_state in E.
  destruct (st_sender_chain_key s) as [ck| |]; cbn [bind] in E; [|discriminate..]. destruct (st_sender_ratchet s) as [eph| |]; cbn [bind] in E; [|discriminate..].
  destruct (st_local_identity s) as [lid| |]; cbn [bind] in E; [|discriminate..]. destruct (st_remote_identity s) as [[r|]| |]; cbn [bind] in E; [|discriminate..].
  destruct (cbc_encrypt _ _ _ _) as [ct| |]; cbn [bind] in E; [|discriminate..]. destruct (new_signal _ _ _ _ _ _ _ _ _) as [msg| |]; cbn [bind] in E; [|discriminate..].
  destruct (st_unack s) as [items| |]; cbn [bind] in E; [|discriminate..]. injection E as _ <- _. apply (alike_full s); [|exact F].
  unfold st_set_sender_chain_key. destruct (ss_sender s); (split; [|split]); reflexivity.
Qed.
Lemma bob_full : forall ident signed ot rp ti tb s rr lr, init_bob C ident signed ot rp ti tb = Ok s ->
  (forall k, signed = Some k -> List.length (sk_ecdh (kp_priv k)) = 32) ->
  full (with_alice_base (with_regs (with_regs s (ss_remote_reg s) lr) rr lr) (pub_bytes tb)).
Proof.
  intros ident signed ot rp ti tb s rr lr E L. unfold init_bob in E. destruct signed as [sg|]; [|discriminate]. specialize (L sg eq_refl).
  destruct (agreement C (kp_priv sg) ti) as [d1|e|] eqn:D1; cbn [bind] in E; [|discriminate..].
  destruct (agreement C (kp_priv ident) tb) as [d2|e|] eqn:D2; cbn [bind] in E; [|discriminate..].
  destruct (agreement C (kp_priv sg) tb) as [d3|e|] eqn:D3; cbn [bind] in E; [|discriminate..].
  destruct (match ot with Some o => _ | None => _ end) as [sec|e|]; cbn [bind] in E; [|discriminate..].
  destruct (match derive_keys C sec with Ok rc => rc | _ => _ end) as [root chain]. destruct rp as [rp|]; [|discriminate].
  apply (f_equal (fun x => match x with Ok y => y | _ => s end)) in E. cbv beta iota in E. subst s.
  split; [|split]; [apply clean_pub; exact (Hbad _ _ _ L D1)|apply clean_pub; exact (Hbad _ _ _ L D3)|constructor].
Qed.
Lemma alice_full : forall rnd ident base ti ts ot tr s rest rnd0 q un sg rr lr, gen_keypair C rnd0 = (Ok base, q) ->
  init_alice C rnd ident base ti ts ot tr = (Ok s, rest) ->
  full (with_alice_base (with_regs (with_regs (st_set_unack s un sg (kp_pub base)) (ss_remote_reg (st_set_unack s un sg (kp_pub base))) lr) rr lr) (pub_bytes (kp_pub base))).
Proof.
  intros rnd ident base ti ts ot tr s rest rnd0 q un sg rr lr G E. unfold init_alice in E.
  destruct (gen_pair_ecdh _ _ _ _ G) as (kb & Lb & _ & _ & Eb). assert (L : List.length (sk_ecdh (kp_priv base)) = 32) by (rewrite Eb; exact Lb).
  destruct (gen_keypair C rnd) as [[rp| |] r1] eqn:Gr; [|discriminate..].
  destruct (gen_pair_ecdh _ _ _ _ Gr) as (kr & Lr & _ & _ & Er). assert (L' : List.length (sk_ecdh (kp_priv rp)) = 32) by (rewrite Er; exact Lr).
  destruct (agreement C (kp_priv ident) ts) as [d1|e|] eqn:D1; cbn [bind] in E; [|discriminate..].
  destruct (agreement C (kp_priv base) ti) as [d2|e|] eqn:D2; cbn [bind] in E; [|discriminate..].
  destruct (agreement C (kp_priv base) ts) as [d3|e|] eqn:D3; cbn [bind] in E; [|discriminate..].
  destruct (match ot with Some o => _ | None => _ end) as [sec|e|]; cbn [bind] in E; [|discriminate..].
  destruct (derive_keys C sec) as [[root chain]| |]; cbn [bind] in E; [|discriminate..].
  destruct (create_chain C root (kp_priv rp) tr) as [[sroot schain]| |] eqn:K; cbn [bind] in E; [|discriminate..].
  apply (f_equal (fun x => match x with (Ok y, _) => y | _ => s end)) in E. cbv beta iota zeta in E. subst s.
  split; [|split]; [apply clean_pub; exact (Hbad _ _ _ L D2)|apply clean_pub; exact (Hown _ _ _ G)|].
  constructor; [|constructor]. cbn [pc_ratchet]. apply clean_pub. exact (create_chain_ok _ _ _ _ _ L' K).
Qed.
Lemma clean_reachable : forall ts w, reachable C (ts, w) -> forall a r s, w_sess w a = Some r -> state_in s r -> full s.
Proof.
  intros ts w R.
  exact (reachable_full C H full (fun rnd s m pt s' rest _ _ => session_full rnd s m pt s' rest)
    (fun s pt out s' rid _ => encrypt_full s pt out s' rid) bob_full alice_full ts w R).
Qed.
End Inv.

Lemma real_own : forall rnd p rest, gen_keypair real rnd = (Ok p, rest) -> ~ small_key (kp_pub p).
Proof.
  intros rnd p rest G B. destruct (gen_pair_ecdh _ _ _ _ G) as (k & L & K & E & _).
  rewrite E in B. unfold new_private_key in K. rewrite L in K. cbn [Nat.eqb negb] in K. apply (f_equal (fun x => match x with Ok q => sk_pub q | _ => [] end)) in K.
  cbv beta iota zeta in K. cbn [sk_pub] in K. rewrite <- K in B. apply (real_zero k _ L) in B. pose proof (P_Ladder.real_dh_nz k k L L) as Z. cbn [c_edbase real] in B. congruence.
Qed.
Lemma full_spec : forall s, full small_key s -> full_order s.
Proof.
  intros s (A & B & D). assert (N : forall b, clean small_key b -> ~ stored_small b) by (intros b Cb (k & E & S); exact (Cb k E S)).
  split; [apply N; exact A|]. split; [apply N; exact B|]. intros c I. apply N. rewrite Forall_forall in D. apply D. apply in_map. exact I.
Qed.
Lemma reach_full_order : forall ts w a r s, reachable real (ts, w) -> w_sess w a = Some r -> state_in s r -> full_order s.
Proof. intros ts w a r s R E I. apply full_spec. eapply (clean_reachable real real_ok small_key real_agreement_ok real_own); eauto. Qed.
Lemma opens_ratchet : forall s m pt, wf_state s -> full_order s -> opens real s m pt -> ~ small_key (sg_ratchet m).
Proof.
  intros s m pt W (_ & _ & F) (mk & remote & local & K & _) B. destruct K as [(c & k & Ic & Ec & _)|(_ & _ & sc & root' & ck & Es & (x & Ix & Nx) & _)].
  - apply (F c Ic). exists (sg_ratchet m). auto.
  - destruct W as (_ & _ & _ & _ & _ & (c & Ec & _ & Lp) & _). rewrite Es in Ec. injection Ec as <-. apply (real_zero _ (sg_ratchet m) Lp) in B. apply all_zero_forall in B. rewrite Forall_forall in B.
    cbn [c_x25519 real] in Ix. apply B in Ix. auto.
Qed.
Lemma reach_opens : forall ts w a r s m pt, reachable real (ts, w) -> w_sess w a = Some r -> state_in s r -> opens real s m pt -> ~ small_key (sg_ratchet m).
Proof.
  intros ts w a r s m pt R E I O. eapply opens_ratchet; [|eapply reach_full_order; eauto|exact O].
  pose proof (reachable_wf real real_ok ts w R) as [W _]. eapply state_in_wf; [|exact I]. eapply (proj1 W). exact E.
Qed.

(** *** Bundles *)
Definition refused (w : world) (x : res unit * world) : Prop := (forall u, fst x <> Ok u) /\ snd x = w.
Lemma run_lift_err : forall {A} (r : res A) (f : A -> prog unit) fs w, (forall x, r <> Ok x) -> refused w (run (plift r f) fs w).
Proof. intros A r f fs w N. destruct r as [x|e|]; [destruct (N x eq_refl)|..]; cbn [plift run]; (split; [discriminate|reflexivity]). Qed.
Lemma alice_small : forall rnd ident base ti ts ot s rest rnd0 q, gen_keypair real rnd0 = (Ok base, q) ->
  init_alice real rnd ident base ti ts ot ts = (Ok s, rest) -> ~ small_key ti /\ ~ small_key ts /\ forall k, ot = Some k -> ~ small_key k.
Proof.
  intros rnd ident base ti ts ot s rest rnd0 q G E. unfold init_alice in E.
  destruct (gen_pair_ecdh _ _ _ _ G) as (kb & Lb & _ & _ & Eb). assert (L : List.length (sk_ecdh (kp_priv base)) = 32) by (rewrite Eb; exact Lb).
  destruct (gen_keypair real rnd) as [[rp| |] r1]; [|discriminate..].
  destruct (agreement real (kp_priv ident) ts) as [d1|e|]; cbn [bind] in E; [|discriminate..].
  destruct (agreement real (kp_priv base) ti) as [d2|e|] eqn:D2; cbn [bind] in E; [|discriminate..].
  destruct (agreement real (kp_priv base) ts) as [d3|e|] eqn:D3; cbn [bind] in E; [|discriminate..].
  split; [exact (real_agreement_ok _ _ _ L D2)|]. split; [exact (real_agreement_ok _ _ _ L D3)|]. intros k Ek. subst ot.
  destruct (agreement real (kp_priv base) k) as [d4|e|] eqn:D4; cbn [bind] in E; [|discriminate..]. exact (real_agreement_ok _ _ _ L D4).
Qed.
Lemma bundle_refused : forall a rnd b fs w k, (bd_identity b = Some k \/ bd_signed b = Some k \/ bd_prekey b = Some k) -> small_key k ->
  (forall u, fst (run (process_bundle real a rnd b) fs w) <> Ok u) /\ snd (run (process_bundle real a rnd b) fs w) = w.
Proof.
  intros a rnd b fs w k Hk B. change (refused w (run (process_bundle real a rnd b) fs w)). unfold process_bundle. destruct (bd_identity b) as [ti|]; [|cbn [run]; split; [discriminate|reflexivity]].
  unfold pdo at 1. cbn [run exec_f fallible exec]. destruct (hd_fault fs); cbn [run]; [|split; [discriminate|reflexivity]..].
  destruct (negb _); [cbn [run]; split; [discriminate|reflexivity]|].
  destruct (bd_signed b) as [ts|]; [|cbn [run]; split; [discriminate|reflexivity]].
  destruct (verify_signature _ _ _ _) as [ok|e|]; cbn [plift]; [|cbn [run]; split; [discriminate|reflexivity]..].
  destruct (negb ok); [cbn [run]; split; [discriminate|reflexivity]|].
  unfold pdo at 1. cbn [run exec_f fallible exec]. destruct (hd_fault (tl fs)); cbn [run]; [|split; [discriminate|reflexivity]..]. cbv zeta.
  destruct (gen_keypair real rnd) as [[base| |] rnd1] eqn:G; [|cbn [run]; split; [discriminate|reflexivity]..].
  unfold pdo at 1. cbn [run exec_f fallible exec].
  apply run_lift_err. intros s E. destruct (init_alice real rnd1 (w_pair w) base ti ts (bd_prekey b) ts) as [o rest] eqn:E1. cbn [fst] in E. subst o.
  destruct (alice_small _ _ _ _ _ _ _ _ _ _ G E1) as (N1 & N2 & N3). destruct Hk as [Q|[Q|Q]].
  - injection Q as ->. exact (N1 B).
  - injection Q as ->. exact (N2 B).
  - exact (N3 k Q B).
Qed.
