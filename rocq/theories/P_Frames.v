(** Pre-key framing of what is sent (C36, C53, C22). *)
From Verif Require Import M_Base M_Crypto M_Aes M_Curve M_Proto M_Message M_Ratchet M_State M_Store M_Session M_Group
  S_Crypto S_Message S_State S_Shape S_Ratchet S_Session S_Aes S_Api S_Send S_Group S_Curve S_X3dh S_Receive S_Bundle
  P_Base P_Proto P_Curve P_State P_Shape P_Ratchet P_Message P_Aes P_Chain P_Decrypt P_Receive P_Encrypt P_Record P_Prog P_Api
  P_Init P_Send P_X3dh P_Bundle P_DecApi P_DecTop P_DecMore P_History P_Trust.
From Coq Require Import ZifyBool ZifyNat ZifyN.
Local Open Scope nat_scope.

(** The current session of [w] with [a] is pending with exactly these ids. *)
Definition awaiting (w : world) (a : addr) (id signed : N) (base : pubkey) (local : pubkey) (reg : N) : Prop :=
  exists r s, w_sess w a = Some r /\ rc_current r = Some s /\ ss_pending s = Some (mkPPending id (pub_bytes base) (to_int32 signed)) /\
    ss_local s = pub_bytes local /\ ss_local_reg s = reg.

Lemma bundle_awaiting : forall C a rnd b fs w w', CryptoOk C -> wf_device w -> wf_bundle b ->
  run (process_bundle C a rnd b) fs w = (Ok tt, w') ->
  wf_device w' /\ w_pair w' = w_pair w /\
  awaiting w' a (match bd_prekey_id b with Some i => i | None => 0%N end) (bd_signed_id b) (mont_pub C (firstn 32 rnd)) (kp_pub (w_pair w)) (w_reg w).
Proof.
  intros C a rnd b fs w w' H W Wb E.
  assert (Wd' : wf_device w').
  { replace w' with (snd (run (process_bundle C a rnd b) fs w)) by (rewrite E; reflexivity).
    apply run_shape; [exact (calls_shape C H (CBundle a rnd b) Wb)|exact W]. }
  assert (Wp' : w_pair w' = w_pair w).
  { replace w' with (snd (run (process_bundle C a rnd b) fs w)) by (rewrite E; reflexivity). apply run_pair. }
  split; [exact Wd'|]. split; [exact Wp'|].
  destruct (bundle_success _ _ _ _ _ _ _ E) as (ti & ts & bp & rnd1 & s0 & rest & B1 & B2 & B3 & B4 & B5 & B6 & ->).
  assert (L : 32 <= List.length rnd).
  { unfold gen_keypair, gen_private_key, read_full in B5. destruct (Nat.ltb_spec (List.length rnd) 32); [discriminate|lia]. }
  destruct (gen_pair_for C rnd L) as (bp' & G & (_ & Pp & _)). rewrite B5 in G. injection G as <- ->.
  destruct Wb as (_ & _ & _ & _ & Ks & Ki).
  destruct (init_alice_wf _ _ _ _ _ _ _ _ _ _ (proj1 (proj2 (proj1 W))) (Ki _ B1) (Ks _ B2) B6) as (_ & _ & Lo & _).
  eexists. eexists. split; [unfold bundle_world; cbn; rewrite addr_eqb_refl; reflexivity|].
  split; [reflexivity|]. unfold bundle_state. rewrite Pp. split; [reflexivity|]. split; [exact Lo|reflexivity].
Qed.

Lemma encrypt_awaiting : forall C a pt fs w c w' id signed base local reg, CryptoOk C -> wf_device w -> go_u32 signed ->
  awaiting w a id signed base local reg ->
  run (encrypt_message C a pt) fs w = (Ok c, w') ->
  wf_device w' /\ awaiting w' a id signed base local reg /\
  exists pm m, c = CPreKey pm /\ prekey_frame pm reg (if N.eqb id 0 then None else Some id) signed base local m.
Proof.
  intros C a pt fs w c w' id signed base local reg H W G (r & s & Er & Ec & Ep & El & Eg) E.
  assert (Wd' : wf_device w').
  { replace w' with (snd (run (encrypt_message C a pt) fs w)) by (rewrite E; reflexivity).
    apply run_shape; [exact (calls_shape C H (CEncrypt a pt) I)|exact W]. }
  split; [exact Wd'|].
  assert (Ws : wf_state s) by (apply (proj1 (proj1 (proj1 W) _ _ Er)); exact Ec).
  destruct (encrypt_state_exact C s pt H Ws) as (sc & k & rt & lo & rem & m & out & E1 & E2 & E3 & _ & E4 & E5 & _ & _ & _ & Fr & En).
  destruct (encrypt_success _ _ _ _ _ _ _ _ _ _ _ _ Er Ec En E) as (-> & _ & ->).
  rewrite El in E4. apply pub_bytes_inj in E4. subst lo.
  split.
  - eexists. eexists. split; [cbn; rewrite addr_eqb_refl; reflexivity|]. split; [reflexivity|]. cbn. auto.
  - unfold framed in Fr. rewrite Ep in Fr. cbn [pp_base pp_prekey pp_signed] in Fr. destruct Fr as (bs & Eb & _ & ->).
    apply pub_bytes_inj in Eb. subst bs. rewrite of_to_int32 by exact G. eexists. exists m. split; [reflexivity|].
    unfold prekey_frame. cbn. auto 10.
Qed.
(** Nothing received yet: every message is framed with the bundle's ids. *)
Lemma initiated : forall C a rnd b fs w w1 l w2, CryptoOk C -> wf_device w -> wf_bundle b ->
  run (process_bundle C a rnd b) fs w = (Ok tt, w1) -> sends_ok C a w1 l w2 ->
  forall pt c, In (pt, c) l -> exists pm m, c = CPreKey pm /\
    prekey_frame pm (w_reg w) (match bd_prekey_id b with Some 0%N => None | x => x end) (bd_signed_id b)
      (mont_pub C (firstn 32 rnd)) (kp_pub (w_pair w)) m.
Proof.
  intros C a rnd b fs w w1 l w2 H W Wb E Sn. destruct (bundle_awaiting _ _ _ _ _ _ _ H W Wb E) as (W1 & _ & A). clear E.
  assert (G : go_u32 (bd_signed_id b)) by apply Wb.
  induction Sn as [w1|w1 pt fs1 c w1' l w2 E Sn IH]; [intros pt c []|].
  destruct (encrypt_awaiting _ _ _ _ _ _ _ _ _ _ _ _ H W1 G A E) as (W1' & A' & pm & m & -> & F).
  intros pt' c' [Q|I0]; [injection Q as <- <-|exact (IH W1' A' pt' c' I0)]. exists pm, m. split; [reflexivity|].
  destruct (bd_prekey_id b) as [[|p]|]; exact F.
Qed.
(** After an accepted message, no more framing. *)
Lemma settled_signal : forall C a pt fs w c w' r s, CryptoOk C -> wf_device w -> w_sess w a = Some r -> rc_current r = Some s -> ss_pending s = None ->
  run (encrypt_message C a pt) fs w = (Ok c, w') ->
  wf_device w' /\ (exists m, c = CSignal m) /\ exists r' s', w_sess w' a = Some r' /\ rc_current r' = Some s' /\ ss_pending s' = None.
Proof.
  intros C a pt fs w c w' r s H W Er Ec Ep E.
  assert (Wd' : wf_device w').
  { replace w' with (snd (run (encrypt_message C a pt) fs w)) by (rewrite E; reflexivity).
    apply run_shape; [exact (calls_shape C H (CEncrypt a pt) I)|exact W]. }
  split; [exact Wd'|].
  assert (Ws : wf_state s) by (apply (proj1 (proj1 (proj1 W) _ _ Er)); exact Ec).
  destruct (encrypt_state_exact C s pt H Ws) as (sc & k & rt & lo & rem & m & out & E1 & E2 & E3 & _ & E4 & E5 & _ & _ & _ & Fr & En).
  destruct (encrypt_success _ _ _ _ _ _ _ _ _ _ _ _ Er Ec En E) as (-> & _ & ->).
  unfold framed in Fr. rewrite Ep in Fr. split; [exists m; exact Fr|].
  eexists. eexists. split; [cbn; rewrite addr_eqb_refl; reflexivity|]. split; [reflexivity|exact Ep].
Qed.
Lemma decrypted_settles : forall C a rnd c fs w pt w', CryptoOk C -> wf_device w -> wf_ciphertext c ->
  run (decrypt_message C a rnd c) fs w = (Ok pt, w') -> pt <> [] \/ (exists pm, c = CPreKey pm) ->
  wf_device w' /\ exists r s, w_sess w' a = Some r /\ rc_current r = Some s /\ ss_pending s = None.
Proof.
  intros C a rnd c fs w pt w' H W Wc E Q.
  assert (Wd' : wf_device w').
  { replace w' with (snd (run (decrypt_message C a rnd c) fs w)) by (rewrite E; reflexivity).
    apply run_shape; [exact (calls_shape C H (CDecrypt a rnd c) Wc)|exact W]. }
  split; [exact Wd'|]. destruct W as [W _].
  assert (K : forall r m p r', wf_record r -> wf_signal m -> decrypt_record C rnd r m = Ok (p, r') -> exists s, rc_current r' = Some s /\ ss_pending s = None).
  { intros r m p r' Wr Wm D. destruct (decrypt_record_inv _ _ _ _ _ _ H Wr Wm D) as (s & s' & r1 & r2 & _ & Ws & Ds & Ec & _).
    destruct (decrypt_session_inv _ _ _ _ _ _ _ H Ws Wm Ds) as (_ & _ & Ep & _). exists s'. auto. }
  destruct c as [m|pm|m|m]; cbn [decrypt_message] in E; [| |discriminate..].
  - destruct (decrypt_signal_runs C a rnd m fs w) as [R _]. rewrite R in E. destruct (hd_fault fs); [|discriminate..].
    unfold signal_body in E. destruct (w_sess w a) as [r|] eqn:Er; [|discriminate].
    assert (Wr : wf_record r) by (eapply (proj1 W); exact Er).
    destruct (decrypt_record C rnd r m) as [[p r']|e|] eqn:D; [| |discriminate].
    + unfold pdo at 1 in E. cbn [run exec_f fallible exec] in E. apply signal_rest_inv in E. destruct E as (-> & s & rid & Ec & _ & _ & ->).
      destruct (K _ _ _ _ Wr Wc D) as (s' & Ec' & Ep). exists r', s'. split; [cbn; rewrite addr_eqb_refl; reflexivity|auto].
    + apply signal_rest_inv in E. destruct E as [-> _]. destruct Q as [Q|[pm Q]]; [contradiction|discriminate].
  - destruct (decrypt_prekey_inv _ _ _ _ _ _ _ _ E) as (r1 & r2 & id & w1 & T & P & D & ->).
    assert (Wr1 : wf_record r1).
    { pose proof (loaded_wf w a W) as Wl. destruct P as [(_ & -> & _)|(_ & _ & s & B & -> & _)]; [exact Wl|]. apply promote_wf; [exact Wl|].
      apply (bob_session_wf C w pm s H W Wc B). }
    destruct (K _ _ _ _ Wr1 (wf_prekey_inner _ Wc) D) as (s' & Ec' & Ep). exists r2, s'.
    split; [|auto]. unfold prekey_done. destruct id; cbn; rewrite ?addr_eqb_refl; reflexivity.
Qed.
Lemma acknowledged : forall C a rnd c fs w pt w1 l w2, CryptoOk C -> wf_device w -> wf_ciphertext c ->
  run (decrypt_message C a rnd c) fs w = (Ok pt, w1) -> pt <> [] \/ (exists pm, c = CPreKey pm) ->
  sends_ok C a w1 l w2 -> forall pt' c', In (pt', c') l -> exists m, c' = CSignal m.
Proof.
  intros C a rnd c fs w pt w1 l w2 H W Wc E Q Sn. destruct (decrypted_settles _ _ _ _ _ _ _ _ H W Wc E Q) as (W1 & A). clear E Q.
  induction Sn as [w1|w1 p fs1 c1 w1' l w2 E Sn IH]; [intros pt' c' []|]. destruct A as (r & s & Er & Ec & Ep).
  destruct (settled_signal _ _ _ _ _ _ _ _ _ H W1 Er Ec Ep E) as (W1' & Sg & A').
  intros pt' c' [Q|I0]; [injection Q as <- <-; exact Sg|exact (IH W1' A' pt' c' I0)].
Qed.

(** What EncryptMessage returns is an object of the message types' sizes. *)
Lemma sent_wf : forall C a pt fs w c w', CryptoOk C -> wf_device w ->
  run (encrypt_message C a pt) fs w = (Ok c, w') -> wf_ciphertext c.
Proof.
  intros C a pt fs w c w' H W E.
  destruct (encrypt_trusted _ _ _ _ _ _ _ H W E) as (r & s & rem0 & Er & Ec & _).
  assert (Ws : wf_state s) by (apply (proj1 (proj1 (proj1 W) _ _ Er)); exact Ec).
  destruct (encrypt_state_exact C s pt H Ws) as (sc' & k & rt & lo & rem & m & out & E1 & E2 & E3 & Lt & E4 & E5 & Ll & _ & Wh & Fr & En).
  destruct (encrypt_success _ _ _ _ _ _ _ _ _ _ _ _ Er Ec En E) as (-> & _ & _).
  pose proof Ws as W0. wf_split W0. rewrite Esc in E1. injection E1 as E1. subst sc'.
  assert (Gk : go_u32 (pck_index k)).
  { destruct Wsc as (_ & (k' & Ek & G & _) & _). rewrite E2 in Ek. injection Ek as <-. exact G. }
  pose proof (whisper_wf _ _ _ _ _ _ _ _ H Wh Lt Gk) as Wm.
  unfold framed in Fr. destruct (ss_pending s) as [p|] eqn:Ep; [|subst out; exact Wm].
  destruct Fr as (bs & Eb & Lb & ->). destruct (Pd p eq_refl) as (P1 & P2 & P3).
  cbn [wf_ciphertext]. unfold wf_prekeymsg. cbn. split; [reflexivity|]. split; [exact Lb|]. split; [exact Ll|]. split; [exact G2|].
  split.
  { unfold go_u32, of_int32, two32. pose proof (Z.mod_pos_bound (pp_signed p) 4294967296 eq_refl). lia. }
  split; [|exact Wm].
  intros i. destruct (N.eqb (pp_prekey p) 0); [discriminate|]. intro Q. injection Q as <-. assumption.
Qed.
