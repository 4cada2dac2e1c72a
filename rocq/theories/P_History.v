(** Every history keeps both parties in step (C21, C23). *)
From Verif Require Import M_Base M_Crypto M_Aes M_Curve M_Proto M_Message M_Ratchet M_State M_Store M_Session M_Group
  S_Crypto S_Message S_State S_Shape S_Ratchet S_Session S_Aes S_Api S_Send S_Group S_Curve S_X3dh S_Receive S_Conv S_History
  P_Base P_Proto P_Curve P_State P_Shape P_Ratchet P_Message P_Aes P_Chain P_Decrypt P_Receive P_Encrypt P_Record P_Prog P_Api
  P_Init P_Send P_Conv P_X3dh P_Conv2 P_Bundle P_DecApi P_DecTop P_DecMore P_Replay P_Trust.
From Coq Require Import ZifyBool ZifyNat ZifyN.
Local Open Scope nat_scope.

Lemma run_shape : forall {A} (p : prog A), pall shape_ok shape_ans p -> forall fs w, wf_device w -> wf_device (snd (run p fs w)).
Proof.
  intros A p. induction p as [r|X o k IH]; intros P fs w W; cbn [run]; [exact W|].
  destruct P as [Po Pk]. destruct (shape_exec X o (hd_fault fs) w W Po) as [W' S']. 
  destruct (exec_f o (hd_fault fs) w) as [x w']. cbn [fst snd] in *. apply IH; auto.
Qed.
Lemma run_pair : forall {A} (p : prog A) fs w, w_pair (snd (run p fs w)) = w_pair w.
Proof.
  intros A p. induction p as [r|X o k IH]; intros fs w; cbn [run]; [reflexivity|].
  assert (E : w_pair (snd (exec_f o (hd_fault fs) w)) = w_pair w).
  { unfold exec_f. destruct (fallible o), (hd_fault fs); destruct o; cbn; try reflexivity; destruct (w_shared w); reflexivity. }
  destruct (exec_f o (hd_fault fs) w) as [x w']. cbn [snd] in *. rewrite IH. exact E.
Qed.

Section History.
Variable C : Crypto.
Hypothesis H : CryptoOk C.
Variable b : bundle.

(** The keys of the conversation. *)
Record secrets := mkSecrets { k_ia : bytes; k_ib : bytes; k_sb : bytes; k_ob : option bytes; k_e : bytes }.
Definition sroot k := x3dh_root C (k_ia k) (k_e k) (k_ib k) (k_sb k) (k_ob k).
Definition schain k := x3dh_chain C (k_ia k) (k_e k) (k_ib k) (k_sb k) (k_ob k).
Definition sid (k : secrets) (side : bool) : pubkey := mont_pub C (if side then k_ia k else k_ib k).
Definition secrets_ok (k : secrets) : Prop :=
  List.length (k_ia k) = 32 /\ List.length (k_ib k) = 32 /\ List.length (k_sb k) = 32 /\ List.length (k_e k) = 32 /\
  (forall o, k_ob k = Some o -> List.length o = 32) /\
  match k_ob k with None => bd_prekey_id b = None | Some _ => exists id, bd_prekey_id b = Some id /\ id <> 0%N end /\ wf_bundle b.

Definition pend_ok (k : secrets) (side : bool) (eP eB : nat) (s : state) : Prop :=
  ss_pending s = None /\ eB <> 0 /\ ~ (side = true /\ eP = 1) \/
  side = true /\ eP = 1 /\ ss_pending s = Some (mkPPending (match bd_prekey_id b with Some i => i | None => 0%N end)
    (pub_bytes (mont_pub C (k_e k))) (to_int32 (bd_signed_id b))).
Definition in_session (k : secrets) (ks : list bytes) (w : world) (a : addr) (side : bool) (p : party) (eB : nat) : Prop :=
  exists r s, w_sess w a = Some r /\ rc_current r = Some s /\
    party_ok C (sroot k) (schain k) ks (sid k side) (sid k (negb side)) p s /\
    ss_alice_base s = pub_bytes (mont_pub C (k_e k)) /\ pend_ok k side (p_epoch p) eB s.
Definition frame_ok (k : secrets) (ep eB : nat) (side : bool) (m : signal) (c : ciphertext) : Prop :=
  c = CSignal m /\ (eB <> 0 /\ ~ (side = true /\ ep = 1)) \/
  (side = true /\ ep = 1) /\ exists reg pm, go_u32 reg /\ c = CPreKey pm /\
    prekey_frame pm reg (bd_prekey_id b) (bd_signed_id b) (mont_pub C (k_e k)) (sid k true) m.
Definition note_ok (k : secrets) (ks : list bytes) (par : bool -> party) (nt : note) : Prop :=
  (nt_epoch nt <= p_epoch (par (nt_from nt)) /\ nt_epoch nt <> 0) /\ go_u32 (nt_counter nt) /\
  exists m, whisper C (chain_at C (kchain C (sroot k) (schain k) ks (nt_epoch nt)) (N.to_nat (nt_counter nt))) (nt_counter nt)
     (kpub C ks (nt_epoch nt)) (sid k (nt_from nt)) (sid k (negb (nt_from nt))) (nt_text nt) m /\
    frame_ok k (nt_epoch nt) (p_epoch (par false)) (nt_from nt) m (nt_cipher nt).

Lemma slens : forall k, List.length (sroot k) = 32 /\ List.length (schain k) = 32.
Proof using H. intro k. apply x3dh_len. exact H. Qed.
Lemma sid_len : forall k side, List.length (sid k side) = 32.
Proof. intros. apply ed_to_mont_length. Qed.

(** *** Receiving in a session state *)
Lemma keys_app : forall ks x, keys_ok C ks -> List.length x = 32 -> ~ In (mont_pub C x) (map (mont_pub C) ks) -> keys_ok C (ks ++ [x]).
Proof.
  intros ks x [F N] L I. split; [apply Forall_app; split; [exact F|constructor; [exact L|constructor]]|].
  rewrite map_app. apply nodup_snoc; auto.
Qed.
Definition grown (ks : list bytes) (p : party) (k : nat) (rnd : bytes) : list bytes :=
  if Nat.eqb k (S (p_epoch p)) then ks ++ [firstn 32 rnd] else ks.
Lemma advance : forall k ks side p eP s ep n pt m rnd, keys_ok C ks ->
  party_ok C (sroot k) (schain k) ks (sid k side) (sid k (negb side)) p s ->
  List.length ks = S (Nat.max (p_epoch p) eP) -> p_epoch p = S eP \/ eP = S (p_epoch p) -> ep <= eP ->
  receivable p ep n -> fresh C (map (mont_pub C) ks) p ep rnd -> go_u32 n ->
  whisper C (chain_at C (kchain C (sroot k) (schain k) ks ep) (N.to_nat n)) n (kpub C ks ep) (sid k (negb side)) (sid k side) pt m ->
  keys_ok C (grown ks p ep rnd) /\
  exists s' rest, decrypt_session C rnd s m = (Ok (pt, s'), rest) /\
    party_ok C (sroot k) (schain k) (grown ks p ep rnd) (sid k side) (sid k (negb side)) (party_after p ep n) s' /\ kept s s'.
Proof using H.
  intros k ks side p eP s ep n pt m rnd K P Lk Ek Le Rv Fr G Wh. destruct (slens k) as [L1 L2]. unfold grown.
  assert (Kn : forall v, In v (p_views p) -> rv_epoch v = ep ->
    ((rv_idx v <= n <= rv_idx v + 25000)%N \/ (n < rv_idx v)%N /\ In n (rv_saved v)) ->
    Nat.eqb ep (S (p_epoch p)) = false /\
    exists s' rest, decrypt_session C rnd s m = (Ok (pt, s'), rest) /\
    party_ok C (sroot k) (schain k) ks (sid k side) (sid k (negb side)) (party_after p ep n) s' /\ kept s s').
  { intros v Iv Ev J. split.
    - destruct P as (_ & _ & _ & _ & _ & _ & _ & _ & _ & Lt). rewrite Forall_forall in Lt. specialize (Lt v Iv).
      apply Nat.eqb_neq. lia.
    - destruct (recv_known C H (sroot k) (schain k) L1 L2 ks _ _ p s ep n pt m rnd v K P Iv Ev G J Wh) as (s' & D & P' & Q). exists s', rnd. auto. }
  destruct Rv as [v Iv Ev J|v Iv Ev J1 J2|E J].
  - destruct (Kn v Iv Ev (or_introl J)) as (-> & R). auto.
  - destruct (Kn v Iv Ev (or_intror (conj J1 J2))) as (-> & R). auto.
  - subst ep. rewrite Nat.eqb_refl. destruct (Fr eq_refl) as [Lr Nr].
    assert (K' : keys_ok C (ks ++ [firstn 32 rnd])) by (apply keys_app; auto; apply firstn_length_le; exact Lr).
    split; [exact K'|].
    destruct (recv_new C H (sroot k) (schain k) L1 L2 ks _ _ p s n pt m rnd P ltac:(lia) Lr K' G J Wh) as (s' & D & P' & Q).
    exists s', (skipn 32 rnd). auto.
Qed.
Lemma grown_len : forall ks p ep rnd eP n, List.length ks = S (Nat.max (p_epoch p) eP) -> (p_epoch p = S eP \/ eP = S (p_epoch p)) -> ep <= eP ->
  List.length (grown ks p ep rnd) = S (Nat.max (p_epoch (party_after p ep n)) eP) /\
  (p_epoch (party_after p ep n) = S eP \/ eP = S (p_epoch (party_after p ep n))).
Proof.
  intros ks p ep rnd eP n L E Le. unfold grown, party_after. destruct (Nat.eqb_spec ep (S (p_epoch p))) as [->|N]; cbn [p_epoch].
  - rewrite app_length. cbn [List.length]. split; [lia|]. left. lia.
  - auto.
Qed.

(** Moving notes to longer key lists and later parties. *)
Lemma note_mono : forall k ks x par par' nt, note_ok k ks par nt -> p_epoch (par (nt_from nt)) < List.length ks ->
  (forall side, p_epoch (par side) <= p_epoch (par' side)) -> note_ok k (ks ++ x) par' nt.
Proof using H.
  intros k ks x par par' nt ((A & A') & B & m & W & F) L M. destruct (slens k) as [L1 L2]. split; [specialize (M (nt_from nt)); lia|]. split; [exact B|].
  exists m. split; [rewrite kchain_app, kpub_app by (auto; lia); exact W|]. destruct F as [(F1 & F2 & F3)|F]; [left|right; exact F].
  split; [exact F1|]. specialize (M false). split; [lia|exact F3].
Qed.
Lemma grown_app : forall ks p ep rnd, exists x, grown ks p ep rnd = ks ++ x.
Proof. intros. unfold grown. destruct (Nat.eqb _ _); eexists; [reflexivity|symmetry; apply app_nil_r]. Qed.
Lemma after_epoch : forall p ep n, p_epoch p <= p_epoch (party_after p ep n).
Proof. intros. unfold party_after. destruct (Nat.eqb_spec ep (S (p_epoch p))); cbn; lia. Qed.
Lemma in_session_app : forall k ks x w a side p e e', in_session k ks w a side p e -> e <= e' -> in_session k (ks ++ x) w a side p e'.
Proof using H.
  intros k ks x w a side p e e' (r & s & A & B & P & D & E) M. destruct (slens k) as [L1 L2]. exists r, s.
  split; [exact A|]. split; [exact B|]. split; [apply (party_ok_app C _ _ L1 L2); exact P|]. split; [exact D|].
  destruct E as [(E1 & E2 & E3)|E]; [left; split; [exact E1|split; [lia|exact E3]]|right; exact E].
Qed.
Lemma note_wf : forall k ks (par : bool -> party) nt m, secrets_ok k ->
  whisper C (chain_at C (kchain C (sroot k) (schain k) ks (nt_epoch nt)) (N.to_nat (nt_counter nt))) (nt_counter nt)
     (kpub C ks (nt_epoch nt)) (sid k (nt_from nt)) (sid k (negb (nt_from nt))) (nt_text nt) m -> go_u32 (nt_counter nt) ->
  wf_signal m /\ forall ep eB side, frame_ok k ep eB side m (nt_cipher nt) -> wf_ciphertext (nt_cipher nt).
Proof using H.
  intros k ks par nt m So Wh G. pose proof (whisper_wf _ _ _ _ _ _ _ _ H Wh (kpub_len C ks _) G) as Wm. split; [exact Wm|].
  intros ep eB side [[-> _]|(_ & reg & pm & Gr & -> & (E1 & E2 & E3 & E4 & E5 & E6 & E7))]; [exact Wm|].
  destruct So as (_ & _ & _ & _ & _ & _ & (B1 & B2 & B3 & B4 & _)).
  split; [exact E1|]. split; [rewrite E5; apply ed_to_mont_length|]. split; [rewrite E6; apply ed_to_mont_length|].
  split; [rewrite E2; exact Gr|]. split; [rewrite E4; exact B4|]. split; [rewrite E3; exact B2|rewrite E7; exact Wm].
Qed.
Variable at_ : bool -> addr.
Definition in_step (k : secrets) (ks : list bytes) (base : pubkey) (dev : bool -> world) (par : bool -> party) (keys : list pubkey) (notes : list note) : Prop :=
  secrets_ok k /\ base = mont_pub C (k_e k) /\ keys = map (mont_pub C) ks /\ keys_ok C ks /\ (exists l, ks = k_sb k :: l) /\
  List.length ks = S (Nat.max (p_epoch (par true)) (p_epoch (par false))) /\
  (p_epoch (par true) = S (p_epoch (par false)) \/ p_epoch (par false) = S (p_epoch (par true))) /\ p_epoch (par true) <> 0 /\
  (forall side, wf_device (dev side)) /\
  (forall side : bool, pair_for C (if side then k_ia k else k_ib k) (w_pair (dev side))) /\
  (forall side : bool, side = true \/ p_epoch (par false) <> 0 -> in_session k ks (dev side) (at_ side) side (par side) (p_epoch (par false))) /\
  (p_epoch (par false) = 0 -> par false = mkParty 0 0 [] /\ published C (dev false) b (k_ib k) (k_sb k) (k_ob k) /\
     unused_base (dev false) (at_ false) base) /\
  Forall (note_ok k ks par) notes.


(** *** The API calls *)
Lemma record_current : forall rnd r m s pt s' rest, rc_current r = Some s -> decrypt_session C rnd s m = (Ok (pt, s'), rest) ->
  decrypt_record C rnd r m = Ok (pt, rc_set_state r s').
Proof. intros rnd r m s pt s' rest E D. unfold decrypt_record. rewrite E, D. reflexivity. Qed.
Lemma signal_result : forall a rnd m fs w r s pt s' rest pt' w', w_sess w a = Some r -> rc_current r = Some s ->
  decrypt_session C rnd s m = (Ok (pt, s'), rest) ->
  run (decrypt_message C a rnd (CSignal m)) fs w = (Ok pt', w') -> pt' = pt /\ w_sess w' a = Some (rc_set_state r s').
Proof.
  intros a rnd m fs w r s pt s' rest pt' w' Er Ec D E. cbn [decrypt_message] in E. destruct (decrypt_signal_runs C a rnd m fs w) as [R _]. rewrite R in E.
  destruct (hd_fault fs); [|discriminate..]. rewrite Er in E. unfold signal_body in E. rewrite (record_current _ _ _ _ _ _ _ Ec D) in E.
  unfold pdo in E. cbn [run] in E. unfold exec_f in E. cbn [fallible exec] in E.
  assert (X : exists w1, run (signal_rest a pt (rc_set_state r s')) (tl (tl fs)) w1 = (Ok pt', w')) by (eexists; exact E).
  destruct X as (w1 & X). apply signal_rest_inv in X. destruct X as (-> & s1 & rid & _ & _ & _ & ->). split; [reflexivity|].
  cbn. rewrite addr_eqb_refl. reflexivity.
Qed.
Lemma prekey_done_sess : forall w a ex r id, w_sess (prekey_done w a ex r id) a = Some r.
Proof. intros w a ex r [i|]; cbn; rewrite addr_eqb_refl; reflexivity. Qed.
Lemma prekey_known_result : forall a rnd pm fs w r s pt s' rest pt' w', wf_device w -> wf_prekeymsg pm ->
  w_sess w a = Some r -> rc_current r = Some s -> ss_alice_base s = Byte.x05 :: pm_base pm ->
  decrypt_session C rnd s (pm_message pm) = (Ok (pt, s'), rest) ->
  run (decrypt_message C a rnd (CPreKey pm)) fs w = (Ok pt', w') -> pt' = pt /\ w_sess w' a = Some (rc_set_state r s').
Proof.
  intros a rnd pm fs w r s pt s' rest pt' w' [W _] Wm Er Ec Eb D E. assert (Wr : wf_record r) by (eapply (proj1 W); exact Er).
  destruct (has_state_spec r pm Wr Wm) as (h & Hh & Hs). assert (h = true) as -> by (apply Hs; exists s; split; [left; exact Ec|exact Eb]).
  cbn [decrypt_message] in E. apply decrypt_prekey_inv in E. destruct E as (r1 & r2 & id & w1 & _ & V & Dr & ->).
  rewrite Er in V. cbn [loaded] in V. destruct V as [(_ & -> & _)|(X & _)]; [|rewrite Hh in X; discriminate].
  rewrite (record_current _ _ _ _ _ _ _ Ec D) in Dr. injection Dr as -> <-. split; [reflexivity|apply prekey_done_sess].
Qed.
Lemma bob_session_fun : forall w m s1 s2, bob_session C w m s1 -> bob_session C w m s2 -> s1 = s2.
Proof.
  intros w m s1 s2 (x & sg & ot & s0 & A1 & A2 & A3 & A4 & ->) (x' & sg' & ot' & s0' & B1 & B2 & B3 & B4 & ->).
  rewrite A1 in B1. injection B1 as <-. rewrite A2 in B2. injection B2 as <-.
  assert (ot = ot') as <-.
  { destruct (pm_prekey_id m) as [id|]; [|congruence]. destruct (w_prekeys w id); [|congruence].
    destruct A3 as (k & A3 & ->), B3 as (k' & B3 & ->). congruence. }
  rewrite A4 in B4. injection B4 as <-. reflexivity.
Qed.
Lemma no_state : forall w a pm, wf_device w -> wf_prekeymsg pm -> unused_base w a (pm_base pm) ->
  rc_has_state (loaded (w_sess w a)) (pm_version pm) (pub_bytes (pm_base pm)) = Ok false.
Proof.
  intros w a pm [W _] Wm U. destruct (has_state_spec _ pm (loaded_wf w a W) Wm) as (h & Hh & Hs). rewrite Hh. destruct h; [|reflexivity].
  destruct (proj1 Hs eq_refl) as (s & I0 & E). destruct (state_in_loaded _ _ _ I0) as (r & Er & I1). destruct (U r s Er I1 E).
Qed.
Lemma prekey_new_result : forall a rnd pm fs w s pt s' rest pt' w', wf_device w -> wf_prekeymsg pm ->
  unused_base w a (pm_base pm) -> bob_session C w pm s -> decrypt_session C rnd s (pm_message pm) = (Ok (pt, s'), rest) ->
  run (decrypt_message C a rnd (CPreKey pm)) fs w = (Ok pt', w') ->
  pt' = pt /\ exists r', w_sess w' a = Some r' /\ rc_current r' = Some s'.
Proof.
  intros a rnd pm fs w s pt s' rest pt' w' Wd Wm U B D E. pose proof (no_state w a pm Wd Wm U) as Hh.
  cbn [decrypt_message] in E. apply decrypt_prekey_inv in E. destruct E as (r1 & r2 & id & w1 & _ & V & Dr & ->).
  destruct V as [(X & _)|(_ & -> & s2 & B2 & -> & ->)]; [rewrite Hh in X; discriminate|].
  rewrite (bob_session_fun _ _ _ _ B2 B) in Dr.
  rewrite (record_current _ (rc_promote (loaded (w_sess w a)) s) _ s _ _ _ eq_refl D) in Dr. injection Dr as -> <-.
  split; [reflexivity|]. eexists. split; [apply prekey_done_sess|reflexivity].
Qed.
Lemma prekey_new_completes : forall a rnd pm w s pt s' rest, wf_device w -> wf_prekeymsg pm ->
  unused_base w a (pm_base pm) -> bob_session C w pm s -> decrypt_session C rnd s (pm_message pm) = (Ok (pt, s'), rest) ->
  w_policy w a (w_ident w a) (pm_identity pm) Receiving = true ->
  exists w', run0 (decrypt_message C a rnd (CPreKey pm)) w = (Ok pt, w').
Proof.
  intros a rnd pm w s pt s' rest Wd Wm U B D T. pose proof (no_state w a pm Wd Wm U) as Hh. eexists. cbn [decrypt_message].
  apply decrypt_prekey_completes with (1 := process_new C a _ _ pm w s T Hh B).
  exact (record_current _ (rc_promote (loaded (w_sess w a)) s) _ s _ _ _ eq_refl D).
Qed.
(** The responder's new session is the initiator's counterpart. *)
Lemma responder_state : forall k w pm reg m, secrets_ok k -> wf_device w -> published C w b (k_ib k) (k_sb k) (k_ob k) -> go_u32 reg ->
  prekey_frame pm reg (bd_prekey_id b) (bd_signed_id b) (mont_pub C (k_e k)) (sid k true) m ->
  exists s, bob_session C w pm s /\
    party_ok C (sroot k) (schain k) [k_sb k] (sid k false) (sid k true) (mkParty 0 0 []) s /\
    ss_pending s = None /\ ss_alice_base s = pub_bytes (mont_pub C (k_e k)).
Proof using H.
  intros k w pm reg m So [W _] (Pi & _ & _ & (x & p & Ex & Ep & Ps) & Po) Gr (F1 & F2 & F3 & F4 & F5 & F6 & F7).
  destruct So as (La & Lb & Ls & Le & Lo & _ & _).
  assert (Ot : exists ot, match pm_prekey_id pm with
    | None => ot = None
    | Some id => match w_prekeys w id with
                 | None => ot = None
                 | Some y => exists k, prekeyrec_pair C y = Ok k /\ ot = Some k
                 end
    end /\ match k_ob k, ot with Some o, Some p => pair_for C o p | None, None => True | _, _ => False end).
  { rewrite F3. destruct (k_ob k) as [o|].
    - destruct Po as (_ & id & y & q & -> & _ & Ey & Eq & Pq). exists (Some q). rewrite Ey. split; [exists q; auto|exact Pq].
    - destruct Po as (_ & ->). exists None. auto. }
  destruct Ot as (ot & Eo & Mo).
  destruct (init_bob_party C H (k_ia k) (k_e k) (k_ib k) (k_sb k) (k_ob k) La Le Lb Ls Lo (w_pair w) p ot reg (w_reg w) Pi Ps Mo Gr (proj2 (proj2 W)))
    as (s0 & E0 & P0 & Pn & _ & _ & Ea).
  eexists. split; [|split; [exact P0|split; [exact Pn|exact Ea]]].
  exists x, p, ot, s0. rewrite F4, F5, F6, F2. split; [exact Ex|]. split; [exact Ep|]. split; [exact Eo|]. split; [exact E0|reflexivity].
Qed.

(** *** Steps *)
Lemma peer_epochs : forall (par : bool -> party) side, (p_epoch (par true) = S (p_epoch (par false)) \/ p_epoch (par false) = S (p_epoch (par true))) ->
  (p_epoch (par side) = S (p_epoch (par (negb side))) \/ p_epoch (par (negb side)) = S (p_epoch (par side))) /\
  Nat.max (p_epoch (par true)) (p_epoch (par false)) = Nat.max (p_epoch (par side)) (p_epoch (par (negb side))).
Proof. intros par [] E; cbn [negb]; split; lia. Qed.
Lemma pend_after : forall k side eP e s s', kept s s' -> e <> 0 -> ~ (side = true /\ eP = 1) -> pend_ok k side eP e s'.
Proof. intros k side eP e s s' (_ & E & _) N X. left. auto. Qed.

Lemma receive_step : forall k ks base dev par keys notes side ep n pt c rnd,
  in_step k ks base dev par keys notes -> In (mkNote (negb side) ep n pt c) notes -> receivable (par side) ep n ->
  fresh C keys (par side) ep rnd ->
  let p' := party_after (par side) ep n in let ks' := grown ks (par side) ep rnd in
  keys_ok C ks' /\
  (w_policy (dev side) (at_ side) (w_ident (dev side) (at_ side)) (sid k (negb side)) Receiving = true ->
   exists w', run0 (decrypt_message C (at_ side) rnd c) (dev side) = (Ok pt, w')) /\
  (forall fs pt' w', run (decrypt_message C (at_ side) rnd c) fs (dev side) = (Ok pt', w') ->
   pt' = pt /\ wf_device w' /\ in_session k ks' w' (at_ side) side p' (p_epoch (upd par side p' false)) /\ p_epoch (upd par side p' false) <> 0).
Proof using H.
  intros k ks base dev par keys notes side ep n pt c rnd (So & Eb & Ek & K & (l & El) & Lk & Ee & E1 & Wd & Pr & Ss & Nb & Nt) I0 Rv Fr p' ks'.
  destruct (peer_epochs par side Ee) as [Ee' Em]. rewrite Em in Lk. subst keys.
  rewrite Forall_forall in Nt. destruct (Nt _ I0) as ((Le & Ne) & G & m & Wh & F). cbn [nt_epoch nt_from nt_counter nt_text nt_cipher] in *.
  rewrite Bool.negb_involutive in Wh.
  destruct (note_wf k ks par (mkNote (negb side) ep n pt c) m So) as [Wm Wc]; cbn [nt_epoch nt_from nt_counter nt_text nt_cipher];
    rewrite ?Bool.negb_involutive; auto. cbn [nt_cipher] in Wc. specialize (Wc _ _ _ F).
  assert (Nz : p_epoch (upd par side p' false) <> 0).
  { destruct side; cbn [upd Bool.eqb].
    - destruct F as [[_ [F _]]|[[F _] _]]; [exact F|discriminate].
    - unfold p', party_after. destruct (Nat.eqb_spec ep (S (p_epoch (par false)))); cbn [p_epoch]; [lia|].
      destruct (Nat.eq_dec (p_epoch (par false)) 0) as [Z|Z]; [|exact Z]. destruct (Nb Z) as (Ep & _). rewrite Ep in Rv.
      destruct Rv as [v Iv _ _|v Iv _ _ _|X _]; [destruct Iv|destruct Iv|]. cbn [p_epoch] in X. lia. }
  assert (Nf : forall s, party_ok C (sroot k) (schain k) ks (sid k side) (sid k (negb side)) (par side) s -> ~ (side = true /\ p_epoch p' = 1)).
  { intros s (_ & _ & _ & _ & _ & _ & _ & _ & _ & Vw) [-> X]. unfold p', party_after in X. rewrite Forall_forall in Vw.
    destruct (Nat.eqb_spec ep (S (p_epoch (par true)))) as [Q|Q]; cbn [p_epoch] in X; [lia|].
    destruct Rv as [v Iv Ev _|v Iv Ev _ _|Q' _]; [specialize (Vw v Iv); lia|specialize (Vw v Iv); lia|contradiction]. }
  assert (Shape : forall fs pt' w', run (decrypt_message C (at_ side) rnd c) fs (dev side) = (Ok pt', w') -> wf_device w').
  { intros fs pt' w' E. replace w' with (snd (run (decrypt_message C (at_ side) rnd c) fs (dev side))) by (rewrite E; reflexivity).
    apply run_shape; [|apply Wd]. exact (calls_shape C H (CDecrypt (at_ side) rnd c) Wc). }
  destruct (Bool.bool_dec side true) as [Sd|Sd]; [|destruct (Nat.eq_dec (p_epoch (par false)) 0) as [Z|Z]].
  2:{ (* the responder's first message *)
    apply Bool.not_true_is_false in Sd. subst side. cbn [negb] in *. destruct (Nb Z) as (Ep & Pub & Un).
    destruct F as [[_ [F _]]|(_ & reg & pm & Gr & -> & Fm)]; [contradiction|].
    destruct (responder_state k (dev false) pm reg m So (Wd false) Pub Gr Fm) as (s & B & P0 & Pn & Ea).
    destruct (slens k) as [L1 L2].
    assert (P : party_ok C (sroot k) (schain k) ks (sid k false) (sid k (negb false)) (par false) s).
    { rewrite Ep, El. change (k_sb k :: l) with ([k_sb k] ++ l). apply (party_ok_app C _ _ L1 L2). exact P0. }
    destruct (advance k ks false (par false) (p_epoch (par true)) s ep n pt m rnd K P Lk Ee' Le Rv Fr G Wh) as (K' & s' & rest & D & P' & Kp).
    destruct Fm as (F1 & F2 & F3 & F4 & F5 & F6 & F7). rewrite <- F7 in D.
    assert (Un' : unused_base (dev false) (at_ false) (pm_base pm)) by (rewrite F5, <- Eb; exact Un).
    split; [exact K'|]. split.
    - intro T. rewrite <- F6 in T. exact (prekey_new_completes _ _ _ _ _ _ _ _ (Wd false) Wc Un' B D T).
    - intros fs pt' w' E. destruct (prekey_new_result _ _ _ _ _ _ _ _ _ _ _ (Wd false) Wc Un' B D E) as (-> & r' & Er & Ec).
      split; [reflexivity|]. split; [exact (Shape _ _ _ E)|]. split; [|exact Nz]. exists r', s'. split; [exact Er|]. split; [exact Ec|]. split; [exact P'|].
      split; [destruct Kp as (-> & _); exact Ea|]. apply (pend_after k false _ _ s s' Kp Nz); intros [X _]; discriminate. }
  all: destruct (Ss side) as (r & s & Er & Ec & P & Ea & Pd); [destruct side; [left; reflexivity|right]; congruence|].
  all: destruct (advance k ks side (par side) (p_epoch (par (negb side))) s ep n pt m rnd K P Lk Ee' Le Rv Fr G Wh) as (K' & s' & rest & D & P' & Kp).
  all: split; [exact K'|].
  all: assert (Fin : forall w', wf_device w' -> w_sess w' (at_ side) = Some (rc_set_state r s') -> wf_device w' /\
      in_session k ks' w' (at_ side) side p' (p_epoch (upd par side p' false)) /\ p_epoch (upd par side p' false) <> 0)
      by (intros w' Ww Ew; split; [exact Ww|]; split; [|exact Nz]; exists (rc_set_state r s'), s'; split; [exact Ew|]; split; [reflexivity|]; split; [exact P'|];
          split; [destruct Kp as (-> & _); exact Ea|apply (pend_after k side _ _ s s' Kp Nz); exact (Nf _ P)]).
  all: destruct F as [[-> _]|((Sn & _) & reg & pm & Gr & -> & (F1 & F2 & F3 & F4 & F5 & F6 & F7))].
  all: try (split; [intro T; pose proof P as (_ & _ & Er2 & _); eexists;
      exact (signal_received C (at_ side) rnd m (dev side) r s pt s' rest (sid k (negb side)) H (Wd side) Wm Er Ec D Er2 T)|
      intros fs pt' w' E; destruct (signal_result _ _ _ _ _ _ _ _ _ _ _ _ Er Ec D E) as (-> & Ew); split; [reflexivity|];
      apply Fin; [exact (Shape _ _ _ E)|exact Ew]]).
  all: rewrite <- F7 in D.
  all: assert (Eb' : ss_alice_base s = Byte.x05 :: pm_base pm) by (rewrite F5; exact Ea).
  all: split; [intro T; rewrite Sn, <- F6 in T; eexists; exact (prekey_known C (at_ side) rnd pm (dev side) r s pt s' rest H (Wd side) Wc Er Ec Eb' T D)|].
  all: intros fs pt' w' E; destruct (prekey_known_result _ _ _ _ _ _ _ _ _ _ _ _ (Wd side) Wc Er Ec Eb' D E) as (-> & Ew); split; [reflexivity|];
      apply Fin; [exact (Shape _ _ _ E)|exact Ew].
Qed.

Lemma start_step : forall dev ia ib sb ob rnd fs w' base, wf_device (dev true) -> wf_device (dev false) -> wf_bundle b ->
  pair_for C ia (w_pair (dev true)) -> published C (dev false) b ib sb ob ->
  64 <= List.length rnd -> base = mont_pub C (firstn 32 rnd) -> unused_base (dev false) (at_ false) base ->
  mont_pub C (firstn 32 (skipn 32 rnd)) <> mont_pub C sb ->
  run (process_bundle C (at_ true) rnd b) fs (dev true) = (Ok tt, w') ->
  in_step (mkSecrets ia ib sb ob (firstn 32 rnd)) [sb; firstn 32 (skipn 32 rnd)] base (upd dev true w') start_party
    [mont_pub C sb; mont_pub C (firstn 32 (skipn 32 rnd))] [].
Proof using H.
  intros dev ia ib sb ob rnd fs w' base WA WB Wb PA Pub Lr Eb Un Nk E. set (k := mkSecrets ia ib sb ob (firstn 32 rnd)).
  assert (L32 : List.length (firstn 32 rnd) = 32) by (apply firstn_length_le; lia).
  assert (L64 : List.length (firstn 32 (skipn 32 rnd)) = 32) by (apply firstn_length_le; rewrite skipn_length; lia).
  pose proof Pub as (PB & Ei & Es & (x & sp & Ex & Exp & Ps) & Po).
  assert (Wd' : wf_device w').
  { replace w' with (snd (run (process_bundle C (at_ true) rnd b) fs (dev true))) by (rewrite E; reflexivity).
    apply run_shape; [exact (calls_shape C H (CBundle (at_ true) rnd b) Wb)|exact WA]. }
  assert (Wp' : w_pair w' = w_pair (dev true)).
  { replace w' with (snd (run (process_bundle C (at_ true) rnd b) fs (dev true))) by (rewrite E; reflexivity). apply run_pair. }
  assert (Lo : forall o, ob = Some o -> List.length o = 32).
  { intros o ->. destruct Po as (_ & id & y & q & _ & _ & _ & _ & (Lq & _)). exact Lq. }
  assert (So : secrets_ok k).
  { destruct PA as (A & _), PB as (B & _), Ps as (D & _). unfold secrets_ok. cbn [k k_ia k_ib k_sb k_ob k_e]. split; [exact A|]. split; [exact B|]. split; [exact D|].
    split; [exact L32|]. split; [exact Lo|]. split; [|exact Wb]. destruct ob as [o|]; [|apply Po]. destruct Po as (_ & id & y & q & Q1 & Q2 & _). exists id. auto. }
  assert (Eo : bd_prekey b = option_map (mont_pub C) ob) by (destruct ob; apply Po).
  destruct (bundle_success _ _ _ _ _ _ _ E) as (ti & ts & bp & rnd1 & s0 & rest & B1 & B2 & B3 & B4 & B5 & B6 & B7).
  rewrite Ei in B1. injection B1 as <-. rewrite Es in B2. injection B2 as <-.
  destruct (gen_pair_for C rnd ltac:(lia)) as (bp' & G & Pb). rewrite B5 in G. injection G as <- ->.
  destruct PA as (La & PA'). destruct PB as (Lb & PB'). destruct Ps as (Lsb & Ps').
  destruct (init_alice_party C H ia (firstn 32 rnd) ib sb ob La L32 Lb Lsb Lo (w_pair (dev true)) bp (skipn 32 rnd) (conj La PA') Pb) as (s1 & I1 & P1);
    [rewrite skipn_length; lia|].
  rewrite Eo in B6. rewrite I1 in B6. injection B6 as <- <-.
  destruct Wb as (Gr & Gi & _ & Gs & _).
  set (pend := mkPPending (match bd_prekey_id b with Some i => i | None => 0%N end) (pub_bytes (mont_pub C (firstn 32 rnd))) (to_int32 (bd_signed_id b))).
  assert (Wpd : forall p, Some pend = Some p -> wf_pending p).
  { intros p Q. injection Q as <-. split; [|split].
    - cbn [pp_prekey pend]. destruct (bd_prekey_id b) as [i|]; [apply Gi; reflexivity|reflexivity].
    - apply to_int32_range. exact Gs.
    - exists (mont_pub C (firstn 32 rnd)). split; [apply ed_to_mont_length|reflexivity]. }
  destruct (P1 (Some pend) (bd_reg b) (w_reg (dev true)) Wpd Gr (proj2 (proj2 (proj1 WA)))) as (P2 & Q1 & _ & _ & Q4).
  assert (Es1 : bundle_state b s1 (kp_pub bp) (w_reg (dev true)) =
     with_alice_base (with_regs (with_pending s1 (Some pend)) (bd_reg b) (w_reg (dev true))) (pub_bytes (mont_pub C (firstn 32 rnd)))).
  { destruct Pb as (_ & -> & _). reflexivity. }
  rewrite Es1 in B7.
  split; [exact So|]. split; [exact Eb|]. split; [reflexivity|]. split.
  { split; [constructor; [exact Lsb|constructor; [exact L64|constructor]]|]. cbn [map]. constructor; [|constructor; [intros []|constructor]].
    intros [Q|[]]. exact (Nk Q). }
  split; [eexists; reflexivity|]. split; [reflexivity|]. split; [left; reflexivity|]. split; [discriminate|].
  split; [intros []; [exact Wd'|exact WB]|].
  split; [intros []; cbn [upd Bool.eqb k k_ia k_ib]; [rewrite Wp'; split; auto|split; auto]|].
  split; [|split; [|constructor]].
  - intros [] [Q|Q]; try (cbn in Q; congruence); cbn [upd Bool.eqb start_party].
    all: eexists; eexists; split; [rewrite B7; unfold bundle_world; cbn; rewrite addr_eqb_refl; reflexivity|].
    all: split; [reflexivity|]; split; [exact P2|]; split; [exact Q4|]; right; split; [reflexivity|split; [reflexivity|exact Q1]].
  - intros _. split; [reflexivity|]. split; [exact Pub|exact Un].
Qed.

Lemma send_step : forall k ks base dev par keys notes side pt fs c w', in_step k ks base dev par keys notes ->
  (side = true \/ p_epoch (par false) <> 0) -> (p_sent (par side) + 1 < 4294967296)%N ->
  run (encrypt_message C (at_ side) pt) fs (dev side) = (Ok c, w') ->
  in_step k ks base (upd dev side w') (upd par side (sent_one (par side))) keys
    (mkNote side (p_epoch (par side)) (p_sent (par side)) pt c :: notes).
Proof using H.
  intros k ks base dev par keys notes side pt fs c w' (So & Eb & Ek & K & Hd & Lk & Ee & E1 & Wd & Pr & Ss & Nb & Nt) Sd Gc E.
  assert (Wd' : wf_device w').
  { replace w' with (snd (run (encrypt_message C (at_ side) pt) fs (dev side))) by (rewrite E; reflexivity).
    apply run_shape; [exact (calls_shape C H (CEncrypt (at_ side) pt) I)|apply Wd]. }
  assert (Wp' : w_pair w' = w_pair (dev side)).
  { replace w' with (snd (run (encrypt_message C (at_ side) pt) fs (dev side))) by (rewrite E; reflexivity). apply run_pair. }
  destruct (Ss side Sd) as (r & s & Er & Ec & P & Ea & Pd). destruct (slens k) as [L1 L2].
  destruct (send_next C H (sroot k) (schain k) L1 L2 ks _ _ (par side) s pt P Gc) as (m & out & s' & En & Wh & Fr & P' & Ka & Kp & Kl & _).
  destruct (encrypt_success _ _ _ _ _ _ _ _ _ _ _ _ Er Ec En E) as (-> & _ & Ew).
  assert (Ep : forall y, p_epoch (upd par side (sent_one (par side)) y) = p_epoch (par y)).
  { intro y. unfold upd. destruct (Bool.eqb y side) eqn:Q; [|reflexivity]. apply Bool.eqb_prop in Q. subst y. reflexivity. }
  split; [exact So|]. split; [exact Eb|]. split; [exact Ek|]. split; [exact K|]. split; [exact Hd|]. rewrite !Ep. split; [exact Lk|]. split; [exact Ee|]. split; [exact E1|].
  split; [intro y; unfold upd; destruct (Bool.eqb y side); [exact Wd'|apply Wd]|].
  split; [intro y; specialize (Pr y); unfold upd; destruct (Bool.eqb y side) eqn:Q; [apply Bool.eqb_prop in Q; subst y; rewrite Wp'|]; exact Pr|].
  split; [|split].
  - intros y Sy. unfold upd. destruct (Bool.eqb y side) eqn:Q; [apply Bool.eqb_prop in Q; subst y|apply (Ss y Sy)].
    exists (rc_set_state r s'), s'. split; [rewrite Ew; cbn; rewrite addr_eqb_refl; reflexivity|]. split; [reflexivity|]. split; [exact P'|].
    split; [rewrite Ka; exact Ea|]. unfold pend_ok in *. rewrite Kp. exact Pd.
  - intro Z. destruct side; [|destruct Sd; [discriminate|contradiction]]. cbn [upd Bool.eqb]. exact (Nb Z).
  - constructor.
    + split; [rewrite Ep; cbn; split; [lia|destruct side; [exact E1|destruct Sd; [discriminate|assumption]]]|]. split; [cbn [nt_counter]; unfold go_u32; lia|]. exists m. cbn [nt_epoch nt_from nt_counter nt_text nt_cipher].
      split; [exact Wh|]. rewrite Ep. unfold framed in Fr. destruct Pd as [[Z1 Z2]|(-> & Z' & Z)].
      * rewrite Z1 in Fr. left. auto.
      * rewrite Z in Fr. right. split; [split; [reflexivity|exact Z']|]. destruct Fr as (bs & Eb1 & _ & ->). cbn [pp_base pp_prekey pp_signed] in *.
        apply pub_bytes_inj in Eb1. subst bs. eexists. eexists. split; [|split; [reflexivity|]].
        { destruct P as (W & _). wf_split W. exact G2. }
        destruct So as (_ & _ & _ & _ & _ & Bi & (_ & _ & _ & Gs & _)).
        assert (Ii : (if ((match bd_prekey_id b with Some i => i | None => 0 end) =? 0)%N then None else Some (match bd_prekey_id b with Some i => i | None => 0%N end)) = bd_prekey_id b).
        { destruct (k_ob k); [destruct Bi as (id & -> & Ni); destruct (N.eqb_spec id 0); [contradiction|reflexivity]|rewrite Bi; reflexivity]. }
        rewrite Ii, of_to_int32 by exact Gs. unfold prekey_frame. cbn. auto 10.
    + eapply Forall_impl; [|exact Nt]. intros nt (A1 & A2 & m1 & A3 & A4). split; [rewrite Ep; exact A1|]. split; [exact A2|]. exists m1. rewrite Ep. auto.
Qed.

Lemma received_step : forall k ks base dev par keys notes side ep n pt c rnd fs pt' w', in_step k ks base dev par keys notes ->
  In (mkNote (negb side) ep n pt c) notes -> receivable (par side) ep n -> fresh C keys (par side) ep rnd ->
  run (decrypt_message C (at_ side) rnd c) fs (dev side) = (Ok pt', w') ->
  in_step k (grown ks (par side) ep rnd) base (upd dev side w') (upd par side (party_after (par side) ep n))
    (keys_after C keys (par side) ep rnd) notes.
Proof using H.
  intros k ks base dev par keys notes side ep n pt c rnd fs pt' w' St I0 Rv Fr E.
  destruct (receive_step k ks base dev par keys notes side ep n pt c rnd St I0 Rv Fr) as (Kg & _ & R).
  destruct (R _ _ _ E) as (_ & Wd' & Is & Nz).
  destruct St as (So & Eb & Ek & K & (l & El) & Lk & Ee & E1 & Wd & Pr & Ss & Nb & Nt).
  assert (Wp' : w_pair w' = w_pair (dev side)).
  { replace w' with (snd (run (decrypt_message C (at_ side) rnd c) fs (dev side))) by (rewrite E; reflexivity). apply run_pair. }
  destruct (peer_epochs par side Ee) as [Ee' Em].
  pose proof (proj1 (Forall_forall _ _) Nt _ I0) as ((Le & _) & _). cbn [nt_epoch nt_from] in Le.
  rewrite Em in Lk. destruct (grown_len ks (par side) ep rnd (p_epoch (par (negb side))) n Lk Ee' Le) as [Lg Eg].
  destruct (grown_app ks (par side) ep rnd) as [x Ex].
  set (p' := party_after (par side) ep n) in *.
  assert (Mo : forall y, p_epoch (par y) <= p_epoch (upd par side p' y)).
  { intro y. unfold upd. destruct (Bool.eqb y side) eqn:Q; [apply Bool.eqb_prop in Q; subst y; apply after_epoch|lia]. }
  split; [exact So|]. split; [exact Eb|].
  split; [unfold keys_after, grown; rewrite Ek; destruct (Nat.eqb ep _); [rewrite map_app|]; reflexivity|].
  split; [exact Kg|]. split; [exists (l ++ x); rewrite Ex, El; reflexivity|].
  split; [rewrite Lg; destruct side; cbn [upd Bool.eqb negb]; lia|].
  split; [destruct side; cbn [upd Bool.eqb negb] in *; tauto|].
  split; [specialize (Mo true); lia|].
  split; [intro y; unfold upd; destruct (Bool.eqb y side); [exact Wd'|apply Wd]|].
  split; [intro y; specialize (Pr y); unfold upd; destruct (Bool.eqb y side) eqn:Q; [apply Bool.eqb_prop in Q; subst y; rewrite Wp'|]; exact Pr|].
  split; [|split].
  - intros y Sy. unfold upd at 1 2. destruct (Bool.eqb y side) eqn:Q; [apply Bool.eqb_prop in Q; subst y; exact Is|].
    rewrite Ex. apply (in_session_app k ks x _ _ _ _ (p_epoch (par false))); [|apply Mo]. apply Ss. destruct y; [left; reflexivity|right].
    destruct side; [|discriminate]. exact Nz.
  - intro Z. contradiction.
  - eapply Forall_impl; [|exact Nt]. intros nt Hn. rewrite Ex. apply (note_mono k ks x par); [exact Hn| |exact Mo].
    rewrite Lk. destruct side, (nt_from nt); cbn [negb] in *; lia.
Qed.
Lemma session_current : forall w w' a, w_sess w' a = w_sess w a -> current_session w' a = current_session w a.
Proof. intros w w' a E. unfold current_session. rewrite E. reflexivity. Qed.
Lemma other_step : forall k ks base dev par keys notes side w', in_step k ks base dev par keys notes ->
  left_alone at_ b base (par false) side (dev side) w' -> in_step k ks base (upd dev side w') par keys notes.
Proof.
  intros k ks base dev par keys notes side w' (So & Eb & Ek & K & Hd & Lk & Ee & E1 & Wd & Pr & Ss & Nb & Nt) (Wd' & Wp' & Al).
  split; [exact So|]. split; [exact Eb|]. split; [exact Ek|]. split; [exact K|]. split; [exact Hd|]. split; [exact Lk|]. split; [exact Ee|]. split; [exact E1|].
  split; [intro y; unfold upd; destruct (Bool.eqb y side); [exact Wd'|apply Wd]|].
  split; [intro y; specialize (Pr y); unfold upd; destruct (Bool.eqb y side) eqn:Q; [apply Bool.eqb_prop in Q; subst y; rewrite Wp'|]; exact Pr|].
  split; [|split; [|exact Nt]].
  - intros y Sy. unfold upd. destruct (Bool.eqb y side) eqn:Q; [apply Bool.eqb_prop in Q; subst y|exact (Ss y Sy)].
    destruct (Ss side Sy) as (r & s & A & B & R).
    destruct Al as [[_ Al]|(-> & Z & _)]; [|destruct Sy; [discriminate|contradiction]].
    unfold current_session in Al. rewrite A, B in Al. destruct (w_sess w' (at_ side)) as [r'|] eqn:Er'; [|discriminate]. exists r', s. auto.
  - intro Z. destruct (Nb Z) as (N1 & N2 & N3). split; [exact N1|]. destruct side; cbn [upd Bool.eqb]; [auto|].
    destruct Al as [[[X|X] _]|(_ & _ & U & (P1 & P2))]; [discriminate|contradiction|]. split; [|exact U].
    destruct N2 as (Q1 & Q2 & Q3 & Q4 & Q5). unfold published. rewrite Wp', P1. split; [exact Q1|]. split; [exact Q2|]. split; [exact Q3|]. split; [exact Q4|].
    destruct (k_ob k) as [o|]; [|exact Q5]. destruct Q5 as (Q5 & id & y & q & R1 & R2 & R3 & R4). split; [exact Q5|]. exists id, y, q.
    rewrite (P2 _ R1). auto.
Qed.

Theorem history_in_step : forall base dev par keys notes, history C at_ b base dev par keys notes ->
  exists k ks, in_step k ks base dev par keys notes.
Proof using H.
  intros base dev par keys notes Hy. induction Hy as
    [dev ia ib sb ob rnd fs w' WA WB Wb PA Pub Lr Eb Un Nk E
    |dev par keys notes side pt fs c w' _ (k & ks & St) Sd G E
    |dev par keys notes side ep n pt c rnd fs pt' w' _ (k & ks & St) I0 Rv Fr E
    |dev par keys notes side w' _ (k & ks & St) Al].
  - eexists. eexists. eapply start_step; eauto.
  - exists k, ks. eapply send_step; eauto.
  - exists k, (grown ks (par side) ep rnd). eapply received_step; eauto.
  - exists k, ks. apply other_step; auto.
Qed.

(** *** Consequences *)
(** C23 *)
Theorem delivered : forall base dev par keys notes side ep n pt c rnd,
  history C at_ b base dev par keys notes -> In (mkNote (negb side) ep n pt c) notes ->
  receivable (par side) ep n -> fresh C keys (par side) ep rnd ->
  w_policy (dev side) (at_ side) (w_ident (dev side) (at_ side)) (kp_pub (w_pair (dev (negb side)))) Receiving = true ->
  exists w', run0 (decrypt_message C (at_ side) rnd c) (dev side) = (Ok pt, w').
Proof using H.
  intros base dev par keys notes side ep n pt c rnd Hy I0 Rv Fr T. destruct (history_in_step _ _ _ _ _ Hy) as (k & ks & St).
  destruct (receive_step k ks base dev par keys notes side ep n pt c rnd St I0 Rv Fr) as (_ & D & _). apply D.
  destruct St as (_ & _ & _ & _ & _ & _ & _ & _ & _ & Pr & _). destruct (Pr (negb side)) as (_ & Ep & _). rewrite Ep in T.
  unfold sid. destruct side; exact T.
Qed.
Theorem answered : forall base dev par keys notes side ep n pt c rnd fs pt' w',
  history C at_ b base dev par keys notes -> In (mkNote (negb side) ep n pt c) notes ->
  receivable (par side) ep n -> fresh C keys (par side) ep rnd ->
  run (decrypt_message C (at_ side) rnd c) fs (dev side) = (Ok pt', w') -> pt' = pt.
Proof using H.
  intros base dev par keys notes side ep n pt c rnd fs pt' w' Hy I0 Rv Fr E. destruct (history_in_step _ _ _ _ _ Hy) as (k & ks & St).
  destruct (receive_step k ks base dev par keys notes side ep n pt c rnd St I0 Rv Fr) as (_ & _ & D). eapply D; eauto.
Qed.
Theorem sendable : forall base dev par keys notes side pt,
  history C at_ b base dev par keys notes -> (side = true \/ p_epoch (par false) <> 0) -> (p_sent (par side) + 1 < 4294967296)%N ->
  w_policy (dev side) (at_ side) (w_ident (dev side) (at_ side)) (kp_pub (w_pair (dev (negb side)))) Sending = true ->
  exists c w', run0 (encrypt_message C (at_ side) pt) (dev side) = (Ok c, w').
Proof using H.
  intros base dev par keys notes side pt Hy Sd G T. destruct (history_in_step _ _ _ _ _ Hy) as (k & ks & St).
  destruct St as (_ & _ & _ & _ & _ & _ & _ & _ & Wd & Pr & Ss & _). destruct (slens k) as [L1 L2].
  destruct (Ss side Sd) as (r & s & Er & Ec & P & Ea & Pd).
  destruct (send_next C H (sroot k) (schain k) L1 L2 ks _ _ (par side) s pt P G) as (m & out & s' & En & _).
  eexists. eexists. eapply encrypt_completes; eauto.
  destruct (Pr (negb side)) as (_ & Ep & _). rewrite Ep in T. unfold sid. destruct side; exact T.
Qed.
(** C36, C53: what the ciphertexts look like. The initiator's first epoch has number 1; it
    ends with the first message received. *)
Theorem frames : forall base dev par keys notes side ep n pt c,
  history C at_ b base dev par keys notes -> In (mkNote side ep n pt c) notes ->
  (exists m, c = CSignal m /\ ~ (side = true /\ ep = 1)) \/
  (side = true /\ ep = 1) /\ exists pm reg m, c = CPreKey pm /\
    prekey_frame pm reg (bd_prekey_id b) (bd_signed_id b) base (kp_pub (w_pair (dev true))) m.
Proof using H.
  intros base dev par keys notes side ep n pt c Hy I0. destruct (history_in_step _ _ _ _ _ Hy) as (k & ks & (_ & Eb & _ & _ & _ & _ & _ & _ & _ & Pr & _ & _ & Nt)).
  rewrite Forall_forall in Nt. destruct (Nt _ I0) as (_ & _ & m & _ & [(Ec & _ & Z)|(Z & reg & pm & _ & Ec & F)]);
    cbn [nt_epoch nt_from nt_cipher] in *; [left; eauto|right].
  split; [exact Z|]. exists pm, reg, m. destruct (Pr true) as (_ & Q & _). rewrite Q, Eb. auto.
Qed.
End History.
