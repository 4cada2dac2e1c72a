(** Pre-key messages: disturbance, panics, consumption of pre-keys, re-delivery. *)
From Verif Require Import M_Base M_Crypto M_Aes M_Curve M_Proto M_Message M_Ratchet M_State M_Store M_Session M_Group
  S_Crypto S_Message S_State S_Shape S_Ratchet S_Session S_Aes S_Api S_Send S_Group S_Receive S_Curve S_Bundle S_Conv S_X3dh
  P_Base P_Proto P_Curve P_State P_Shape P_Ratchet P_Message P_Aes P_Chain P_Decrypt P_Receive P_Encrypt P_Record P_Prog
  P_Init P_Send P_Bundle P_DecApi P_DecTop P_Conv P_X3dh.
From Coq Require Import ZifyBool ZifyNat ZifyN.
Local Open Scope nat_scope.

(** A body that is not a whole number of blocks opens under no keys. *)
Lemma garbage_body : forall C s m pt, List.length (sg_body m) mod 16 <> 0 -> ~ opens C s m pt.
Proof.
  intros C s m pt N (mk & remote & local & _ & _ & _ & _ & D). unfold cbc_decrypt in D.
  destruct (aes_key_ok (mk_cipher mk)); cbn [negb] in D; [|discriminate].
  destruct (Nat.eqb_spec (List.length (sg_body m) mod 16) 0) as [E|_]; [contradiction|]. cbn [negb] in D. rewrite Bool.orb_true_r in D. discriminate.
Qed.

(** *** C26, shared store *)
(** The device can set up the session named by the message. *)
Lemma can_answer_session : forall C w m, CryptoOk C -> can_answer C w m -> exists s, bob_session C w m s.
Proof.
  intros C w m H (ia & e & ib & sb & x & signed & La & Le & Ei & Eb & Pi & Es & Ep & Ps & En).
  assert (Lo : forall o : bytes, @None bytes = Some o -> List.length o = 32) by discriminate.
  pose proof (init_bob_exact C H ia e ib sb None La Le (proj1 Pi) (proj1 Ps) Lo (w_pair w) signed None Pi Ps I) as E.
  eexists. exists x, signed, None. eexists. rewrite En, Ei, Eb.
  split; [exact Es|]. split; [exact Ep|]. split; [reflexivity|]. split; [exact E|reflexivity].
Qed.
Lemma shared_disturbed : forall C a rnd m w r, CryptoOk C -> wf_device w -> wf_prekeymsg m -> w_shared w = true ->
  w_sess w a = Some r -> w_policy w a (w_ident w a) (pm_identity m) Receiving = true ->
  (forall s, state_in s r -> ss_alice_base s <> Byte.x05 :: pm_base m) -> can_answer C w m ->
  List.length (sg_body (pm_message m)) mod 16 <> 0 ->
  exists e w' r' s, run0 (decrypt_message C a rnd (CPreKey m)) w = (Err e, w') /\ w_sess w' a = Some r' /\
    rc_current r' = Some s /\ ss_alice_base s = Byte.x05 :: pm_base m /\ ss_remote s = Byte.x05 :: pm_identity m.
Proof.
  intros C a rnd m w r H [W WG] Wm Sh Er T Nb Ca Ng. destruct (can_answer_session C w m H Ca) as (s & B).
  assert (Wr : wf_record r) by (eapply (proj1 W); exact Er).
  destruct (bob_session_wf C w m s H W Wm B) as (Ws & A1 & _ & A3 & _).
  destruct (has_state_spec r m Wr Wm) as (b & Hb & Ib). destruct b.
  { destruct (proj1 Ib eq_refl) as (s' & I & E). destruct (Nb s' I E). }
  destruct (no_opens_err C rnd (rc_promote r s) (pm_message m) H (promote_wf r s Wr Ws) (wf_prekey_inner m Wm)) as (e & D).
  { intros s' pt _. apply garbage_body. exact Ng. }
  set (w1 := set_ident (touched w a true (rc_promote r s)) a (pm_identity m)).
  exists e, w1, (rc_promote r s), s. split.
  - cbn [decrypt_message]. unfold run0. destruct (decrypt_prekey_runs C a rnd m [] w) as [R _]. rewrite R. cbn [hd_fault tl].
    unfold prekey_body. match goal with |- run (pbind ?p ?f) [] ?w = _ => change (run (pbind p f) [] w) with (run0 (pbind p f) w) end.
    rewrite run0_bind. rewrite Er. cbn [existed loaded]. rewrite (process_new C a true r m w s T Hb B). cbn [fst snd plift].
    unfold prekey_rest. cbn [fst]. rewrite D. reflexivity.
  - split; [|rewrite (promote_exact r s Wr); auto]. unfold w1, touched. rewrite Sh. cbn. rewrite addr_eqb_refl. reflexivity.
Qed.

(** *** C31 *)
Lemma unknown_signed_panics : forall C a rnd m w, wf_device w -> wf_prekeymsg m ->
  w_policy w a (w_ident w a) (pm_identity m) Receiving = true ->
  (forall r s, w_sess w a = Some r -> state_in s r -> ss_alice_base s <> Byte.x05 :: pm_base m) ->
  w_signed w (pm_signed_id m) = None -> pm_prekey_id m = None ->
  fst (run0 (decrypt_message C a rnd (CPreKey m)) w) = Panic.
Proof.
  intros C a rnd m w [W _] Wm T Nb Es En.
  pose proof (loaded_wf w a W) as Wl. destruct (has_state_spec _ m Wl Wm) as (b & Hb & Ib). destruct b.
  { destruct (proj1 Ib eq_refl) as (s' & I & E). destruct (state_in_loaded _ _ _ I) as (r & Er & I'). destruct (Nb r s' Er I' E). }
  cbn [decrypt_message]. unfold run0. destruct (decrypt_prekey_runs C a rnd m [] w) as [R _]. rewrite R. cbn [hd_fault tl].
  unfold prekey_body. match goal with |- fst (run (pbind ?p ?f) [] ?w) = _ => change (run (pbind p f) [] w) with (run0 (pbind p f) w) end.
  rewrite run0_bind.
  assert (P : fst (run0 (process_prekey C a (existed (w_sess w a)) (loaded (w_sess w a)) m) w) = Panic).
  { unfold run0, process_prekey. unfold pdo at 1. cbn [run exec_f fallible exec hd_fault tl]. rewrite T. cbn [negb]. unfold pseq.
    match goal with |- fst (run (pbind ?p ?f) [] ?w) = _ => change (run (pbind p f) [] w) with (run0 (pbind p f) w) end. rewrite run0_bind.
    assert (V : fst (run0 (process_prekey_v3 C a (existed (w_sess w a)) (loaded (w_sess w a)) m) w) = Panic).
    { unfold run0, process_prekey_v3. rewrite Hb. cbn [plift]. unfold pdo at 1. cbn [run exec_f fallible exec hd_fault tl].
      rewrite Es, En. cbn [bind plift]. unfold pdo at 1. cbn [run exec_f fallible exec hd_fault tl init_bob fst]. reflexivity. }
    rewrite V. reflexivity. }
  rewrite P. reflexivity.
Qed.

Lemma init_bob_panic : forall C ident signed ot rp ti tb, init_bob C ident signed ot rp ti tb = Panic -> signed = None \/ rp = None.
Proof.
  intros C ident signed ot rp ti tb E. unfold init_bob in E. destruct signed as [sg|]; [|auto].
  pose proof (fun k u => agreement_no_panic C k u) as NP.
  destruct (agreement C (kp_priv sg) ti) as [d1|e|] eqn:D1; cbn [bind] in E; [|discriminate|destruct (NP _ _ D1)].
  destruct (agreement C (kp_priv ident) tb) as [d2|e|] eqn:D2; cbn [bind] in E; [|discriminate|destruct (NP _ _ D2)].
  destruct (agreement C (kp_priv sg) tb) as [d3|e|] eqn:D3; cbn [bind] in E; [|discriminate|destruct (NP _ _ D3)].
  destruct (match ot with Some o => _ | None => _ end) as [sec|e|] eqn:D4; cbn [bind] in E; [|discriminate|].
  - destruct (match derive_keys C sec with Ok rc => rc | _ => _ end). destruct rp; [discriminate|auto].
  - destruct ot as [o|]; [|discriminate]. destruct (agreement C (kp_priv o) tb) eqn:D5; cbn [bind] in D4; try discriminate. destruct (NP _ _ D5).
Qed.
(** A Diffie-Hellman value of the responder is all zero. *)
Lemma all_zero_forall : forall b, all_zero b = true -> Forall (eq Byte.x00) b.
Proof.
  intros b E. unfold all_zero in E. rewrite forallb_forall in E. apply Forall_forall. intros x I. apply E in I. apply byte_eqb_eq in I. auto.
Qed.
Lemma agreement_zero : forall C k u e, List.length u = 32 -> agreement C k u = Err e -> Forall (eq Byte.x00) (c_x25519 C (sk_ecdh k) u).
Proof.
  intros C k u e L E. unfold agreement in E. rewrite L in E. cbn [Nat.eqb negb] in E. destruct (all_zero _) eqn:Z; [|discriminate].
  apply all_zero_forall. exact Z.
Qed.
Lemma init_bob_fails : forall C w m signed ot, wf_prekeymsg m ->
  (exists x, w_signed w (pm_signed_id m) = Some x /\ prekeyrec_pair C x = Ok signed) ->
  (forall k, ot = Some k -> exists i x, pm_prekey_id m = Some i /\ w_prekeys w i = Some x /\ prekeyrec_pair C x = Ok k) ->
  (forall s, init_bob C (w_pair w) (Some signed) ot (Some signed) (pm_identity m) (pm_base m) <> Ok s) -> zero_dh C w m.
Proof.
  intros C w m signed ot (_ & Lb & Li & _) (x & Ex & Px) Ho N. unfold init_bob in N.
  pose proof (fun k u => agreement_no_panic C k u) as NP.
  assert (S1 : forall u, (u = pm_identity m \/ u = pm_base m) -> Forall (eq Byte.x00) (c_x25519 C (sk_ecdh (kp_priv signed)) u) -> zero_dh C w m).
  { intros u Hu F. exists (kp_priv signed), u. split; [right; left; exists x, signed; auto|]. auto. }
  destruct (agreement C (kp_priv signed) (pm_identity m)) as [d1|e|] eqn:D1; [|apply agreement_zero in D1; eauto|destruct (NP _ _ D1)].
  destruct (agreement C (kp_priv (w_pair w)) (pm_base m)) as [d2|e|] eqn:D2; [| |destruct (NP _ _ D2)].
  2: { apply agreement_zero in D2; auto. exists (kp_priv (w_pair w)), (pm_base m). auto. }
  destruct (agreement C (kp_priv signed) (pm_base m)) as [d3|e|] eqn:D3; [|apply agreement_zero in D3; eauto|destruct (NP _ _ D3)].
  cbn [bind] in N. destruct ot as [o|].
  - destruct (agreement C (kp_priv o) (pm_base m)) as [d4|e|] eqn:D4; [| |destruct (NP _ _ D4)]; cbn [bind] in N.
    + exfalso. destruct (match derive_keys C _ with Ok rc => rc | _ => _ end). eapply N. reflexivity.
    + apply agreement_zero in D4; auto. exists (kp_priv o), (pm_base m). split; [|auto]. right. right.
      destruct (Ho o eq_refl) as (i & y & A1 & A2 & A3). exists i, y, o. auto.
  - exfalso. cbn [bind] in N. destruct (match derive_keys C _ with Ok rc => rc | _ => _ end). eapply N. reflexivity.
Qed.
(** What follows loading the keys. *)
Definition bob_rest (C : Crypto) (a : addr) (ex : bool) (r : record) (m : prekeymsg) (signed ot : option keypair) : prog (record * option N) :=
  pdo OKeyPair (fun ident => match init_bob C ident signed ot signed (pm_identity m) (pm_base m) with
    | Ok s => pdo ORegistrationID (fun reg => let s := with_regs s (ss_remote_reg s) reg in let s := with_regs s (pm_reg m) (ss_local_reg s) in
         let s := with_alice_base s (pub_bytes (pm_base m)) in let r' := rc_promote r s in
         if ex then pdo (OTouchSession a r') (fun _ => PRet (Ok (r', pm_prekey_id m))) else PRet (Ok (r', pm_prekey_id m)))
    | _ => PRet Panic end).
Lemma bob_rest_panic : forall C a ex r m signed ot fs w, fst (run (bob_rest C a ex r m signed ot) fs w) = Panic ->
  forall s, init_bob C (w_pair w) signed ot signed (pm_identity m) (pm_base m) <> Ok s.
Proof.
  intros C a ex r m signed ot fs w E s Q. unfold bob_rest in E. unfold pdo at 1 in E. cbn [run exec_f fallible exec] in E. rewrite Q in E.
  unfold pdo at 1 in E. cbn [run exec_f fallible exec] in E. destruct ex; [|discriminate].
  unfold pdo at 1 in E. cbn [run exec_f fallible exec] in E. discriminate.
Qed.
Lemma process_v3_panic : forall C a ex r m fs w, wf_record r -> wf_prekeymsg m ->
  fst (run (process_prekey_v3 C a ex r m) fs w) = Panic ->
  (forall s, state_in s r -> ss_alice_base s <> Byte.x05 :: pm_base m) /\ (w_signed w (pm_signed_id m) = None \/ zero_dh C w m).
Proof.
  intros C a ex r m fs w Wr Wm E. unfold process_prekey_v3 in E. destruct (has_state_spec r m Wr Wm) as (b & Hb & Ib). rewrite Hb in E. cbn [plift] in E.
  destruct b; [discriminate|]. split.
  { intros s I Q. assert (X : false = true) by (apply Ib; exists s; auto). discriminate. }
  unfold pdo at 1 in E. cbn [run exec_f fallible exec] in E. destruct (hd_fault fs); cbn [snd] in E; [|discriminate..].
  destruct (w_signed w (pm_signed_id m)) as [x|] eqn:Es; [right|left; reflexivity].
  destruct (prekeyrec_pair C x) as [signed|e|] eqn:Ep; cbn [plift bind] in E; [|discriminate|].
  2: { unfold prekeyrec_pair, new_keypair in Ep. unfold new_private_key in Ep. destruct (negb _); cbn [bind] in Ep; [discriminate|].
       unfold new_public_key in Ep. destruct (Nat.ltb_spec (List.length (pr_pub x)) 33); cbn [bind] in Ep; [discriminate|].
       destruct (pr_pub x); cbn in *; [lia|]. destruct (Byte.eqb _ _); discriminate. }
  assert (Z : forall ot fs1, (forall k, ot = Some k -> exists i x, pm_prekey_id m = Some i /\ w_prekeys w i = Some x /\ prekeyrec_pair C x = Ok k) ->
     fst (run (bob_rest C a ex r m (Some signed) ot) fs1 w) = Panic -> zero_dh C w m).
  { intros ot fs1 Ho Q. eapply init_bob_fails; eauto. exact (bob_rest_panic _ _ _ _ _ _ _ _ _ Q). }
  destruct (pm_prekey_id m) as [i|] eqn:Ei.
  - unfold pdo at 1 in E. cbn [run exec_f fallible exec] in E. destruct (hd_fault (tl fs)); cbn [snd] in E; [|discriminate..].
    destruct (w_prekeys w i) as [y|] eqn:Ey.
    + destruct (prekeyrec_pair C y) as [k|e|] eqn:Ek; cbn [plift bind] in E; [|discriminate|].
      * eapply (Z (Some k)); [|unfold bob_rest; rewrite Ei; exact E]. intros k' Q. injection Q as <-. exists i, y. auto.
      * unfold prekeyrec_pair, new_keypair in Ek. unfold new_private_key in Ek. destruct (negb _); cbn [bind] in Ek; [discriminate|].
        unfold new_public_key in Ek. destruct (Nat.ltb_spec (List.length (pr_pub y)) 33); cbn [bind] in Ek; [discriminate|].
        destruct (pr_pub y); cbn in *; [lia|]. destruct (Byte.eqb _ _); discriminate.
    + cbn [plift] in E. eapply (Z None); [discriminate|unfold bob_rest; rewrite Ei; exact E].
  - eapply (Z None); [discriminate|unfold bob_rest; rewrite Ei; exact E].
Qed.
Lemma signal_rest_no_panic : forall a pt r fs w, wf_record r -> fst (run (signal_rest a pt r) fs w) <> Panic.
Proof.
  intros a pt r fs w Wr. unfold signal_rest. destruct (rc_current r) as [s|] eqn:Ec; [|discriminate].
  destruct (wf_remote s (proj1 Wr s Ec)) as (k & _ & _ & ->).
  unfold pdo. cbn [run exec_f fallible exec]. destruct (hd_fault fs); cbn [run snd]; [|discriminate..].
  destruct (negb _); [discriminate|]. cbn [run exec_f fallible exec]. destruct (hd_fault (tl fs)); cbn [run snd]; [|discriminate..].
  cbn [run exec_f fallible exec]. destruct (hd_fault (tl (tl fs))); cbn [run snd]; discriminate.
Qed.
Lemma signal_no_panic : forall C a rnd m fs w, CryptoOk C -> wf_device w -> wf_signal m ->
  fst (run (decrypt_message C a rnd (CSignal m)) fs w) <> Panic.
Proof.
  intros C a rnd m fs w H [W _] Wm. cbn [decrypt_message]. destruct (decrypt_signal_runs C a rnd m fs w) as [R _]. rewrite R.
  destruct (hd_fault fs); [|discriminate..]. unfold signal_body. destruct (w_sess w a) as [r|] eqn:Er; [|discriminate].
  assert (Wr : wf_record r) by (eapply (proj1 W); exact Er).
  destruct (decrypt_record C rnd r m) as [[p r']|e|] eqn:D.
  - unfold pdo at 1. cbn [run exec_f fallible exec]. apply signal_rest_no_panic.
    destruct (decrypt_record_inv _ _ _ _ _ _ H Wr Wm D) as (s & s' & r1 & r2 & _ & _ & _ & _ & Wr'). exact Wr'.
  - apply signal_rest_no_panic. exact Wr.
  - destruct (decrypt_record_no_panic C rnd r m H Wr Wm D).
Qed.
Lemma prekey_panic : forall C a rnd m fs w, CryptoOk C -> wf_device w -> wf_prekeymsg m ->
  fst (run (decrypt_message C a rnd (CPreKey m)) fs w) = Panic ->
  w_policy w a (w_ident w a) (pm_identity m) Receiving = true /\
  (forall r s, w_sess w a = Some r -> state_in s r -> ss_alice_base s <> Byte.x05 :: pm_base m) /\
  (w_signed w (pm_signed_id m) = None \/ zero_dh C w m).
Proof.
  intros C a rnd m fs w H [W _] Wm E. cbn [decrypt_message] in E. destruct (decrypt_prekey_runs C a rnd m fs w) as [R _]. rewrite R in E.
  destruct (hd_fault fs); [|discriminate..]. unfold prekey_body in E.
  pose proof (loaded_wf w a W) as Wl.
  match type of E with fst (run (pbind ?p ?f) ?fs ?w) = _ => destruct (run_bind p f fs w) as (k & Eb) end. rewrite Eb in E. clear Eb.
  destruct (run (process_prekey C a (existed (w_sess w a)) (loaded (w_sess w a)) m) (tl fs) w) as [[[r1 id]|e|] w1] eqn:V;
    cbn [fst snd plift] in E; [exfalso|discriminate|].
  - apply process_inv in V. destruct V as [_ V]. unfold prekey_rest in E. cbn [fst snd] in E.
    assert (Wr1 : wf_record r1).
    { destruct V as [(_ & -> & _)|(_ & _ & s & B & -> & _)]; [exact Wl|].
      destruct (bob_session_wf C w m s H W Wm B) as (Ws & _). apply promote_wf; auto. }
    destruct (decrypt_record C rnd r1 (pm_message m)) as [[pt r2]|e|] eqn:D; cbn [plift] in E; [|discriminate|].
    2: { exact (decrypt_record_no_panic C rnd r1 _ H Wr1 (wf_prekey_inner m Wm) D). }
    unfold pdo in E. destruct (existed (w_sess w a)), id as [i|]; cbn [run exec_f fallible exec] in E;
      repeat match type of E with context [hd_fault ?l] => destruct (hd_fault l); cbn [run exec_f fallible exec snd] in E end; discriminate.
  - unfold process_prekey in V. unfold pdo at 1 in V. cbn [run exec_f fallible exec] in V.
    destruct (hd_fault (tl fs)); cbn [snd] in V; [|discriminate..].
    destruct (w_policy w a (w_ident w a) (pm_identity m) Receiving) eqn:T; cbn [negb] in V; [|discriminate].
    split; [reflexivity|]. unfold pseq in V.
    match type of V with run (pbind ?p ?f) ?fs ?w = _ => destruct (run_bind p f fs w) as (j & Eb) end. rewrite Eb in V. clear Eb.
    destruct (run (process_prekey_v3 C a (existed (w_sess w a)) (loaded (w_sess w a)) m) (tl (tl fs)) w) as [[[r2 id2]|e|] w2] eqn:V3; cbn [fst snd plift] in V.
    + unfold pdo in V. cbn [run exec_f fallible exec] in V. destruct (hd_fault _); cbn [run snd] in V; discriminate.
    + discriminate.
    + assert (Q : fst (run (process_prekey_v3 C a (existed (w_sess w a)) (loaded (w_sess w a)) m) (tl (tl fs)) w) = Panic) by (rewrite V3; reflexivity).
      destruct (process_v3_panic C a _ _ m _ w Wl Wm Q) as [N Z]. split; [|exact Z]. intros r s Er I. apply N. unfold loaded. rewrite Er. exact I.
Qed.

(** *** C33 and C32 *)
Definition keeps_prekeys : forall X, op X -> Prop := fun X o => match o with ODeletePreKey _ => False | _ => True end.
Lemma keeps_prekeys_run : forall {A} (p : prog A), pall keeps_prekeys any_ans p -> forall fs w,
  w_prekeys (snd (run p fs w)) = w_prekeys w /\ forall n, w_prekeys (crash n p fs w) = w_prekeys w.
Proof.
  intros A p P fs w.
  destruct (pall_rel (fun w1 w2 => w_prekeys w2 = w_prekeys w1) keeps_prekeys) with (A := A) (p := p) (fs := fs) (w := w) as [Q1 Q2]; auto.
  - intros. congruence.
  - intros X o f w0 K.
    assert (Z : w_prekeys (snd (exec o w0)) = w_prekeys w0).
    { destruct o; cbn [keeps_prekeys] in K; cbn [exec snd]; auto; try contradiction; destruct (w_shared w0); reflexivity. }
    unfold exec_f. destruct (exec o w0) as [y w1]. cbn [snd] in Z. destruct (fallible o); [destruct f; auto|auto].
Qed.
Lemma pall_weaken : forall (ok ok' : forall X, op X -> Prop) (ans : forall X, op X -> res X -> Prop) {A} (p : prog A),
  (forall X o, ok X o -> ok' X o) -> pall ok ans p -> pall ok' ans p.
Proof. intros ok ok' ans A p Hi. induction p as [r|X o k IH]; [auto|]. intros [P1 P2]. split; auto. Qed.
Lemma process_keeps : forall C a ex r m, pall keeps_prekeys any_ans (process_prekey C a ex r m).
Proof.
  intros C a ex r m. unfold process_prekey. apply pall_do; [exact I|]. intros t _. destruct (negb t); [exact I|].
  apply (pall_seq keeps_prekeys any_ans _ _ (fun _ => True)).
  - unfold process_prekey_v3. apply pall_lift. intros has _. destruct has; [exact I|]. apply pall_do; [exact I|]. intros sgn _.
    apply pall_lift. intros signed _. cbv zeta.
    assert (Z : forall ot, pall keeps_prekeys any_ans (bob_rest C a ex r m signed ot)).
    { intro ot. unfold bob_rest. apply pall_do; [exact I|]. intros ident _. destruct (init_bob _ _ _ _ _ _ _) as [s| |]; try exact I.
      apply pall_do; [exact I|]. intros reg _. cbv zeta. destruct ex; [|exact I]. apply pall_do; [exact I|]. intros; exact I. }
    unfold bob_rest in Z. destruct (pm_prekey_id m) as [i|]; [|apply Z]. apply pall_do; [exact I|]. intros y _. apply pall_lift. intros ot _. apply Z.
  - clear. set (p := process_prekey_v3 C a ex r m). clearbody p. induction p as [x|X o k IH]; cbn; auto.
  - intros [r' id] _. apply pall_do; [exact I|]. intros; exact I.
Qed.
(** Re-delivery: neither the record nor the pre-keys change while the frame is processed. *)
Definition frame_quiet : forall X, op X -> Prop := fun X o =>
  match o with ODeletePreKey _ | OStoreSession _ _ | OTouchSession _ _ => False | _ => True end.
Lemma frame_quiet_run : forall {A} (p : prog A), pall frame_quiet any_ans p -> forall fs w,
  (w_sess (snd (run p fs w)) = w_sess w /\ w_prekeys (snd (run p fs w)) = w_prekeys w) /\
  forall n, w_sess (crash n p fs w) = w_sess w /\ w_prekeys (crash n p fs w) = w_prekeys w.
Proof.
  intros A p P fs w.
  destruct (pall_rel (fun w1 w2 => w_sess w2 = w_sess w1 /\ w_prekeys w2 = w_prekeys w1) frame_quiet) with (A := A) (p := p) (fs := fs) (w := w) as [Q1 Q2]; auto.
  - intros w1 w2 w3 [] []. split; congruence.
  - intros X o f w0 K.
    assert (Z : w_sess (snd (exec o w0)) = w_sess w0 /\ w_prekeys (snd (exec o w0)) = w_prekeys w0).
    { destruct o; cbn [frame_quiet] in K; cbn [exec snd]; auto; try contradiction; destruct (w_shared w0); auto. }
    unfold exec_f. destruct (exec o w0) as [y w1]. cbn [snd] in Z. destruct (fallible o); [destruct f; auto|auto].
Qed.
Lemma redelivered : forall C a ex r m fs w, wf_record r -> wf_prekeymsg m ->
  (exists s, state_in s r /\ ss_alice_base s = Byte.x05 :: pm_base m) ->
  let w' := snd (run (process_prekey C a ex r m) fs w) in
  w_sess w' = w_sess w /\ w_prekeys w' = w_prekeys w /\
  (forall r1 id, fst (run (process_prekey C a ex r m) fs w) = Ok (r1, id) -> r1 = r /\ id = None) /\
  forall n, w_sess (crash n (process_prekey C a ex r m) fs w) = w_sess w /\ w_prekeys (crash n (process_prekey C a ex r m) fs w) = w_prekeys w.
Proof.
  intros C a ex r m fs w Wr Wm Hb. destruct (has_state_spec r m Wr Wm) as (b & E & Ib). rewrite (proj2 Ib Hb) in E.
  assert (P : pall frame_quiet any_ans (process_prekey C a ex r m)).
  { unfold process_prekey. apply pall_do; [exact I|]. intros t _. destruct (negb t); [exact I|].
    unfold process_prekey_v3. rewrite E. unfold pseq. cbn [plift pbind]. apply pall_do; [exact I|]. intros; exact I. }
  destruct (frame_quiet_run _ P fs w) as [[Q1 Q2] Q3]. split; [exact Q1|]. split; [exact Q2|]. split; [|exact Q3].
  intros r1 id F. destruct (run (process_prekey C a ex r m) fs w) as [o w1] eqn:R. cbn [fst] in F. subst o.
  apply process_inv in R. destruct R as [_ [(_ & -> & -> & _)|(R & _)]]; [auto|]. rewrite E in R. discriminate.
Qed.
(** The whole call on a known base key is the call on the inner message, with no pre-key
    touched: the stored record becomes exactly what decrypting the inner message gives. *)
Lemma redelivered_call : forall C a rnd m fs w r, CryptoOk C -> wf_device w -> wf_prekeymsg m -> w_sess w a = Some r ->
  (exists s, state_in s r /\ ss_alice_base s = Byte.x05 :: pm_base m) ->
  let w' := snd (run (decrypt_message C a rnd (CPreKey m)) fs w) in
  w_prekeys w' = w_prekeys w /\
  (w_sess w' a = Some r \/ exists pt r', decrypt_record C rnd r (pm_message m) = Ok (pt, r') /\ w_sess w' a = Some r') /\
  (forall pt, fst (run (decrypt_message C a rnd (CPreKey m)) fs w) = Ok pt ->
     exists r', decrypt_record C rnd r (pm_message m) = Ok (pt, r') /\ w_sess w' a = Some r').
Proof.
  intros C a rnd m fs w r H [W WG] Wm Er Hb. assert (Wr : wf_record r) by (eapply (proj1 W); exact Er).
  cbn [decrypt_message]. destruct (decrypt_prekey_runs C a rnd m fs w) as [R _]. rewrite R.
  destruct (hd_fault fs); [|cbn [snd]; split; [reflexivity|split; [auto|discriminate]]..].
  unfold prekey_body. rewrite Er. cbn [existed loaded].
  match goal with |- context [run (pbind ?p ?f) ?fs ?w] => destruct (run_bind p f fs w) as (k & Eb) end. rewrite Eb. clear Eb.
  destruct (redelivered C a true r m (tl fs) w Wr Wm Hb) as (Q1 & Q2 & Q3 & _).
  destruct (run (process_prekey C a true r m) (tl fs) w) as [[[r1 id]|e|] w1]; cbn [fst snd plift] in *.
  2-3: cbn [run fst snd]; rewrite Q1; split; [exact Q2|split; [auto|discriminate]].
  destruct (Q3 r1 id eq_refl) as [-> ->]. unfold prekey_rest. cbn [fst snd].
  destruct (decrypt_record C rnd r (pm_message m)) as [[pt r2]|e|] eqn:D; cbn [plift].
  2-3: cbn [run fst snd]; rewrite Q1; split; [exact Q2|split; [auto|discriminate]].
  set (fin := pdo (OStoreSession a r2) (fun _ => PRet (Ok pt))). unfold pdo. cbn [run exec_f fallible exec].
  set (fs1 := tl (skipn k (tl fs))).
  assert (Y : forall w0, w_prekeys w0 = w_prekeys w -> (w_sess w0 a = Some r \/ w_sess w0 a = Some r2) ->
    let w' := snd (run fin fs1 w0) in
    w_prekeys w' = w_prekeys w /\ (w_sess w' a = Some r \/ exists pt' r', (Ok (pt, r2) : res (bytes * record)) = Ok (pt', r') /\ w_sess w' a = Some r') /\
    (forall pt0, fst (run fin fs1 w0) = Ok pt0 -> exists r', (Ok (pt, r2) : res (bytes * record)) = Ok (pt0, r') /\ w_sess w' a = Some r')).
  { intros w0 P S0. unfold fin, pdo. cbn [run exec_f fallible exec]. destruct (hd_fault fs1); cbn [run fst snd].
    - cbn. rewrite addr_eqb_refl. split; [exact P|]. split; [right; exists pt, r2; auto|]. intros pt0 E. injection E as <-. exists r2. auto.
    - split; [exact P|]. split; [|discriminate]. destruct S0; [auto|]. right. exists pt, r2. auto.
    - cbn. rewrite addr_eqb_refl. split; [exact P|]. split; [right; exists pt, r2; auto|]. discriminate. }
  clearbody fin.
  destruct (w_shared w1); apply Y; auto.
  - right. cbn. rewrite addr_eqb_refl. reflexivity.
  - left. rewrite Q1. exact Er.
Qed.
(** Plaintext obtained and session stored. *)
Lemma decrypt_record_stored : forall C rnd w a m r1 pt r2 w', CryptoOk C -> wf_record r1 -> wf_prekeymsg m ->
  (forall s, state_in s r1 -> session_for w a (CPreKey m) s) ->
  decrypt_record C rnd r1 (pm_message m) = Ok (pt, r2) -> w_sess w' a = Some r2 -> accepted_and_stored C w a m w'.
Proof.
  intros C rnd w a m r1 pt r2 w' H Wr Wm Hs D E.
  destruct (decrypt_record_inv _ _ _ _ _ _ H Wr (wf_prekey_inner m Wm) D) as (s & s' & q1 & q2 & I & Ws & Ds & Ec & _).
  destruct (decrypt_session_inv _ _ _ _ _ _ _ H Ws (wf_prekey_inner m Wm) Ds) as (_ & Sm & _).
  exists s, pt, r2, s'. split; [apply Hs; apply state_in_bytes; auto|].
  split; [eapply decrypt_session_sound; eauto; apply wf_prekey_inner; exact Wm|]. split; [exact E|]. split; [exact Ec|].
  unfold same_session in Sm. intuition congruence.
Qed.
Lemma prekey_rest_consumes : forall C a rnd ex m r1 id fs w1,
  (let w' := snd (run (prekey_rest C a rnd ex m (r1, id)) fs w1) in
   w_prekeys w' = w_prekeys w1 \/ exists i pt r2, id = Some i /\ decrypt_record C rnd r1 (pm_message m) = Ok (pt, r2) /\
     w_sess w' a = Some r2 /\ w_prekeys w' = w_prekeys (del_prekey w1 i)) /\
  forall n, let w' := crash n (prekey_rest C a rnd ex m (r1, id)) fs w1 in
   w_prekeys w' = w_prekeys w1 \/ exists i pt r2, id = Some i /\ decrypt_record C rnd r1 (pm_message m) = Ok (pt, r2) /\
     w_sess w' a = Some r2 /\ w_prekeys w' = w_prekeys (del_prekey w1 i).
Proof.
  intros C a rnd ex m r1 id fs w1. unfold prekey_rest. cbn [fst snd].
  destruct (decrypt_record C rnd r1 (pm_message m)) as [[pt r2]|e|]; cbn [plift].
  2-3: cbn [run snd]; split; [left; reflexivity|]; intro n; rewrite crash_ret; left; reflexivity.
  set (G := fun w' : world => w_prekeys w' = w_prekeys w1 \/ exists i pt0 r3, id = Some i /\ (Ok (pt, r2) : res (bytes * record)) = Ok (pt0, r3) /\
     w_sess w' a = Some r3 /\ w_prekeys w' = w_prekeys (del_prekey w1 i)).
  set (fin := pdo (OStoreSession a r2) _).
  assert (F : forall fs w0, w_prekeys w0 = w_prekeys w1 -> G (snd (run fin fs w0)) /\ forall n, G (crash n fin fs w0)).
  { intros fs0 w0 E0. unfold fin, pdo. cbn [run exec_f fallible exec].
    assert (Z : G w0 /\ G (set_sess w0 a r2)) by (split; left; [exact E0|cbn; exact E0]). destruct Z as [Z1 Z2].
    assert (D : forall i, id = Some i -> G (del_prekey (set_sess w0 a r2) i)).
    { intros i Ei. right. exists i, pt, r2. split; [exact Ei|]. split; [reflexivity|]. cbn. rewrite addr_eqb_refl, E0. auto. }
    split.
    - destruct (hd_fault fs0); cbn [run snd exec]; auto. destruct id as [i|]; cbn [run exec_f fallible exec]; [|exact Z2].
      destruct (hd_fault (tl fs0)); cbn [run snd exec]; auto.
    - intros [|n]; [exact Z1|]. cbn [crash pstep exec_f fallible exec]. destruct (hd_fault fs0); cbn [snd exec]; rewrite ?crash_ret; auto.
      destruct id as [i|]; [|rewrite crash_ret; exact Z2]. destruct n as [|n]; [exact Z2|]. cbn [crash pstep exec_f fallible exec].
      destruct (hd_fault (tl fs0)); cbn [snd exec]; rewrite crash_ret; auto. }
  destruct ex; [|apply F; reflexivity]. unfold pdo at 1 3. cbn [run exec_f fallible exec].
  destruct (F (tl fs) (if w_shared w1 then set_sess w1 a r2 else w1)) as [F1 F2]; [destruct (w_shared w1); reflexivity|].
  split; [exact F1|]. intros [|n]; [left; reflexivity|]. cbn [crash pstep exec_f fallible exec]. apply F2.
Qed.
Lemma consumed : forall C a rnd m fs w, CryptoOk C -> wf_device w -> wf_prekeymsg m ->
  consumption C w a m (snd (run (decrypt_message C a rnd (CPreKey m)) fs w)) /\
  forall n, consumption C w a m (crash n (decrypt_message C a rnd (CPreKey m)) fs w).
Proof.
  intros C a rnd m fs w H [W WG] Wm. cbn [decrypt_message]. pose proof (loaded_wf w a W) as Wl.
  assert (Same : forall w', w_prekeys w' = w_prekeys w -> consumption C w a m w').
  { intros w' E id N. exfalso. apply N. rewrite E. reflexivity. }
  destruct (decrypt_prekey_runs C a rnd m fs w) as [R K]. rewrite R.
  set (p := process_prekey C a (existed (w_sess w a)) (loaded (w_sess w a)) m) in *.
  destruct (keeps_prekeys_run p (process_keeps _ _ _ _ _) (tl fs) w) as [P1 P2].
  set (f := fun r => plift r (prekey_rest C a rnd (existed (w_sess w a)) m)).
  assert (Fin : forall k, consumption C w a m (snd (run (f (fst (run p (tl fs) w))) (skipn k (tl fs)) (snd (run p (tl fs) w)))) /\
     forall n, consumption C w a m (crash n (f (fst (run p (tl fs) w))) (skipn k (tl fs)) (snd (run p (tl fs) w)))).
  { intro k. destruct (run p (tl fs) w) as [[[r1 id]|e|] w1] eqn:V; unfold f; cbn [fst snd plift] in *.
    2-3: cbn [run snd]; split; [apply Same; exact P1|]; intro n; rewrite crash_ret; apply Same; exact P1.
    unfold p in V. apply process_inv in V. destruct V as [_ V].
    destruct (prekey_rest_consumes C a rnd (existed (w_sess w a)) m r1 id (skipn k (tl fs)) w1) as [Q1 Q2].
    assert (Fi : forall w', w_prekeys w' = w_prekeys w1 \/ (exists i pt r2, id = Some i /\ decrypt_record C rnd r1 (pm_message m) = Ok (pt, r2) /\
       w_sess w' a = Some r2 /\ w_prekeys w' = w_prekeys (del_prekey w1 i)) -> consumption C w a m w').
    { intros w' [E|(i & pt & r2 & Ei & D & Es & Ep)]; [apply Same; congruence|]. intros id0 Nq. rewrite Ep in Nq. cbn [w_prekeys del_prekey] in Nq.
      destruct V as [(_ & _ & V & _)|(Hh & V & s & B & E1 & _)]; [congruence|].
      rewrite Ep. cbn [w_prekeys del_prekey]. destruct (N.eqb_spec id0 i) as [Q0|]; [|rewrite P1 in Nq; contradiction].
      split; [congruence|]. split; [reflexivity|].
      destruct (bob_session_wf C w m s H W Wm B) as (Ws & A1 & A2 & A3 & _). split.
      - apply (decrypt_record_stored C rnd w a m r1 pt r2 w' H); auto.
        + rewrite E1. apply promote_wf; auto.
        + intros s0 I0. rewrite E1 in I0. apply state_in_promote in I0; [|exact Wl]. destruct I0 as [->|I0].
          * right. exists m. auto.
          * left. apply state_in_loaded. exact I0.
      - intros r0 s0 Er I0 Eb. destruct (has_state_spec (loaded (w_sess w a)) m Wl Wm) as (b & Hb & Ib). rewrite Hh in Hb. injection Hb as <-.
        assert (X : false = true) by (apply Ib; exists s0; unfold loaded; rewrite Er; auto). discriminate. }
    split; [apply Fi, Q1|]. intro n. apply Fi, Q2. }
  split.
  - destruct (hd_fault fs); [|apply Same; reflexivity..]. unfold prekey_body. fold p. fold f.
    destruct (run_bind p f (tl fs) w) as (k & Eb). rewrite Eb. apply Fin.
  - intros [|n]; [apply Same; reflexivity|]. rewrite K. destruct (hd_fault fs); [|apply Same; reflexivity..]. unfold prekey_body. fold p. fold f.
    destruct (crash_bind p f (tl fs) w n) as [E|(k & j & E)]; rewrite E; [apply Same, P2|apply Fin].
Qed.
(** On success with a new session the named pre-key is gone. *)
Lemma consumed_on_success : forall C a rnd m fs w pt w' id, wf_device w -> wf_prekeymsg m ->
  run (decrypt_message C a rnd (CPreKey m)) fs w = (Ok pt, w') -> pm_prekey_id m = Some id ->
  (forall r s, w_sess w a = Some r -> state_in s r -> ss_alice_base s <> Byte.x05 :: pm_base m) ->
  w_prekeys w' id = None.
Proof.
  intros C a rnd m fs w pt w' id [W _] Wm E Ei N. cbn [decrypt_message] in E. apply decrypt_prekey_inv in E.
  destruct E as (r1 & r2 & i & w1 & _ & V & _ & ->).
  destruct V as [(Hh & _)|(_ & -> & _)].
  - exfalso. pose proof (loaded_wf w a W) as Wl. destruct (has_state_spec _ m Wl Wm) as (b & Hb & Ib). rewrite Hh in Hb. injection Hb as <-.
    destruct (proj1 Ib eq_refl) as (s & I0 & Eb). destruct (state_in_loaded _ _ _ I0) as (r & Er & I1). exact (N r s Er I1 Eb).
  - rewrite Ei. cbn. rewrite N.eqb_refl. reflexivity.
Qed.
(** No other call deletes a pre-key. *)
Lemma signal_keeps : forall C a rnd m fs w,
  w_prekeys (snd (run (decrypt_message C a rnd (CSignal m)) fs w)) = w_prekeys w.
Proof.
  intros C a rnd m fs w. apply keeps_prekeys_run. cbn [decrypt_message]. unfold decrypt_signal. apply pall_do; [exact I|]. intros lr _.
  destruct lr as [r|]; [|exact I].
  assert (Z : forall pt r', pall keeps_prekeys any_ans (signal_rest a pt r')).
  { intros pt r'. unfold signal_rest. destruct (rc_current r') as [s|]; [|exact I]. destruct (st_remote_identity s) as [[rid|]|e|]; try exact I.
    apply pall_do; [exact I|]. intros t _. destruct (negb t); [exact I|]. apply pall_do; [exact I|]. intros _ _. apply pall_do; [exact I|]. intros; exact I. }
  destruct (decrypt_record C rnd r m) as [[pt r']|e|]; [apply pall_do; [exact I|]; intros _ _; apply Z|apply Z|exact I].
Qed.
