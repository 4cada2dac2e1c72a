(** Trust checks (C29) and how their failure is reported (C40). *)
From Verif Require Import M_Base M_Crypto M_Aes M_Curve M_Proto M_Message M_Ratchet M_State M_Store M_Session M_Group
  S_Crypto S_Message S_State S_Shape S_Ratchet S_Session S_Aes S_Api S_Send S_Group S_Conv S_Receive
  P_Base P_Proto P_Curve P_State P_Shape P_Ratchet P_Message P_Aes P_Chain P_Decrypt P_Receive P_Encrypt P_Record P_Prog
  P_Init P_Send P_SendTop P_Conv P_Bundle P_DecApi P_DecTop P_DecMore P_Replay P_Archive.
From Coq Require Import ZifyBool ZifyNat ZifyN.
Local Open Scope nat_scope.

Lemma inmem_trust : forall a known k d, inmem_policy a known k d = true <-> known = None \/ known = Some k.
Proof.
  intros a [x|] k d; cbn [inmem_policy].
  - rewrite bytes_eqb_eq. split; [intros ->; auto|intros [X|X]; congruence].
  - split; auto.
Qed.

Lemma encrypt_trusted : forall C a pt fs w c w', CryptoOk C -> wf_device w ->
  run (encrypt_message C a pt) fs w = (Ok c, w') ->
  exists r s remote, w_sess w a = Some r /\ rc_current r = Some s /\ ss_remote s = Byte.x05 :: remote /\
    w_policy w a (w_ident w a) remote Sending = true.
Proof.
  intros C a pt fs w c w' H [W _] E.
  destruct (w_sess w a) as [r|] eqn:Er.
  2:{ unfold encrypt_message, pdo in E. cbn [run] in E. destruct (hd_fault fs); cbn in E; rewrite ?Er in E; discriminate. }
  destruct (rc_current r) as [s|] eqn:Ec.
  2:{ unfold encrypt_message, pdo in E. cbn [run] in E. destruct (hd_fault fs); cbn in E; rewrite ?Er in E; cbn in E; rewrite ?Ec in E; discriminate. }
  assert (Ws : wf_state s) by (exact (proj1 (proj1 W a r Er) s Ec)).
  destruct (encrypt_state_exact C s pt H Ws) as (sc & k & rt & local & remote & m & out & _ & _ & _ & _ & _ & A6 & _ & _ & _ & _ & A11).
  destruct (encrypt_success _ _ _ _ _ _ _ _ _ _ _ _ Er Ec A11 E) as (_ & P & _). exists r, s, remote. auto.
Qed.
Lemma bundle_trust : forall C a rnd b fs w, let p := process_bundle C a rnd b in
  (forall ti, bd_identity b = Some ti -> w_policy w a (w_ident w a) ti Sending = false) ->
  snd (run p fs w) = w /\ (forall n, crash n p fs w = w) /\ fst (run p fs w) <> Ok tt.
Proof.
  intros C a rnd b fs w p N. apply bundle_refused. intros (ti & ts & E & _ & P & _). rewrite (N ti E) in P. discriminate.
Qed.
Lemma prekey_untrusted : forall C a ex r m fs w, w_policy w a (w_ident w a) (pm_identity m) Receiving = false ->
  (exists e, fst (run (process_prekey C a ex r m) fs w) = Err e) /\
  snd (run (process_prekey C a ex r m) fs w) = w /\ forall n, crash n (process_prekey C a ex r m) fs w = w.
Proof.
  intros C a ex r m fs w N. unfold process_prekey, pdo. cbn [run]. destruct (hd_fault fs) eqn:Q; cbn; rewrite ?N; cbn.
  all: split; [eexists; reflexivity|]; split; [reflexivity|]; intros [|n]; [reflexivity|]; cbn; rewrite ?Q; cbn; rewrite ?N; cbn; apply crash_ret.
Qed.
Lemma decrypt_prekey_untrusted : forall C a rnd m fs w, w_policy w a (w_ident w a) (pm_identity m) Receiving = false ->
  (exists e, fst (run (decrypt_message C a rnd (CPreKey m)) fs w) = Err e) /\
  snd (run (decrypt_message C a rnd (CPreKey m)) fs w) = w /\ forall n, crash n (decrypt_message C a rnd (CPreKey m)) fs w = w.
Proof.
  intros C a rnd m fs w N. cbn [decrypt_message]. destruct (decrypt_prekey_runs C a rnd m fs w) as [R K]. rewrite R.
  destruct (hd_fault fs).
  2,3: split; [eexists; reflexivity|]; split; [reflexivity|]; intros [|n]; [reflexivity|rewrite K; reflexivity].
  unfold prekey_body in *.
  destruct (prekey_untrusted C a (existed (w_sess w a)) (loaded (w_sess w a)) m (tl fs) w N) as ((e & Ee) & Ew & Ek).
  destruct (run_bind (process_prekey C a (existed (w_sess w a)) (loaded (w_sess w a)) m)
    (fun r => plift r (prekey_rest C a rnd (existed (w_sess w a)) m)) (tl fs) w) as (k & Eb).
  rewrite Eb, Ee, Ew. cbn [plift run fst snd]. split; [eexists; reflexivity|]. split; [reflexivity|].
  intros [|n]; [reflexivity|]. rewrite K.
  destruct (crash_bind (process_prekey C a (existed (w_sess w a)) (loaded (w_sess w a)) m)
    (fun r => plift r (prekey_rest C a rnd (existed (w_sess w a)) m)) (tl fs) w n) as [X|(k' & j & X)].
  - rewrite X. apply Ek.
  - rewrite X, Ee, Ew. cbn [plift]. apply crash_ret.
Qed.
Lemma signal_trusted : forall C a rnd m fs w pt w', CryptoOk C -> wf_device w -> wf_signal m ->
  run (decrypt_message C a rnd (CSignal m)) fs w = (Ok pt, w') ->
  exists r s remote, w_sess w a = Some r /\ state_in s r /\ ss_remote s = Byte.x05 :: remote /\
    w_policy w a (w_ident w a) remote Receiving = true /\
    (opens C s m pt \/ (pt = [] /\ rc_current r = Some s /\ exists e, decrypt_record C rnd r m = Err e)).
Proof.
  intros C a rnd m fs w pt w' H [W _] Wm E. cbn [decrypt_message] in E. destruct (decrypt_signal_runs C a rnd m fs w) as [R _]. rewrite R in E.
  destruct (hd_fault fs); [|discriminate..]. unfold signal_body in E. destruct (w_sess w a) as [r|] eqn:Er; [|discriminate].
  assert (Wr : wf_record r) by (eapply (proj1 W); exact Er).
  destruct (decrypt_record C rnd r m) as [[pt0 r1]|e|] eqn:D; [| |discriminate].
  - destruct (decrypt_record_inv _ _ _ _ _ _ H Wr Wm D) as (s & s' & q1 & q2 & I & Ws & Ds & Ec & _).
    destruct (decrypt_session_inv _ _ _ _ _ _ _ H Ws Wm Ds) as (Ws' & (_ & _ & Q2 & _) & _).
    unfold pdo in E. cbn [run] in E. destruct (hd_fault (tl fs)); cbn [exec_f fallible] in E.
    all: match type of E with run (match ?x with _ => _ end) _ _ = _ => idtac | _ => idtac end.
    all: unfold exec_f in E; cbn [fallible exec] in E.
    all: apply signal_rest_inv in E; destruct E as (-> & s1 & rid & E1 & E2 & P & _).
    all: rewrite Ec in E1; injection E1 as <-; destruct (wf_remote s' Ws') as (k & L & X & Y); rewrite E2 in Y; injection Y as <-.
    all: exists r, s, rid; split; [reflexivity|]; split; [exact (state_in_bytes r s Ws I)|]; split; [rewrite <- Q2; exact X|].
    all: split; [destruct (w_shared w); exact P|left; exact (decrypt_session_sound _ _ _ _ _ _ _ H Ws Wm Ds)].
  - apply signal_rest_inv in E. destruct E as (-> & s1 & rid & E1 & E2 & P & _).
    destruct (wf_remote s1 (proj1 Wr s1 E1)) as (k & L & X & Y). rewrite E2 in Y. injection Y as <-.
    exists r, s1, rid. split; [reflexivity|]. split; [left; exact E1|]. split; [exact X|]. split; [exact P|]. right.
    split; [reflexivity|]. split; [exact E1|]. exists e. exact D.
Qed.

(** *** The identity that is checked for a pre-key message is the one in its frame *)
Lemma prekey_known : forall C a rnd pm w r s pt s' rest, CryptoOk C -> wf_device w -> wf_prekeymsg pm ->
  w_sess w a = Some r -> rc_current r = Some s -> ss_alice_base s = Byte.x05 :: pm_base pm ->
  w_policy w a (w_ident w a) (pm_identity pm) Receiving = true ->
  decrypt_session C rnd s (pm_message pm) = (Ok (pt, s'), rest) ->
  run0 (decrypt_message C a rnd (CPreKey pm)) w =
    (Ok pt, prekey_done (set_ident w a (pm_identity pm)) a true (rc_set_state r s') None).
Proof.
  intros C a rnd pm w r s pt s' rest H [W _] Wm Er Ec Eb P D. assert (Wr : wf_record r) by (eapply (proj1 W); exact Er).
  destruct (has_state_spec r pm Wr Wm) as (b & Hb & Hs). assert (b = true) as -> by (apply Hs; exists s; split; [left; exact Ec|exact Eb]).
  cbn [decrypt_message].
  rewrite (decrypt_prekey_completes C a rnd pm w pt r (rc_set_state r s') None (set_ident w a (pm_identity pm))); rewrite ?Er.
  - reflexivity.
  - cbn [existed loaded]. apply process_has; auto.
  - unfold decrypt_record. rewrite Ec, D. reflexivity.
Qed.
Lemma frame_identity : forall C a rnd pm w r s key i ks local remote n pt, CryptoOk C -> wf_device w -> wf_prekeymsg pm ->
  w_sess w a = Some r -> rc_current r = Some s -> ss_local s = Byte.x05 :: local -> ss_remote s = Byte.x05 :: remote ->
  ss_alice_base s = Byte.x05 :: pm_base pm ->
  w_policy w a (w_ident w a) (pm_identity pm) Receiving = true ->
  receiving_at s (sg_ratchet (pm_message pm)) key i ks -> go_u32 n -> (i <= n <= i + 25000)%N ->
  whisper C (chain_at C key (N.to_nat (n - i))) n (sg_ratchet (pm_message pm)) remote local pt (pm_message pm) ->
  exists w', run0 (decrypt_message C a rnd (CPreKey pm)) w = (Ok pt, w').
Proof.
  intros C a rnd pm w r s key i ks local remote n pt H Wd Wm Er Ec El Es Eb P R G J Wh.
  assert (Ws : wf_state s) by exact (proj1 (proj1 (proj1 Wd) a r Er) s Ec).
  destruct (receiving_ratchet_len _ _ _ _ _ Ws R) as (Lr & _). destruct (receiving_chain _ _ _ _ _ R) as (c & F & Ek & _).
  pose proof (decrypt_ahead C rnd s c _ n _ remote local pt _ H Ws Lr G Es El F Ek (proj1 J) (or_introl (proj2 J)) Wh) as D.
  eexists. exact (prekey_known C a rnd pm w r s pt _ _ H Wd Wm Er Ec Eb P D).
Qed.

(** *** C40 *)
Lemma untrusted_encrypt : forall C a pt w r s remote, CryptoOk C -> wf_device w ->
  w_sess w a = Some r -> rc_current r = Some s -> ss_remote s = Byte.x05 :: remote ->
  w_policy w a (w_ident w a) remote Sending = false ->
  exists e, fst (run0 (encrypt_message C a pt) w) = Err e /\ is_err_untrusted e = true.
Proof.
  intros C a pt w r s remote H Wd Er Ec Es P. pose proof (proj1 (proj1 (proj1 Wd) a r Er) s Ec) as Ws.
  destruct (encrypt_state_exact C s pt H Ws) as (sc & k & rt & local & rm & m & out & A1 & A2 & A3 & _).
  exists (EUntrusted a). split; [|reflexivity].
  apply (failed_untrusted C a pt w s rt (pck_key k) (pck_index k) remote H Wd); auto. exists r. split; [exact Er|]. split; [exact Ec|].
  exists sc, k. auto.
Qed.
Lemma untrusted_prekey : forall C a rnd m w, w_policy w a (w_ident w a) (pm_identity m) Receiving = false ->
  exists e, fst (run0 (decrypt_message C a rnd (CPreKey m)) w) = Err e /\ is_err_untrusted e = true.
Proof.
  intros C a rnd m w P. exists (EUntrusted a). split; [|reflexivity]. cbn [decrypt_message]. unfold run0.
  destruct (decrypt_prekey_runs C a rnd m [] w) as [R _]. rewrite R. cbn [hd_fault tl]. unfold prekey_body.
  destruct (run_bind (process_prekey C a (existed (w_sess w a)) (loaded (w_sess w a)) m)
    (fun r => plift r (prekey_rest C a rnd (existed (w_sess w a)) m)) [] w) as (k & Eb). rewrite Eb.
  assert (E : fst (run (process_prekey C a (existed (w_sess w a)) (loaded (w_sess w a)) m) [] w) = Err (EUntrusted a)).
  { unfold process_prekey, pdo. cbn. rewrite P. reflexivity. }
  rewrite E. reflexivity.
Qed.
(** The session whose identity a whisper message is checked against: the one that is
    current after the attempt. *)
Lemma untrusted_signal : forall C a rnd m w r s remote, CryptoOk C -> wf_device w -> wf_signal m ->
  w_sess w a = Some r ->
  (exists pt r', decrypt_record C rnd r m = Ok (pt, r') /\ rc_current r' = Some s) \/
  (exists e, decrypt_record C rnd r m = Err e) /\ rc_current r = Some s ->
  ss_remote s = Byte.x05 :: remote -> w_policy w a (w_ident w a) remote Receiving = false ->
  exists e, fst (run0 (decrypt_message C a rnd (CSignal m)) w) = Err e /\ is_err_untrusted e = true.
Proof.
  intros C a rnd m w r s remote H [W _] Wm Er Cs Es P. assert (Wr : wf_record r) by (eapply (proj1 W); exact Er).
  exists (EUntrusted a). split; [|reflexivity]. cbn [decrypt_message]. unfold run0.
  destruct (decrypt_signal_runs C a rnd m [] w) as [R _]. rewrite R. cbn [hd_fault tl]. rewrite Er. unfold signal_body.
  assert (K : forall pt r1 w1, wf_state s -> rc_current r1 = Some s -> w_policy w1 = w_policy w -> w_ident w1 = w_ident w ->
     fst (run (signal_rest a pt r1) [] w1) = Err (EUntrusted a)).
  { intros pt r1 w1 Ws E1 E2 E3. unfold signal_rest. rewrite E1. destruct (wf_remote s Ws) as (k & L & X & Y). rewrite Y.
    rewrite Es in X. injection X as ->. unfold pdo. cbn. rewrite E2, E3, P. reflexivity. }
  destruct Cs as [(pt & r' & D & Ec)|((e & D) & Ec)]; rewrite D.
  - destruct (decrypt_record_inv _ _ _ _ _ _ H Wr Wm D) as (_ & s' & _ & _ & _ & _ & _ & Ec' & Wr').
    unfold pdo. cbn [run hd_fault exec_f fallible exec tl].
    apply K; [exact (proj1 Wr' s Ec)|exact Ec|destruct (w_shared w); reflexivity|destruct (w_shared w); reflexivity].
  - apply K; auto. exact (proj1 Wr s Ec).
Qed.
Lemma untrusted_bundle : forall C a rnd b w ti, bd_identity b = Some ti -> w_policy w a (w_ident w a) ti Sending = false ->
  exists e, fst (run0 (process_bundle C a rnd b) w) = Err e /\ is_err_untrusted e = false.
Proof.
  intros C a rnd b w ti E P. exists (EOther "untrusted identity"). split; [|reflexivity]. unfold process_bundle. rewrite E. unfold pdo. cbn. rewrite P. reflexivity.
Qed.
