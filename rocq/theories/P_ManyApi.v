(** The API calls on a record with several sessions (C85). *)
From Verif Require Import M_Base M_Crypto M_Aes M_Curve M_Proto M_Message M_Ratchet M_State M_Store M_Session M_Group
  S_Crypto S_Message S_State S_Shape S_Ratchet S_Session S_Aes S_Api S_Send S_Group S_Curve S_X3dh S_Receive S_Conv S_History S_Many
  P_Base P_Proto P_Curve P_State P_Shape P_Ratchet P_Message P_Aes P_Chain P_Decrypt P_Receive P_Encrypt P_Record P_Prog P_Api
  P_Init P_Send P_Conv P_X3dh P_Conv2 P_Bundle P_DecApi P_DecTop P_DecMore P_Replay P_Trust P_History P_Archive P_ManyRec.
From Coq Require Import ZifyBool ZifyNat ZifyN Permutation.
Local Open Scope nat_scope.

Section Api.
Variable C : Crypto.
Hypothesis H : CryptoOk C.

Definition same_prekeys (w w' : world) : Prop := w_signed w' = w_signed w /\ w_prekeys w' = w_prekeys w.
(** The message belongs to a session of the record: a whisper message, or a pre-key message
    whose base key some session of the record has. *)
Definition framed_for (r : record) (m : signal) (c : ciphertext) : Prop :=
  c = CSignal m \/ exists pm s, c = CPreKey pm /\ pm_message pm = m /\ state_in s r /\ ss_alice_base s = Byte.x05 :: pm_base pm.
Lemma record_result : forall a rnd c fs w r m pt r' pt' w', wf_device w -> wf_ciphertext c -> w_sess w a = Some r -> framed_for r m c ->
  decrypt_record C rnd r m = Ok (pt, r') -> run (decrypt_message C a rnd c) fs w = (Ok pt', w') ->
  pt' = pt /\ w_sess w' a = Some r' /\ same_prekeys w w'.
Proof using Type.
  intros a rnd c fs w r m pt r' pt' w' Wd Wc Er [->|(pm & s & -> & Em & J & Eb)] D E.
  - cbn [decrypt_message] in E. destruct (decrypt_signal_runs C a rnd m fs w) as [R _]. rewrite R in E.
    destruct (hd_fault fs); [|discriminate..]. rewrite Er in E. unfold signal_body in E. rewrite D in E.
    unfold pdo in E. cbn [run] in E. unfold exec_f in E. cbn [fallible exec] in E.
    assert (X : run (signal_rest a pt r') (tl (tl fs)) (if w_shared w then set_sess w a r' else w) = (Ok pt', w')).
    { destruct (w_shared w); exact E. }
    apply signal_rest_inv in X. destruct X as (-> & s1 & rid & _ & _ & _ & ->). split; [reflexivity|].
    split; [cbn; rewrite addr_eqb_refl; reflexivity|]. unfold same_prekeys. destruct (w_shared w); split; reflexivity.
  - assert (Wr : wf_record r) by (eapply (proj1 (proj1 Wd)); exact Er).
    destruct (has_state_spec r pm Wr Wc) as (h & Hh & Hs). assert (h = true) as -> by (apply Hs; exists s; split; [exact J|exact Eb]).
    cbn [decrypt_message] in E. apply decrypt_prekey_inv in E. destruct E as (r1 & r2 & id & w1 & _ & V & Dr & ->).
    rewrite Er in V. cbn [loaded] in V. destruct V as [(_ & -> & -> & ->)|(X & _)]; [|rewrite Hh in X; discriminate].
    rewrite Em, D in Dr. injection Dr as -> <-. split; [reflexivity|]. split; [apply prekey_done_sess|].
    unfold same_prekeys, prekey_done, touched. rewrite Er. cbn. destruct (w_shared w); split; reflexivity.
Qed.
Lemma record_completes : forall a rnd c w r m pt r' s' rid, wf_device w -> wf_ciphertext c -> w_sess w a = Some r -> framed_for r m c ->
  decrypt_record C rnd r m = Ok (pt, r') -> rc_current r' = Some s' -> ss_remote s' = Byte.x05 :: rid -> List.length rid = 32 ->
  (forall pm, c = CPreKey pm -> pm_identity pm = rid) -> w_policy w a (w_ident w a) rid Receiving = true ->
  exists w', run0 (decrypt_message C a rnd c) w = (Ok pt, w').
Proof using Type.
  intros a rnd c w r m pt r' s' rid Wd Wc Er [->|(pm & s & -> & Em & J & Eb)] D Ec Es L Ei T.
  - eexists. cbn [decrypt_message]. unfold run0. destruct (decrypt_signal_runs C a rnd m [] w) as [Rn _]. rewrite Rn. cbn [hd_fault tl]. rewrite Er.
    unfold signal_body. rewrite D. unfold pdo at 1. cbn [run exec_f fallible exec tl].
    match goal with |- run ?p [] ?w = _ => change (run p [] w) with (run0 p w) end.
    rewrite (signal_rest_completes a pt r' _ s' rid Ec Es L); [reflexivity|]. destruct (w_shared w); exact T.
  - assert (Wr : wf_record r) by (eapply (proj1 (proj1 Wd)); exact Er).
    destruct (has_state_spec r pm Wr Wc) as (h & Hh & Hs). assert (h = true) as -> by (apply Hs; exists s; split; [exact J|exact Eb]).
    eexists. cbn [decrypt_message]. apply (decrypt_prekey_completes C a rnd pm w pt r r' None (set_ident w a (pm_identity pm))); rewrite ?Er; cbn [existed loaded].
    + apply process_has; auto. rewrite (Ei pm eq_refl). exact T.
    + rewrite Em. exact D.
Qed.
Lemma first_result : forall a rnd pm fs w s pt s' rest pt' w', wf_device w -> wf_prekeymsg pm ->
  unused_base w a (pm_base pm) -> bob_session C w pm s -> decrypt_session C rnd s (pm_message pm) = (Ok (pt, s'), rest) ->
  run (decrypt_message C a rnd (CPreKey pm)) fs w = (Ok pt', w') ->
  pt' = pt /\ w_sess w' a = Some (rc_set_state (rc_promote (loaded (w_sess w a)) s) s') /\ w_signed w' = w_signed w /\
  forall id, pm_prekey_id pm <> Some id -> w_prekeys w' id = w_prekeys w id.
Proof using Type.
  intros a rnd pm fs w s pt s' rest pt' w' Wd Wm U B D E. pose proof (no_state w a pm Wd Wm U) as Hh.
  cbn [decrypt_message] in E. apply decrypt_prekey_inv in E. destruct E as (r1 & r2 & id & w1 & _ & V & Dr & ->).
  destruct V as [(X & _)|(_ & -> & s2 & B2 & -> & ->)]; [rewrite Hh in X; discriminate|].
  rewrite (bob_session_fun C _ _ _ _ B2 B) in Dr |- *.
  rewrite (record_current C _ (rc_promote (loaded (w_sess w a)) s) _ s _ _ _ eq_refl D) in Dr. injection Dr as -> <-.
  split; [reflexivity|]. split; [apply prekey_done_sess|]. split.
  - unfold prekey_done, touched. destruct (pm_prekey_id pm), (existed (w_sess w a)), (w_shared w) eqn:Sh; cbn; rewrite ?Sh; reflexivity.
  - intros id N. unfold prekey_done, touched. destruct (pm_prekey_id pm) as [i|], (existed (w_sess w a)), (w_shared w) eqn:Sh; cbn; rewrite ?Sh; cbn; try reflexivity.
    all: destruct (N.eqb_spec id i); [congruence|reflexivity].
Qed.
End Api.
