(** Properties of receiving, trust and pre-keys: C24-C26, C28-C35, C40. *)
From Coq Require Import String.
From Verif Require Import M_Base M_Crypto M_Aes M_Curve M_Uuid M_Message M_Ratchet M_State M_Store M_Session M_Group
  S_Crypto S_Message S_State S_Shape S_Ratchet S_Session S_Api S_Send S_Group S_X3dh S_Receive S_Conv S_History S_Bundle
  P_Decrypt P_Encrypt P_DecTop P_DecMore P_Replay P_Archive P_Trust P_Refuse P_RecvTop K_Toy K_World K_SendCases K_Receive K_Conv K_RecvCases.
Local Open Scope nat_scope.

(** * C24  A ciphertext is accepted at most once: false *)
(** Every message that is delivered in order or ahead is accepted a second time at once. *)
Theorem c24_replay_refuted : forall C a rnd1 rnd2 m w s ratchet key i ks local remote n pt, CryptoOk C -> wf_device w ->
  session_at w a s local remote -> receiving_at s ratchet key i ks -> trusts w a remote ->
  go_u32 n -> (i <= n <= i + 25000)%N ->
  whisper C (chain_at C key (N.to_nat (n - i))) n ratchet remote local pt m ->
  exists w1 w2, run0 (decrypt_message C a rnd1 (CSignal m)) w = (Ok pt, w1) /\
    run0 (decrypt_message C a rnd2 (CSignal m)) w1 = (Ok pt, w2).
Proof. exact replayed. Qed.
Print Assumptions c24_replay_refuted.
Example c24_replay_case : exists m w1 w2, run0 (decrypt_message toy ex_addr [] (CSignal m)) (rx_one true) = (Ok (str "pay"), w1) /\
  run0 (decrypt_message toy ex_addr [] (CSignal m)) w1 = (Ok (str "pay"), w2).
Proof. exact replay_case. Qed.
(** And once more after a later one; only then never again. *)
Theorem c24_replay_later_refuted : forall C a rnds m1 m2 w s ratchet key i ks local remote n1 n2 pt1 pt2, CryptoOk C -> wf_device w ->
  session_at w a s local remote -> receiving_at s ratchet key i ks -> trusts w a remote ->
  go_u32 n2 -> (i <= n1)%N -> (n1 < n2)%N -> (n2 <= n1 + 2000)%N -> (n2 <= i + 25000)%N ->
  whisper C (chain_at C key (N.to_nat (n1 - i))) n1 ratchet remote local pt1 m1 ->
  whisper C (chain_at C key (N.to_nat (n2 - i))) n2 ratchet remote local pt2 m2 ->
  exists w1 w2 w3 w4,
    run0 (decrypt_message C a (rnds 1) (CSignal m1)) w = (Ok pt1, w1) /\
    run0 (decrypt_message C a (rnds 2) (CSignal m2)) w1 = (Ok pt2, w2) /\
    run0 (decrypt_message C a (rnds 3) (CSignal m1)) w2 = (Ok pt1, w3) /\
    run0 (decrypt_message C a (rnds 4) (CSignal m1)) w3 = (Ok [], w4) /\ w_sess w4 a = w_sess w3 a.
Proof. exact replayed_later. Qed.
Print Assumptions c24_replay_later_refuted.
Example c24_replay_later_case : exists m1 m2 w1 w2 w3 w4,
  run0 (decrypt_message toy ex_addr [] (CSignal m1)) (rx_one true) = (Ok (str "one"), w1) /\
  run0 (decrypt_message toy ex_addr [] (CSignal m2)) w1 = (Ok (str "two"), w2) /\
  run0 (decrypt_message toy ex_addr [] (CSignal m1)) w2 = (Ok (str "one"), w3) /\
  run0 (decrypt_message toy ex_addr [] (CSignal m1)) w3 = (Ok [], w4) /\ w_sess w4 ex_addr = w_sess w3 ex_addr.
Proof. exact replay_later_case. Qed.
(** What does hold: a message read with a saved key is spent, and a spent position is
    rejected as a duplicate by the session for as long as it keeps the chain. Missing: the
    position the chain stands at, which the code leaves readable. *)
Theorem c24_saved_spends_partial : forall C rnd s m pt s' rest key i ks, CryptoOk C -> wf_state s -> wf_signal m ->
  receiving_at s (sg_ratchet m) key i ks -> (sg_counter m < i)%N ->
  decrypt_session C rnd s m = (Ok (pt, s'), rest) -> spent s' (sg_ratchet m) (sg_counter m).
Proof. exact saved_spends. Qed.
Print Assumptions c24_saved_spends_partial.
Theorem c24_spent_rejected_partial : forall C rnd s s' m, CryptoOk C -> wf_state s -> NoDup (map pc_ratchet (ss_receivers s)) -> wf_signal m ->
  spent s (sg_ratchet m) (sg_counter m) -> evolves C (sg_ratchet m) s s' -> decrypt_session C rnd s' m = (Err EDuplicate, rnd).
Proof. exact spent_rejected. Qed.
Print Assumptions c24_spent_rejected_partial.
Example c24_spent_case : spent (rx_state 2 []) (b32 Byte.x06) 1 /\ NoDup (map pc_ratchet (ss_receivers (rx_state 2 []))).
Proof. exact spent_case. Qed.

(** * C25  Undecryptable messages are reported as errors: false *)
(** A whisper message that no session opens is answered with no error and no bytes. *)
Theorem c25_errors_refuted : forall C a rnd m w r s remote, CryptoOk C -> wf_device w -> wf_signal m ->
  w_sess w a = Some r -> rc_current r = Some s -> ss_remote s = Byte.x05 :: remote ->
  w_policy w a (w_ident w a) remote Receiving = true ->
  (forall s' pt, state_in s' r -> ~ opens C s' m pt) ->
  exists w', run0 (decrypt_message C a rnd (CSignal m)) w = (Ok [], w').
Proof. exact garbage_accepted. Qed.
Print Assumptions c25_errors_refuted.
Example c25_case : exists w', run0 (decrypt_message toy ex_addr [] (CSignal junk)) (rx_one true) = (Ok [], w').
Proof. exact junk_case. Qed.
(** Exactly: an answer without error is the authenticated decryption, or that empty one. *)
Theorem c25_answers_exact : forall C a rnd c fs w pt w', CryptoOk C -> wf_device w -> wf_ciphertext c ->
  run (decrypt_message C a rnd c) fs w = (Ok pt, w') ->
  (exists m s, inner c = Some m /\ session_for w a c s /\ opens C s m pt) \/
  (exists m r e, c = CSignal m /\ w_sess w a = Some r /\ decrypt_record C rnd r m = Err e /\ pt = []).
Proof. exact answer_exact. Qed.
Print Assumptions c25_answers_exact.
Theorem c25_prekey_answers_partial : forall C a rnd pm fs w pt w', CryptoOk C -> wf_device w -> wf_prekeymsg pm ->
  run (decrypt_message C a rnd (CPreKey pm)) fs w = (Ok pt, w') ->
  exists s, session_for w a (CPreKey pm) s /\ opens C s (pm_message pm) pt.
Proof. exact prekey_answer. Qed.
Print Assumptions c25_prekey_answers_partial.
Example c25_prekey_case : exists pm w', pm_prekey_id pm = Some 7%N /\ wf_prekeymsg pm /\
  run0 (decrypt_message toy (conv_at false) (b32 Byte.x43) (CPreKey pm)) (bob_world 7 true) = (Ok (str "hello"), w').
Proof. exact first_message. Qed.

(** * C26  A rejected message does not disturb the session *)
(** Whisper messages: every store kind, fault list and crash point. *)
Theorem c26_rejected_whisper : forall C a rnd m fs w r, CryptoOk C -> wf_device w -> wf_signal m ->
  w_sess w a = Some r -> (forall s pt, state_in s r -> ~ opens C s m pt) ->
  (forall b, w_sess (snd (run (decrypt_message C a rnd (CSignal m)) fs w)) b = w_sess w b) /\
  forall n b, w_sess (crash n (decrypt_message C a rnd (CSignal m)) fs w) b = w_sess w b.
Proof. exact rejected_signal. Qed.
Print Assumptions c26_rejected_whisper.
Example c26_case : wf_signal junk /\ forall s pt, ~ opens toy s junk pt.
Proof. exact (conj junk_wf (junk_opens toy)). Qed.
(** Copying store: an error leaves the sessions alone, unless the store itself failed to
    delete the one-time pre-key of a message that was opened. *)
Theorem c26_error_leaves_session_partial : forall C a rnd c fs w, CryptoOk C -> wf_device w -> wf_ciphertext c -> w_shared w = false -> ~ In FAfter fs ->
  (forall pt, fst (run (decrypt_message C a rnd c) fs w) <> Ok pt) ->
  w_sess (snd (run (decrypt_message C a rnd c) fs w)) = w_sess w \/
  exists m s pt, c = CPreKey m /\ session_for w a c s /\ opens C s (pm_message m) pt /\ pm_prekey_id m <> None /\
    fst (run (decrypt_message C a rnd c) fs w) = Err EStore /\ In FBefore fs.
Proof. exact error_leaves_session. Qed.
Print Assumptions c26_error_leaves_session_partial.
(** Sharing store (the in-memory one): a stranger's pre-key message that nobody can open
    replaces the current session. *)
Theorem c26_shared_refuted : forall C a rnd m w r, CryptoOk C -> wf_device w -> wf_prekeymsg m -> w_shared w = true ->
  w_sess w a = Some r -> w_policy w a (w_ident w a) (pm_identity m) Receiving = true ->
  (forall s, state_in s r -> ss_alice_base s <> Byte.x05 :: pm_base m) -> can_answer C w m ->
  List.length (sg_body (pm_message m)) mod 16 <> 0 ->
  exists e w' r' s, run0 (decrypt_message C a rnd (CPreKey m)) w = (Err e, w') /\ w_sess w' a = Some r' /\
    rc_current r' = Some s /\ ss_alice_base s = Byte.x05 :: pm_base m /\ ss_remote s = Byte.x05 :: pm_identity m.
Proof. exact shared_disturbed. Qed.
Print Assumptions c26_shared_refuted.
Example c26_shared_case : exists e w' r' s, run0 (decrypt_message toy ex_addr [] (CPreKey (junk_prekey toy))) bob_shared = (Err e, w') /\
  w_sess w' ex_addr = Some r' /\ rc_current r' = Some s /\ s <> bob_current /\ ss_alice_base s = Byte.x05 :: mont_pub toy rx_base.
Proof. exact disturbed_case. Qed.

(** * C28  Far-future messages are refused cheaply *)
(** Whatever the primitives compute, and without using randomness. *)
Theorem c28_far_refused : forall C rnd s m key i ks, wf_state s -> wf_signal m ->
  receiving_at s (sg_ratchet m) key i ks -> (i + 25000 < sg_counter m)%N -> ss_remote s <> ss_local s ->
  decrypt_session C rnd s m = (Err (EOther "message from too far in the future"), rnd).
Proof. exact far_refused. Qed.
Print Assumptions c28_far_refused.
Theorem c28_far_new_chain_refused : forall C rnd s m, CryptoOk C -> wf_state s -> wf_signal m ->
  ~ In (Byte.x05 :: sg_ratchet m) (map pc_ratchet (ss_receivers s)) -> (25000 < sg_counter m)%N -> ss_remote s <> ss_local s ->
  exists e, fst (decrypt_session C rnd s m) = Err e.
Proof. exact far_new_refused. Qed.
Print Assumptions c28_far_new_chain_refused.
Theorem c28_limit_accepted : forall C a rnd m w s ratchet key i ks local remote n pt, CryptoOk C -> wf_device w ->
  session_at w a s local remote -> receiving_at s ratchet key i ks -> trusts w a remote ->
  go_u32 n -> (i <= n <= i + 25000)%N ->
  whisper C (chain_at C key (N.to_nat (n - i))) n ratchet remote local pt m ->
  exists w1, run0 (decrypt_message C a rnd (CSignal m)) w = (Ok pt, w1).
Proof. exact limit_accepted. Qed.
Print Assumptions c28_limit_accepted.
Theorem c28_self_unlimited : forall C rnd s m key i ks n local pt, CryptoOk C -> wf_state s ->
  receiving_at s (sg_ratchet m) key i ks -> ss_local s = Byte.x05 :: local -> ss_remote s = Byte.x05 :: local ->
  go_u32 n -> (i <= n)%N -> whisper C (chain_at C key (N.to_nat (n - i))) n (sg_ratchet m) local local pt m ->
  exists s', decrypt_session C rnd s m = (Ok (pt, s'), rnd).
Proof. exact self_unlimited. Qed.
Print Assumptions c28_self_unlimited.
Example c28_case : exists m, whisper toy (chain_at toy (b32 Byte.x07) (N.to_nat (25002 - 2))) 25002 (b32 Byte.x06) (b32 Byte.x02) (b32 Byte.x01) (str "far") m /\
  receiving_at (rx_state 2 []) (b32 Byte.x06) (b32 Byte.x07) 2 [] /\ ss_remote (rx_state 2 []) <> ss_local (rx_state 2 []).
Proof. exact far_case. Qed.

(** * C29  No traffic with untrusted identities *)
Theorem c29_encrypt : forall C a pt fs w c w', CryptoOk C -> wf_device w ->
  run (encrypt_message C a pt) fs w = (Ok c, w') ->
  exists r s remote, w_sess w a = Some r /\ rc_current r = Some s /\ ss_remote s = Byte.x05 :: remote /\
    w_policy w a (w_ident w a) remote Sending = true.
Proof. exact encrypt_trusted. Qed.
Print Assumptions c29_encrypt.
Theorem c29_bundle : forall C a rnd b fs w, let p := process_bundle C a rnd b in
  (forall ti, bd_identity b = Some ti -> w_policy w a (w_ident w a) ti Sending = false) ->
  snd (run p fs w) = w /\ (forall n, crash n p fs w = w) /\ fst (run p fs w) <> Ok tt.
Proof. exact bundle_trust. Qed.
Print Assumptions c29_bundle.
(** A pre-key message: the identity in its frame is checked before anything is changed. *)
Theorem c29_prekey : forall C a rnd m fs w, w_policy w a (w_ident w a) (pm_identity m) Receiving = false ->
  (exists e, fst (run (decrypt_message C a rnd (CPreKey m)) fs w) = Err e) /\
  snd (run (decrypt_message C a rnd (CPreKey m)) fs w) = w /\ forall n, crash n (decrypt_message C a rnd (CPreKey m)) fs w = w.
Proof. exact decrypt_prekey_untrusted. Qed.
Print Assumptions c29_prekey.
Theorem c29_whisper : forall C a rnd m fs w pt w', CryptoOk C -> wf_device w -> wf_signal m ->
  run (decrypt_message C a rnd (CSignal m)) fs w = (Ok pt, w') ->
  exists r s remote, w_sess w a = Some r /\ state_in s r /\ ss_remote s = Byte.x05 :: remote /\
    w_policy w a (w_ident w a) remote Receiving = true /\
    (opens C s m pt \/ (pt = [] /\ rc_current r = Some s /\ exists e, decrypt_record C rnd r m = Err e)).
Proof. exact signal_trusted. Qed.
Print Assumptions c29_whisper.
Theorem c29_inmem : forall a known k d, inmem_policy a known k d = true <-> known = None \/ known = Some k.
Proof. exact inmem_trust. Qed.
Print Assumptions c29_inmem.
Example c29_case : inmem_policy ex_addr (Some (b32 Byte.x77)) (b32 Byte.x02) Sending = false /\
  exists c w', run0 (encrypt_message toy ex_addr (str "hi")) (rx_one true) = (Ok c, w').
Proof. exact trust_case. Qed.
(** But inside a frame the session's own peer is not checked: a message of a session whose
    peer the store does not trust is opened when the frame names a trusted identity. *)
Theorem c29_session_identity_refuted : exists C w a r s remote pm w', CryptoOk C /\ wf_device w /\ w_policy w = inmem_policy /\
  w_sess w a = Some r /\ (forall s', state_in s' r -> s' = s) /\ ss_remote s = Byte.x05 :: remote /\ 
  w_policy w a (w_ident w a) remote Receiving = false /\
  run0 (decrypt_message C a [] (CPreKey pm)) w = (Ok (str "hi"), w').
Proof. exact frame_refuted. Qed.
Print Assumptions c29_session_identity_refuted.

(** * C30  Bundles with a bad signature never create a session *)
Theorem c30_unsigned_refused : forall C a rnd b fs w, CryptoOk C -> ~ bundle_signed C b ->
  let p := process_bundle C a rnd b in
  snd (run p fs w) = w /\ (forall n, crash n p fs w = w) /\ fst (run p fs w) <> Ok tt.
Proof. exact unsigned_refused. Qed.
Print Assumptions c30_unsigned_refused.
Theorem c30_changed_only_if_signed : forall C a rnd b fs w, CryptoOk C ->
  snd (run (process_bundle C a rnd b) fs w) <> w \/ fst (run (process_bundle C a rnd b) fs w) = Ok tt ->
  bundle_signed C b /\ bundle_trusted w a b.
Proof. exact two_reasons. Qed.
Print Assumptions c30_changed_only_if_signed.
Example c30_case : (exists sig, bundle_signed toy (bob_bundle (Some 7%N) sig)) /\ ~ bundle_signed toy (bob_bundle (Some 7%N) []).
Proof. exact signed_case. Qed.

(** * C31  A pre-key message cannot crash the recipient: false *)
Theorem c31_unknown_signed_refuted : forall C a rnd m w, wf_device w -> wf_prekeymsg m ->
  w_policy w a (w_ident w a) (pm_identity m) Receiving = true ->
  (forall r s, w_sess w a = Some r -> state_in s r -> ss_alice_base s <> Byte.x05 :: pm_base m) ->
  w_signed w (pm_signed_id m) = None -> pm_prekey_id m = None ->
  fst (run0 (decrypt_message C a rnd (CPreKey m)) w) = Panic.
Proof. exact unknown_signed_panics. Qed.
Print Assumptions c31_unknown_signed_refuted.
Example c31_case : fst (run0 (decrypt_message toy ex_addr [] (CPreKey (junk_prekey toy))) empty_world) = Panic.
Proof. exact panic_case. Qed.
(** The only ways to crash. *)
Theorem c31_prekey_panic_exact : forall C a rnd m fs w, CryptoOk C -> wf_device w -> wf_prekeymsg m ->
  fst (run (decrypt_message C a rnd (CPreKey m)) fs w) = Panic ->
  w_policy w a (w_ident w a) (pm_identity m) Receiving = true /\
  (forall r s, w_sess w a = Some r -> state_in s r -> ss_alice_base s <> Byte.x05 :: pm_base m) /\
  (w_signed w (pm_signed_id m) = None \/ zero_dh C w m).
Proof. exact prekey_panic. Qed.
Print Assumptions c31_prekey_panic_exact.
Theorem c31_whisper_no_panic : forall C a rnd m fs w, CryptoOk C -> wf_device w -> wf_signal m ->
  fst (run (decrypt_message C a rnd (CSignal m)) fs w) <> Panic.
Proof. exact signal_no_panic. Qed.
Print Assumptions c31_whisper_no_panic.

(** * C32  One-time pre-keys are consumed exactly on success *)
Theorem c32_consumed : forall C a rnd m fs w, CryptoOk C -> wf_device w -> wf_prekeymsg m ->
  consumption C w a m (snd (run (decrypt_message C a rnd (CPreKey m)) fs w)) /\
  forall n, consumption C w a m (crash n (decrypt_message C a rnd (CPreKey m)) fs w).
Proof. exact consumed. Qed.
Print Assumptions c32_consumed.
Theorem c32_success_consumes : forall C a rnd m fs w pt w' id, wf_device w -> wf_prekeymsg m ->
  run (decrypt_message C a rnd (CPreKey m)) fs w = (Ok pt, w') -> pm_prekey_id m = Some id ->
  (forall r s, w_sess w a = Some r -> state_in s r -> ss_alice_base s <> Byte.x05 :: pm_base m) ->
  w_prekeys w' id = None.
Proof. exact consumed_on_success. Qed.
Print Assumptions c32_success_consumes.
Theorem c32_whisper_keeps : forall C a rnd m fs w,
  w_prekeys (snd (run (decrypt_message C a rnd (CSignal m)) fs w)) = w_prekeys w.
Proof. exact signal_keeps. Qed.
Print Assumptions c32_whisper_keeps.
Example c32_case : w_prekeys (bob_world 7 true) 7 <> None /\ exists pm w', 
  run0 (decrypt_message toy (conv_at false) (b32 Byte.x43) (CPreKey pm)) (bob_world 7 true) = (Ok (str "hello"), w') /\ w_prekeys w' 7%N = None.
Proof. exact consumed_case. Qed.

(** * C33  Re-delivered pre-key messages do not reset the session *)
Theorem c33_known_base : forall C a ex r m fs w, wf_record r -> wf_prekeymsg m ->
  (exists s, state_in s r /\ ss_alice_base s = Byte.x05 :: pm_base m) ->
  let w' := snd (run (process_prekey C a ex r m) fs w) in
  w_sess w' = w_sess w /\ w_prekeys w' = w_prekeys w /\
  (forall r1 id, fst (run (process_prekey C a ex r m) fs w) = Ok (r1, id) -> r1 = r /\ id = None) /\
  forall n, w_sess (crash n (process_prekey C a ex r m) fs w) = w_sess w /\ w_prekeys (crash n (process_prekey C a ex r m) fs w) = w_prekeys w.
Proof. exact redelivered. Qed.
Print Assumptions c33_known_base.
(** The whole call then does what the message inside the frame does to the old record. *)
Theorem c33_call : forall C a rnd m fs w r, CryptoOk C -> wf_device w -> wf_prekeymsg m -> w_sess w a = Some r ->
  (exists s, state_in s r /\ ss_alice_base s = Byte.x05 :: pm_base m) ->
  let w' := snd (run (decrypt_message C a rnd (CPreKey m)) fs w) in
  w_prekeys w' = w_prekeys w /\
  (w_sess w' a = Some r \/ exists pt r', decrypt_record C rnd r (pm_message m) = Ok (pt, r') /\ w_sess w' a = Some r') /\
  (forall pt, fst (run (decrypt_message C a rnd (CPreKey m)) fs w) = Ok pt ->
     exists r', decrypt_record C rnd r (pm_message m) = Ok (pt, r') /\ w_sess w' a = Some r').
Proof. exact redelivered_call. Qed.
Print Assumptions c33_call.
Example c33_case : forall m, state_in (rx_state 2 []) (mkRecord (Some (rx_state 2 [])) []) /\ ss_alice_base (rx_state 2 []) = Byte.x05 :: pm_base (frame_msg m).
Proof. intro m. split; [left; reflexivity|reflexivity]. Qed.

(** * C34  Promotion loses no session *)
Theorem c34_promote : forall r s, wf_record r ->
  rc_current (rc_promote r s) = Some s /\
  rc_previous (rc_promote r s) =
    match rc_current r with Some c => last_n 40 (rc_previous r ++ [state_bytes c]) | None => rc_previous r end.
Proof. exact promoted. Qed.
Print Assumptions c34_promote.
Theorem c34_promote_old : forall r s l1 b l2, wf_record r -> rc_previous r = l1 ++ b :: l2 ->
  rc_current (rc_promote_old r (List.length l1) s) = Some s /\
  rc_previous (rc_promote_old r (List.length l1) s) =
    l1 ++ l2 ++ match rc_current r with Some c => [state_bytes c] | None => [] end.
Proof. exact promoted_old. Qed.
Print Assumptions c34_promote_old.
Example c34_case : wf_record (mkRecord (Some (rx_state 0 [])) (map state_bytes [rx_state 1 []; rx_state 2 []])).
Proof. exact record_case. Qed.

(** * C35  Archived sessions still receive: false *)
Theorem c35_archived_refuted : exists C w a rnd m r s pt w', CryptoOk C /\ wf_device w /\ wf_signal m /\ w_sess w a = Some r /\
  current_fails C rnd r m /\ In (state_bytes s) (rc_previous r) /\ wf_state s /\
  (forall rnd', exists s', fst (decrypt_session C rnd' s m) = Ok (pt, s')) /\ pt <> [] /\
  run0 (decrypt_message C a rnd (CSignal m)) w = (Ok [], w').
Proof. exact archived_refuted. Qed.
Print Assumptions c35_archived_refuted.
(** It holds when no other archived session takes the message for a duplicate or opens it. *)
Theorem c35_archived_partial : forall C a rnd m w r l1 s l2 pt remote, CryptoOk C -> wf_device w -> wf_signal m ->
  w_sess w a = Some r -> current_fails C rnd r m -> rc_previous r = map state_bytes (l1 ++ s :: l2) -> Forall wf_state (l1 ++ s :: l2) ->
  ss_remote s = Byte.x05 :: remote -> trusts w a remote ->
  (forall rnd', exists s', fst (decrypt_session C rnd' s m) = Ok (pt, s')) ->
  (forall x rnd', In x (l1 ++ l2) -> exists e, fst (decrypt_session C rnd' x m) = Err e /\ e <> EDuplicate) ->
  exists w' r' s', run0 (decrypt_message C a rnd (CSignal m)) w = (Ok pt, w') /\ w_sess w' a = Some r' /\
    rc_current r' = Some s' /\ ss_alice_base s' = ss_alice_base s /\
    rc_previous r' = map state_bytes (l1 ++ l2 ++ match rc_current r with Some c => [c] | None => [] end).
Proof. exact archived_receives. Qed.
Print Assumptions c35_archived_partial.
Example c35_case : exists m w' r', run0 (decrypt_message toy ex_addr [] (CSignal m)) (rx_world (rx_state 0 []) [rx_state 0 []; rx_state 25001 []] None true) = (Ok (str "late"), w') /\
  w_sess w' ex_addr = Some r' /\ rc_previous r' = map state_bytes [rx_state 0 []; rx_state 0 []].
Proof. exact archived_case. Qed.

(** * C40  Untrusted identity is reported as such *)
Theorem c40_encrypt_partial : forall C a pt w r s remote, CryptoOk C -> wf_device w ->
  w_sess w a = Some r -> rc_current r = Some s -> ss_remote s = Byte.x05 :: remote ->
  w_policy w a (w_ident w a) remote Sending = false ->
  exists e, fst (run0 (encrypt_message C a pt) w) = Err e /\ is_err_untrusted e = true.
Proof. exact untrusted_encrypt. Qed.
Print Assumptions c40_encrypt_partial.
Theorem c40_prekey_partial : forall C a rnd m w, w_policy w a (w_ident w a) (pm_identity m) Receiving = false ->
  exists e, fst (run0 (decrypt_message C a rnd (CPreKey m)) w) = Err e /\ is_err_untrusted e = true.
Proof. exact untrusted_prekey. Qed.
Print Assumptions c40_prekey_partial.
Theorem c40_whisper_partial : forall C a rnd m w r s remote, CryptoOk C -> wf_device w -> wf_signal m ->
  w_sess w a = Some r ->
  (exists pt r', decrypt_record C rnd r m = Ok (pt, r') /\ rc_current r' = Some s) \/
  (exists e, decrypt_record C rnd r m = Err e) /\ rc_current r = Some s ->
  ss_remote s = Byte.x05 :: remote -> w_policy w a (w_ident w a) remote Receiving = false ->
  exists e, fst (run0 (decrypt_message C a rnd (CSignal m)) w) = Err e /\ is_err_untrusted e = true.
Proof. exact untrusted_signal. Qed.
Print Assumptions c40_whisper_partial.
Theorem c40_bundle_refuted : forall C a rnd b w ti, bd_identity b = Some ti -> w_policy w a (w_ident w a) ti Sending = false ->
  exists e, fst (run0 (process_bundle C a rnd b) w) = Err e /\ is_err_untrusted e = false.
Proof. exact untrusted_bundle. Qed.
Print Assumptions c40_bundle_refuted.
Example c40_case : exists e, fst (run0 (encrypt_message toy ex_addr []) (rx_world (rx_state 2 []) [] (Some (b32 Byte.x77)) true)) = Err e /\ is_err_untrusted e = true.
Proof. exact untrusted_case. Qed.
