(** C90: decryption answers exactly what the sessions of the device can open. *)
From Verif Require Import M_Base M_Crypto M_Curve M_Message M_Ratchet M_State M_Store M_Session M_Group
  S_Crypto S_Message S_State S_Shape S_Ratchet S_Session S_Api S_Receive S_Sessions S_Opening P_Opening K_Toy R_Real P_Real K_Opening.
Local Open Scope nat_scope.

(** In every execution a whisper message gets as its answer the plaintext of the one session that
    answers it, and that session becomes the current one. If no session answers it, the call
    returns an empty plaintext without an error (see C25) and changes no session; without a current
    session it is an error. *)
Theorem c90_whisper : forall C ts w a r rnd m, CryptoOk C -> zero_by_key C -> reachable C (ts, w) -> w_sess w a = Some r -> peers_trusted w a r ->
  wf_signal m -> 1312 <= List.length rnd ->
  (forall s pt, answers C r m s pt ->
     exists w' r' s', run0 (decrypt_message C a rnd (CSignal m)) w = (Ok pt, w') /\ w_sess w' a = Some r' /\ rc_current r' = Some s' /\ later_state s s') /\
  ((forall s pt, ~ answers C r m s pt) ->
     (rc_current r <> None -> exists w', run0 (decrypt_message C a rnd (CSignal m)) w = (Ok [], w') /\ forall b, w_sess w' b = w_sess w b) /\
     (rc_current r = None -> exists e, run0 (decrypt_message C a rnd (CSignal m)) w = (Err e, w))).
Proof. exact opening_whisper. Qed.
Print Assumptions c90_whisper.
(** The same for a pre-key message of a session that exists; here a message without an answer is an error. *)
Theorem c90_prekey : forall C ts w a r rnd pm, CryptoOk C -> zero_by_key C -> reachable C (ts, w) -> w_sess w a = Some r ->
  wf_prekeymsg pm -> (exists s, state_in s r /\ ss_alice_base s = Byte.x05 :: pm_base pm) ->
  w_policy w a (w_ident w a) (pm_identity pm) Receiving = true -> 1312 <= List.length rnd ->
  (forall s pt, answers C r (pm_message pm) s pt ->
     exists w' r' s', run0 (decrypt_message C a rnd (CPreKey pm)) w = (Ok pt, w') /\ w_sess w' a = Some r' /\ rc_current r' = Some s' /\ later_state s s') /\
  ((forall s pt, ~ answers C r (pm_message pm) s pt) ->
     exists e w', run0 (decrypt_message C a rnd (CPreKey pm)) w = (Err e, w') /\ w_sess w' a = Some r).
Proof. exact opening_prekey. Qed.
Print Assumptions c90_prekey.
(** At most one session answers, with one plaintext; and no session opens a message in two ways. *)
Theorem c90_one : forall C ts w a r m s pt s' pt', CryptoOk C -> zero_by_key C -> reachable C (ts, w) -> w_sess w a = Some r -> wf_signal m ->
  answers C r m s pt -> answers C r m s' pt' -> s = s' /\ pt = pt'.
Proof. exact opening_one. Qed.
Print Assumptions c90_one.
Theorem c90_single : forall C ts w a r s m pt pt', CryptoOk C -> zero_by_key C -> reachable C (ts, w) -> w_sess w a = Some r -> state_in s r -> wf_signal m ->
  opens C s m pt -> opens C s m pt' -> pt = pt'.
Proof. exact opening_tidy. Qed.
Print Assumptions c90_single.
(** Curve25519 has the law the theorems ask for. *)
Theorem c90_law : zero_by_key real.
Proof. exact real_zero_key. Qed.
Print Assumptions c90_law.
(** A device that has set up a session and sent a message, and the reply to it; and a message that no session answers. *)
Example c90_case : zero_by_key toy /\ exists w a r m s, reachable toy ([], w) /\ w_sess w a = Some r /\ peers_trusted w a r /\ wf_signal m /\
  answers toy r m s (str "reply") /\ exists m', wf_signal m' /\ forall s pt, ~ answers toy r m' s pt.
Proof. exact opening_case. Qed.
