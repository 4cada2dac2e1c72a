(** Property theorems: keys of small order (C82). *)
From Verif Require Import M_Base M_Crypto M_Aes M_Curve M_Proto M_Message M_Ratchet M_State M_Store M_Session
  S_Crypto S_Message S_State S_Shape S_Session S_Api S_Group S_Edwards S_SmallKeys R_Curve R_Real
  P_SmallKeys P_SmallSess P_SmallInv K_SmallKeys.
From Coq Require Import ZArith.
Local Open Scope nat_scope.

(** C82. Key agreement fails exactly when the public key is one of the five u coordinates of
    small order, whatever the private key. *)
Theorem c82_agreement : forall ka a pub, new_private_key real ka = Ok a -> List.length pub = 32 ->
  ((exists e, agreement real a pub = Err e) <-> small_key pub) /\ ((exists s, agreement real a pub = Ok s) <-> ~ small_key pub).
Proof. exact real_agreement_iff. Qed.
Print Assumptions c82_agreement.
(** On the curve these are the coordinates of the points whose eighth multiple is neutral. *)
Theorem c82_points : forall d u P, is_d d -> on_curve d P -> snd P <> 1%Z -> (0 <= u < fieldp)%Z -> is_u u P ->
  (small_u u <-> is_mul d P 8 neutral).
Proof. exact small_points. Qed.
Print Assumptions c82_points.
(** A pre-key message crashes a device exactly when it gets as far as setting up a session and
    the signed pre-key is unknown or one of its two keys is of small order. *)
Theorem c82_crash_exact : forall a rnd m w, wf_device w -> wf_prekeymsg m -> List.length (sk_ecdh (kp_priv (w_pair w))) = 32 ->
  (fst (run0 (decrypt_message real a rnd (CPreKey m)) w) = Panic <->
   w_policy w a (w_ident w a) (pm_identity m) Receiving = true /\
   (forall r s, w_sess w a = Some r -> state_in s r -> ss_alice_base s <> Byte.x05 :: pm_base m) /\
   readable real (w_signed w (pm_signed_id m)) /\ (forall i, pm_prekey_id m = Some i -> readable real (w_prekeys w i)) /\
   (w_signed w (pm_signed_id m) = None \/ small_key (pm_identity m) \/ small_key (pm_base m))).
Proof. exact prekey_crash. Qed.
Print Assumptions c82_crash_exact.
(** A bundle with such a key is refused and nothing is stored, whatever else fails. *)
Theorem c82_bundle : forall a rnd b fs w k, (bd_identity b = Some k \/ bd_signed b = Some k \/ bd_prekey b = Some k) -> small_key k ->
  (forall u, fst (run (process_bundle real a rnd b) fs w) <> Ok u) /\ snd (run (process_bundle real a rnd b) fs w) = w.
Proof. exact bundle_refused. Qed.
Print Assumptions c82_bundle.
(** No execution ever leaves such a key in a session, and no session opens a message whose
    ratchet key is one. *)
Theorem c82_stored : forall ts w a r s, reachable real (ts, w) -> w_sess w a = Some r -> state_in s r -> full_order s.
Proof. exact reach_full_order. Qed.
Print Assumptions c82_stored.
Theorem c82_ratchet : forall ts w a r s m pt, reachable real (ts, w) -> w_sess w a = Some r -> state_in s r ->
  opens real s m pt -> ~ small_key (sg_ratchet m).
Proof. exact reach_opens. Qed.
Print Assumptions c82_ratchet.
Example c82_reach_case : exists w r, reachable real ([], w) /\ w_sess w peer = Some r /\ rc_current r <> None.
Proof. exact real_session. Qed.
(** A device with an untouched in-memory store, and a message whose base key is 32 zero bytes. *)
Example c82_case : small_key (repeat Byte.x00 32) /\ (exists k, List.length k = 32 /\ ~ small_key k) /\
  wf_device victim /\ wf_prekeymsg zero_base /\ fst (run0 (decrypt_message real peer [] (CPreKey zero_base)) victim) = Panic.
Proof. exact small_case. Qed.
