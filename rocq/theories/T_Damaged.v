(** Property theorems: stores that answer anything (C98). *)
From Verif Require Import M_Base M_Crypto M_Aes M_Curve M_Proto M_Message M_Ratchet M_State M_Store M_Session M_Group
  S_Crypto S_Message S_State S_Shape S_Session S_Api S_Group S_Edwards S_SmallKeys S_Damaged R_Real
  P_Damaged K_Toy K_Receive K_SmallKeys K_Damaged.
Local Open Scope nat_scope.

(** C98. Whatever the stores answer, no call panics: sending, opening a session, reading an
    ordinary message, and the four group calls. The length conditions hold of every message
    that was parsed from bytes or made by this library (C05, C07). *)
Theorem c98_no_crash : forall C, CryptoOk C ->
  (forall a pt, ~ may_return anything (encrypt_message C a pt) Panic) /\
  (forall a rnd b, bd_identity b <> None -> bd_signed b <> None -> ~ may_return anything (process_bundle C a rnd b) Panic) /\
  (forall a rnd m, 8 <= List.length (sg_raw m) -> ~ may_return anything (decrypt_message C a rnd (CSignal m)) Panic) /\
  (forall a d sysrnd rnd, ~ may_return anything (new_sender_dist C a d sysrnd rnd) Panic) /\
  (forall a m, ~ may_return anything (process_dist a m) Panic) /\
  (forall a d rnd pt, ~ may_return anything (gencrypt C a d rnd pt) Panic) /\
  (forall a m, 64 <= List.length (sm_raw m) -> ~ may_return anything (gdecrypt C a m) Panic).
Proof. exact no_crash. Qed.
Print Assumptions c98_no_crash.
(** A pre-key message panics only if the signed pre-key is missing or a secret is all zero. *)
Theorem c98_prekey : forall C a rnd m, CryptoOk C -> 8 <= List.length (sg_raw (pm_message m)) ->
  List.length (pm_identity m) = 32 -> List.length (pm_base m) = 32 -> no_zero C (pm_identity m) -> no_zero C (pm_base m) ->
  ~ may_return keys_there (decrypt_message C a rnd (CPreKey m)) Panic.
Proof. exact no_crash_prekey. Qed.
Print Assumptions c98_prekey.
(** With the primitives of the standards: exactly for keys of small order. *)
Theorem c98_prekey_real : forall a rnd m, wf_prekeymsg m ->
  (may_return keys_there (decrypt_message real a rnd (CPreKey m)) Panic <-> small_key (pm_identity m) \/ small_key (pm_base m)).
Proof. exact crash_real. Qed.
Print Assumptions c98_prekey_real.
(** What the stores of any world answer, damaged or not and with any failures, is covered. *)
Theorem c98_worlds : forall A (p : prog A) fs w, may_return anything p (fst (run p fs w)).
Proof. exact @run_may_return. Qed.
Print Assumptions c98_worlds.
(** A device whose records have keys of wrong lengths and unreadable archived sessions: every
    call reports an error. *)
Example c98_case : ~ wf_device damaged /\ 8 <= List.length (sg_raw saved_msg) /\ damaged_run = true.
Proof. exact damaged_case. Qed.
Example c98_prekey_case : wf_prekeymsg zero_base /\ small_key (pm_base zero_base) /\ (exists k, List.length k = 32 /\ ~ small_key k).
Proof. exact (conj zero_base_wf (conj zero_small (proj1 (proj2 small_case)))). Qed.
