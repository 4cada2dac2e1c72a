(** C94: group decryption answers exactly what the state it follows can open. *)
From Verif Require Import M_Base M_Crypto M_Aes M_Curve M_Uuid M_Message M_Ratchet M_State M_Store M_Session M_Group
  S_Crypto S_Message S_Ratchet S_Session S_Api S_Conv S_Group S_GroupMsg S_GroupOpen P_Api P_GroupOpen K_Toy K_World K_Conv K_Group K_GroupOpen.
Local Open Scope nat_scope.

(** A message that the followed state opens is answered with its plaintext, and the state becomes the one that has used up that key. *)
Theorem c94_opened : forall C ts w a m s pt s', CryptoOk C -> reachable C (ts, w) -> wf_senderkey m -> follows w a (sm_dist m) (sm_chain m) s -> gopens C s m pt s' ->
  exists w', run0 (gdecrypt C a m) w = (Ok pt, w') /\ follows w' a (sm_dist m) (sm_chain m) s'.
Proof. intros C ts w a m s pt s' H R (_ & G & _). exact (group_opened C H w a m s pt s' (reachable_wf C H ts w R) G). Qed.
Print Assumptions c94_opened.
(** Every other message is an error. No group state changes, except on shared records when the message is the signer's and in range
    but its body does not decrypt. *)
Theorem c94_refused : forall C ts w a m, CryptoOk C -> reachable C (ts, w) -> wf_senderkey m -> 64 <= List.length (sm_raw m) ->
  (forall s pt s', follows w a (sm_dist m) (sm_chain m) s -> ~ gopens C s m pt s') ->
  exists e w', run0 (gdecrypt C a m) w = (Err e, w') /\
    ((forall b d, w_groups w' b d = w_groups w b d) \/
     w_shared w = true /\ exists s key mk s' e', follows w a (sm_dist m) (sm_chain m) s /\ gs_pub s = Byte.x05 :: key /\ signed_by C key m /\
       gturn C s (sm_iter m) mk s' /\ cbc_decrypt C (gk_cipher mk) (gk_iv mk) (sm_body m) = Err e' /\ follows w' a (sm_dist m) (sm_chain m) s').
Proof. intros C ts w a m H R (_ & G & _). exact (group_refused C H w a m (reachable_wf C H ts w R) G). Qed.
Print Assumptions c94_refused.
(** The answer is "duplicate" exactly for a message of the signer whose iteration is behind the chain and not saved. *)
Theorem c94_duplicate : forall C ts w a m, CryptoOk C -> reachable C (ts, w) ->
  (fst (run0 (gdecrypt C a m) w) = Err EDuplicate <->
   sm_version m = 3%N /\ exists s key, follows w a (sm_dist m) (sm_chain m) s /\ gs_pub s = Byte.x05 :: key /\ signed_by C key m /\
     (sm_iter m < gs_iter s)%N /\ forall k, In k (gs_keys s) -> gm_iter k <> sm_iter m).
Proof. intros C ts w a m H R. exact (group_duplicate C w a m (reachable_wf C H ts w R)). Qed.
Print Assumptions c94_duplicate.
(** There is one answer. *)
Theorem c94_one : forall C ts w a m s pt s' t pt' t', CryptoOk C -> reachable C (ts, w) -> wf_senderkey m ->
  follows w a (sm_dist m) (sm_chain m) s -> gopens C s m pt s' -> follows w a (sm_dist m) (sm_chain m) t -> gopens C t m pt' t' -> s = t /\ pt = pt' /\ s' = t'.
Proof. intros C ts w a m s pt s' t pt' t' H R (_ & G & _). exact (opens_one C H w a m s pt s' t pt' t' (reachable_wf C H ts w R) G). Qed.
Print Assumptions c94_one.
Example c94_case : exists w a m s s' m', reachable toy ([], w) /\ wf_senderkey m /\ follows w a (sm_dist m) (sm_chain m) s /\ gopens toy s m (str "hi") s' /\
  gs_iter s = 5%N /\ gs_iter s' = 8%N /\ List.length (gs_keys s') = 2 /\
  wf_senderkey m' /\ 64 <= List.length (sm_raw m') /\ follows w a (sm_dist m') (sm_chain m') s /\ (forall pt t, ~ gopens toy s m' pt t) /\ signed_by toy (mont_pub toy gx_key) m'.
Proof. exact group_open_case. Qed.
