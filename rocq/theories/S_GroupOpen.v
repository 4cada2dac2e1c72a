(** What a group state can open. *)
From Verif Require Import M_Base M_Crypto M_Aes M_Curve M_Uuid M_Message M_Ratchet M_State M_Store M_Session M_Group
  S_Crypto S_Ratchet S_Conv S_Group S_GroupMsg.

(** The key of a group message from its seed: 48 bytes of HKDF split 16 (IV) / 32 (key). *)
Definition gkeys_from (C : Crypto) (seed : bytes) (i : N) (m : gmsgkey) : Prop :=
  gk_iv m ++ gk_cipher m = rfc_hkdf C None seed (str "WhisperGroup") 48 /\
  List.length (gk_cipher m) = 32 /\ List.length (gk_iv m) = 16 /\ gk_seed m = seed /\ gk_iter m = i.
(** The seed at a position of the chain whose key is [key]. *)
Definition seed_at (C : Crypto) (key : bytes) (i : nat) : bytes := c_hmac C (chain_at C key i) [Byte.x01].

(** The state [s] holds the message key [mk] for iteration [n] and becomes [s'] by using it: the iteration is that of the chain or
    at most 25000 ahead (the seeds skipped over are saved, of which the last 2000 are kept), or it is behind and its seed was saved. *)
Inductive gturn (C : Crypto) (s : gstate) (n : N) (mk : gmsgkey) (s' : gstate) : Prop :=
| gt_ahead : forall d, n = (gs_iter s + N.of_nat d)%N -> d <= N.to_nat 25000 -> gkeys_from C (seed_at C (gs_seed s) d) n mk ->
    s' = mkGState (gs_version s) (gs_chain s) ((n + 1) mod 2 ^ 32) (chain_at C (gs_seed s) (S d)) (gs_pub s) (gs_priv s)
           (last_n 2000 (gs_keys s ++ map (fun i => mkGmk (gs_iter s + N.of_nat i) (seed_at C (gs_seed s) i)) (seq 0 d))) ->
    gturn C s n mk s'
| gt_saved : forall l1 k l2, (n < gs_iter s)%N -> gs_keys s = l1 ++ k :: l2 -> gm_iter k = n -> (forall x, In x l1 -> gm_iter x <> n) ->
    gkeys_from C (gm_seed k) n mk ->
    s' = mkGState (gs_version s) (gs_chain s) (gs_iter s) (gs_seed s) (gs_pub s) (gs_priv s) (l1 ++ l2) ->
    gturn C s n mk s'.

(** [m] is signed with the key of [s], and its body decrypts to [pt] under the key that [s] holds for its iteration. *)
Definition gopens (C : Crypto) (s : gstate) (m : senderkeymsg) (pt : bytes) (s' : gstate) : Prop :=
  sm_version m = 3%N /\ exists key mk, gs_pub s = Byte.x05 :: key /\ signed_by C key m /\ gturn C s (sm_iter m) mk s' /\
    cbc_decrypt C (gk_cipher mk) (gk_iv mk) (sm_body m) = Ok pt.
