(** The key schedule of a conversation: C75. *)
From Verif Require Import M_Base M_Crypto M_Aes M_Curve M_Message M_Ratchet M_State M_Store M_Session
  S_Crypto S_Message S_Shape S_Ratchet S_Session S_Api S_Send S_Group S_X3dh S_Receive S_Conv S_History S_Schedule
  P_Schedule K_Toy K_World K_Receive K_Conv.
Local Open Scope nat_scope.

(** * C75 *)
(** In every history there are private keys, of the identities and pre-keys of X3DH and one
    ratchet key per epoch, so that every message is encrypted and tagged with the keys that
    the Double Ratchet assigns to its epoch and counter, and both sessions stand where the
    schedule says. *)
Theorem c75_schedule : forall C b at_ base dev par keys notes, CryptoOk C -> history C at_ b base dev par keys notes ->
  exists ia e ib ob ks, let start := (x3dh_root C ia e ib (ks 0) ob, x3dh_chain C ia e ib (ks 0) ob) in
    bundle_keys C b ib (ks 0) ob /\ base = mont_pub C e /\ kp_pub (w_pair (dev true)) = mont_pub C ia /\ kp_pub (w_pair (dev false)) = mont_pub C ib /\
    (forall k, k < List.length keys -> nth_error keys k = Some (mont_pub C (ks k))) /\
    (forall x m, In x notes -> inner (nt_cipher x) = Some m ->
       nt_epoch x < List.length keys /\ sg_ratchet m = mont_pub C (ks (nt_epoch x)) /\
       sealed C (snd (dr_keys C start ks (nt_epoch x))) (nt_counter x) (kp_pub (w_pair (dev (nt_from x)))) (kp_pub (w_pair (dev (negb (nt_from x))))) (nt_text x) m) /\
    (forall side s, side = true \/ p_epoch (par false) <> 0 -> current_session (dev side) (at_ side) = Some s ->
       stands C (dr_keys C start ks) ks s (p_epoch (par side)) (p_sent (par side))).
Proof. exact scheduled. Qed.
Print Assumptions c75_schedule.
Example c75_case : exists b base dev par keys notes, history toy conv_at b base dev par keys notes /\ List.length notes = 4 /\
  map nt_epoch notes = [3; 2; 1; 1] /\ p_epoch (par true) = 3 /\ p_epoch (par false) = 2.
Proof.
  destruct conversation as (b & base & dev & par & keys & c1 & c2 & c3 & c4 & Hy & Pt & Pf & _).
  eexists. eexists. eexists. eexists. eexists. eexists. split; [exact Hy|]. rewrite Pt, Pf. auto.
Qed.
