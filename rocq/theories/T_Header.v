(** Headers of a conversation: C69. *)
From Verif Require Import M_Base M_Crypto M_Aes M_Curve M_Message M_Ratchet M_State M_Store M_Session
  S_Crypto S_Message S_Shape S_Ratchet S_Session S_Api S_Send S_Group S_X3dh S_Receive S_Conv S_History S_Header
  P_Header K_Toy K_World K_Receive K_Conv.
Local Open Scope nat_scope.

(** * C69 *)
(** In every history of two devices the header of every message sent is known: version 3,
    the ratchet key of its epoch, its number within the epoch, and for the previous counter
    one less than the number of messages its sender sent in its epoch before (0 if none). *)
Theorem c69_headers : forall C b at_ base dev par keys notes x, CryptoOk C -> history C at_ b base dev par keys notes -> In x notes ->
  exists m, inner (nt_cipher x) = Some m /\ sg_version m = 3%N /\ nth_error keys (nt_epoch x) = Some (sg_ratchet m) /\
    sg_counter m = nt_counter x /\ sg_prev m = N.pred (sent_in notes (nt_epoch x - 2)).
Proof. intros C b at_ base dev par keys notes x H. exact (headers C H b at_ base dev par keys notes x). Qed.
Print Assumptions c69_headers.
(** No two messages have the same epoch and number, the numbers of an epoch are those below
    the number of messages sent in it, and odd epochs belong to the initiator. *)
Theorem c69_numbered : forall C b at_ base dev par keys notes, CryptoOk C -> history C at_ b base dev par keys notes ->
  NoDup (map (fun x => (nt_epoch x, nt_counter x)) notes) /\
  forall x, In x notes -> nt_from x = Nat.odd (nt_epoch x) /\ (nt_counter x < sent_in notes (nt_epoch x))%N.
Proof. intros C b at_ base dev par keys notes H. exact (numbered C H b at_ base dev par keys notes). Qed.
Print Assumptions c69_numbered.
(** The initiator sent two messages in its first epoch, so its next epoch names 1 as the
    previous counter; the responder sent none before its first. *)
Example c69_case : exists b base dev par keys c1 c2 c3 c4 m3 m4,
  history toy conv_at b base dev par keys
    [mkNote true 3 0 (str "four") c4; mkNote false 2 0 (str "three") c3; mkNote true 1 1 (str "two") c2; mkNote true 1 0 (str "one") c1] /\
  inner c4 = Some m4 /\ sg_prev m4 = 1%N /\ inner c3 = Some m3 /\ sg_prev m3 = 0%N.
Proof.
  destruct conversation as (b & base & dev & par & keys & c1 & c2 & c3 & c4 & Hy & _).
  destruct (c69_headers _ _ _ _ _ _ _ _ (mkNote true 3 0 (str "four") c4) toy_ok Hy) as (m4 & E4 & _ & _ & _ & P4); [cbn; auto|].
  destruct (c69_headers _ _ _ _ _ _ _ _ (mkNote false 2 0 (str "three") c3) toy_ok Hy) as (m3 & E3 & _ & _ & _ & P3); [cbn; auto|].
  exists b, base, dev, par, keys, c1, c2, c3, c4, m3, m4. auto.
Qed.
