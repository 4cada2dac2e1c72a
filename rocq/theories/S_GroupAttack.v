(** Vocabulary of C97: group messages on a hostile network. *)
From Verif Require Import M_Base M_Crypto M_Aes M_Curve M_Uuid M_Message M_Ratchet M_State M_Store M_Session M_Group
  S_Crypto S_Message S_Session S_Group S_GroupMsg S_Size S_Atomic S_Transit S_Team.
Local Open Scope nat_scope.

(** The part of a message that its signature covers. *)
Definition signed_text (m : senderkeymsg) : bytes := firstn (List.length (sm_raw m) - 64) (sm_raw m).
(** [sent] are the messages (plaintext and message) the owner of the distribution message [dm] returned after making it,
    whatever failed and was tried again in between; [k] bounds the number of attempts. *)
Definition sent_after (C : Crypto) (dm : distmsg) (k : nat) (sent : list (bytes * senderkeymsg)) : Prop :=
  exists me dist sysrnd rnd fs w0 w1 w2, own_device C w0 /\ List.length dist = 16 /\
    run (new_sender_dist C me dist sysrnd rnd) fs w0 = (Ok dm, w1) /\ gtries C me dist k w1 sent w2 /\
    (dm_iter dm + N.of_nat k < 4294967296)%N /\ (forall pt y, In (pt, y) sent -> (size pt < 2 ^ 62)%N).
(** The message [m] claims to be one of the channel. *)
Definition on_channel (c : channel) (m : senderkeymsg) : Prop := sm_dist m = cn_dist c /\ sm_chain m = cn_chain c.
(** Bytes that break the signature scheme: a message of the channel, not older than the invitation, with a valid signature of the
    sender over a text the sender never signed. *)
Definition group_forgery (C : Crypto) (c : channel) (sent : list (bytes * senderkeymsg)) (x : bytes) : Prop :=
  exists m, parse_senderkey x = Ok m /\ on_channel c m /\ (cn_first c <= sm_iter m)%N /\ signed_by C (cn_signing c) m /\
    forall pt y, In (pt, y) sent -> signed_text y <> signed_text m.
(** [x] is a copy of [y]: the same text, maybe with another signature. *)
Definition copy_of (y : senderkeymsg) (x : bytes) : Prop := exists m, parse_senderkey x = Ok m /\ signed_text m = signed_text y.
(** Bytes of anybody's choice, one after the other, arrive from [a]; store calls may fail and the process may stop at any point. *)
Inductive siege (C : Crypto) (a : addr) : world -> list bytes -> world -> Prop :=
| siege_nil : forall w, siege C a w [] w
| siege_cons : forall w x w1 l w2, leaves (greceive_bytes C a x) w w1 -> siege C a w1 l w2 -> siege C a w (x :: l) w2.
