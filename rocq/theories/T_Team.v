(** C84: a group set up over pairwise conversations. *)
From Verif Require Import M_Base M_Crypto M_Curve M_Message M_Ratchet M_State M_Store M_Session M_Group
  S_Crypto S_Message S_Session S_Group S_Receive S_Conv S_History S_GroupMsg S_Size S_Transit S_Team P_Team K_Toy K_World K_Conv K_Group K_Team.
From Coq Require Import Permutation.
Local Open Scope nat_scope.

(** [dev] are two devices in conversation; one of them has sent the other, over it, the
    distribution message [dm] of a sender key, as its plaintext. The bytes of that message
    and then, in any order, the bytes of at most 2000 group messages sent with the key
    arrive: the member gets every plaintext. *)
Theorem c84_delivered : forall C b at_ base dev par keys notes side ep n c rnd me d sysrnd rnd0 fs w0 dm w1 k l w2 order, CryptoOk C ->
  history C at_ b base dev par keys notes -> In (mkNote (negb side) ep n (dm_raw dm) c) notes ->
  receivable (par side) ep n -> fresh C keys (par side) ep rnd ->
  w_policy (dev side) (at_ side) (w_ident (dev side) (at_ side)) (kp_pub (w_pair (dev (negb side)))) Receiving = true ->
  own_device C w0 -> List.length d = 16 -> run (new_sender_dist C me d sysrnd rnd0) fs w0 = (Ok dm, w1) ->
  (forall s, follows (dev side) (at_ side) d (dm_chain dm) s -> gs_pub s <> Byte.x05 :: dm_signing dm) ->
  gtries C me d k w1 l w2 -> k <= 2000 -> (dm_iter dm + N.of_nat k < 4294967296)%N -> (forall pt x, In (pt, x) l -> (size pt < 2 ^ 62)%N) ->
  Permutation order l ->
  exists w, run0 (accept_invitation C (at_ side) rnd (posted c)) (dev side) = (Ok tt, w) /\
  exists w', hear_all C (at_ side) w (map (fun x => sm_raw (snd x)) order) = (map (fun x => Ok (fst x)) order, w').
Proof. exact team. Qed.
Print Assumptions c84_delivered.
(** Alice invites Bob and sends four messages; they arrive in reverse order. *)
Example c84_case : exists b base dev par keys dm c w1 l w2,
  history toy conv_at b base dev par keys [mkNote true 1 0 (dm_raw dm) c] /\ receivable (par false) 1 0 /\ fresh toy keys (par false) 1 (b32 Byte.x43) /\
  w_policy (dev false) (conv_at false) (w_ident (dev false) (conv_at false)) (kp_pub (w_pair (dev true))) Receiving = true /\
  own_device toy (alice_world true) /\ run (new_sender_dist toy gx_addr gx_dist gx_sys gx_rnd) [] (alice_world true) = (Ok dm, w1) /\
  (forall s, follows (dev false) (conv_at false) gx_dist (dm_chain dm) s -> gs_pub s <> Byte.x05 :: dm_signing dm) /\
  gtries toy gx_addr gx_dist 4 w1 l w2 /\ (dm_iter dm + N.of_nat 4 < 4294967296)%N /\ (forall pt x, In (pt, x) l -> (size pt < 2 ^ 62)%N) /\
  map fst (rev l) = [str "four"; str "three"; []; str "one"] /\ Permutation (rev l) l.
Proof. exact team_case. Qed.
