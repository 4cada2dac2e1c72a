(** Proofs of C97: in a network. *)
From Coq Require Import Lia List.
From Verif Require Import M_Base M_Crypto M_Aes M_Curve M_Uuid M_Message M_Ratchet M_State M_Store M_Session M_Group
  S_Crypto S_Message S_Shape S_State S_Ratchet S_Session S_Api S_Group S_GroupMsg S_Size S_Atomic S_Transit S_Team S_Conv S_History S_Many S_Net S_Enrolled S_GroupAttack
  P_Base P_Bundle P_CrashConv P_Member P_Net P_NetCut P_Enrolled P_GroupAttack.
Import ListNotations.
Local Open Scope nat_scope.

Section GroupSiege.
Variable C : Crypto.
Hypothesis H : CryptoOk C.
Theorem enrolled_any_bytes : forall dm k sent d e l dev es x w', sent_after C dm k sent -> enrolled C d e (channel_of dm) l dev es -> leaves (greceive_bytes C e x) (dev d) w' ->
  ~ group_forgery C (channel_of dm) sent x ->
  (exists dev0, (forall z, dev0 z = dev_set dev d w' z) /\ net C dev0 es) /\
  (member C e (channel_of dm) l w' \/ exists pt y, In (pt, y) sent /\ copy_of y x /\ ~ accepted l (sm_iter y) /\ member C e (channel_of dm) (l ++ [(sm_iter y, pt, Ok pt)]) w').
Proof using H.
  intros dm k sent d e l dev es x w' Se En Lv Nf. destruct (enrolled_member C H _ _ _ _ _ _ En) as [(v & Ev & K) Me].
  split; [|exact (group_any_bytes C H dm k sent e l (dev d) x w' Se Me Lv Nf)].
  exists (dev_set v d w'). split; [apply set_ext; exact Ev|]. unfold greceive_bytes in Lv.
  destruct (parse_senderkey x) as [m|err|] eqn:P; cbn [plift] in Lv.
  - eapply (net_group C fresh_net v _ d (CGDecrypt e m)); [exact K|exact (parsed_wf _ _ P)|reflexivity|rewrite Ev; exact Lv].
  - assert (w' = v d) as -> by (rewrite Ev; destruct Lv as (fs & [-> |(n & ->)]); [reflexivity|apply crash_ret]).
    apply net_other; [exact K|exact (net_wf C H v es d K)|reflexivity|reflexivity|]. intros c _ _ _. split; [reflexivity|intros id _; reflexivity].
  - assert (w' = v d) as -> by (rewrite Ev; destruct Lv as (fs & [-> |(n & ->)]); [reflexivity|apply crash_ret]).
    apply net_other; [exact K|exact (net_wf C H v es d K)|reflexivity|reflexivity|]. intros c _ _ _. split; [reflexivity|intros id _; reflexivity].
Qed.
End GroupSiege.
