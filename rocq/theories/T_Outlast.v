(** A network under attack, step after step: C96. *)
From Verif Require Import M_Base M_Crypto M_Aes M_Curve M_Message M_Ratchet M_State M_Store M_Session M_Group
  S_Crypto S_Message S_Shape S_Ratchet S_Session S_Api S_Send S_Group S_X3dh S_Receive S_Conv S_History S_Isolation S_Atomic S_Size S_Transit S_Schedule S_Speak S_Attack S_Many S_Net S_Hostile S_Outlast
  P_Outlast K_Toy K_Conv K_Net K_Hostile K_HostileShared.
Local Open Scope nat_scope.

(** Every network stays one through any number of blows, with anything that networks do in between, on
    either kind of stores: afterwards it is a
    state of C86 again, with the same sessions and the same messages sent, so that what C85, C86
    and C96 say of a network holds between any two blows and after the last. *)
Theorem c96_outlasts : forall C, CryptoOk C -> forall n dev es, net C dev es -> outlasts C n dev es.
Proof. exact outlasting. Qed.
Print Assumptions c96_outlasts.

(** Bob, on shared stores, gets Alice's first message again; the network of C96 outlasts any number of blows,
    and this is one. *)
Example c96_outlasts_case : exists dev es rnd m, net toy dev es /\ sized es /\ List.length es = 2 /\
  w_shared (dev at_b) = true /\ blow toy dev es at_b at_a rnd (posted m) /\ (exists pm, unposted (posted m) = Ok (CPreKey pm)).
Proof.
  destruct shared_case as (dev & es & c & m & pm & rnd & N & L & _ & _ & _ & _ & Sh & Np & Sz & K & F & U & B & _).
  exists dev, es, rnd, m. split; [exact N|]. split; [exact Sz|]. split; [exact L|]. split; [exact Sh|]. split; [|exists pm; exact U].
  split; [discriminate|]. split; [exact Np|]. split; [exact K|]. split; [exact F|]. split.
  - intros _ pm' U'. rewrite U in U'. injection U' as <-. exact B.
  - intro Z. rewrite Sh in Z. discriminate.
Qed.
