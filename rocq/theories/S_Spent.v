(** Messages already consumed, and calls that were cut off: C24, C64. *)
From Verif Require Import M_Base M_Crypto M_Store S_Api S_Conv.
Local Open Scope N_scope.

(** Message [n] of epoch [k] is behind the chain of its epoch and its key is not saved: it
    has been received and dealt with, or its key was among those given up. *)
Definition gone (p : party) (k : nat) (n : N) : Prop :=
  exists v, In v (p_views p) /\ rv_epoch v = k /\ n < rv_idx v /\ ~ In n (rv_saved v).
(** It is at or ahead of the chain of its epoch, or opens a new epoch. *)
Definition ahead (p : party) (k : nat) (n : N) : Prop :=
  (exists v, In v (p_views p) /\ rv_epoch v = k /\ rv_idx v <= n <= rv_idx v + 25000) \/ k = S (p_epoch p) /\ n <= 25000.
(** It is behind the chain and its key is saved. *)
Definition kept_back (p : party) (k : nat) (n : N) : Prop :=
  exists v, In v (p_views p) /\ rv_epoch v = k /\ n < rv_idx v /\ In n (rv_saved v).
