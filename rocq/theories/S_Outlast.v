(** A network under attack, step after step: C96. *)
From Verif Require Import M_Base M_Crypto M_Aes M_Curve M_Message M_Ratchet M_State M_Store M_Session M_Group
  S_Crypto S_Message S_Shape S_Ratchet S_Session S_Api S_Send S_Group S_X3dh S_Receive S_Conv S_History S_Isolation S_Atomic S_Size S_Transit S_Schedule S_Speak S_Attack S_Many S_Net S_Hostile.
Local Open Scope nat_scope.

(** The same devices, session and messages sent; only what has arrived may differ. *)
Definition same_cable (c c' : cable) : Prop :=
  cb_from c' = cb_from c /\ cb_to c' = cb_to c /\ ln_base (cb_link c') = ln_base (cb_link c) /\
  ln_bundle (cb_link c') = ln_bundle (cb_link c) /\ ln_notes (cb_link c') = ln_notes (cb_link c).
(** The bytes [x] reach [d] as coming from [e]: no forgery against their sessions, and no new session,
    unless [x] is the message of [e] that opens one. *)
Definition blow (C : Crypto) (dev : addr -> world) (es : list cable) (d e : addr) (rnd : bytes) (x : bool * bytes) : Prop :=
  d <> e /\ kp_pub (w_pair (dev d)) <> kp_pub (w_pair (dev e)) /\ new_keys C es d e rnd /\
  (forall m, carries x m -> ~ net_forgery C dev es d e m) /\
  (w_shared (dev d) = true -> forall pm, unposted x = Ok (CPreKey pm) -> ~ unused_base (dev d) e (pm_base pm)) /\
  (w_shared (dev d) = false -> forall ct, unposted x = Ok ct -> sets_up C (dev d) e rnd ct ->
     exists c y, In c es /\ sent_on c d e y /\ receivable (ln_par (cb_link c) (cb_role c d)) (nt_epoch y) (nt_counter y) /\ posted (nt_cipher y) = x).
(** The network is a network, and stays one through [n] blows, each chosen after all that happened before;
    the calls that handle them may fail or be cut off anywhere. Before each blow the devices may do, for any
    time, all that devices of a network do. *)
Fixpoint outlasts (C : Crypto) (n : nat) (dev : addr -> world) (es : list cable) : Prop :=
  net C dev es /\
  match n with
  | O => True
  | S n' => forall dev1 es1, net_from C (fun v q => v = dev /\ q = es) dev1 es1 -> sized es1 ->
      forall d e rnd x w', blow C dev1 es1 d e rnd x -> leaves (receive_bytes C e rnd x) (dev1 d) w' ->
      exists dev' es', (forall z, dev' z = dev_set dev1 d w' z) /\ Forall2 same_cable es1 es' /\ outlasts C n' dev' es'
  end.
