From Verif Require Import M_Base M_Crypto M_Aes M_Curve M_Message M_Ratchet M_State M_Store M_Session M_Group
  S_Crypto S_Message S_Shape S_Ratchet S_Session S_Api S_Send S_Group S_X3dh S_Receive S_Conv S_History S_Isolation S_Atomic S_Size S_Transit S_Schedule S_Speak S_Attack S_Many S_Net S_Hostile
  P_Hostile P_HostileShared S_Outlast.
Local Open Scope nat_scope.

Lemma same_refl : forall es, Forall2 same_cable es es.
Proof. induction es as [|c es IH]; constructor; [repeat split|exact IH]. Qed.

Lemma same_got : forall es1 c es2 s k n u,
  Forall2 same_cable (es1 ++ c :: es2) (es1 ++ mkCable (cb_from c) (cb_to c) (link_got (cb_link c) s k n u) :: es2).
Proof.
  intros es1 c es2 s k n u. induction es1 as [|a es1 IH]; cbn [app]; constructor.
  - repeat split.
  - apply same_refl.
  - repeat split.
  - exact IH.
Qed.

Lemma net_on : forall C dev0 es0 dev es, net C dev0 es0 -> net_from C (fun v q => v = dev0 /\ q = es0) dev es -> net C dev es.
Proof.
  intros C dev0 es0 dev es N M. unfold net in *. induction M as [dev es [-> ->]| | | | | |]; [exact N|eapply net_begin; eassumption|eapply net_send; eassumption|eapply net_receive; eassumption|
    eapply net_group; eassumption|eapply net_refused; eassumption|eapply net_other; eassumption].
Qed.

Lemma outlasting : forall C, CryptoOk C -> forall n dev es, net C dev es -> outlasts C n dev es.
Proof.
  intros C H n. induction n as [|n IH]; intros dev0 es0 N0; cbn [outlasts]; (split; [exact N0|]); [exact I|].
  intros dev es N1 S. pose proof (net_on C dev0 es0 dev es N0 N1) as N.
  intros d e rnd x w' (Nd & Np & K & F & Bs & Bc) L.
  assert (G : exists dev', (forall z, dev' z = dev_set dev d w' z) /\
     (net C dev' es \/
      exists es1 c es2 y m u, es = es1 ++ c :: es2 /\ sent_on c d e y /\ inner (nt_cipher y) = Some m /\ carries x m /\
        receivable (ln_par (cb_link c) (cb_role c d)) (nt_epoch y) (nt_counter y) /\ current_ratchet w' e u /\
        net C dev' (es1 ++ mkCable (cb_from c) (cb_to c) (link_got (cb_link c) (cb_role c d) (nt_epoch y) (nt_counter y) u) :: es2))).
  { destruct (w_shared (dev d)) eqn:Sh.
    - destruct (net_any_shared C H dev es d e x rnd w' N Nd Sh Np S K F L) as [G | (pm & E & U)]; [exact G|].
      destruct (Bs eq_refl pm E U).
    - destruct (net_any_bytes C H dev es d e x rnd w' N Nd Sh Np S K F L) as [G | (ct & E & U & X)]; [exact G|].
      destruct (Bc eq_refl ct E U) as (c & y & Ic & Sy & R & P). destruct (X c y Ic Sy R P). }
  destruct G as (dev' & Ed & [N' | (es1 & c & es2 & y & m & u & -> & _ & _ & _ & _ & _ & N')]).
  - exists dev', es. split; [exact Ed|]. split; [apply same_refl|]. apply IH. exact N'.
  - exists dev'. eexists. split; [exact Ed|]. split; [apply same_got|]. apply IH. exact N'.
Qed.
