(** Which calls leave a member's state for a channel alone. *)
From Verif Require Import M_Base M_Crypto M_Aes M_Curve M_Proto M_Uuid M_Message M_Ratchet M_State M_Store M_Session M_Group
  S_Crypto S_Message S_State S_Shape S_Ratchet S_Session S_Curve S_Aes S_Wire S_Uuid S_Api S_Group S_GroupMsg S_Isolation S_X3dh
  P_Base P_Group P_Api P_Isolation P_History P_GroupMsg P_Member P_Keep P_GroupSend P_GroupTop.
From Coq Require Import ZifyBool ZifyNat ZifyN.
Local Open Scope nat_scope.

Lemma kept_elsewhere : forall C c fs w a d chain s, scope_of c <> OwnGroup a d -> let '@Thread A p := start C c in
  follows w a d chain s -> follows (snd (run p fs w)) a d chain s.
Proof.
  intros C c fs w a d chain s N. pose proof (call_writes_scope C c fs w) as Q. destruct (start C c) as [A p]. destruct Q as [Q _].
  intros (r & E & J). exists r. split; [|exact J]. destruct Q as (_ & _ & _ & _ & _ & Q). destruct (scope_of c) as [b|b e].
  - destruct Q as [_ ->]. exact E.
  - destruct Q as (_ & _ & _ & Q). rewrite Q; [exact E|]. intro X. apply N. injection X as <- <-. reflexivity.
Qed.
Lemma gr_set_other : forall chain s' r x, In x r -> gs_chain x <> chain -> In x (gr_set chain s' r).
Proof.
  intros chain s' r x. induction r as [|y r IH]; intros J Nx; [exact J|]. cbn [gr_set]. destruct (N.eqb_spec chain (gs_chain y)) as [E|E].
  - destruct J as [->|J]; [congruence|]. right. exact J.
  - destruct J as [->|J]; [left; reflexivity|]. right. auto.
Qed.
Lemma kept_other_chain : forall C a m fs w d chain s, wf_device w -> (sm_dist m, sm_chain m) <> (d, chain) ->
  follows w a d chain s -> follows (snd (run (gdecrypt C a m) fs w)) a d chain s.
Proof.
  intros C a m fs w d chain s W N Fo. destruct (distid_eqb (sm_dist m) d) eqn:Q.
  2: { apply (kept_elsewhere C (CGDecrypt a m) fs w a d chain s); [|exact Fo]. cbn. intro X. injection X as X. rewrite X, distid_eqb_refl in Q. discriminate. }
  apply distid_eqb_spec in Q. subst d.
  destruct (gdecrypt_cases C a m fs w W) as [(-> & _)|(r & s0 & key & Er & Ef & Wr & Ws & _ & _ & _ & Eq & _)]; [exact Fo|].
  destruct Fo as (r1 & E1 & J & Ec). rewrite Er in E1. injection E1 as <-.
  assert (G : forall wt, follows (set_group wt a (sm_dist m) (gr_set (sm_chain m) (gnext C s0 m) r)) a (sm_dist m) chain s).
  { intro wt. eexists. split; [apply group_set_same|]. split; [|exact Ec]. apply gr_set_other; [exact J|]. congruence. }
  assert (G0 : follows w a (sm_dist m) chain s) by (exists r; auto).
  rewrite Eq. cbv zeta. destruct (gresult C s0 m) as [pt| |]; [destruct (hd_fault (tl (tl fs)))| |]; cbn [snd];
    try apply G; destruct (w_shared w); try apply G; exact G0.
Qed.
Lemma kept_redistributed : forall a m fs w d chain s, wf_device w -> wf_dist m ->
  ((dm_dist m = d /\ dm_chain m = chain /\ gs_pub s = Byte.x05 :: dm_signing m) \/
   (dm_chain m <> chain /\ List.length (held w a d) < 5)) ->
  follows w a d chain s -> follows (snd (run (process_dist a m) fs w)) a d chain s.
Proof.
  intros a m fs w d chain s W Wm Hc Fo. destruct (distid_eqb (dm_dist m) d) eqn:Q.
  2: { apply (kept_elsewhere (mkCrypto (fun _ _ => []) (fun _ => []) (fun _ _ => []) (fun _ _ => []) (fun _ _ => []) (fun _ => []) (fun _ _ _ => false))
          (CGProcess a m) fs w a d chain s); [|exact Fo]. cbn. intro X. injection X as X. rewrite X, distid_eqb_refl in Q. discriminate. }
  apply distid_eqb_spec in Q. subst d. destruct (redistribution a m fs w W Wm) as (r' & R & _ & Hw & _).
  destruct Hw as [Hw| ->]; [|exact Fo]. exists r'. split; [exact Hw|]. destruct Fo as (r & Er & J & Ec). split; [|exact Ec].
  destruct (proj2 W _ _ _ Er) as (_ & ND & _). unfold held in *. rewrite Er in *.
  destruct R as [l1 e l2 E1 E2|l1 e l2 E1 E2|r0 N1 L|o r0 N1 L].
  - apply in_app_or in J. rewrite in_app_iff, in_app_iff. destruct J as [J|[->|J]]; auto. right; right; left; reflexivity.
  - apply in_app_or in J. rewrite in_app_iff, in_app_iff. destruct J as [J|[->|J]]; auto. exfalso.
    destruct Hc as [(_ & _ & X)|(X & _)]; [contradiction|congruence].
  - apply in_or_app. auto.
  - apply in_or_app. left. exfalso. destruct Hc as [(_ & X & _)|(_ & X)]; [|lia]. apply N1. rewrite X, <- Ec. apply in_map. exact J.
Qed.
