(** Sessions do not get lost (C69). *)
From Verif Require Import M_Base M_Crypto M_Aes M_Curve M_Proto M_Uuid M_Message M_Ratchet M_State M_Store M_Session M_Group
  S_Crypto S_Message S_State S_Shape S_Ratchet S_Session S_Aes S_Api S_Send S_Group S_Curve S_X3dh S_Receive S_Conv S_History S_Bundle S_Isolation S_Atomic S_Sessions
  P_Base P_Uuid P_Proto P_Curve P_State P_Shape P_Ratchet P_Message P_Aes P_Chain P_Decrypt P_Receive P_Encrypt P_Record P_Prog P_Api P_Archive
  P_Init P_Send P_Conv P_X3dh P_Conv2 P_Bundle P_DecApi P_DecTop P_DecMore P_Replay P_Trust P_CryptoTop P_History P_Frames P_Isolation P_Atomic P_CrashConv.
Local Open Scope nat_scope.

Lemma later_refl : forall s, later_state s s. Proof. repeat split. Qed.
Lemma still_refl : forall s r, state_in s r -> still_in s r. Proof. intros s r J. exists s. split; [exact J|apply later_refl]. Qed.
Lemma later_trans : forall a b c, later_state a b -> later_state b c -> later_state a c.
Proof. intros a b c (A1 & A2 & A3 & A4) (B1 & B2 & B3 & B4). repeat split; congruence. Qed.
Lemma still_trans : forall s r r', still_in s r -> (forall x, state_in x r -> still_in x r') -> still_in s r'.
Proof. intros s r r' (x & J & L) K. destruct (K x J) as (y & Jy & Ly). exists y. split; [exact Jy|eapply later_trans; eauto]. Qed.

Lemma set_state_keeps : forall r s s', rc_current r = Some s -> later_state s s' -> forall x, state_in x r -> still_in x (rc_set_state r s').
Proof.
  intros r s s' Ec L x [E|(b & J & P)].
  - rewrite Ec in E. injection E as <-. exists s'. split; [left; reflexivity|exact L].
  - apply still_refl. right. exists b. auto.
Qed.
Lemma record_keeps : forall C rnd r m pt r', CryptoOk C -> wf_record r -> wf_signal m -> decrypt_record C rnd r m = Ok (pt, r') ->
  forall x, state_in x r -> still_in x r'.
Proof.
  intros C rnd r m pt r' H W Wm E x Jx. unfold decrypt_record in E.
  assert (K : forall rnd0,
    (do l <- rc_previous_states r;
     match try_previous C rnd0 0 l m None with
     | (Ok (Some (i, s, pt)), _) => Ok (pt, rc_promote_old r i s)
     | (Ok None, _) => Err (EOther "decryption failed: invalid message")
     | (Err e, _) => Err e
     | (Panic, _) => Panic
     end) = Ok (pt, r') -> still_in x r').
  { intros rnd0 X. destruct (wf_record_parse r W) as (p & P & Fp & M & _). rewrite P in X. cbn [bind] in X.
    destruct (attempts_total C m p rnd0) as (os & rest & A).
    pose proof (try_previous_loop _ _ _ _ _ _ A 0 None) as T.
    destruct (try_previous C rnd0 0 p m None) as [[[[[i s'] pt']|]| |] q]; cbn [fst] in T; [|discriminate..].
    injection X as -> <-. symmetry in T. apply loop_result_found in T. destruct T as [T|[_ T]]; [discriminate|].
    rewrite Nat.sub_0_r in T.
    assert (Li : i < List.length p) by (rewrite <- (attempts_length _ _ _ _ _ _ A); apply nth_error_Some; congruence).
    destruct (nth_error p i) as [s|] eqn:Ep; [|apply nth_error_None in Ep; lia].
    destruct (attempts_nth _ _ _ _ _ _ _ _ A Ep) as (o & r1 & r2 & Eo & D). rewrite T in Eo. injection Eo as <-.
    assert (Ws : wf_state s) by (rewrite Forall_forall in Fp; apply Fp; eapply nth_error_In; eauto).
    destruct (decrypt_session_inv _ _ _ _ _ _ _ H Ws Wm D) as (Ws' & (S1 & S2 & S3 & _ & _ & S6) & _).
    destruct (nth_error_split p i Ep) as (l1 & l2 & Ep2 & Ll). subst i.
    assert (Mp : rc_previous r = map state_bytes l1 ++ state_bytes s :: map state_bytes l2) by (rewrite M, Ep2, map_app; reflexivity).
    pose proof (promoted_old r s' _ _ _ W Mp) as [Q1 Q2]. rewrite map_length in Q1, Q2.
    destruct Jx as [Ec|(b & J & Pb)].
    - apply still_refl. apply state_in_bytes; [apply W; exact Ec|]. right. rewrite Q2, Ec. apply in_or_app. right. apply in_or_app. right. left. reflexivity.
    - rewrite Mp in J. apply in_app_or in J. cbn [In] in J.
      assert (Oth : In b (map state_bytes l1) \/ In b (map state_bytes l2) -> still_in x (rc_promote_old r (List.length l1) s')).
      { intro O. apply still_refl. right. exists b. split; [|exact Pb]. rewrite Q2. apply in_or_app. destruct O as [O|O]; [left; exact O|right; apply in_or_app; left; exact O]. }
      destruct J as [J|[J|J]]; [auto| |auto]. subst b. rewrite wf_roundtrip in Pb by exact Ws. injection Pb as <-.
      exists s'. split; [left; exact Q1|repeat split; assumption]. }
  destruct (rc_current r) as [s|] eqn:Ec; [|exact (K _ E)].
  destruct (decrypt_session C rnd s m) as [[[pt' s']|e|] q] eqn:D; [| |discriminate].
  - injection E as -> <-. destruct (decrypt_session_inv _ _ _ _ _ _ _ H (proj1 W s Ec) Wm D) as (_ & (S1 & S2 & S3 & _ & _ & S6) & _).
    apply (set_state_keeps r s s' Ec); [repeat split; assumption|exact Jx].
  - destruct e; try (exact (K _ E)); discriminate.
Qed.
Lemma promote_keeps : forall r s x, wf_record r -> state_in x r -> still_in x (rc_promote r s) \/ oldest_of_full x r.
Proof.
  intros r s x W J. destruct (promoted r s W) as [_ P]. destruct J as [Ec|(b & J & Pb)].
  - left. apply still_refl. apply state_in_bytes; [apply W; exact Ec|]. right. rewrite P, Ec. unfold last_n. rewrite app_length. cbn [List.length].
    rewrite skipn_app. apply in_or_app. right. pose proof (proj1 (proj2 W)) as L. replace (List.length (rc_previous r) + 1 - 40 - List.length (rc_previous r)) with 0 by lia. left. reflexivity.
  - destruct (rc_current r) as [c|] eqn:Ec; [|left; apply still_refl; right; exists b; rewrite P; auto].
    pose proof (proj1 (proj2 W)) as L. destruct (Nat.eq_dec (List.length (rc_previous r)) 40) as [L40|L40].
    + destruct (rc_previous r) as [|b0 l] eqn:Er; [destruct J|]. destruct J as [<-|J].
      * right. split; [rewrite Er; exact L40|]. exists b0, l. auto.
      * left. apply still_refl. right. exists b. split; [|exact Pb]. rewrite P. unfold last_n. rewrite app_length. cbn [List.length] in *.
        replace (S (List.length l) + 1 - 40) with 1 by lia. cbn [skipn app]. apply in_or_app. left. exact J.
    + left. apply still_refl. right. exists b. split; [|exact Pb]. rewrite P. unfold last_n. rewrite app_length. cbn [List.length].
      replace (List.length (rc_previous r) + 1 - 40) with 0 by lia. cbn [skipn]. apply in_or_app. left. exact J.
Qed.

Lemma promote_keeps_current : forall r s x, wf_record r -> rc_current r = Some x -> still_in x (rc_promote r s).
Proof.
  intros r s x W Ec. destruct (promoted r s W) as [_ P].
  apply still_refl. apply state_in_bytes; [apply W; exact Ec|]. right. rewrite P, Ec. unfold last_n. rewrite app_length. cbn [List.length].
  rewrite skipn_app. apply in_or_app. right. pose proof (proj1 (proj2 W)) as L. replace (List.length (rc_previous r) + 1 - 40 - List.length (rc_previous r)) with 0 by lia. left. reflexivity.
Qed.
Lemma all_kept : forall c r r', (forall s, state_in s r -> still_in s r') -> sessions_kept c r r'.
Proof. intros c r r' K. split; [intros s E; apply K; left; exact E|left; apply K; assumption]. Qed.
Lemma promoted_kept : forall c r s, wf_record r -> opens_session c -> sessions_kept c r (rc_promote r s).
Proof.
  intros c r s W O. split; [intros x E; apply promote_keeps_current; auto|]. intros x J. destruct (promote_keeps r s x W J) as [K|K]; [left; exact K|right; auto].
Qed.
Lemma then_kept : forall c r r1 r2, sessions_kept c r r1 -> (forall s, state_in s r1 -> still_in s r2) -> sessions_kept c r r2.
Proof.
  intros c r r1 r2 [K1 K2] K. split; [intros x E; eapply still_trans; eauto|]. intros x J. destruct (K2 x J) as [Q|Q]; [left; eapply still_trans; eauto|right; exact Q].
Qed.
(** What a successful call makes of a session record. *)
Lemma success_keeps : forall C c w, CryptoOk C -> wf_device w -> wf_call c -> let '@Thread A p := start C c in
  forall fs x w' a r, run p fs w = (Ok x, w') -> w_sess w a = Some r ->
  exists r', w_sess w' a = Some r' /\ sessions_kept c r r'.
Proof.
  intros C c w H W Wc. pose proof (call_writes_scope C c) as Wr.
  assert (Oth : let '@Thread A p := start C c in forall fs (x : A) w' a r, run p fs w = (Ok x, w') -> w_sess w a = Some r ->
     (forall b, scope_of c = OwnSession b -> a <> b) -> exists r', w_sess w' a = Some r' /\ sessions_kept c r r').
  { destruct (start C c) as [A p]. intros fs x w' a r E Er Sc. destruct (Wr fs w) as [(_ & _ & _ & _ & _ & O) _]. rewrite E in O. cbn [snd] in O.
    exists r. split; [|apply all_kept; intros; apply still_refl; assumption]. rewrite <- Er. destruct (scope_of c) as [b|b d]; [apply O; apply Sc; reflexivity|]. destruct O as [O _]. rewrite O. reflexivity. }
  destruct c as [b rnd bd|b pt|b rnd m|b m|b d sr rnd|b d rnd pt|b m]; cbn [start] in *; try (intros fs x w' a r E Er; apply (Oth fs x w' a r E Er); discriminate).
  - intros fs x w' a r E Er. destruct (addr_eqb a b) eqn:Eab; [apply addr_eqb_eq in Eab; subst b|
      apply (Oth fs x w' a r E Er); intros b' Eb; injection Eb as <-; intros ->; rewrite addr_eqb_refl in Eab; discriminate].
    destruct x. destruct (bundle_success _ _ _ _ _ _ _ E) as (ti & ts & bp & rnd1 & s0 & rest & _ & _ & _ & _ & _ & _ & Ew).
    exists (rc_promote (loaded (w_sess w a)) (bundle_state bd s0 (kp_pub bp) (w_reg w))).
    split; [rewrite Ew; unfold bundle_world; destruct (_ && _)%bool; cbn; rewrite addr_eqb_refl; reflexivity|].
    rewrite Er. cbn [loaded]. apply promoted_kept; [exact (proj1 (proj1 W) _ _ Er)|exact I].
  - intros fs x w' a r E Er. destruct (addr_eqb a b) eqn:Eab; [apply addr_eqb_eq in Eab; subst b|
      apply (Oth fs x w' a r E Er); intros b' Eb; injection Eb as <-; intros ->; rewrite addr_eqb_refl in Eab; discriminate].
    destruct (encrypt_trusted _ _ _ _ _ _ _ H W E) as (r2 & s2 & _ & Er2 & Ec & _). rewrite Er in Er2. injection Er2 as <-.
    destruct (encrypt_state_exact C s2 pt H (proj1 (proj1 (proj1 W) _ _ Er) _ Ec)) as (sc' & k & rt & lo & rem & m & out & _ & _ & _ & _ & _ & _ & _ & _ & _ & _ & En).
    destruct (encrypt_success _ _ _ _ _ _ _ _ _ _ _ _ Er Ec En E) as (_ & _ & ->). eexists. split; [cbn; rewrite addr_eqb_refl; reflexivity|].
    apply all_kept. apply (set_state_keeps r s2 _ Ec). repeat split.
  - intros fs x w' a r E Er. destruct (addr_eqb a b) eqn:Eab; [apply addr_eqb_eq in Eab; subst b|
      apply (Oth fs x w' a r E Er); intros b' Eb; injection Eb as <-; intros ->; rewrite addr_eqb_refl in Eab; discriminate].
    assert (Wr0 : wf_record r) by (apply (proj1 (proj1 W) _ _ Er)).
    destruct m as [m|m|m|m]; cbn [decrypt_message] in E; try discriminate.
    + destruct (decrypt_signal_runs C a rnd m fs w) as [R _]. rewrite R in E. destruct (hd_fault fs); [|discriminate..]. rewrite Er in E. cbn [signal_body] in E.
      destruct (decrypt_record C rnd r m) as [[pt r']|e|] eqn:D; [| |discriminate].
      * unfold pdo at 1 in E. cbn [run exec_f fallible exec] in E.
        destruct (signal_rest_inv _ _ _ _ _ _ _ E) as (_ & s0 & rid & _ & _ & _ & ->). exists r'. split; [cbn; rewrite addr_eqb_refl; reflexivity|].
        apply all_kept. exact (record_keeps C rnd r m pt r' H Wr0 Wc D).
      * destruct (signal_rest_inv _ _ _ _ _ _ _ E) as (_ & s0 & rid & _ & _ & _ & ->). exists r. split; [cbn; rewrite addr_eqb_refl; reflexivity|]. apply all_kept. intros. apply still_refl. assumption.
    + destruct (decrypt_prekey_inv _ _ _ _ _ _ _ _ E) as (r1 & r2 & id & w1 & _ & V & Dr & ->). exists r2. split; [apply prekey_done_sess|].
      rewrite Er in V. cbn [loaded] in V. destruct V as [(_ & -> & _)|(_ & _ & s1 & B & -> & _)].
      * apply all_kept. exact (record_keeps C rnd r _ x r2 H Wr0 (wf_prekey_inner m Wc) Dr).
      * eapply then_kept; [apply (promoted_kept _ r s1 Wr0); exact I|]. apply (record_keeps C rnd _ _ x r2 H) with (3 := Dr); [|apply wf_prekey_inner; exact Wc].
        apply promote_wf; [exact Wr0|]. eapply bob_session_wf; [exact H|apply W|exact Wc|exact B].
Qed.
Theorem session_kept : forall C c w, CryptoOk C -> wf_device w -> wf_call c -> let '@Thread A p := start C c in
  forall w' a r, (exists fs x, run p fs w = (Ok x, w')) \/ (w_shared w = false /\ leaves p w w') ->
  w_sess w a = Some r -> exists r', w_sess w' a = Some r' /\ sessions_kept c r r'.
Proof.
  intros C c w H W Wc. pose proof (success_keeps C c w H W Wc) as Su. pose proof (fun w' Sh => leaves_atomic C c w w' Sh) as At.
  destruct (start C c) as [A p]. intros w' a r [(fs & x & E)|[Sh Lv]] Er; [exact (Su fs x w' a r E Er)|].
  destruct (At w' Sh Lv) as [[[U _] _]|[(x & Ox) [Sr _]]].
  - exists r. rewrite U. split; [exact Er|apply all_kept; intros; apply still_refl; assumption].
  - rewrite Sr. apply (Su [] x _ a r); [|exact Er]. unfold run0 in *. destruct (run p [] w) as [y w1]. cbn [fst snd] in *. subst y. reflexivity.
Qed.
