(** Archived sessions: what promotion keeps (C34) and what the loop over them returns (C35);
    messages far ahead (C28). *)
From Verif Require Import M_Base M_Crypto M_Aes M_Curve M_Proto M_Message M_Ratchet M_State M_Store M_Session M_Group
  S_Crypto S_Message S_State S_Shape S_Ratchet S_Session S_Aes S_Api S_Send S_Group S_Conv S_Receive
  P_Base P_Proto P_Curve P_State P_Shape P_Ratchet P_Message P_Aes P_Chain P_Decrypt P_Receive P_Encrypt P_Record P_Prog
  P_Init P_Send P_Conv P_Bundle P_DecApi P_DecTop P_Replay.
From Coq Require Import ZifyBool ZifyNat ZifyN.
Local Open Scope nat_scope.

(** *** C34 *)
Lemma promoted : forall r s, wf_record r ->
  rc_current (rc_promote r s) = Some s /\
  rc_previous (rc_promote r s) =
    match rc_current r with Some c => last_n 40 (rc_previous r ++ [state_bytes c]) | None => rc_previous r end.
Proof. intros r s W. rewrite (promote_exact r s W). split; [reflexivity|]. cbn [rc_previous]. destruct (rc_current r); reflexivity. Qed.
Lemma promoted_old : forall r s l1 b l2, wf_record r -> rc_previous r = l1 ++ b :: l2 ->
  rc_current (rc_promote_old r (List.length l1) s) = Some s /\
  rc_previous (rc_promote_old r (List.length l1) s) =
    l1 ++ l2 ++ match rc_current r with Some c => [state_bytes c] | None => [] end.
Proof.
  intros r s l1 b l2 W E. unfold rc_promote_old. rewrite E, app_length. cbn [List.length].
  destruct (Nat.leb_spec (List.length l1 + S (List.length l2)) (List.length l1)); [lia|].
  pose proof (remove_wf r (List.length l1) W) as W'. rewrite E in W'.
  rewrite firstn_app, Nat.sub_diag, firstn_all, app_nil_r in *.
  replace (skipn (S (List.length l1)) (l1 ++ b :: l2)) with l2 in *
    by (rewrite skipn_app, skipn_all2 by lia; replace (S (List.length l1) - List.length l1) with 1 by lia; reflexivity).
  destruct (promoted _ s W') as [A B]. split; [exact A|]. rewrite B. cbn [rc_current rc_previous].
  destruct (rc_current r); [|rewrite app_nil_r; reflexivity].
  rewrite last_n_keep, keep_last_all, app_assoc; [reflexivity|].
  destruct W as (_ & L & _). rewrite E, app_length in L. rewrite !app_length. cbn [List.length] in *. lia.
Qed.

(** *** C35 *)
Lemma loop_dup : forall os i found, (forall o, In o os -> o <> Panic) -> In (Err EDuplicate) os -> loop_result i os found = Err EDuplicate.
Proof.
  intros os. induction os as [|o os IH]; intros i found NP I; [destruct I|]. destruct I as [->|I]; [reflexivity|].
  pose proof (NP o (or_introl eq_refl)) as N1. assert (NP' : forall o, In o os -> o <> Panic) by (intros; apply NP; right; auto).
  destruct o as [[pt s]|e|]; cbn [loop_result]; [auto| |contradiction]. destruct e; auto.
Qed.
Lemma attempts_in : forall C m rnd l os rest o, attempts C m rnd l os rest -> In o os -> exists s r1 r2, In s l /\ decrypt_session C r1 s m = (o, r2).
Proof.
  intros C m rnd l os rest o A. induction A as [|rnd s o' rnd1 l os rest D A IH]; intro I; [destruct I|]. destruct I as [<-|I].
  - exists s, rnd, rnd1. split; [left; reflexivity|exact D].
  - destruct (IH I) as (s' & r1 & r2 & I' & D'). exists s', r1, r2. split; [right; exact I'|exact D'].
Qed.
Lemma falls_through : forall C rnd r m, current_fails C rnd r m -> exists rnd',
  decrypt_record C rnd r m = (do l <- rc_previous_states r;
    match try_previous C rnd' 0 l m None with
    | (Ok (Some (i, s, pt)), _) => Ok (pt, rc_promote_old r i s)
    | (Ok None, _) => Err (EOther "decryption failed: invalid message")
    | (Err e, _) => Err e
    | (Panic, _) => Panic
    end).
Proof.
  intros C rnd r m F. unfold decrypt_record. destruct (rc_current r) as [s|] eqn:Ec; [|exists rnd; reflexivity].
  destruct (F s Ec) as (e & rest & D & Ne). rewrite D. exists rest. destruct e; try reflexivity. contradiction.
Qed.
Lemma duplicate_aborts : forall C rnd r m s, CryptoOk C -> wf_record r -> wf_signal m ->
  current_fails C rnd r m -> In (state_bytes s) (rc_previous r) -> wf_state s ->
  (forall rnd', fst (decrypt_session C rnd' s m) = Err EDuplicate) ->
  decrypt_record C rnd r m = Err EDuplicate.
Proof.
  intros C rnd r m s H W Wm F I Ws Ds. destruct (falls_through C rnd r m F) as (rnd' & ->).
  destruct (wf_record_parse r W) as (p & P & Fp & M & _). rewrite P. cbn [bind].
  destruct (attempts_total C m p rnd') as (os & rest & A). pose proof (try_previous_loop _ _ _ _ _ _ A 0 None) as T.
  rewrite loop_dup in T.
  - destruct (try_previous C rnd' 0 p m None) as [x q]. cbn [fst] in T. rewrite T. reflexivity.
  - intros o Io. destruct (attempts_in _ _ _ _ _ _ _ A Io) as (s' & r1 & r2 & Is & D). rewrite Forall_forall in Fp.
    intros ->. exact (decrypt_session_no_panic C r1 s' m r2 H (Fp s' Is) Wm D).
  - rewrite M in I. apply in_map_iff in I. destruct I as (s' & E & I). rewrite Forall_forall in Fp.
    assert (s' = s). { pose proof (wf_roundtrip s Ws) as R1. rewrite <- E, (wf_roundtrip s' (Fp s' I)) in R1. congruence. } subst s'.
    apply In_nth_error in I. destruct I as (j & Ej). destruct (attempts_nth _ _ _ _ _ _ _ _ A Ej) as (o & r1 & r2 & Eo & D).
    specialize (Ds r1). rewrite D in Ds. cbn [fst] in Ds. subst o. exact (nth_error_In _ _ Eo).
Qed.
(** At the API the duplicate is swallowed: no error, no plaintext. *)
Lemma duplicate_swallowed : forall C a rnd m w r c s remote, CryptoOk C -> wf_device w -> wf_signal m ->
  w_sess w a = Some r -> rc_current r = Some c -> ss_remote c = Byte.x05 :: remote -> trusts w a remote ->
  current_fails C rnd r m -> In (state_bytes s) (rc_previous r) -> wf_state s ->
  (forall rnd', fst (decrypt_session C rnd' s m) = Err EDuplicate) ->
  exists w', run0 (decrypt_message C a rnd (CSignal m)) w = (Ok [], w') /\ w_sess w' a = w_sess w a.
Proof.
  intros C a rnd m w r c s remote H [W WG] Wm Er Ec Es [T1 T2] F I Ws Ds. assert (Wr : wf_record r) by (eapply (proj1 W); exact Er).
  pose proof (duplicate_aborts C rnd r m s H Wr Wm F I Ws Ds) as D.
  assert (L : List.length remote = 32). { destruct (wf_remote c (proj1 Wr c Ec)) as (k & L & E & _). rewrite Es in E. injection E as ->. exact L. }
  eexists. split.
  - cbn [decrypt_message]. unfold run0. destruct (decrypt_signal_runs C a rnd m [] w) as [R _]. rewrite R. cbn [hd_fault tl]. rewrite Er.
    unfold signal_body. rewrite D. apply (signal_rest_completes a [] r w c remote Ec Es L T1).
  - cbn. rewrite addr_eqb_refl. auto.
Qed.

(** The restricted form: one archived session answers, every other one fails otherwise
    than by a duplicate. *)
Lemma archived_answers : forall C rnd r m l1 s l2 pt, CryptoOk C -> wf_record r -> wf_signal m ->
  current_fails C rnd r m -> rc_previous r = map state_bytes (l1 ++ s :: l2) -> Forall wf_state (l1 ++ s :: l2) ->
  (forall rnd', exists s', fst (decrypt_session C rnd' s m) = Ok (pt, s')) ->
  (forall x rnd', In x (l1 ++ l2) -> exists e, fst (decrypt_session C rnd' x m) = Err e /\ e <> EDuplicate) ->
  exists s' rnd' rest, decrypt_session C rnd' s m = (Ok (pt, s'), rest) /\
    decrypt_record C rnd r m = Ok (pt, rc_promote_old r (List.length l1) s').
Proof.
  intros C rnd r m l1 s l2 pt H W Wm F M0 F0 As Os. destruct (falls_through C rnd r m F) as (rnd0 & ->).
  destruct (wf_record_parse r W) as (p & P & Fp & M & _). rewrite P. cbn [bind].
  assert (p = l1 ++ s :: l2).
  { rewrite M0 in M. clear - M F0 Fp. revert p M Fp. generalize (l1 ++ s :: l2) as l, F0. clear. intros l F0.
    induction F0 as [|x l Wx F0 IH]; intros p M Fp; destruct p as [|y p]; try discriminate; [reflexivity|]. injection M as E M. inversion Fp; subst.
    f_equal; [|apply IH; auto]. pose proof (wf_roundtrip x Wx) as R. rewrite E, wf_roundtrip in R by auto. congruence. }
  subst p. clear M. destruct (attempts_total C m (l1 ++ s :: l2) rnd0) as (os & rest & A).
  assert (En : nth_error (l1 ++ s :: l2) (List.length l1) = Some s) by (rewrite nth_error_app2, Nat.sub_diag by lia; reflexivity).
  destruct (attempts_nth _ _ _ _ _ _ _ _ A En) as (o & r1 & r2 & Eo & D).
  destruct (As r1) as (s' & Es). rewrite D in Es. cbn [fst] in Es. subst o.
  exists s', r1, r2. split; [exact D|].
  pose proof (try_previous_loop _ _ _ _ _ _ A 0 None) as T.
  rewrite (loop_result_only os 0 None (List.length l1) s' pt Eo) in T.
  - destruct (try_previous C rnd0 0 _ m None) as [x q]. cbn [fst] in T. rewrite T. reflexivity.
  - intros j' o Ej Nj. assert (Lj : j' < List.length (l1 ++ s :: l2)) by (rewrite <- (attempts_length _ _ _ _ _ _ A); apply nth_error_Some; congruence).
    destruct (nth_error (l1 ++ s :: l2) j') as [x|] eqn:Ex; [|apply nth_error_None in Ex; lia].
    destruct (attempts_nth _ _ _ _ _ _ _ _ A Ex) as (o' & q1 & q2 & Eo' & D'). rewrite Ej in Eo'. injection Eo' as <-.
    destruct (Os x q1) as (e & E1 & E2); [|rewrite D' in E1; cbn [fst] in E1; exists e; auto].
    destruct (Nat.lt_ge_cases j' (List.length l1)).
    + rewrite nth_error_app1 in Ex by lia. apply in_or_app. left. exact (nth_error_In _ _ Ex).
    + rewrite nth_error_app2 in Ex by lia. destruct (j' - List.length l1) as [|q] eqn:Eq; [lia|]. cbn [nth_error] in Ex. apply in_or_app. right. exact (nth_error_In _ _ Ex).
Qed.
Lemma archived_receives : forall C a rnd m w r l1 s l2 pt remote, CryptoOk C -> wf_device w -> wf_signal m ->
  w_sess w a = Some r -> current_fails C rnd r m -> rc_previous r = map state_bytes (l1 ++ s :: l2) -> Forall wf_state (l1 ++ s :: l2) ->
  ss_remote s = Byte.x05 :: remote -> trusts w a remote ->
  (forall rnd', exists s', fst (decrypt_session C rnd' s m) = Ok (pt, s')) ->
  (forall x rnd', In x (l1 ++ l2) -> exists e, fst (decrypt_session C rnd' x m) = Err e /\ e <> EDuplicate) ->
  exists w' r' s', run0 (decrypt_message C a rnd (CSignal m)) w = (Ok pt, w') /\ w_sess w' a = Some r' /\
    rc_current r' = Some s' /\ ss_alice_base s' = ss_alice_base s /\
    rc_previous r' = map state_bytes (l1 ++ l2 ++ match rc_current r with Some c => [c] | None => [] end).
Proof.
  intros C a rnd m w r l1 s l2 pt remote H [W WG] Wm Er F M0 F0 Es [T1 T2] As Os. assert (Wr : wf_record r) by (eapply (proj1 W); exact Er).
  destruct (archived_answers C rnd r m l1 s l2 pt H Wr Wm F M0 F0 As Os) as (s' & r1 & r2 & D & R).
  assert (Ws : wf_state s) by (rewrite Forall_forall in F0; apply F0; apply in_elt).
  destruct (decrypt_session_inv _ _ _ _ _ _ _ H Ws Wm D) as (Ws' & (_ & Q1 & Q2 & Q3 & Q4 & Q5) & _).
  assert (L : List.length remote = 32). { destruct (wf_remote s Ws) as (k & L & E & _). rewrite Es in E. injection E as ->. exact L. }
  rewrite map_app in M0. cbn [map] in M0. pose proof (promoted_old r s' (map state_bytes l1) (state_bytes s) (map state_bytes l2) Wr M0) as [P1 P2].
  rewrite map_length in P1, P2. set (r' := rc_promote_old r (List.length l1) s') in *.
  assert (E1 : run0 (decrypt_message C a rnd (CSignal m)) w = (Ok pt, received_world w a remote r')).
  { cbn [decrypt_message]. unfold run0. destruct (decrypt_signal_runs C a rnd m [] w) as [Rn _]. rewrite Rn. cbn [hd_fault tl]. rewrite Er.
    unfold signal_body. rewrite R. fold r'. unfold pdo at 1. cbn [run exec_f fallible exec tl].
    match goal with |- run ?p [] ?w = _ => change (run p [] w) with (run0 p w) end.
    rewrite (signal_rest_completes a pt r' _ s' remote P1 (eq_trans Q2 Es) L); [reflexivity|]. destruct (w_shared w); exact T1. }
  exists (received_world w a remote r'), r', s'. split; [exact E1|]. split; [unfold received_world; cbn; rewrite addr_eqb_refl; reflexivity|].
  split; [exact P1|]. split; [congruence|]. rewrite P2, !map_app. destruct (rc_current r); reflexivity.
Qed.

(** *** C28 *)
Lemma far_refused : forall C rnd s m key i ks, wf_state s -> wf_signal m ->
  receiving_at s (sg_ratchet m) key i ks -> (i + 25000 < sg_counter m)%N -> ss_remote s <> ss_local s ->
  decrypt_session C rnd s m = (Err (EOther "message from too far in the future"), rnd).
Proof.
  intros C rnd s m key i ks W Wm R J N. destruct (receiving_chain _ _ _ _ _ R) as (c & F & Ek & _).
  exact (decrypt_too_far C rnd s c _ m W Wm F Ek J N).
Qed.
(** On a new chain the limit counts from 0. *)
Lemma far_new_refused : forall C rnd s m, CryptoOk C -> wf_state s -> wf_signal m ->
  ~ In (Byte.x05 :: sg_ratchet m) (map pc_ratchet (ss_receivers s)) -> (25000 < sg_counter m)%N -> ss_remote s <> ss_local s ->
  exists e, fst (decrypt_session C rnd s m) = Err e.
Proof.
  intros C rnd s m H W Wm Ni J Ne. destruct (decrypt_session C rnd s m) as [[[pt s']|e|] rest] eqn:D; cbn [fst].
  - destruct (decrypt_session_sound _ _ _ _ _ _ _ H W Wm D) as (mk & remote & local & [(c & k & I & Er & _)|(_ & [X|X] & _)] & _); [|lia|contradiction].
    exfalso. apply Ni. rewrite <- Er. apply in_map. exact I.
  - exists e. reflexivity.
  - exfalso. exact (decrypt_session_no_panic C rnd s m rest H W Wm D).
Qed.
(** A session with oneself has no limit. *)
Lemma self_unlimited : forall C rnd s m key i ks n local pt, CryptoOk C -> wf_state s ->
  receiving_at s (sg_ratchet m) key i ks -> ss_local s = Byte.x05 :: local -> ss_remote s = Byte.x05 :: local ->
  go_u32 n -> (i <= n)%N -> whisper C (chain_at C key (N.to_nat (n - i))) n (sg_ratchet m) local local pt m ->
  exists s', decrypt_session C rnd s m = (Ok (pt, s'), rnd).
Proof.
  intros C rnd s m key i ks n local pt H W R El Es G J Wh. destruct (receiving_ratchet_len _ _ _ _ _ W R) as (Lr & _).
  destruct (receiving_chain _ _ _ _ _ R) as (c & F & Ek & _). eexists.
  exact (decrypt_ahead C rnd s c _ n (sg_ratchet m) local local pt m H W Lr G Es El F Ek J (or_intror (eq_trans Es (eq_sym El))) Wh).
Qed.
