(** The sending theorems (C20, C41, C42, C43). *)
From Verif Require Import M_Base M_Crypto M_Aes M_Curve M_Proto M_Message M_Ratchet M_State M_Store M_Session M_Group
  S_Crypto S_Message S_State S_Shape S_Ratchet S_Session S_Aes S_Api S_Send S_Group
  P_Base P_Proto P_Curve P_State P_Shape P_Ratchet P_Message P_Aes P_Chain P_Decrypt P_Receive P_Encrypt P_Record P_Prog P_Send.
From Coq Require Import ZifyBool ZifyNat ZifyN Sorted.
Local Open Scope nat_scope.

Lemma framed_inner : forall s local m c, framed s local m c -> inner c = Some m.
Proof.
  intros s local m c F. unfold framed in F. destruct (ss_pending s) as [p|]; [|subst; reflexivity].
  destruct F as (base & _ & _ & ->). reflexivity.
Qed.
Lemma device_sess : forall C w a s ratchet key i, wf_world w -> device_at w a s ratchet key i ->
  sess_at C w a s /\ sending_at s ratchet key i.
Proof. intros C w a s ratchet key i (W & _) (r & E & Ec & At). split; [|exact At]. exists r. split; [exact E|]. split; [eapply W; exact E|exact Ec]. Qed.

Lemma forall2_nth : forall {A B} (P : A -> B -> Prop) l k, Forall2 P l k -> forall i x, nth_error l i = Some x ->
  exists y, nth_error k i = Some y /\ P x y.
Proof.
  intros A B P l k F. induction F as [|x y l k H F IH]; intros [|i] z E; cbn in E; try discriminate.
  - injection E as <-. exists y. auto.
  - apply IH in E. exact E.
Qed.
Lemma forall2_len : forall {A B} (P : A -> B -> Prop) l k, Forall2 P l k -> List.length l = List.length k.
Proof. intros A B P l k F. induction F; cbn; auto. Qed.
Lemma sorted_nth : forall js i j x y, StronglySorted lt js -> i < j -> nth_error js i = Some x -> nth_error js j = Some y -> x < y.
Proof.
  intros js. induction js as [|z js IH]; intros [|i] [|j] x y So L Ex Ey; cbn in *; try discriminate; try lia.
  - injection Ex as <-. inversion So as [|? ? S1 S2]; subst. rewrite Forall_forall in S2. apply S2. eapply nth_error_In. exact Ey.
  - inversion So; subst. apply (IH i j x y); auto. lia.
Qed.

Lemma consecutive : forall C a w w' s ratchet key i l, CryptoOk C -> wf_device w ->
  device_at w a s ratchet key i -> sends_ok C a w l w' -> (i + N.of_nat (List.length l) < 2 ^ 32)%N ->
  (forall j pt c, nth_error l j = Some (pt, c) -> exists m local remote,
     inner c = Some m /\ sg_ratchet m = ratchet /\ sg_counter m = (i + N.of_nat j)%N /\
     ss_local s = Byte.x05 :: local /\ ss_remote s = Byte.x05 :: remote /\
     whisper C (chain_at C key j) (i + N.of_nat j) ratchet local remote pt m) /\
  exists s', device_at w' a s' ratchet (chain_at C key (List.length l)) (i + N.of_nat (List.length l)).
Proof.
  intros C a w w' s ratchet key i l H [W _] D S L. destruct (device_sess C w a s ratchet key i W D) as [D1 At].
  apply sends_ok_sends in S.
  destruct (sends_positions C a s ratchet key i _ w l w' H S 0 s D1) as [(js & F & So & Rg) (j' & s' & R & (r' & Er' & _ & Ec') & _ & At')].
  - unfold same_but_chain. auto 10.
  - cbn [Nat.iter chain_at]. rewrite N.add_0_r. exact At.
  - cbn [Nat.add]. exact L.
  - pose proof (sorted_range js 0 _ So Rg (eq_sym (forall2_len _ _ _ F))) as E. split.
    + intros j pt c Ej. destruct (forall2_nth _ _ _ F j _ Ej) as (p & Ep & m & local & remote & A1 & A2 & A3 & A4).
      assert (p = j).
      { rewrite E in Ep. assert (Lj : j < List.length l) by (apply nth_error_Some; congruence).
        rewrite (nth_error_nth' _ 0) in Ep by (rewrite seq_length; exact Lj). rewrite seq_nth in Ep by exact Lj. injection Ep as <-. reflexivity. }
      subst p. cbn [fst snd] in *. destruct (whisper_fields _ _ _ _ _ _ _ _ A3) as (_ & B1 & B2).
      exists m, local, remote. rewrite (framed_inner _ _ _ _ A4). auto 10.
    + assert (j' = List.length l) by lia. subst j'. exists s', r'. auto.
Qed.

Lemma never_repeated : forall C a w w' s ratchet key i n l, CryptoOk C -> wf_device w ->
  device_at w a s ratchet key i -> sends C a n w l w' -> (i + N.of_nat n < 2 ^ 32)%N ->
  (forall j pt c, nth_error l j = Some (pt, c) -> exists m, inner c = Some m /\ sg_ratchet m = ratchet /\
     (i <= sg_counter m < i + N.of_nat n)%N) /\
  (forall j1 j2 pt1 c1 pt2 c2 m1 m2, j1 < j2 ->
     nth_error l j1 = Some (pt1, c1) -> nth_error l j2 = Some (pt2, c2) ->
     inner c1 = Some m1 -> inner c2 = Some m2 -> (sg_counter m1 < sg_counter m2)%N).
Proof.
  intros C a w w' s ratchet key i n l H [W _] D S L. destruct (device_sess C w a s ratchet key i W D) as [D1 At].
  destruct (sends_positions C a s ratchet key i _ w l w' H S 0 s D1) as [(js & F & So & Rg) _].
  - unfold same_but_chain. auto 10.
  - cbn [Nat.iter chain_at]. rewrite N.add_0_r. exact At.
  - cbn [Nat.add]. exact L.
  - assert (X : forall j pt c, nth_error l j = Some (pt, c) -> exists p m, nth_error js j = Some p /\ inner c = Some m /\
        sg_ratchet m = ratchet /\ sg_counter m = (i + N.of_nat p)%N /\ p < n).
    { intros j pt c Ej. destruct (forall2_nth _ _ _ F j _ Ej) as (p & Ep & m & local & remote & A1 & A2 & A3 & A4).
      destruct (whisper_fields _ _ _ _ _ _ _ _ A3) as (_ & B1 & B2). exists p, m. cbn [snd] in A4. rewrite (framed_inner _ _ _ _ A4).
      rewrite Forall_forall in Rg. pose proof (Rg p (nth_error_In _ _ Ep)). repeat (split; auto). lia. }
    split.
    + intros j pt c Ej. destruct (X j pt c Ej) as (p & m & _ & A & B & E & Lp). exists m. split; [exact A|]. split; [exact B|]. lia.
    + intros j1 j2 pt1 c1 pt2 c2 m1 m2 Lt E1 E2 I1 I2.
      destruct (X _ _ _ E1) as (p1 & x1 & P1 & A1 & _ & B1 & _). destruct (X _ _ _ E2) as (p2 & x2 & P2 & A2 & _ & B2 & _).
      rewrite I1 in A1. injection A1 as <-. rewrite I2 in A2. injection A2 as <-.
      pose proof (sorted_nth _ _ _ _ _ So Lt P1 P2). lia.
Qed.

(** Sending always works on a device that trusts the peer. *)
Lemma send_works : forall C a w r s remote pts, CryptoOk C -> wf_world w ->
  w_sess w a = Some r -> rc_current r = Some s -> ss_remote s = Byte.x05 :: remote ->
  w_policy w a (w_ident w a) remote Sending = true -> w_policy w a (Some remote) remote Sending = true ->
  exists l w', sends_ok C a w l w' /\ map fst l = pts.
Proof.
  intros C a w r s remote pts H (W & _). specialize (W a). revert w r s W. induction pts as [|pt pts IH]; intros w r s W Er Ec Es T1 T2.
  - exists [], w. split; [constructor|reflexivity].
  - specialize (W r Er). pose proof (proj1 W s Ec) as Ws.
    destruct (encrypt_state_exact C s pt H Ws) as (sc & k & rt & local & rem & m & out & A1 & A2 & A3 & A4 & A5 & A6 & A7 & A8 & A9 & A10 & A11).
    rewrite Es in A6. injection A6 as <-.
    pose proof (encrypt_completes C a pt r s _ _ _ w Er Ec A11 T1) as R.
    destruct (encrypt_state_wf _ _ _ _ _ _ H Ws A11) as (Ws' & _).
    set (s' := with_sender _ _) in *. set (w1 := set_sess _ _ _) in R.
    assert (P1 : w_policy w1 = w_policy w) by (unfold w1; destruct (w_shared w); reflexivity).
    assert (P2 : w_ident w1 a = Some remote) by (unfold w1; cbn; rewrite addr_eqb_refl; reflexivity).
    assert (P3 : w_sess w1 a = Some (rc_set_state r s')) by (unfold w1; cbn; rewrite addr_eqb_refl; reflexivity).
    destruct (IH w1 (rc_set_state r s') s') as (l & w' & S & M).
    + intros r0 E0. rewrite P3 in E0. injection E0 as <-. apply set_state_wf; auto.
    + exact P3.
    + reflexivity.
    + exact Es.
    + rewrite P1, P2. exact T2.
    + rewrite P1. exact T2.
    + exists ((pt, out) :: l), w'. split; [|cbn; f_equal; exact M].
      econstructor; [|exact S]. exact R.
Qed.

(** C42 *)
Lemma persisted : forall C a pt fs w c w' s ratchet key i, CryptoOk C -> wf_device w ->
  device_at w a s ratchet key i -> run (encrypt_message C a pt) fs w = (Ok c, w') ->
  (exists m, inner c = Some m /\ sg_ratchet m = ratchet /\ sg_counter m = i) /\
  exists s', device_at w' a s' ratchet (c_hmac C key [Byte.x02]) ((i + 1) mod 2 ^ 32).
Proof.
  intros C a pt fs w c w' s ratchet key i H [W _] D E. destruct (device_sess C w a s ratchet key i W D) as [D1 At].
  destruct (one_attempt C a w (Some (pt, c)) w' s ratchet key i H (at_sent C a pt fs w c w' E) D1 At)
    as (s1 & (r1 & E1 & _ & Ec1) & _ & At1 & m & local & remote & _ & _ & _ & Wh & Fr & _).
  destruct (whisper_fields _ _ _ _ _ _ _ _ Wh) as (_ & B1 & B2). split.
  - exists m. rewrite (framed_inner _ _ _ _ Fr). auto.
  - exists s1, r1. auto.
Qed.
(** Nothing of a chain position is visible to the caller before it is stored: at every
    crash point the stored session is either the old one or the advanced one. *)
Lemma crash_points : forall C a pt fs w n s ratchet key i, CryptoOk C -> wf_device w ->
  device_at w a s ratchet key i ->
  exists s', device_at (crash n (encrypt_message C a pt) fs w) a s' ratchet key i \/
             device_at (crash n (encrypt_message C a pt) fs w) a s' ratchet (c_hmac C key [Byte.x02]) ((i + 1) mod 2 ^ 32).
Proof.
  intros C a pt fs w n s ratchet key i H [W _] D. destruct (device_sess C w a s ratchet key i W D) as [D1 At].
  destruct (one_attempt C a w None _ s ratchet key i H (at_crashed C a pt fs w n) D1 At) as (s1 & (r1 & E1 & _ & Ec1) & _ & X).
  exists s1. destruct X as [X|X]; [left|right]; exists r1; auto.
Qed.

(** C41 *)
Lemma failed_copying : forall C a pt fs w e w', w_shared w = false -> ~ In FAfter fs ->
  run (encrypt_message C a pt) fs w = (Err e, w') -> w_sess w' = w_sess w.
Proof.
  intros C a pt fs w e w' Sh NF E.
  assert (F : forall k, match nth_error fs k with Some FAfter => False | _ => True end).
  { intro k. destruct (nth_error fs k) as [[]|] eqn:Q; auto. apply NF. eapply nth_error_In. exact Q. }
  assert (G : forall k, hd_fault (Nat.iter k (@tl fault) fs) <> FAfter).
  { intros k Q. apply NF. clear - Q. revert fs Q. induction k as [|k IH]; intros fs Q.
    - destruct fs as [|f fs]; cbn in Q; [discriminate|]. left. exact Q.
    - replace (Nat.iter (S k) (@tl fault) fs) with (Nat.iter k (@tl fault) (tl fs)) in Q.
      + apply IH in Q. destruct fs; [destruct Q|right; exact Q].
      + clear. induction k as [|k IH]; [reflexivity|]. cbn [Nat.iter nat_rect] in *. f_equal. exact IH. }
  unfold encrypt_message, pdo at 1 in E. cbn [run exec_f fallible exec] in E.
  pose proof (G 0) as G0. pose proof (G 1) as G1. pose proof (G 2) as G2. pose proof (G 3) as G3. pose proof (G 4) as G4.
  cbn [Nat.iter nat_rect] in *.
  destruct (hd_fault fs); [|cbn [run] in E; injection E as <- <-; reflexivity|congruence].
  destruct (w_sess w a) as [r|]; [|cbn [run] in E; injection E as <- <-; reflexivity].
  destruct (rc_current r) as [s|]; [|cbn [run] in E; injection E as <- <-; reflexivity].
  destruct (encrypt_state C s pt) as [[[msg s'] rid]|e0|]; cbn [plift] in E;
    [|cbn [run] in E; injection E as <- <-; reflexivity|cbn [run] in E; discriminate].
  unfold pdo in E. cbn [run exec_f fallible exec] in E. rewrite Sh in E.
  destruct (hd_fault (tl (tl fs))); cbn [snd] in E; [|cbn [run] in E; injection E as <- <-; reflexivity|congruence].
  destruct (w_policy w a (w_ident w a) rid Sending); cbn [negb] in E; [|cbn [run] in E; injection E as <- <-; reflexivity].
  cbn [run exec_f fallible exec] in E.
  destruct (hd_fault (tl (tl (tl fs)))); cbn [snd] in E; [|cbn [run] in E; injection E as <- <-; reflexivity|congruence].
  cbn [run exec_f fallible exec] in E.
  destruct (hd_fault (tl (tl (tl (tl fs))))); cbn [snd] in E; [|cbn [run] in E; injection E as <- <-; reflexivity|congruence].
  cbn [run] in E. discriminate.
Qed.
Lemma failed_shared : forall C a pt fs w s ratchet key i, CryptoOk C -> wf_device w -> w_shared w = true ->
  hd_fault fs = FNone -> device_at w a s ratchet key i ->
  exists s', device_at (snd (run (encrypt_message C a pt) fs w)) a s' ratchet (c_hmac C key [Byte.x02]) ((i + 1) mod 2 ^ 32).
Proof.
  intros C a pt fs w s ratchet key i H [(W & _) _] Sh Hf (r & Er & Ec & sc & k & Es & Ert & Ek & <- & <-).
  destruct (encrypt_state_exact C s pt H (proj1 (W a r Er) s Ec)) as (sc' & k' & rt & local & remote & m & out & A1 & A2 & A3 & A4 & A5 & A6 & A7 & A8 & A9 & A10 & A11).
  rewrite Es in A1. injection A1 as <-. rewrite Ek in A2. injection A2 as <-. rewrite Ert in A3. injection A3 as <-.
  destruct (encrypt_runs C a pt r s _ _ _ fs w Er Ec A11) as [R _]. rewrite R, Hf. unfold after_load, pdo at 1.
  cbn [run exec_f fallible exec]. rewrite Sh. set (s' := with_sender _ _) in *.
  assert (Q : pall (writes_only a (rc_set_state r s')) any_ans
     (pdo (OIsTrusted a remote Sending) (fun trusted => if negb trusted then PRet (Err (EUntrusted a))
       else pdo (OStoreIdentity a remote) (fun _ => pdo (OStoreSession a (rc_set_state r s')) (fun _ => PRet (Ok out)))))).
  { pose proof (after_load_writes C a r out s' remote) as [_ X]. apply (X (Ok tt)). constructor. }
  destruct (writes_only_run a _ _ Q (tl (tl fs)) (set_sess w a (rc_set_state r s'))) as [[X|X] _];
    [cbn [w_sess set_sess] in X; rewrite addr_eqb_refl in X|];
    (exists s', (rc_set_state r s'); split; [exact X|]; split; [reflexivity|];
     eexists _, _; unfold s'; cbn [ss_sender with_sender]; split; [reflexivity|]; cbn; auto).
Qed.
(** Hence any failure after the record was loaded loses a message key. *)
Lemma failed_untrusted : forall C a pt w s ratchet key i remote, CryptoOk C -> wf_device w ->
  device_at w a s ratchet key i -> ss_remote s = Byte.x05 :: remote ->
  w_policy w a (w_ident w a) remote Sending = false ->
  fst (run0 (encrypt_message C a pt) w) = Err (EUntrusted a).
Proof.
  intros C a pt w s ratchet key i rem H [(W & _) _] (r & Er & Ec & _) Es T. unfold run0.
  destruct (encrypt_state_exact C s pt H (proj1 (W a r Er) s Ec)) as (sc' & k' & rt & local & remote & m & out & A1 & A2 & A3 & A4 & A5 & A6 & A7 & A8 & A9 & A10 & A11).
  rewrite Es in A6. injection A6 as <-.
  destruct (encrypt_runs C a pt r s _ _ _ [] w Er Ec A11) as [R _]. rewrite R. cbn [hd_fault tl].
  unfold after_load, pdo at 1. cbn [run exec_f fallible exec hd_fault tl]. unfold pdo at 1. cbn [run exec_f fallible exec hd_fault tl].
  set (w1 := if w_shared w then _ else w) in *.
  assert (P : w_policy w1 = w_policy w /\ w_ident w1 = w_ident w) by (unfold w1; destruct (w_shared w); auto).
  destruct P as [P1 P2]. rewrite P1, P2, T. reflexivity.
Qed.

(** C43 *)
Lemma concurrent : forall C a w s ratchet key i remote pt1 pt2, CryptoOk C -> wf_device w ->
  device_at w a s ratchet key i -> ss_remote s = Byte.x05 :: remote ->
  w_policy w a (w_ident w a) remote Sending = true -> w_policy w a (Some remote) remote Sending = true ->
  exists c1 c2 w' m1 m2 local,
    run2 [true; false] (encrypt_message C a pt1) (encrypt_message C a pt2) w = (Ok c1, Ok c2, w') /\
    inner c1 = Some m1 /\ inner c2 = Some m2 /\
    sg_ratchet m1 = ratchet /\ sg_ratchet m2 = ratchet /\ sg_counter m1 = i /\ sg_counter m2 = i /\
    whisper C key i ratchet local remote pt1 m1 /\ whisper C key i ratchet local remote pt2 m2.
Proof.
  intros C a w s ratchet key i rem pt1 pt2 H [(W & _) _] (r & Er & Ec & sc & k & Es & Ert & Ek & <- & <-) Erem T1 T2.
  assert (Enc : forall pt, exists m local out s', ss_local s = pub_bytes local /\
    whisper C (pck_key k) (pck_index k) ratchet local rem pt m /\ framed s local m out /\
    encrypt_state C s pt = Ok (out, s', rem)).
  { intro pt. destruct (encrypt_state_exact C s pt H (proj1 (W a r Er) s Ec)) as (sc' & k' & rt & local & remote & m & out & A1 & A2 & A3 & A4 & A5 & A6 & A7 & A8 & A9 & A10 & A11).
    rewrite Es in A1. injection A1 as <-. rewrite Ek in A2. injection A2 as <-. rewrite Ert in A3. injection A3 as <-.
    rewrite Erem in A6. injection A6 as <-. exists m, local, out. eexists. split; [exact A5|]. split; [exact A9|]. split; [exact A10|]. exact A11. }
  destruct (Enc pt1) as (m1 & local & c1 & s1 & L1 & Wh1 & F1 & X1). destruct (Enc pt2) as (m2 & local2 & c2 & s2 & L2 & Wh2 & F2 & X2).
  rewrite L1 in L2. injection L2 as <-.
  assert (Run : forall pt c s', encrypt_state C s pt = Ok (c, s', rem) ->
    forall w0, pstep (encrypt_message C a pt) FNone w = (after_load C a r c s' rem, w) /\
     (w_policy w0 a (w_ident w0 a) rem Sending = true -> exists w', run0 (after_load C a r c s' rem) w0 = (Ok c, w') /\
        w_policy w' = w_policy w0 /\ w_ident w' a = Some rem)).
  { intros pt c s' X w0. split.
    - unfold encrypt_message, pdo at 1. cbn [pstep exec_f fallible exec]. rewrite Er, Ec, X. reflexivity.
    - intro T. unfold after_load, run0, pdo. cbn [run exec_f fallible exec hd_fault tl].
      set (w1 := if w_shared w0 then _ else w0) in *.
      assert (P : w_policy w1 = w_policy w0 /\ w_ident w1 = w_ident w0) by (unfold w1; destruct (w_shared w0); auto).
      destruct P as [P1 P2]. rewrite P1, P2, T. cbn [negb run exec_f fallible exec hd_fault tl].
      eexists. split; [reflexivity|]. split; [exact P1|]. cbn. rewrite addr_eqb_refl. reflexivity. }
  destruct (Run pt1 c1 s1 X1 w) as [St1 R1]. destruct (R1 T1) as (w1 & Ra & Pa & Ia).
  destruct (Run pt2 c2 s2 X2 w1) as [St2 R2]. rewrite Pa, Ia in R2. destruct (R2 T2) as (w2 & Rb & _).
  destruct (whisper_fields _ _ _ _ _ _ _ _ Wh1) as (_ & B1 & B2). destruct (whisper_fields _ _ _ _ _ _ _ _ Wh2) as (_ & D1 & D2).
  exists c1, c2, w2, m1, m2, local. split; [|rewrite (framed_inner _ _ _ _ F1), (framed_inner _ _ _ _ F2); auto 15].
  cbn [run2]. rewrite St1, St2, Ra, Rb. reflexivity.
Qed.
Lemma failed_refuted_from : forall C w a s ratchet key i remote, CryptoOk C -> wf_device w -> w_shared w = true ->
  device_at w a s ratchet key i -> ss_remote s = Byte.x05 :: remote ->
  w_policy w a (w_ident w a) remote Sending = false -> (i + 1 < 2 ^ 32)%N -> forall pt,
  fst (run0 (encrypt_message C a pt) w) = Err (EUntrusted a) /\
  forall s', ~ device_at (snd (run0 (encrypt_message C a pt) w)) a s' ratchet key i.
Proof.
  intros C w a s ratchet key i remote H W Sh D Es T L pt. split; [eapply failed_untrusted; eauto|].
  intros s' (r1 & E1 & Ec1 & c1 & k1 & A1 & A2 & A3 & A4 & A5).
  destruct (failed_shared C a pt [] w s ratchet key i H W Sh eq_refl D) as (s2 & r2 & E2 & Ec2 & c2 & k2 & B1 & B2 & B3 & B4 & B5).
  unfold run0 in E1. rewrite E1 in E2. injection E2 as <-. rewrite Ec1 in Ec2. injection Ec2 as <-.
  rewrite A1 in B1. injection B1 as <-. rewrite A3 in B3. injection B3 as <-.
  rewrite A5 in B5. rewrite N.mod_small in B5 by exact L. lia.
Qed.
