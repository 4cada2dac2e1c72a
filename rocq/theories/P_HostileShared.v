(** A network with an attacker, on stores that share what they hold (C96). *)
From Verif Require Import M_Base M_Crypto M_Aes M_Curve M_Proto M_Message M_Ratchet M_State M_Store M_Session M_Group
  S_Crypto S_Message S_State S_Shape S_Ratchet S_Session S_Aes S_Api S_Send S_Group S_Curve S_X3dh S_Receive S_Conv S_History S_Size S_Transit S_Schedule S_Speak S_Isolation S_Atomic S_Attack S_Apart S_Spent S_Many S_Net S_Hostile
  P_Base P_Proto P_Curve P_State P_Shape P_Ratchet P_Message P_Aes P_Chain P_Decrypt P_Receive P_Encrypt P_Record P_Prog P_Api
  P_Init P_Send P_Conv P_X3dh P_Conv2 P_Bundle P_DecApi P_DecTop P_DecMore P_Replay P_Trust P_History P_Header P_Transit P_Used P_Speak P_First P_Isolation P_Apart P_Atomic P_CrashConv P_Attack
  P_ManyRec P_ManyFail P_ManyApi P_ManyLink P_Many P_ManySteps P_ManyTop P_Net P_NetCut P_Locked P_Hostile P_NetShared.
From Coq Require Import ZifyBool ZifyNat ZifyN Permutation.
Local Open Scope nat_scope.

(** What a decryption by a known session leaves on such stores. *)
Lemma known_cut : forall C a rnd m r w w', w_shared w = true -> w_sess w a = Some r -> rc_has_state r (pm_version m) (pub_bytes (pm_base m)) = Ok true ->
  leaves (decrypt_prekey C a rnd m) w w' ->
  untouched w w' \/ is_ok (fst (run0 (decrypt_prekey C a rnd m) (trusting w))) /\ same_records (snd (run0 (decrypt_prekey C a rnd m) (trusting w))) w'.
Proof.
  intros C a rnd m r0 w w' Sh Er0 Hs (fs & Lv).
  assert (Q : exists k, w' = crash k (decrypt_prekey C a rnd m) [] w).
  { pose proof (strict_calls C (CDecrypt a rnd (CPreKey m))) as St. destruct Lv as [->|(n & ->)]; [exact (run_reduces _ St fs w)|exact (crash_reduces _ St fs w n)]. }
  destruct Q as ([|k] & ->); [left; apply un_refl|]. rewrite (proj2 (decrypt_prekey_runs C a rnd m [] w)). cbn [hd_fault tl].
  unfold run0 at 1 2. rewrite (proj1 (decrypt_prekey_runs C a rnd m [] (trusting w))). cbn [hd_fault tl]. change (w_sess (trusting w) a) with (w_sess w a).
  rewrite Er0. unfold prekey_body. cbn [existed loaded]. set (p0 := process_prekey C a true r0 m).
  change (run (pbind p0 (fun z => plift z (prekey_rest C a rnd true m))) [] (trusting w)) with (run0 (pbind p0 (fun z => plift z (prekey_rest C a rnd true m))) (trusting w)). rewrite run0_bind.
  assert (E1 : run0 p0 (trusting w) = (Ok (r0, None), set_ident (trusting w) a (pm_identity m))).
  { unfold p0, process_prekey, run0. unfold pdo at 1. cbn [run exec_f fallible exec hd_fault tl trusting w_policy negb].
    unfold pseq, process_prekey_v3. rewrite Hs. cbn [plift pbind]. unfold pdo. cbn [run exec_f fallible exec hd_fault tl]. reflexivity. }
  assert (Half : forall v, same_records (snd (run0 p0 (trusting w))) v -> kept_keys w v -> untouched w v).
  { intros v R [K1 K2]. rewrite E1 in R. split; [exact R|]. auto. }
  assert (Mid : forall n, untouched w (crash n p0 [] w)).
  { intro n. destruct (once_run false p0 (once_process C a true r0 m) w Sh n) as [U|(_ & R & Kk)]; [exact U|]. apply Half; [exact R|apply Kk; reflexivity]. }
  destruct (crash_bind p0 (fun z => plift z (prekey_rest C a rnd true m)) w k) as [(n & ->)|(n & ->)]; [left; apply Mid|].
  assert (Fin : exists n, snd (run0 p0 w) = crash n p0 [] w).
  { destruct (crash_run p0 [] w) as (n0 & Q). exists n0. symmetry. exact Q. }
  destruct (run0 p0 w) as [[[r1' id']|e|] w3] eqn:E3; cbn [fst snd plift] in *.
  2,3: rewrite crash_ret; destruct Fin as (n' & ->); left; apply Mid.
  pose proof (once_trusting false p0 (once_process C a true r0 m) w (r1', id')) as T. rewrite E3 in T. specialize (T eq_refl). cbn [snd] in T.
  assert (Sh3 : w_shared w3 = true). { pose proof (run_store p0 [] w) as Q. unfold run0 in E3. rewrite E3 in Q. cbn [snd] in Q. congruence. }
  destruct (once_run true (prekey_rest C a rnd true m (r1', id')) (once_rest _ _ _ _ _ _) w3 Sh3 n) as [U|(Ok1 & R & _)].
  - left. destruct Fin as (n' & F). pose proof (Mid n') as U'. rewrite <- F in U'. eapply un_trans; eauto.
  - right. rewrite T. cbn [fst snd plift]. auto.
Qed.
Lemma signal_cut : forall C a rnd m w w', CryptoOk C -> wf_device w -> wf_signal m -> w_shared w = true -> leaves (decrypt_signal C a rnd m) w w' ->
  untouched w w' \/ is_ok (fst (run0 (decrypt_signal C a rnd m) (trusting w))) /\ same_records (snd (run0 (decrypt_signal C a rnd m) (trusting w))) w'.
Proof.
  intros C a rnd m w w' H Wd Wm Sh Lv.
  destruct (once_leaves false _ _ _ (strict_calls C (CDecrypt a rnd (CSignal m))) (once_signal C a rnd m) Sh Lv) as [U|(_ & R & Kk)]; [auto|].
  specialize (Kk eq_refl). change (decrypt_message C a rnd (CSignal m)) with (decrypt_signal C a rnd m) in R. destruct (run0 (decrypt_signal C a rnd m) (trusting w)) as [z w1] eqn:E. cbn [fst snd] in *.
  unfold run0 in E. rewrite (proj1 (decrypt_signal_runs C a rnd m [] (trusting w))) in E. cbn [hd_fault tl] in E. change (w_sess (trusting w) a) with (w_sess w a) in E.
  assert (Same : w1 = trusting w -> untouched w w').
  { intros ->. destruct Kk as [K1 K2]. split; [exact R|auto]. }
  assert (Fin : forall pt r' v, wf_record r' -> w_policy v = w_policy (trusting w) -> rc_current r' <> None -> exists v', run0 (signal_rest a pt r') v = (Ok pt, v')).
  { intros pt r' v Wr Pv Nc. destruct (rc_current r') as [s|] eqn:Ec; [|contradiction Nc; reflexivity]. destruct (proj1 Wr s Ec) as (_ & _ & (k & L & Es) & _).
    eexists. apply (signal_rest_completes a pt r' v s k Ec Es L). rewrite Pv. reflexivity. }
  destruct (w_sess w a) as [r|] eqn:Er; cbn [signal_body] in E; [|left; injection E as <- <-; auto].
  assert (Wr : wf_record r) by (eapply (proj1 (proj1 Wd)); exact Er).
  destruct (decrypt_record C rnd r m) as [[pt r']|e|] eqn:D.
  - right. destruct (decrypt_record_inv _ _ _ _ _ _ H Wr Wm D) as (s & s' & r1 & r2 & _ & _ & _ & Ec & Wr').
    unfold pdo in E. cbn [run exec_f fallible exec hd_fault tl] in E.
    match type of E with run _ [] ?v = _ => destruct (Fin pt r' v Wr') as (v' & Q); [destruct (w_shared (trusting w)); reflexivity|congruence|unfold run0 in Q; rewrite Q in E] end.
    injection E as <- <-. split; [exists pt; reflexivity|exact R].
  - destruct (rc_current r) as [s|] eqn:Ec.
    + right. destruct (Fin [] r (trusting w) Wr eq_refl) as (v' & Q); [congruence|]. unfold run0 in Q. rewrite Q in E. injection E as <- <-. split; [exists []; reflexivity|exact R].
    + left. unfold signal_rest in E. rewrite Ec in E. injection E as <- <-. auto.
  - left. injection E as <- <-. auto.
Qed.

Section Shared.
Variable C : Crypto.
Hypothesis H : CryptoOk C.

(** A known session, or none, opened it. *)
Lemma net_known : forall dev es d e ct rnd w0 pt w1 w', net C dev es -> d <> e -> kp_pub (w_pair (dev d)) <> kp_pub (w_pair (dev e)) -> sized es -> new_keys C es d e rnd ->
  wf_ciphertext ct -> (forall m, inner ct = Some m -> parse_signal (sg_raw m) = Ok m) -> (forall m, inner ct = Some m -> ~ net_forgery C dev es d e m) ->
  (forall pm, ct = CPreKey pm -> exists r s, w_sess (dev d) e = Some r /\ state_in s r /\ ss_alice_base s = Byte.x05 :: pm_base pm) ->
  like (dev d) w0 -> run0 (decrypt_message C e rnd ct) w0 = (Ok pt, w1) -> same_records w1 w' -> leaves (decrypt_message C e rnd ct) (dev d) w' ->
  exists dev', (forall z, dev' z = dev_set dev d w' z) /\
     (net C dev' es \/
      exists es1 c es2 y m u, es = es1 ++ c :: es2 /\ sent_on c d e y /\ inner (nt_cipher y) = Some m /\ inner ct = Some m /\
        receivable (ln_par (cb_link c) (cb_role c d)) (nt_epoch y) (nt_counter y) /\ current_ratchet w' e u /\
        net C dev' (es1 ++ mkCable (cb_from c) (cb_to c) (link_got (cb_link c) (cb_role c d) (nt_epoch y) (nt_counter y) u) :: es2)).
Proof using H.
  intros dev es d e ct rnd w0 pt w1 w' M N Ni Sz Fr Wc Pc Nf Knc Lk E Sr Lv. pose proof (net_wf C H dev es d M) as Wd.
  destruct (like_rest _ _ Lk) as (Lp & Ls & Lq & Lg).
  assert (Wd0 : wf_device w0) by (destruct Lk as [-> | ->]; exact Wd).
  assert (Keep : forall w, wf_device w -> w_pair w = w_pair (dev d) -> (forall a, w_sess w a = w_sess (dev d) a) ->
    (forall id, w_prekeys w id = w_prekeys (dev d) id) -> w_signed w = w_signed (dev d) -> net C (dev_set dev d w) es).
  { intros w A1 A2 A3 A4 A5. apply net_other; auto. intros c _ _ _. split; [rewrite A5; reflexivity|auto]. }
  destruct (leaves_shape _ _ _ (calls_shape C H (CDecrypt e rnd ct) Wc) Wd Lv) as [Wd' Wp'].
  pose proof (leaves_rest C (CDecrypt e rnd ct) (dev d) w' Lv) as ((S' & _) & Oth & _). cbn [scope_of] in Oth.
  assert (Fresh : forall c k, all_fresh C (all_keys (links_between d e es)) (ln_par (cb_link c) (cb_role c d)) k (List.length (links_between d e es)) rnd).
  { intros c k _ j Lj. exact (Fr j Lj). }
  assert (exists m, inner ct = Some m) as (m & Ic).
  { destruct (answer_exact C _ _ _ _ _ _ _ H Wd0 Wc E) as [(m & s & Im & _)|(m & r & err & -> & _)]; eauto. exists m. reflexivity. }
  assert (Nf' : ~ net_forgery C dev es d e m) by (apply Nf; exact Ic).
  destruct (record_known C H _ _ _ _ _ _ _ Wd0 Wc Ic E) as [(r & r' & Er & D & Er' & _)|[(r & err & Ec & Er & _ & Er')|(pm & Ec & Ub)]]; try rewrite Ls in Er.
  - (* one of the sessions opened it *)
    assert (Wr : wf_record r) by (eapply (proj1 (proj1 Wd)); exact Er).
    assert (Wm : wf_signal m) by (exact (parse_signal_wf _ _ (Pc m Ic))).
    destruct (decrypt_record_opens C rnd r m pt r' H Wr Wm D) as (s & Si & O).
    destruct (net_speaker C H dev es d e r s m pt M N Sz Er Si (Pc m Ic) O) as (c & Jc & Jn & Hc & Eb & [(y & (_ & Jy & Fy) & Iy & Ty & Rv)|F]); [|contradiction].
    specialize (Rv Ni). destruct y as [fy ky ny ty cy]. cbn [nt_from nt_epoch nt_counter nt_text nt_cipher] in *. subst fy.
    destruct (net_cable C H dev es c M Jc) as (at_ & v & Hy). destruct (link_note C H at_ _ _ _ _ _ _ _ _ _ _ _ Hy Jy) as (sg & Is & _ & Wcy & _ & Cs).
    assert (sg = m) by congruence. subst sg.
    assert (Kn : forall pm, cy = CPreKey pm -> exists r s, w_sess (dev d) e = Some r /\ state_in s r /\ ss_alice_base s = Byte.x05 :: pm_base pm).
    { intros pm Q. destruct Cs as [[Q' _]|(_ & pm' & Q' & _ & Bp & _)]; [congruence|]. assert (pm' = pm) by congruence. subst pm'. rewrite Bp. exists r, s. auto. }
    set (w2 := trusting (dev d)).
    assert (M2 : net C (dev_set dev d w2) es) by (apply Keep; auto).
    assert (E2 : dev_set dev d w2 d = w2) by apply set_same.
    assert (Nm : has_cable c d -> ~ misread C (dev_set dev d w2 d) e (ln_base (cb_link c)) cy).
    { intros _ (m' & r0 & s0 & p0 & Im' & Er0 & Si0 & Nb0 & O0). rewrite E2 in Er0. assert (m' = m) by congruence. subst m'.
      assert (r0 = r) by (change (w_sess (dev d) e = Some r0) in Er0; congruence). subst r0.
      destruct (net_speaker C H dev es d e r s0 m p0 M N Sz Er Si0 (Pc m Ic) O0) as (c0 & Jc0 & Jn0 & _ & Eb0 & [(y0 & (_ & Jy0 & _) & Iy0 & _)|F]); [|contradiction].
      apply Nb0. rewrite Eb0. f_equal. symmetry. refine (net_one C H dev es d e c c0 _ y0 m M N Jc Jc0 Jn Jn0 Jy Jy0 _ Iy0). exact Iy. }
    pose proof Jn as [Jd Je].
    destruct (net_delivered C H _ _ _ _ _ _ _ _ _ rnd M2 Jc N Jd Je Jy Rv (Fresh c ky) Nm) as (w3 & E3).
    { rewrite E2. reflexivity. }
    destruct (net_answered C H _ _ _ _ _ _ _ _ _ _ _ _ _ M2 Jc N Jd Je Jy Rv (Fresh c ky) Nm E3) as (_ & _ & u & Cr & _).
    rewrite E2 in E3. assert (Wd2 : wf_device w2) by exact Wd.
    assert (Er3 : w_sess w3 e = Some r').
    { destruct (P_Attack.record_result C H _ _ _ _ _ _ _ Wd2 Wcy Is E3) as [(r0 & r3 & A1 & A2 & A3)|[(r0 & err & _ & A1 & A2 & _)|(pm & A1 & A2)]].
      - change (w_sess (dev d) e = Some r0) in A1. assert (r0 = r) by congruence. subst r0. rewrite D in A2. congruence.
      - change (w_sess (dev d) e = Some r0) in A1. assert (r0 = r) by congruence. subst r0. congruence.
      - exfalso. destruct (Kn pm A1) as (r0 & s0 & B1 & B2 & B3). exact (A2 r0 s0 B1 B2 B3). }
    assert (Lv3 : leaves (decrypt_message C e rnd cy) w2 w3) by (exists []; left; unfold run0 in E3; rewrite E3; reflexivity).
    destruct (known_keeps C H e rnd cy w2 w3 Wd2 Wcy Kn Lv3) as [Pk3 Sg3].
    pose proof (leaves_rest C (CDecrypt e rnd cy) w2 w3 Lv3) as (_ & Oth3 & _). cbn [scope_of] in Oth3.
    destruct (known_keeps C H e rnd ct (dev d) w' Wd Wc Knc Lv) as [Pk' Sg'].
    destruct (in_split _ _ Jc) as (es1 & es2 & Ees). subst es.
    assert (K3 : net C (dev_set (dev_set dev d w2) d w3) (es1 ++ mkCable (cb_from c) (cb_to c) (link_got (cb_link c) (cb_role c d) ky ny u) :: es2)).
    { eapply (net_receive C _ _ es1 c es2 d e ky ny ty cy rnd [] ty u w3 M2 N Jd Je Jy Rv (Fresh c ky) Nm); [rewrite E2; exact E3|exact Cr]. }
    assert (Sess : forall a, w_sess w' a = w_sess w3 a).
    { intro a. destruct (addr_eqb a e) eqn:Q; [apply addr_eqb_eq in Q; subst a; rewrite (proj1 Sr), Er', Er3; reflexivity|].
      apply addr_eqb_neq in Q. destruct (Oth a Q) as [-> _]. destruct (Oth3 a Q) as [-> _]. reflexivity. }
    exists (dev_set (dev_set (dev_set dev d w2) d w3) d w'). split.
    { intro q. unfold dev_set. destruct (addr_eqb q d); reflexivity. }
    right. exists es1, c, es2, (mkNote (negb (cb_role c d)) ky ny ty cy), m, u. cbn [nt_from nt_epoch nt_counter nt_text nt_cipher].
    split; [reflexivity|]. split; [split; [exact Jn|split; [exact Jy|reflexivity]]|]. split; [exact Is|]. split; [exact Ic|]. split; [exact Rv|].
    split.
    { destruct Cr as (s3 & sc & Q & R1). exists s3, sc. split; [|exact R1]. unfold current_session in *. rewrite Sess. exact Q. }
    apply net_other; [exact K3|exact Wd'| | |]; rewrite ?set_same.
    + rewrite Wp'. symmetry. pose proof (run_pair (decrypt_message C e rnd cy) [] w2) as Q. unfold run0 in E3. rewrite E3 in Q. exact Q.
    + exact Sess.
    + intros c' _ _ _. split; [rewrite Sg', Sg3; reflexivity|]. intros id _. rewrite Pk', Pk3. reflexivity.
  - exists (dev_set dev d w'). split; [reflexivity|]. left. apply Keep; auto.
    + intro a. destruct (addr_eqb a e) eqn:Q; [apply addr_eqb_eq in Q; subst a; rewrite (proj1 Sr), Er'; symmetry; exact Er|]. apply Oth. apply addr_eqb_neq. exact Q.
    + apply (known_keeps C H e rnd ct (dev d) w' Wd Wc); [|exact Lv]. intros pm Q. congruence.
  - exfalso. destruct (Knc pm Ec) as (r & s & A1 & A2 & A3). exact (Ub r s (eq_trans (f_equal (fun g => g e) Ls) A1) A2 A3).
Qed.

(** Any bytes may arrive. *)
Theorem net_any_shared : forall dev es d e x rnd w', net C dev es -> d <> e -> w_shared (dev d) = true ->
  kp_pub (w_pair (dev d)) <> kp_pub (w_pair (dev e)) -> sized es -> new_keys C es d e rnd ->
  (forall m, carries x m -> ~ net_forgery C dev es d e m) ->
  leaves (receive_bytes C e rnd x) (dev d) w' ->
  (exists dev', (forall z, dev' z = dev_set dev d w' z) /\
     (net C dev' es \/
      exists es1 c es2 y m u, es = es1 ++ c :: es2 /\ sent_on c d e y /\ inner (nt_cipher y) = Some m /\ carries x m /\
        receivable (ln_par (cb_link c) (cb_role c d)) (nt_epoch y) (nt_counter y) /\ current_ratchet w' e u /\
        net C dev' (es1 ++ mkCable (cb_from c) (cb_to c) (link_got (cb_link c) (cb_role c d) (nt_epoch y) (nt_counter y) u) :: es2))) \/
  exists pm, unposted x = Ok (CPreKey pm) /\ unused_base (dev d) e (pm_base pm).
Proof using H.
  intros dev es d e x rnd w' M N Sh Ni Sz Fr Nf Lv. unfold receive_bytes in Lv. pose proof (net_wf C H dev es d M) as Wd.
  destruct (unposted x) as [ct|err|] eqn:U; cbn [plift] in Lv.
  2,3: left; exists (dev_set dev d w'); split; [reflexivity|]; left;
       assert (w' = dev d) as -> by (destruct Lv as (fs & [-> |(n & ->)]); [reflexivity|apply crash_ret]); exact (net_like C H dev es d (dev d) M (or_introl eq_refl)).
  destruct (carries_wf _ _ U) as [Wc Pc].
  destruct (leaves_shape _ _ _ (calls_shape C H (CDecrypt e rnd ct) Wc) Wd Lv) as [Wd' Wp'].
  assert (Kn : (forall pm, ct = CPreKey pm -> exists r s, w_sess (dev d) e = Some r /\ state_in s r /\ ss_alice_base s = Byte.x05 :: pm_base pm) \/
    exists pm, ct = CPreKey pm /\ unused_base (dev d) e (pm_base pm)).
  { destruct ct as [sg|pm|sk|dm]; try (left; intros pm' Q; discriminate Q). destruct (w_sess (dev d) e) as [r|] eqn:Er.
    - assert (Wr : wf_record r) by (eapply (proj1 (proj1 Wd)); exact Er). destruct (has_state_spec r pm Wr Wc) as ([|] & _ & Hi).
      + left. intros pm' Q. injection Q as <-. destruct (proj1 Hi eq_refl) as (s & A & B). exists r, s. auto.
      + right. exists pm. split; [reflexivity|]. intros r' s Er2 J B. assert (r' = r) by congruence. subst r'. assert (false = true); [|discriminate]. apply Hi. exists s. auto.
    - right. exists pm. split; [reflexivity|]. intros r' s Er2. congruence. }
  destruct Kn as [Kn|(pm & -> & Ub)]; [left|right; eauto].
  assert (Out : untouched (dev d) w' \/ is_ok (fst (run0 (decrypt_message C e rnd ct) (trusting (dev d)))) /\ same_records (snd (run0 (decrypt_message C e rnd ct) (trusting (dev d)))) w').
  { destruct ct as [sg|pm|sk|dm]; cbn [decrypt_message] in *.
    - exact (signal_cut C e rnd sg _ _ H Wd Wc Sh Lv).
    - destruct (Kn pm eq_refl) as (r & s & Er & J & B). assert (Wr : wf_record r) by (eapply (proj1 (proj1 Wd)); exact Er).
      destruct (has_state_spec r pm Wr Wc) as (h & Hh & Hi). assert (h = true) as -> by (apply Hi; exists s; auto). exact (known_cut C e rnd pm r _ _ Sh Er Hh Lv).
    - left. assert (w' = dev d) as -> by (destruct Lv as (fs & [-> |(n & ->)]); [reflexivity|apply crash_ret]). apply un_refl.
    - left. assert (w' = dev d) as -> by (destruct Lv as (fs & [-> |(n & ->)]); [reflexivity|apply crash_ret]). apply un_refl. }
  destruct Out as [Un|[(pt & Ok1) Sr]].
  { exists (dev_set dev d w'). split; [reflexivity|]. left. apply cut_nothing; auto. }
  destruct (run0 (decrypt_message C e rnd ct) (trusting (dev d))) as [z w1] eqn:E. cbn [fst snd] in *. subst z.
  destruct (net_known dev es d e ct rnd (trusting (dev d)) pt w1 w' M N Ni Sz Fr Wc Pc) as (dev' & A & B); auto.
  - intros m Im. apply Nf. exists ct. auto.
  - right. reflexivity.
  - exists dev'. split; [exact A|]. destruct B as [B|(es1 & c & es2 & y & m & u & B1 & B2 & B3 & B4 & B5)]; [left; exact B|right].
    exists es1, c, es2, y, m, u. split; [exact B1|]. split; [exact B2|]. split; [exact B3|]. split; [exists ct; auto|exact B5].
Qed.
End Shared.
