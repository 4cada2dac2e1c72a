(** What an attacker on the network can do to a conversation (C76). *)
From Verif Require Import M_Base M_Crypto M_Aes M_Curve M_Proto M_Message M_Ratchet M_State M_Store M_Session M_Group
  S_Crypto S_Message S_State S_Shape S_Ratchet S_Session S_Aes S_Api S_Send S_Group S_Curve S_X3dh S_Receive S_Conv S_History S_Isolation S_Atomic S_Size S_Transit S_Speak S_Attack
  P_Base P_Proto P_Curve P_State P_Shape P_Ratchet P_Message P_Aes P_Chain P_Decrypt P_Receive P_Encrypt P_Record P_Prog P_Api
  P_Init P_Send P_Conv P_X3dh P_Conv2 P_Bundle P_DecApi P_DecTop P_DecMore P_Replay P_Trust P_History P_Atomic P_CrashConv P_Isolation P_Header P_Transit P_Used P_Speak.
From Coq Require Import ZifyBool ZifyNat ZifyN.
Local Open Scope nat_scope.

Section Attack.
Variable C : Crypto.
Hypothesis H : CryptoOk C.
Variable b : bundle.
Variable at_ : bool -> addr.

(** A message of the peer that the current session opens is one the party can receive. *)
Lemma reach_receivable : forall k ks base dev par keys notes side s y m mk, in_step C b at_ k ks base dev par keys notes ->
  side = true \/ p_epoch (par false) <> 0 -> current_session (dev side) (at_ side) = Some s -> sid C k true <> sid C k false ->
  In y notes -> inner (nt_cipher y) = Some m -> in_reach (par side) (nt_epoch y) ->
  message_keys_of C s (sg_ratchet m) (sg_counter m) mk -> receivable (par side) (nt_epoch y) (nt_counter y).
Proof using H.
  intros k ks base dev par keys notes side s y m mk St Sd Es Ni Iy Im Rch Mk.
  destruct (note_whisper C H b at_ _ _ _ _ _ _ _ _ _ St Iy Im) as (Lx & G & Wh).
  destruct (whisper_fields _ _ _ _ _ _ _ _ Wh) as (_ & W1 & W2). rewrite W1, W2 in Mk.
  destruct St as (So & _ & Eks & Ko & _ & Lk & Adj & _ & _ & _ & Ss & _).
  destruct (Ss side Sd) as (r & s0 & R1 & R2 & (P1 & P2 & P3 & P4 & P5 & (sc' & C1 & C2 & C3 & C4) & P6 & P7 & P8 & P9) & _).
  unfold current_session in Es. rewrite R1 in Es. assert (s0 = s) by congruence. subst s0. clear Es.
  assert (Nrl : ss_remote s <> ss_local s).
  { rewrite P3, P2. intro Q. apply pub_bytes_inj in Q. destruct side; cbn [negb] in Q; congruence. }
  assert (Uniq : forall c, In c (ss_receivers s) -> pc_ratchet c = pub_bytes (kpub C ks (nt_epoch y)) ->
     exists v, In v (p_views (par side)) /\ rv_epoch v = nt_epoch y /\ view_ok C (sroot C k) (schain C k) ks v c).
  { intros c Ic Q. destruct (forall2_in_r _ _ _ _ P7 Ic) as (v & Iv & V). exists v. split; [exact Iv|]. split; [|exact V].
    destruct V as (V1 & _). rewrite V1 in Q. apply pub_bytes_inj in Q.
    rewrite Forall_forall in P9. specialize (P9 v Iv). eapply (kpub_inj C); eauto. lia. }
  destruct Mk as [(c & ck & Ic & Rt & Kc & [[Ln (x & Ix & Xn & Em)]|(Ln & Lim & Ka)])|(Nc & Lim & _)].
  - destruct (Uniq c Ic Rt) as (v & Iv & Ev & (V1 & V2 & V3 & V4 & V5)).
    assert (ck = mkPChainKey (rv_idx v) (chain_at C (kchain C (sroot C k) (schain C k) ks (rv_epoch v)) (N.to_nat (rv_idx v)))) by congruence. subst ck.
    cbn [pck_index] in Ln. eapply rec_saved; eauto. rewrite V3 in Ix. apply in_map_iff in Ix. destruct Ix as (i & <- & Ii). cbn in Xn. subst. exact Ii.
  - destruct (Uniq c Ic Rt) as (v & Iv & Ev & (V1 & V2 & V3 & V4 & V5)).
    assert (ck = mkPChainKey (rv_idx v) (chain_at C (kchain C (sroot C k) (schain C k) ks (rv_epoch v)) (N.to_nat (rv_idx v)))) by congruence. subst ck.
    cbn [pck_index] in *. destruct Lim as [Lim|Q]; [|contradiction]. eapply rec_ahead; eauto.
  - destruct Lim as [Lim|Q]; [|contradiction]. destruct Rch as [J|E]; [|apply rec_new; assumption].
    exfalso. apply in_map_iff in J. destruct J as (v & Q & Iv). destruct (forall2_in_l _ _ _ _ P7 Iv) as (c & Ic & (V1 & _)). rewrite Q in V1. exact (Nc c Ic V1).
Qed.

(** What a message of the peer does to the current session. *)
Lemma genuine_effect : forall k ks base dev par keys notes side ep n pt c m rnd, in_step C b at_ k ks base dev par keys notes ->
  side = true \/ p_epoch (par false) <> 0 -> In (mkNote (negb side) ep n pt c) notes -> inner c = Some m -> receivable (par side) ep n -> fresh C keys (par side) ep rnd ->
  exists r s s' rest, w_sess (dev side) (at_ side) = Some r /\ rc_current r = Some s /\ decrypt_session C rnd s m = (Ok (pt, s'), rest) /\
    forall w fs pt' w', wf_device w -> w_sess w (at_ side) = Some r -> run (decrypt_message C (at_ side) rnd c) fs w = (Ok pt', w') -> current_session w' (at_ side) = Some s'.
Proof using H.
  intros k ks base dev par keys notes side ep n pt c m rnd (So & Eb & Ek & K & (l & El) & Lk & Ee & E1 & Wd & Pr & Ss & Nb & Nt) Sd I0 Ic Rv Fr.
  destruct (peer_epochs par side Ee) as [Ee' Em]. rewrite Em in Lk. subst keys.
  rewrite Forall_forall in Nt. destruct (Nt _ I0) as ((Le & Ne) & G & m0 & Wh & F). cbn [nt_epoch nt_from nt_counter nt_text nt_cipher] in *.
  rewrite Bool.negb_involutive in Wh.
  destruct (note_wf C H b k ks par (mkNote (negb side) ep n pt c) m0 So) as [Wm Wc]; cbn [nt_epoch nt_from nt_counter nt_text nt_cipher];
    rewrite ?Bool.negb_involutive; auto. cbn [nt_cipher] in Wc. specialize (Wc _ _ _ F).
  destruct (Ss side Sd) as (r & s & Er & Ec & P & Ea & Pd).
  destruct (advance C H k ks side (par side) (p_epoch (par (negb side))) s ep n pt m0 rnd K P Lk Ee' Le Rv Fr G Wh) as (K' & s' & rest & D & P' & Kp).
  assert (m0 = m).
  { destruct F as [[E _]|(_ & reg & pm & _ & E & (_ & _ & _ & _ & _ & _ & E7))]; rewrite E in Ic; cbn [inner] in Ic; congruence. }
  subst m0. exists r, s, s', rest. split; [exact Er|]. split; [exact Ec|]. split; [exact D|]. intros w fs pt' w' Ww Ew E.
  assert (Ew' : w_sess w' (at_ side) = Some (rc_set_state r s')).
  { destruct F as [[-> _]|((Sn & _) & reg & pm & Gr & -> & (F1 & F2 & F3 & F4 & F5 & F6 & F7))].
    - apply (signal_result C _ _ _ _ _ _ _ _ _ _ _ _ Ew Ec D E).
    - rewrite <- F7 in D. assert (Eb' : ss_alice_base s = Byte.x05 :: pm_base pm) by (rewrite F5; exact Ea).
      apply (prekey_known_result C _ _ _ _ _ _ _ _ _ _ _ _ Ww Wc Ew Ec Eb' D E). }
  unfold current_session. rewrite Ew'. reflexivity.
Qed.

(** The same world with a policy that trusts everybody. *)
Definition trusting (w : world) : world :=
  mkWorld (w_sess w) (w_ident w) (w_prekeys w) (w_signed w) (w_groups w) (w_pair w) (w_reg w) (fun _ _ _ _ => true) (w_shared w).

Lemma carries_wf : forall x c, unposted x = Ok c -> wf_ciphertext c /\ forall m, inner c = Some m -> parse_signal (sg_raw m) = Ok m.
Proof.
  intros x c U. unfold unposted in U. destruct (fst x).
  - destruct (parse_prekey_msg (snd x)) as [q| |] eqn:P; cbn [bind] in U; [|discriminate..]. assert (c = CPreKey q) by congruence. subst c. split.
    + exact (parse_prekey_wf _ _ P).
    + cbn [inner]. intros m Q. assert (pm_message q = m) by congruence. subst m. exact (parse_inner _ _ P).
  - destruct (parse_signal (snd x)) as [q| |] eqn:P; cbn [bind] in U; [|discriminate..]. assert (c = CSignal q) by congruence. subst c. split.
    + exact (parse_signal_wf _ _ P).
    + cbn [inner]. intros m Q. assert (q = m) by congruence. subst m. rewrite (parse_raw _ _ P). exact P.
Qed.

Lemma record_result : forall a rnd c m w pt w1, wf_device w -> wf_ciphertext c -> inner c = Some m ->
  run0 (decrypt_message C a rnd c) w = (Ok pt, w1) ->
  (exists r r', w_sess w a = Some r /\ decrypt_record C rnd r m = Ok (pt, r') /\ w_sess w1 a = Some r') \/
  (exists r e, c = CSignal m /\ w_sess w a = Some r /\ decrypt_record C rnd r m = Err e /\ w_sess w1 a = Some r) \/
  (exists pm, c = CPreKey pm /\ unused_base w a (pm_base pm)).
Proof using H.
  intros a rnd c m w pt w1 W Wc Ic E. destruct c as [q|pm|q|q]; cbn [inner] in Ic; [| |discriminate..].
  - assert (q = m) by congruence. subst q. cbn [decrypt_message] in E. unfold run0 in E.
    destruct (decrypt_signal_runs C a rnd m [] w) as [R _]. rewrite R in E. cbn [hd_fault tl] in E.
    unfold signal_body in E. destruct (w_sess w a) as [r|] eqn:Er; [|discriminate].
    destruct (decrypt_record C rnd r m) as [[p r']|e|] eqn:D; [left|right; left|discriminate].
    + unfold pdo at 1 in E. cbn [run exec_f fallible exec] in E. apply signal_rest_inv in E. destruct E as (-> & s & rid & _ & _ & _ & ->).
      exists r, r'. split; [reflexivity|]. split; [exact D|]. cbn [w_sess set_sess]. rewrite addr_eqb_refl. reflexivity.
    + apply signal_rest_inv in E. destruct E as (-> & s & rid & _ & _ & _ & ->). exists r, e. split; [reflexivity|]. split; [reflexivity|]. split; [exact D|].
      cbn [w_sess set_sess]. rewrite addr_eqb_refl. reflexivity.
  - assert (pm_message pm = m) by congruence. cbn [decrypt_message] in E.
    destruct (decrypt_prekey_inv _ _ _ _ _ _ _ _ E) as (r1 & r2 & id & w2 & T & [(Hs & -> & _)|(Hs & _)] & D & ->).
    + destruct (w_sess w a) as [r|] eqn:Er; [|cbn in Hs; discriminate]. left. exists r, r2. split; [reflexivity|]. cbn [loaded] in D. subst m. split; [exact D|apply prekey_done_sess].
    + right. right. exists pm. split; [reflexivity|]. intros r s Er Si Q. rewrite Er in Hs. cbn [loaded] in Hs.
      assert (Wr : wf_record r) by (eapply (proj1 (proj1 W)); exact Er).
      destruct (has_state_spec r pm Wr Wc) as (h & Hh & Hi). assert (h = true) by (apply Hi; exists s; auto). congruence.
Qed.

Theorem any_bytes : forall base dev par keys notes side x rnd w', history C at_ b base dev par keys notes ->
  (forall y, In y notes -> (size (nt_text y) < 2 ^ 62)%N) -> w_shared (dev side) = false ->
  kp_pub (w_pair (dev true)) <> kp_pub (w_pair (dev false)) -> side = true \/ p_epoch (par false) <> 0 ->
  32 <= List.length rnd -> ~ In (mont_pub C (firstn 32 rnd)) keys ->
  leaves (receive_bytes C (at_ side) rnd x) (dev side) w' ->
  (exists dev', (forall z, dev' z = upd dev side w' z) /\
     (history C at_ b base dev' par keys notes \/
      exists y m, In y notes /\ nt_from y = negb side /\ inner (nt_cipher y) = Some m /\ carries x m /\
        receivable (par side) (nt_epoch y) (nt_counter y) /\
        history C at_ b base dev' (upd par side (party_after (par side) (nt_epoch y) (nt_counter y))) (keys_after C keys (par side) (nt_epoch y) rnd) notes)) \/
  exists c m, unposted x = Ok c /\ inner c = Some m /\
    ((exists s, current_session (dev side) (at_ side) = Some s /\
        forgery C s (par side) (kp_pub (w_pair (dev (negb side)))) (kp_pub (w_pair (dev side))) (fun y => In y notes /\ nt_from y = negb side) m) \/
     archived_opens C (dev side) (at_ side) m \/ sets_up C (dev side) (at_ side) rnd c).
Proof using H.
  intros base dev par keys notes side x rnd w' Hy Sz Sh Ni Sd Lr Nk Lv. unfold receive_bytes in Lv.
  destruct (history_in_step C H b at_ _ _ _ _ _ Hy) as (k & ks & St).
  assert (Wd : wf_device (dev side)) by apply St.
  assert (Same : forall w, wf_device w -> w_pair w = w_pair (dev side) -> current_session w (at_ side) = current_session (dev side) (at_ side) ->
    history C at_ b base (upd dev side w) par keys notes).
  { intros w A1 A2 A3. apply h_other; [exact Hy|]. split; [exact A1|]. split; [exact A2|]. left. auto. }
  destruct (unposted x) as [c|e|] eqn:U; cbn [plift] in Lv.
  2,3: left; exists (upd dev side w'); split; [reflexivity|]; left;
       assert (w' = dev side) as -> by (destruct Lv as (fs & [-> |(n & ->)]); [reflexivity|apply crash_ret]); apply Same; auto.
  destruct (carries_wf _ _ U) as [Wc Pc].
  assert (Ps : pall shape_ok shape_ans (decrypt_message C (at_ side) rnd c)) by (exact (calls_shape C H (CDecrypt (at_ side) rnd c) Wc)).
  destruct (leaves_shape _ _ _ Ps Wd Lv) as [Wd' Wp'].
  destruct (leaves_atomic C (CDecrypt (at_ side) rnd c) (dev side) w' Sh Lv) as [Un|[(pt & Ok1) Sr]].
  { left. exists (upd dev side w'). split; [reflexivity|]. left. apply Same; auto. apply session_current, Un. }
  destruct (run0 (decrypt_message C (at_ side) rnd c) (dev side)) as [z w1] eqn:E. cbn [fst snd] in *. subst z.
  assert (exists m, inner c = Some m) as (m & Ic).
  { destruct (answer_exact C _ _ _ _ _ _ _ H Wd Wc E) as [(m & s & Im & _)|(m & r & e & -> & _)]; eauto. exists m. reflexivity. }
  destruct (record_result _ _ _ _ _ _ _ Wd Wc Ic E) as [(r & r' & Er & D & Er')|[(r & e & _ & Er & _ & Er')|(pm & Ec & Ub)]].
  2:{ left. exists (upd dev side w'). split; [reflexivity|]. left. apply Same; auto. apply session_current. rewrite (proj1 Sr), Er'. symmetry. exact Er. }
  2:{ right. exists c, m. split; [reflexivity|]. split; [exact Ic|]. right. right. exists pm. split; [exact Ec|]. split; [exact Ub|]. unfold run0 in E |- *. rewrite E. exists pt. reflexivity. }
  assert (Wr : wf_record r) by (eapply (proj1 (proj1 Wd)); exact Er).
  assert (Wm : wf_signal m) by (exact (parse_signal_wf _ _ (Pc m Ic))).
  destruct (decrypt_record_opens C rnd r m pt r' H Wr Wm D) as (s & [Cu|(bs & Jb & Pb)] & O).
  2:{ right. exists c, m. split; [reflexivity|]. split; [exact Ic|]. right. left. exists r, bs, s, pt. auto. }
  assert (Es : current_session (dev side) (at_ side) = Some s) by (unfold current_session; rewrite Er; exact Cu).
  destruct (speaker_reach C H b at_ _ _ _ _ _ _ _ _ _ Hy Sz Sd Es (Pc m Ic) O) as [(y & Jy & Fy & Rch & Iy & Ty)|Fo].
  2:{ right. exists c, m. split; [reflexivity|]. split; [exact Ic|]. left. exists s. auto. }
  left.
  assert (Nid : sid C k true <> sid C k false).
  { assert (Ep : forall q, kp_pub (w_pair (dev q)) = sid C k q) by (intro q; destruct St as (_ & _ & _ & _ & _ & _ & _ & _ & _ & Pr & _); destruct (Pr q) as (_ & Q & _); exact Q).
    rewrite <- !Ep. exact Ni. }
  assert (Rv : receivable (par side) (nt_epoch y) (nt_counter y)).
  { destruct O as (mk & rm & lc & Mk & _). exact (reach_receivable _ _ _ _ _ _ _ _ _ _ _ _ St Sd Es Nid Jy Iy Rch Mk). }
  assert (Fr : fresh C keys (par side) (nt_epoch y) rnd) by (intros _; auto).
  destruct y as [fy ey ny ty cy]. cbn [nt_from nt_epoch nt_counter nt_text nt_cipher] in *. subst fy.
  destruct (genuine_effect _ _ _ _ _ _ _ _ _ _ _ _ _ _ St Sd Jy Iy Rv Fr) as (r0 & s0 & s' & rest & A1 & A2 & A3 & A4).
  assert (r0 = r) by congruence. subst r0. assert (s0 = s) by congruence. subst s0.
  assert (Cw1 : current_session w1 (at_ side) = Some s').
  { unfold current_session. rewrite Er'. rewrite (record_current C _ _ _ _ _ _ _ A2 A3) in D.
    apply (f_equal (fun q => match q with Ok (_, v) => Some v | _ => None end)) in D. assert (rc_set_state r s' = r') by congruence. subst r'. reflexivity. }
  set (w2 := trusting (dev side)).
  assert (Wd2 : wf_device w2) by exact Wd.
  assert (Hy2 : history C at_ b base (upd dev side w2) par keys notes) by (apply Same; [exact Wd2|reflexivity|reflexivity]).
  destruct (delivered C H b at_ base (upd dev side w2) par keys notes side ey ny ty cy rnd Hy2 Jy Rv Fr) as (w3 & E3).
  { rewrite upd_same. reflexivity. }
  pose proof E3 as E4. rewrite upd_same in E4.
  pose proof (h_receive C at_ b base _ _ _ _ side ey ny ty cy rnd [] ty w3 Hy2 Jy Rv Fr E3) as Hy3.
  assert (Cw3 : current_session w3 (at_ side) = Some s') by (exact (A4 w2 [] ty w3 Wd2 Er E4)).
  assert (P3 : w_pair w3 = w_pair (dev side)).
  { pose proof (run_pair (decrypt_message C (at_ side) rnd cy) [] w2) as Q. unfold run0 in E4. rewrite E4 in Q. exact Q. }
  destruct (history_in_step C H b at_ _ _ _ _ _ Hy2) as (k2 & ks2 & St2).
  pose proof (receive_step C H b at_ k2 ks2 base _ par keys notes side ey ny ty cy rnd St2 Jy Rv Fr) as (_ & _ & R).
  destruct (R _ _ _ E3) as (_ & _ & _ & Nz).
  exists (upd (upd (upd dev side w2) side w3) side w'). split; [intro q; rewrite !upd_twice; unfold upd; destruct (Bool.eqb q side); reflexivity|]. right.
  exists (mkNote (negb side) ey ny ty cy), m. cbn [nt_from nt_epoch nt_counter nt_text nt_cipher].
  split; [exact Jy|]. split; [reflexivity|]. split; [exact Iy|]. split; [exists c; auto|]. split; [exact Rv|].
  apply h_other; [exact Hy3|]. rewrite upd_same. split; [exact Wd'|]. split; [congruence|]. left. split; [right; exact Nz|].
  rewrite Cw3, <- Cw1. apply session_current, Sr.
Qed.

(** A call that would not succeed, whatever is left of it. *)
Theorem not_accepted : forall base dev par keys notes side x rnd w', history C at_ b base dev par keys notes -> w_shared (dev side) = false ->
  ~ is_ok (fst (run0 (receive_bytes C (at_ side) rnd x) (dev side))) -> leaves (receive_bytes C (at_ side) rnd x) (dev side) w' ->
  exists dev', (forall z, dev' z = upd dev side w' z) /\ history C at_ b base dev' par keys notes.
Proof using H.
  intros base dev par keys notes side x rnd w' Hy Sh No Lv. unfold receive_bytes in *. exists (upd dev side w'). split; [reflexivity|].
  destruct (history_in_step C H b at_ _ _ _ _ _ Hy) as (k & ks & St).
  assert (Wd : wf_device (dev side)) by apply St.
  assert (Fin : wf_device w' -> w_pair w' = w_pair (dev side) -> untouched (dev side) w' -> history C at_ b base (upd dev side w') par keys notes).
  { intros Wd' Wp' ((U1 & _) & U2 & U3). apply h_other; [exact Hy|]. split; [exact Wd'|]. split; [exact Wp'|].
    destruct side; [left; split; [left; reflexivity|apply session_current, U1]|].
    destruct (Nat.eq_dec (p_epoch (par false)) 0) as [Z|Z]; [right|left; split; [right; exact Z|apply session_current, U1]].
    split; [reflexivity|]. split; [exact Z|]. split; [|split; [apply U3|intros id _; apply U2]].
    destruct St as (_ & _ & _ & _ & _ & _ & _ & _ & _ & _ & _ & Nb & _). destruct (Nb Z) as (_ & _ & Un).
    intros r s E. rewrite U1 in E. exact (Un r s E). }
  destruct (unposted x) as [c|e|] eqn:U; cbn [plift] in *.
  2,3: assert (w' = dev side) as -> by (destruct Lv as (fs & [-> |(n & ->)]); [reflexivity|apply crash_ret]); apply Fin; [exact Wd|reflexivity|repeat split; auto].
  destruct (carries_wf _ _ U) as [Wc _].
  assert (Ps : pall shape_ok shape_ans (decrypt_message C (at_ side) rnd c)) by (exact (calls_shape C H (CDecrypt (at_ side) rnd c) Wc)).
  destruct (leaves_shape _ _ _ Ps Wd Lv) as [Wd' Wp'].
  destruct (leaves_atomic C (CDecrypt (at_ side) rnd c) (dev side) w' Sh Lv) as [Un|[Ok1 _]]; [exact (Fin Wd' Wp' Un)|contradiction].
Qed.

(** Calls about other conversations and groups. *)
Theorem elsewhere : forall base dev par keys notes side q w', history C at_ b base dev par keys notes -> wf_call q -> scope_of q <> OwnSession (at_ side) ->
  let '@Thread A p := start C q in leaves p (dev side) w' ->
  side = true \/ p_epoch (par false) <> 0 \/ prekeys_kept (dev side) w' b ->
  history C at_ b base (upd dev side w') par keys notes.
Proof using H.
  intros base dev par keys notes side q w' Hy Wq Sc. pose proof (calls_shape C H q Wq) as Ps. pose proof (fun fs => call_writes_scope C q fs (dev side)) as Is.
  destruct (start C q) as [A p]. intros Lv Sd.
  destruct (history_in_step C H b at_ _ _ _ _ _ Hy) as (k & ks & St).
  assert (Wd : wf_device (dev side)) by apply St. destruct (leaves_shape _ _ _ Ps Wd Lv) as [Wd' Wp'].
  assert (O : outside_same (scope_of q) (dev side) w') by (destruct Lv as (fs & [-> |(n & ->)]); apply Is).
  assert (Es : w_sess w' (at_ side) = w_sess (dev side) (at_ side)).
  { destruct O as (_ & _ & _ & _ & _ & O). destruct (scope_of q) as [a|a d]; [|rewrite (proj1 O); reflexivity]. apply O. intro Q. apply Sc. rewrite Q. reflexivity. }
  apply h_other; [exact Hy|]. split; [exact Wd'|]. split; [exact Wp'|].
  destruct side; [left; split; [left; reflexivity|apply session_current, Es]|].
  destruct (Nat.eq_dec (p_epoch (par false)) 0) as [Z|Z]; [right|left; split; [right; exact Z|apply session_current, Es]].
  destruct Sd as [Sd|[Sd|Sd]]; [discriminate|contradiction|]. split; [reflexivity|]. split; [exact Z|]. split; [|exact Sd].
  destruct St as (_ & _ & _ & _ & _ & _ & _ & _ & _ & _ & _ & Nb & _). destruct (Nb Z) as (_ & _ & Un).
  intros r s E. rewrite Es in E. exact (Un r s E).
Qed.
End Attack.
