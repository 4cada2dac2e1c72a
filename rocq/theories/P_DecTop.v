(** Receiving: what an answer means (C25, C29, C40), what is left behind (C26, C32, C33),
    when the call panics (C31). *)
From Verif Require Import M_Base M_Crypto M_Aes M_Curve M_Proto M_Message M_Ratchet M_State M_Store M_Session M_Group
  S_Crypto S_Message S_State S_Shape S_Ratchet S_Session S_Aes S_Api S_Send S_Group S_Receive S_Curve S_Bundle
  P_Base P_Proto P_Curve P_State P_Shape P_Ratchet P_Message P_Aes P_Chain P_Decrypt P_Receive P_Encrypt P_Record P_Prog
  P_Init P_Send P_Bundle P_DecApi.
From Coq Require Import ZifyBool ZifyNat ZifyN.
Local Open Scope nat_scope.

Lemma loaded_wf : forall w a, wf_world w -> wf_record (loaded (w_sess w a)).
Proof.
  intros w a (W & _). unfold loaded. destruct (w_sess w a) as [r|] eqn:E; [eapply W; exact E|apply new_record_wf].
Qed.
Lemma bob_session_wf : forall C w m s, CryptoOk C -> wf_world w -> wf_prekeymsg m -> bob_session C w m s ->
  wf_state s /\ ss_remote s = pub_bytes (pm_identity m) /\ ss_local s = pub_bytes (kp_pub (w_pair w)) /\
  ss_alice_base s = pub_bytes (pm_base m) /\ ss_pending s = None /\ ss_receivers s = [].
Proof.
  intros C w m s H (_ & Lp & Gr) (Wv & Wb & Wi & Wreg & _) (x & signed & onetime & s0 & E1 & E2 & E3 & E4 & ->).
  pose proof (prekeyrec_pair_wf C x signed E2) as Wp.
  assert (Wk : forall k, Some signed = Some k -> List.length (kp_pub k) = 32 /\ List.length (sk_bytes (kp_priv k)) = 32).
  { intros k E. injection E as <-. exact Wp. }
  destruct (init_bob_wf C _ _ _ _ _ _ _ H Lp Wi Wk E4) as (Wf & Pn & El & Er).
  assert (Rc : ss_receivers s0 = []).
  { unfold init_bob in E4. destruct (agreement C (kp_priv signed) (pm_identity m)); cbn [bind] in E4; [|discriminate..].
    destruct (agreement C (kp_priv (w_pair w)) (pm_base m)); cbn [bind] in E4; [|discriminate..].
    destruct (agreement C (kp_priv signed) (pm_base m)); cbn [bind] in E4; [|discriminate..].
    match type of E4 with (do x <- ?t; _) = _ => destruct t as [sec| |]; cbn [bind] in E4; [|discriminate..] end.
    destruct (match derive_keys C sec with Ok rc => rc | _ => ([], mkChainKey [] 0) end) as [rt ch].
    injection E4 as <-. reflexivity. }
  specialize (Wf (pm_reg m) (w_reg w) (pm_base m) None Wreg Gr Wb). rewrite with_pending_none in Wf by exact Pn.
  split; [apply Wf; discriminate|]. cbn. auto.
Qed.
Lemma wf_prekey_inner : forall m, wf_prekeymsg m -> wf_signal (pm_message m).
Proof. intros m (_ & _ & _ & _ & _ & _ & X). exact X. Qed.
Lemma wf_prekey_version : forall m, wf_prekeymsg m -> pm_version m = 3%N.
Proof. intros m (X & _). exact X. Qed.

(** Knowing the base key. *)
Lemma has_state_spec : forall r m, wf_record r -> wf_prekeymsg m ->
  exists b, rc_has_state r (pm_version m) (pub_bytes (pm_base m)) = Ok b /\
    (b = true <-> exists s, state_in s r /\ ss_alice_base s = pub_bytes (pm_base m)).
Proof.
  intros r m W Wm. destruct (wf_record_parse r W) as (p & P & Fp & M & _). unfold rc_has_state. rewrite P. cbn [bind].
  assert (HV : forall s, wf_state s -> has_version_base (pm_version m) (pub_bytes (pm_base m)) s = true <-> ss_alice_base s = pub_bytes (pm_base m)).
  { intros s Ws. unfold has_version_base. rewrite (wf_version s Ws), (wf_prekey_version m Wm). change (N.eqb 3 3) with true. cbn [andb].
    rewrite bytes_eqb_eq. split; congruence. }
  destruct (match rc_current r with Some s => has_version_base (pm_version m) (pub_bytes (pm_base m)) s | None => false end) eqn:Q.
  - exists true. split; [reflexivity|]. split; [|reflexivity]. intros _. destruct (rc_current r) as [s|] eqn:Ec; [|discriminate].
    exists s. split; [left; exact Ec|]. apply HV; [apply W; exact Ec|exact Q].
  - exists (existsb (has_version_base (pm_version m) (pub_bytes (pm_base m))) p). split; [reflexivity|]. rewrite existsb_exists. split.
    + intros (s & I & E). exists s. assert (Ws : wf_state s) by (rewrite Forall_forall in Fp; auto). split.
      * apply state_in_bytes; [exact Ws|]. right. rewrite M. apply in_map. exact I.
      * apply HV; auto.
    + intros (s & I & E). pose proof (state_in_wf r s W I) as Ws. destruct I as [Ec|(b & I & Pb)].
      * rewrite Ec in Q. apply HV in E; [congruence|exact Ws].
      * rewrite M in I. apply in_map_iff in I. destruct I as (s' & <- & I). rewrite Forall_forall in Fp.
        rewrite wf_roundtrip in Pb by auto. injection Pb as <-. exists s'. split; [exact I|]. apply HV; auto.
Qed.

(** *** C25 *)

Lemma state_in_loaded : forall w a s, state_in s (loaded (w_sess w a)) -> exists r, w_sess w a = Some r /\ state_in s r.
Proof.
  intros w a s I. unfold loaded in I. destruct (w_sess w a) as [r|]; [exists r; auto|]. destruct I as [I|(b & I & _)]; [discriminate|destruct I].
Qed.
Lemma keep_last_in : forall {A} n (l : list A) x, In x (keep_last n l) -> In x l.
Proof. intros A n l x I. unfold keep_last in I. rewrite <- (firstn_skipn (List.length l - n) l). apply in_or_app. right. exact I. Qed.
Lemma state_in_promote : forall r s s', wf_record r -> state_in s' (rc_promote r s) -> s' = s \/ state_in s' r.
Proof.
  intros r s s' W I. rewrite (promote_exact r s W) in I. destruct W as (W1 & _). destruct I as [I|(b & I & P)].
  - left. cbn in I. injection I as <-. reflexivity.
  - right. cbn [rc_previous] in I. destruct (rc_current r) as [c|] eqn:Ec.
    + apply keep_last_in in I. apply in_app_iff in I. destruct I as [I|[<-|[]]]; [right; exists b; auto|].
      rewrite wf_roundtrip in P by (apply W1; reflexivity). injection P as <-. left. exact Ec.
    + right. exists b. auto.
Qed.

Lemma decrypt_record_opens : forall C rnd r m pt r', CryptoOk C -> wf_record r -> wf_signal m ->
  decrypt_record C rnd r m = Ok (pt, r') -> exists s, state_in s r /\ opens C s m pt.
Proof.
  intros C rnd r m pt r' H W Wm E. destruct (decrypt_record_inv _ _ _ _ _ _ H W Wm E) as (s & s' & r1 & r2 & I & Ws & D & _).
  exists s. split; [apply state_in_bytes; auto|]. eapply decrypt_session_sound; eauto.
Qed.
Lemma answer_exact : forall C a rnd c fs w pt w', CryptoOk C -> wf_device w -> wf_ciphertext c ->
  run (decrypt_message C a rnd c) fs w = (Ok pt, w') ->
  (exists m s, inner c = Some m /\ session_for w a c s /\ opens C s m pt) \/
  (exists m r e, c = CSignal m /\ w_sess w a = Some r /\ decrypt_record C rnd r m = Err e /\ pt = []).
Proof.
  intros C a rnd c fs w pt w' H [W _] Wc E. destruct c as [m|pm|m|m]; cbn [decrypt_message] in E; [| |discriminate..].
  - destruct (decrypt_signal_runs C a rnd m fs w) as [R _]. rewrite R in E. destruct (hd_fault fs); [|discriminate..].
    unfold signal_body in E. destruct (w_sess w a) as [r|] eqn:Er; [|discriminate].
    assert (Wr : wf_record r) by (eapply (proj1 W); exact Er).
    destruct (decrypt_record C rnd r m) as [[p r']|e|] eqn:D; [left|right|discriminate].
    + unfold pdo at 1 in E. cbn [run exec_f fallible exec] in E. apply signal_rest_inv in E. destruct E as [-> _].
      destruct (decrypt_record_opens C rnd r m p r' H Wr Wc D) as (s & I & O). exists m, s.
      split; [reflexivity|]. split; [|exact O]. left. exists r. auto.
    + apply signal_rest_inv in E. destruct E as [-> _]. exists m, r, e. auto.
  - left. destruct (decrypt_prekey_inv _ _ _ _ _ _ _ _ E) as (r1 & r2 & id & w1 & T & P & D & _).
    pose proof (loaded_wf w a W) as Wl. exists (pm_message pm).
    destruct P as [(Hh & -> & _ & _)|(Hh & _ & s & B & -> & _)].
    + destruct (decrypt_record_opens C rnd _ _ pt r2 H Wl (wf_prekey_inner pm Wc) D) as (s & I & O). exists s.
      split; [reflexivity|]. split; [|exact O]. left. apply state_in_loaded. exact I.
    + destruct (bob_session_wf C w pm s H W Wc B) as (Ws & A1 & A2 & A3 & _).
      destruct (decrypt_record_opens C rnd _ _ pt r2 H (promote_wf _ s Wl Ws) (wf_prekey_inner pm Wc) D) as (s' & I & O). exists s'.
      split; [reflexivity|]. split; [|exact O]. apply state_in_promote in I; [|exact Wl]. destruct I as [->|I].
      * right. exists pm. auto.
      * left. apply state_in_loaded. exact I.
Qed.
(** Nothing accepts: decryptMessage fails. *)
Lemma no_opens_err : forall C rnd r m, CryptoOk C -> wf_record r -> wf_signal m ->
  (forall s pt, state_in s r -> ~ opens C s m pt) -> exists e, decrypt_record C rnd r m = Err e.
Proof.
  intros C rnd r m H W Wm N. destruct (decrypt_record C rnd r m) as [[pt r']|e|] eqn:D.
  - destruct (decrypt_record_opens C rnd r m pt r' H W Wm D) as (s & I & O). destruct (N s pt I O).
  - exists e. reflexivity.
  - destruct (decrypt_record_no_panic C rnd r m H W Wm D).
Qed.
Lemma garbage_accepted : forall C a rnd m w r s remote, CryptoOk C -> wf_device w -> wf_signal m ->
  w_sess w a = Some r -> rc_current r = Some s -> ss_remote s = Byte.x05 :: remote ->
  w_policy w a (w_ident w a) remote Receiving = true ->
  (forall s' pt, state_in s' r -> ~ opens C s' m pt) ->
  exists w', run0 (decrypt_message C a rnd (CSignal m)) w = (Ok [], w').
Proof.
  intros C a rnd m w r s remote H [W _] Wm Er Ec Es T N. assert (Wr : wf_record r) by (eapply (proj1 W); exact Er).
  destruct (no_opens_err C rnd r m H Wr Wm N) as (e & D). eexists. cbn [decrypt_message]. unfold run0.
  destruct (decrypt_signal_runs C a rnd m [] w) as [R _]. rewrite R. cbn [hd_fault tl]. rewrite Er. unfold signal_body. rewrite D.
  apply (signal_rest_completes a [] r w s remote Ec Es); auto.
  destruct (wf_remote s (proj1 Wr s Ec)) as (k & L & E & _). rewrite Es in E. injection E as ->. exact L.
Qed.

(** *** C26 *)
Definition no_sess (a : addr) (x : option record) : forall X, op X -> Prop := fun X o =>
  match o with
  | OStoreSession b r | OTouchSession b r => b = a /\ x = Some r
  | _ => True
  end.
Lemma no_sess_run : forall a x {A} (p : prog A), pall (no_sess a x) any_ans p -> forall fs w, w_sess w a = x ->
  (forall b, w_sess (snd (run p fs w)) b = w_sess w b) /\ forall n b, w_sess (crash n p fs w) b = w_sess w b.
Proof.
  intros a x A p P fs w E.
  pose proof (pall_rel (fun w1 w2 => w_sess w1 a = x -> forall b, w_sess w2 b = w_sess w1 b) (no_sess a x)) as Q.
  destruct (fun R T S => Q R T S A p P fs w) as [Q1 Q2].
  - intros w0 _ b. reflexivity.
  - intros w1 w2 w3 A1 A2 E1 b. rewrite A2, A1; auto. rewrite A1; auto.
  - intros X o f w0 K E0 b.
    assert (Z : w_sess (snd (exec o w0)) b = w_sess w0 b).
    { destruct o; cbn [no_sess] in K; cbn [exec snd]; try reflexivity.
      - destruct K as [-> K]. cbn [w_sess set_sess]. destruct (addr_eqb b a) eqn:Q0; [|reflexivity]. apply addr_eqb_eq in Q0. subst b. congruence.
      - destruct K as [-> K]. destruct (w_shared w0); [|reflexivity]. cbn [w_sess set_sess].
        destruct (addr_eqb b a) eqn:Q0; [|reflexivity]. apply addr_eqb_eq in Q0. subst b. congruence.
      - destruct (w_shared w0); reflexivity. }
    unfold exec_f. destruct (exec o w0) as [y w1]. cbn [snd] in Z. destruct (fallible o); [destruct f; auto|auto].
  - split; [apply Q1; exact E|]. intro n. apply Q2. exact E.
Qed.
Lemma signal_rest_same : forall a pt r, pall (no_sess a (Some r)) any_ans (signal_rest a pt r).
Proof.
  intros a pt r. unfold signal_rest. destruct (rc_current r) as [s|]; [|exact I].
  destruct (st_remote_identity s) as [[rid|]|e|]; try exact I. apply pall_do; [exact I|]. intros t _. destruct (negb t); [exact I|].
  apply pall_do; [exact I|]. intros _ _. apply pall_do; [split; reflexivity|]. intros; exact I.
Qed.
Lemma rejected_signal : forall C a rnd m fs w r, CryptoOk C -> wf_device w -> wf_signal m ->
  w_sess w a = Some r -> (forall s pt, state_in s r -> ~ opens C s m pt) ->
  (forall b, w_sess (snd (run (decrypt_message C a rnd (CSignal m)) fs w)) b = w_sess w b) /\
  forall n b, w_sess (crash n (decrypt_message C a rnd (CSignal m)) fs w) b = w_sess w b.
Proof.
  intros C a rnd m fs w r H [W _] Wm Er N. assert (Wr : wf_record r) by (eapply (proj1 W); exact Er).
  destruct (no_opens_err C rnd r m H Wr Wm N) as (e & D). cbn [decrypt_message].
  destruct (decrypt_signal_runs C a rnd m fs w) as [R K]. rewrite R.
  destruct (no_sess_run a (Some r) _ (signal_rest_same a [] r) (tl fs) w Er) as [Q1 Q2]. split.
  - intro b. destruct (hd_fault fs); [|reflexivity..]. rewrite Er. unfold signal_body. rewrite D. apply Q1.
  - intros [|n] b; [reflexivity|]. rewrite K. destruct (hd_fault fs); [|reflexivity..]. rewrite Er. unfold signal_body. rewrite D. apply Q2.
Qed.

(** A program whose last store call is the only one that writes a session. *)
Definition quiet : forall X, op X -> Prop := fun X o => match o with OStoreSession _ _ => False | _ => True end.
Lemma quiet_run : forall {A} (p : prog A), pall quiet any_ans p -> forall fs w, w_shared w = false ->
  w_sess (snd (run p fs w)) = w_sess w /\ w_shared (snd (run p fs w)) = false.
Proof.
  intros A p P fs w Sh.
  destruct (pall_rel (fun w1 w2 => w_shared w1 = false -> w_sess w2 = w_sess w1 /\ w_shared w2 = false) quiet) with (A := A) (p := p) (fs := fs) (w := w) as [Q _].
  - intros w0 E. auto.
  - intros w1 w2 w3 A1 A2 E. destruct (A1 E) as [B1 B2]. destruct (A2 B2) as [D1 D2]. split; congruence.
  - intros X o f w0 K E0.
    assert (Z : w_sess (snd (exec o w0)) = w_sess w0 /\ w_shared (snd (exec o w0)) = false).
    { destruct o; cbn [quiet] in K; cbn [exec snd]; auto; try contradiction; rewrite E0; auto. }
    unfold exec_f. destruct (exec o w0) as [y w1]. cbn [snd] in Z. destruct (fallible o); [destruct f; auto|auto].
  - exact P.
  - apply Q. exact Sh.
Qed.
Lemma process_quiet : forall C a ex r m, pall quiet any_ans (process_prekey C a ex r m).
Proof.
  intros C a ex r m. unfold process_prekey. apply pall_do; [exact I|]. intros t _. destruct (negb t); [exact I|].
  apply (pall_seq quiet any_ans _ _ (fun _ => True)).
  - unfold process_prekey_v3. apply pall_lift. intros has _. destruct has; [exact I|]. apply pall_do; [exact I|]. intros sgn _.
    apply pall_lift. intros signed _. cbv zeta.
    assert (Z : forall ot, pall quiet any_ans (pdo OKeyPair (fun ident => match init_bob C ident signed ot signed (pm_identity m) (pm_base m) return prog (record * option N) with
         | Ok s => pdo ORegistrationID (fun reg => let s := with_regs s (ss_remote_reg s) reg in let s := with_regs s (pm_reg m) (ss_local_reg s) in
              let s := with_alice_base s (pub_bytes (pm_base m)) in let r' := rc_promote r s in
              if ex then pdo (OTouchSession a r') (fun _ => PRet (Ok (r', pm_prekey_id m))) else PRet (Ok (r', pm_prekey_id m)))
         | _ => PRet Panic end))).
    { intro ot. apply pall_do; [exact I|]. intros ident _. destruct (init_bob _ _ _ _ _ _ _) as [s| |]; try exact I.
      apply pall_do; [exact I|]. intros reg _. cbv zeta. destruct ex; [|exact I]. apply pall_do; [exact I|]. intros; exact I. }
    destruct (pm_prekey_id m) as [i|]; [|apply Z]. apply pall_do; [exact I|]. intros y _. apply pall_lift. intros ot _. apply Z.
  - clear. set (p := process_prekey_v3 C a ex r m). clearbody p. induction p as [x|X o k IH]; cbn; auto.
  - intros [r' id] _. apply pall_do; [exact I|]. intros; exact I.
Qed.
Lemma skipn_in : forall {A} n (l : list A) x, In x (skipn n l) -> In x l.
Proof. intros A n l x I. rewrite <- (firstn_skipn n l). apply in_or_app. right. exact I. Qed.
Lemma tl_in : forall {A} (l : list A) x, In x (tl l) -> In x l.
Proof. intros A [|y l] x I; [destruct I|right; exact I]. Qed.
Lemma hd_fault_in : forall fs, ~ In FAfter fs -> hd_fault fs <> FAfter.
Proof. intros [|f fs] N; [discriminate|]. cbn. intros ->. apply N. left. reflexivity. Qed.
Lemma tl_tl : forall {A} (l : list A), skipn 2 l = tl (tl l).
Proof. intros A [|? [|? ?]]; reflexivity. Qed.
Lemma error_signal : forall C a rnd m fs w, w_shared w = false -> ~ In FAfter fs ->
  (forall pt, fst (run (decrypt_signal C a rnd m) fs w) <> Ok pt) ->
  w_sess (snd (run (decrypt_signal C a rnd m) fs w)) = w_sess w.
Proof.
  intros C a rnd m fs w Sh NF N.
  assert (NFt : forall k, ~ In FAfter (skipn k (tl fs))) by (intros k I; apply NF, tl_in, (skipn_in k), I).
  destruct (decrypt_signal_runs C a rnd m fs w) as [R _]. rewrite R in *. destruct (hd_fault fs); [|reflexivity..].
  unfold signal_body in *. destruct (w_sess w a) as [r|]; [|reflexivity].
  assert (Z : forall pt r' fs1 w0, w_sess w0 = w_sess w -> (forall k, ~ In FAfter (skipn k fs1)) ->
     (forall pt0, fst (run (signal_rest a pt r') fs1 w0) <> Ok pt0) -> w_sess (snd (run (signal_rest a pt r') fs1 w0)) = w_sess w).
  { clear - C. intros pt r' fs1 w0 E0 NFt N. unfold signal_rest in *. destruct (rc_current r') as [s|]; [|exact E0].
    destruct (st_remote_identity s) as [[rid|]|e|]; try exact E0.
    unfold pdo in *. cbn [run exec_f fallible exec] in *. destruct (hd_fault fs1); cbn [run snd] in *; try exact E0.
    destruct (negb _); [exact E0|]. cbn [run exec_f fallible exec] in *. destruct (hd_fault (tl fs1)); cbn [run snd exec] in *; try exact E0.
    pose proof (hd_fault_in _ (NFt 2)) as F2. rewrite tl_tl in F2.
    cbn [run exec_f fallible exec] in *. destruct (hd_fault (tl (tl fs1))); cbn [run snd exec] in *; [|exact E0|congruence].
    destruct (N pt eq_refl). }
  destruct (decrypt_record C rnd r m) as [[p r']|e|].
  + unfold pdo at 1. unfold pdo at 1 in N. cbn [run exec_f fallible exec] in *. rewrite Sh in *. apply Z; [reflexivity| |exact N].
    intro k. rewrite skipn_tl. apply NFt.
  + apply Z; [reflexivity|apply NFt|exact N].
  + reflexivity.
Qed.
Lemma error_prekey : forall C a rnd m fs w, CryptoOk C -> wf_device w -> wf_prekeymsg m -> w_shared w = false -> ~ In FAfter fs ->
  (forall pt, fst (run (decrypt_prekey C a rnd m) fs w) <> Ok pt) ->
  w_sess (snd (run (decrypt_prekey C a rnd m) fs w)) = w_sess w \/
  exists s pt id, session_for w a (CPreKey m) s /\ opens C s (pm_message m) pt /\ pm_prekey_id m = Some id /\
    fst (run (decrypt_prekey C a rnd m) fs w) = Err EStore /\ In FBefore fs.
Proof.
  intros C a rnd m fs w H [W _] Wm Sh NF N.
  assert (NFt : forall k, ~ In FAfter (skipn k (tl fs))) by (intros k I; apply NF, tl_in, (skipn_in k), I).
  pose proof (loaded_wf w a W) as Wl.
  destruct (decrypt_prekey_runs C a rnd m fs w) as [R _]. rewrite R in *. destruct (hd_fault fs); [|left; reflexivity..].
  unfold prekey_body in *. set (p := process_prekey _ _ _ _ _) in *. set (f := fun r => plift r _) in *.
  destruct (run_bind p f (tl fs) w) as (k & Eb). rewrite Eb in *. clear Eb.
  destruct (quiet_run p (process_quiet _ _ _ _ _) (tl fs) w Sh) as [Q1 Q2].
  destruct (run p (tl fs) w) as [[[r1 id]|e|] w1] eqn:V; unfold f in *; cbn [fst snd plift] in *; [|left; exact Q1..].
  unfold p in V. apply process_inv in V. destruct V as [_ V].
  unfold prekey_rest in *. cbn [fst snd] in *. destruct (decrypt_record C rnd r1 (pm_message m)) as [[pt r2]|e|] eqn:D; cbn [plift] in *; [|left; exact Q1..].
  set (fs1 := skipn k (tl fs)) in *.
  assert (NF1 : forall j, ~ In FAfter (skipn j fs1)) by (intros j I; apply (NFt k); apply (skipn_in j); exact I).
  set (fin := pdo (OStoreSession a r2) _) in *.
  assert (Z : forall fs2, (forall j, ~ In FAfter (skipn j fs2)) -> (forall x, In x fs2 -> In x fs1) -> (forall pt0, fst (run fin fs2 w1) <> Ok pt0) ->
     w_sess (snd (run fin fs2 w1)) = w_sess w \/ exists i, id = Some i /\ fst (run fin fs2 w1) = Err EStore /\ In FBefore fs1).
  { intros fs2 NF2 I2 N2. unfold fin, pdo in *. cbn [run exec_f fallible exec] in *. pose proof (hd_fault_in _ (NF2 0)) as F0. cbn [skipn] in F0.
    destruct (hd_fault fs2); cbn [run snd exec] in *; [|left; exact Q1|congruence].
    destruct id as [i|]; [|cbn [run] in *; destruct (N2 pt eq_refl)].
    cbn [run exec_f fallible exec] in *.
    pose proof (hd_fault_in _ (NF2 1)) as F1. replace (skipn 1 fs2) with (tl fs2) in F1 by (destruct fs2; reflexivity).
    destruct (hd_fault (tl fs2)) eqn:Hf; cbn [run snd exec] in *; [destruct (N2 pt eq_refl)| |congruence].
    right. exists i. split; [reflexivity|]. split; [reflexivity|]. apply I2, tl_in. destruct (tl fs2) as [|g l]; [discriminate|].
    cbn [hd_fault] in Hf. left. exact Hf. }
  assert (G : forall fs2, (forall j, ~ In FAfter (skipn j fs2)) -> (forall x, In x fs2 -> In x fs1) -> (forall pt0, fst (run fin fs2 w1) <> Ok pt0) ->
     w_sess (snd (run fin fs2 w1)) = w_sess w \/ exists s pt id, session_for w a (CPreKey m) s /\ opens C s (pm_message m) pt /\ pm_prekey_id m = Some id /\
     fst (run fin fs2 w1) = Err EStore /\ In FBefore fs).
  { intros fs2 NF2 I2 N2. destruct (Z fs2 NF2 I2 N2) as [E|(i & -> & E & If)]; [left; exact E|].
    destruct V as [(_ & _ & V & _)|(_ & Ei & s & B & -> & _)]; [discriminate|]. right.
    destruct (bob_session_wf C w m s H W Wm B) as (Ws & A1 & A2 & A3 & _).
    destruct (decrypt_record_opens C rnd _ _ pt r2 H (promote_wf _ s Wl Ws) (wf_prekey_inner m Wm) D) as (s' & I & O).
    exists s', pt, i. split; [|split; [exact O|split; [congruence|split; [exact E|apply tl_in, (skipn_in k), If]]]].
    apply state_in_promote in I; [|exact Wl]. destruct I as [->|I]; [right; exists m; auto|left; apply state_in_loaded; exact I]. }
  clearbody fin. destruct (existed (w_sess w a)); [|apply G; auto].
  unfold pdo in *. cbn [run exec_f fallible exec] in *. destruct V as [V|V]; rewrite Q2 in *.
  all: apply G; [intro j; rewrite skipn_tl; apply NF1|intros x; apply tl_in|exact N].
Qed.
Lemma error_leaves_session : forall C a rnd c fs w, CryptoOk C -> wf_device w -> wf_ciphertext c -> w_shared w = false -> ~ In FAfter fs ->
  (forall pt, fst (run (decrypt_message C a rnd c) fs w) <> Ok pt) ->
  w_sess (snd (run (decrypt_message C a rnd c) fs w)) = w_sess w \/
  exists m s pt, c = CPreKey m /\ session_for w a c s /\ opens C s (pm_message m) pt /\ pm_prekey_id m <> None /\
    fst (run (decrypt_message C a rnd c) fs w) = Err EStore /\ In FBefore fs.
Proof.
  intros C a rnd c fs w H Wd Wc Sh NF N. destruct c as [m|pm|m|m]; cbn [decrypt_message] in *; [| |left; reflexivity..].
  - left. apply error_signal; auto.
  - destruct (error_prekey C a rnd pm fs w H Wd Wc Sh NF N) as [E|(s & pt & id & A1 & A2 & A3 & A4 & A5)]; [left; exact E|].
    right. exists pm, s, pt. repeat (split; auto). congruence.
Qed.
