(** One-time pre-keys: what a cut-off call leaves, and how often one is used (C65, C66). *)
From Verif Require Import M_Base M_Crypto M_Aes M_Curve M_Proto M_Message M_Ratchet M_State M_Store M_Session M_Group
  S_Crypto S_Message S_State S_Shape S_Ratchet S_Session S_Aes S_Api S_Send S_Group S_Curve S_X3dh S_Receive S_Conv S_History S_Atomic S_Isolation S_Once
  P_Base P_State P_Shape P_Record P_Prog P_Api P_Receive P_Decrypt P_Bundle P_DecApi P_DecTop P_DecMore P_History P_Isolation.
From Coq Require Import ZifyBool ZifyNat ZifyN.
Local Open Scope nat_scope.

(** The current session stays in the record. *)
Lemma promote_old_keeps : forall r i s s', wf_record r -> rc_current r = Some s -> rc_current (rc_promote_old r i s') = Some s \/
  In (state_bytes s) (rc_previous (rc_promote_old r i s')).
Proof.
  intros r i s s' W Ec. unfold rc_promote_old. destruct (Nat.leb _ i); [left; exact Ec|right].
  unfold rc_promote, rc_archive. cbn [rc_current]. rewrite Ec. cbn [rc_previous]. apply in_or_app. right. left. reflexivity.
Qed.
Lemma record_keeps_base : forall C rnd r m pt r' s, CryptoOk C -> wf_record r -> wf_signal m -> rc_current r = Some s ->
  decrypt_record C rnd r m = Ok (pt, r') -> exists s', state_in s' r' /\ ss_alice_base s' = ss_alice_base s.
Proof.
  intros C rnd r m pt r' s H W Wm Ec D. assert (Ws : wf_state s) by (apply W; exact Ec). unfold decrypt_record in D. rewrite Ec in D.
  assert (K : forall rnd0, (do l <- rc_previous_states r;
     match try_previous C rnd0 0 l m None with
     | (Ok (Some (i, s, pt)), _) => Ok (pt, rc_promote_old r i s)
     | (Ok None, _) => Err (EOther "decryption failed: invalid message")
     | (Err e, _) => Err e
     | (Panic, _) => Panic
     end) = Ok (pt, r') -> exists s', state_in s' r' /\ ss_alice_base s' = ss_alice_base s).
  { intros rnd0 X. destruct (rc_previous_states r) as [l|e|]; cbn [bind] in X; [|discriminate..].
    destruct (try_previous C rnd0 0 l m None) as [[[[[i s'] pt']|]|e|] q]; [|discriminate..]. injection X as _ <-.
    exists s. split; [|reflexivity]. apply state_in_bytes; [exact Ws|]. apply promote_old_keeps; auto. }
  destruct (decrypt_session C rnd s m) as [[[pt' s']|e|] q] eqn:Ds; [| |discriminate].
  - injection D as _ <-. destruct (decrypt_session_inv _ _ _ _ _ _ _ H Ws Wm Ds) as (_ & Sm & _). exists s'. split; [left; reflexivity|].
    unfold same_session in Sm. intuition congruence.
  - destruct e; try (exact (K _ D)); discriminate.
Qed.

(** A program after some store calls without failures. *)
Fixpoint steps {A} (k : nat) (p : prog A) (w : world) : prog A * world :=
  match k with 0 => (p, w) | S k => let '(p', w') := pstep p FNone w in steps k p' w' end.
Lemma steps_add : forall {A} j k (p : prog A) w, steps (j + k) p w = let '(p', w') := steps j p w in steps k p' w'.
Proof. intros A j. induction j as [|j IH]; intros k p w; cbn [steps Nat.add]; [reflexivity|]. destruct (pstep p FNone w). apply IH. Qed.
Lemma steps_do : forall {A X} k (o : op X) (f : X -> prog A) w, steps (S k) (pdo o f) w = steps k (f (fst (exec o w))) (snd (exec o w)).
Proof. intros. unfold pdo. cbn [steps pstep]. unfold exec_f. destruct (fallible o), (exec o w); reflexivity. Qed.
Lemma steps_bind : forall {A B} (p : prog A) (f : res A -> prog B) w, exists k, steps k (pbind p f) w = (f (fst (run0 p w)), snd (run0 p w)).
Proof.
  intros A B p f. induction p as [r|X o k IH]; intro w; [exists 0; reflexivity|]. unfold run0. cbn [run hd_fault tl pbind].
  destruct (exec_f o FNone w) as [x w'] eqn:E. destruct (IH x w') as (j & J). exists (S j). cbn [steps pstep]. rewrite E. exact J.
Qed.
Lemma steps_run : forall {A} k (p : prog A) w fs, run p (repeat FNone k ++ fs) w = run (fst (steps k p w)) fs (snd (steps k p w)) \/
  exists r, fst (steps k p w) = PRet r.
Proof.
  intros A k. induction k as [|k IH]; intros p w fs; [left; reflexivity|]. destruct p as [r|X o f].
  - right. exists r. cbn [steps pstep]. clear. induction k as [|k IH]; cbn [steps pstep fst]; auto.
  - cbn [steps pstep repeat app run hd_fault tl]. destruct (exec_f o FNone w) as [x w']. apply IH.
Qed.
Lemma steps_crash : forall {A} k (p : prog A) w, crash k p [] w = snd (steps k p w).
Proof.
  intros A k. induction k as [|k IH]; intros p w; cbn [crash steps]; [reflexivity|]. cbn [hd_fault tl].
  destruct p as [r|X o f]; cbn [pstep]; [rewrite <- IH; destruct k; reflexivity|]. destruct (exec_f o FNone w); apply IH.
Qed.
Lemma steps_run2 : forall {A B} k (p : prog A) (q : prog B) w, run2 (repeat false k) p q w = run2 [] p (fst (steps k q w)) (snd (steps k q w)).
Proof. intros A B k p. induction k as [|k IH]; intros q w; cbn [repeat run2 steps]; [reflexivity|]. destruct (pstep q FNone w). apply IH. Qed.

Section Once.
Variable C : Crypto.
Hypothesis H : CryptoOk C.

Lemma new_steps : forall a rnd pm w pt w' id, wf_device w -> wf_prekeymsg pm -> unused_base w a (pm_base pm) -> pm_prekey_id pm = Some id ->
  run0 (decrypt_message C a rnd (CPreKey pm)) w = (Ok pt, w') ->
  exists k w1, steps k (decrypt_message C a rnd (CPreKey pm)) w = (pdo (ODeletePreKey id) (fun _ => PRet (Ok pt)), w1) /\
    w' = del_prekey w1 id /\ w_prekeys w1 = w_prekeys w /\
    exists r s, w_sess w1 a = Some r /\ state_in s r /\ ss_alice_base s = Byte.x05 :: pm_base pm.
Proof using H.
  intros a rnd pm w pt w' id Wd Wm U Ei E. pose proof (no_state w a pm Wd Wm U) as Hh. cbn [decrypt_message] in *.
  pose proof E as E0. unfold run0 in E0. apply decrypt_prekey_inv in E0. destruct E0 as (r1 & r2 & i & w1 & T & V & D & Ew).
  destruct V as [(X & _)|(_ & -> & s & B & -> & ->)]; [rewrite Hh in X; discriminate|].
  pose proof (process_new C a (existed (w_sess w a)) (loaded (w_sess w a)) pm w s T Hh B) as P. rewrite Ei in *.
  set (w1 := set_ident _ _ _) in *. set (r1 := rc_promote _ _) in *.
  unfold decrypt_prekey.
  set (rest := fun r => plift r (fun '(r1, pkid) =>
     plift (decrypt_record C rnd r1 (pm_message pm)) (fun '(pt, r2) =>
     let fin := pdo (OStoreSession a r2) (fun _ => match pkid with Some id => pdo (ODeletePreKey id) (fun _ => PRet (Ok pt)) | None => PRet (Ok pt) end) in
     if existed (w_sess w a) then pdo (OTouchSession a r2) (fun _ => fin) else fin))).
  destruct (steps_bind (process_prekey C a (existed (w_sess w a)) (loaded (w_sess w a)) pm) rest w) as (k & K). rewrite P in K. cbn [fst snd] in K.
  unfold rest in K at 2. cbn [plift] in K. rewrite D in K. cbn [plift] in K. cbv zeta in K.
  exists (S (k + (if existed (w_sess w a) then 2 else 1))), (set_sess (touched w1 a (existed (w_sess w a)) r2) a r2). split; [|split; [exact Ew|split]].
  - rewrite steps_do. cbn [exec fst snd]. rewrite steps_add. unfold pseq. 
    change (match w_sess w a with Some _ => true | None => false end) with (existed (w_sess w a)).
    change (match w_sess w a with Some r => r | None => new_record None end) with (loaded (w_sess w a)).
    change (pbind _ _) with (pbind (process_prekey C a (existed (w_sess w a)) (loaded (w_sess w a)) pm) rest). rewrite K.
    destruct (existed (w_sess w a)); rewrite !steps_do; cbn [exec fst snd steps]; [|reflexivity]. unfold touched. destruct (w_shared w1); reflexivity.
  - unfold w1, touched. destruct (existed (w_sess w a)); cbn [andb]; repeat (destruct (w_shared _)); reflexivity.
  - destruct Wd as [W WG]. destruct (bob_session_wf C w pm s H W Wm B) as (Ws & A1 & A2 & A3 & _).
    destruct (record_keeps_base C rnd r1 (pm_message pm) pt r2 s H (promote_wf _ s (loaded_wf w a W) Ws) (wf_prekey_inner pm Wm) eq_refl D) as (s' & I0 & Eb).
    exists r2, s'. split; [cbn [w_sess set_sess]; rewrite addr_eqb_refl; reflexivity|]. split; [exact I0|]. rewrite Eb.
    destruct B as (? & ? & ? & ? & _ & _ & _ & _ & ->). reflexivity.
Qed.

(** The deletion fails: the session stays, and the pre-key stays for good. *)
Theorem prekey_left : forall a rnd pm w pt w' id, wf_device w -> wf_prekeymsg pm -> unused_base w a (pm_base pm) -> pm_prekey_id pm = Some id ->
  run0 (decrypt_message C a rnd (CPreKey pm)) w = (Ok pt, w') ->
  exists fs w1, run (decrypt_message C a rnd (CPreKey pm)) fs w = (Err EStore, w1) /\
    (forall x, w_sess w1 x = w_sess w' x) /\ w_prekeys w1 id = w_prekeys w id /\
    forall rnd2 fs2, w_prekeys (snd (run (decrypt_message C a rnd2 (CPreKey pm)) fs2 w1)) id = w_prekeys w id.
Proof using H.
  intros a rnd pm w pt w' id Wd Wm U Ei E. destruct (new_steps a rnd pm w pt w' id Wd Wm U Ei E) as (k & w1 & K & -> & Ep & r & s & Er & I0 & Eb).
  assert (F : run (decrypt_message C a rnd (CPreKey pm)) (repeat FNone k ++ [FBefore]) w = (Err EStore, w1)).
  { destruct (steps_run k (decrypt_message C a rnd (CPreKey pm)) w [FBefore]) as [R|(r0 & R)]; rewrite K in R; [|discriminate]. rewrite R. reflexivity. }
  exists (repeat FNone k ++ [FBefore]), w1. split; [exact F|]. split; [reflexivity|]. split; [rewrite Ep; reflexivity|].
  intros rnd2 fs2. assert (W1 : wf_device w1).
  { replace w1 with (snd (run (decrypt_message C a rnd (CPreKey pm)) (repeat FNone k ++ [FBefore]) w)) by (rewrite F; reflexivity).
    apply run_shape; [exact (calls_shape C H (CDecrypt a rnd (CPreKey pm)) Wm)|exact Wd]. }
  destruct (redelivered_call C a rnd2 pm fs2 w1 r H W1 Wm Er) as (Q & _); [eauto|]. rewrite Q, Ep. reflexivity.
Qed.

(** Two messages naming the same one-time pre-key, processed at the same time. *)
Theorem prekey_twice : forall a1 rnd1 pm1 pt1 w1 a2 rnd2 pm2 pt2 w2 w id, a1 <> a2 -> wf_device w -> wf_prekeymsg pm2 -> unused_base w a2 (pm_base pm2) ->
  pm_prekey_id pm2 = Some id ->
  run0 (decrypt_message C a1 rnd1 (CPreKey pm1)) w = (Ok pt1, w1) -> run0 (decrypt_message C a2 rnd2 (CPreKey pm2)) w = (Ok pt2, w2) ->
  exists sched w', run2 sched (decrypt_message C a1 rnd1 (CPreKey pm1)) (decrypt_message C a2 rnd2 (CPreKey pm2)) w = (Ok pt1, Ok pt2, w') /\
    w_sess w' a1 = w_sess w1 a1 /\ w_sess w' a2 = w_sess w2 a2.
Proof using H.
  intros a1 rnd1 pm1 pt1 w1 a2 rnd2 pm2 pt2 w2 w id Na Wd Wm U Ei E1 E2.
  destruct (new_steps a2 rnd2 pm2 w pt2 w2 id Wd Wm U Ei E2) as (k & w3 & K & -> & Ep & _).
  pose proof (call_writes_scope C (CDecrypt a2 rnd2 (CPreKey pm2)) [] w) as [_ Q]. cbn [scope_of] in Q. specialize (Q k).
  rewrite steps_crash, K in Q. cbn [snd] in Q. destruct Q as (Q1 & Q2 & Q3 & Q4 & Q5 & Q6 & _).
  pose proof (call_reads_scope C (CDecrypt a1 rnd1 (CPreKey pm1)) [] w w3) as V. cbn [scope_of start] in V. unfold run0 in E1. rewrite E1 in V.
  destruct V as [V1 V2].
  { split; [exact Q5|]. destruct (Q6 a1 Na) as [A1 A2]. rewrite Q4, Ep, Q1. auto 10. }
  destruct (run (decrypt_message C a1 rnd1 (CPreKey pm1)) [] w3) as [x w4] eqn:E3. cbn [fst snd] in V1, V2. subst x.
  pose proof (call_writes_scope C (CDecrypt a1 rnd1 (CPreKey pm1)) [] w3) as [(_ & _ & _ & _ & _ & P6 & _) _]. rewrite E3 in P6. cbn [snd] in P6.
  exists (repeat false k), (del_prekey w4 id). rewrite steps_run2, K. cbn [fst snd run2]. unfold run0. rewrite E3. split; [reflexivity|].
  cbn [del_prekey w_sess]. split; [apply V2|]. apply P6. congruence.
Qed.

(** A pre-key that is named but missing is treated as if none had been named. *)
Theorem missing_ignored : forall a rnd pm w pt w0 id, w_prekeys w id = None ->
  run0 (decrypt_message C a rnd (CPreKey (with_prekey_id pm None))) w = (Ok pt, w0) ->
  exists w', run0 (decrypt_message C a rnd (CPreKey (with_prekey_id pm (Some id)))) w = (Ok pt, w') /\ forall x, w_sess w' x = w_sess w0 x.
Proof.
  intros a rnd pm w pt w0 id En E. cbn [decrypt_message] in *. unfold run0 in E. apply decrypt_prekey_inv in E.
  destruct E as (r1 & r2 & i & w1 & T & V & D & ->). cbn [with_prekey_id pm_version pm_base pm_identity pm_message pm_prekey_id] in *.
  destruct V as [(Hh & -> & -> & ->)|(Hh & -> & s & B & -> & ->)].
  - eexists. split; [eapply decrypt_prekey_completes; [apply process_has; [exact T|exact Hh]|exact D]|]. reflexivity.
  - assert (B' : bob_session C w (with_prekey_id pm (Some id)) s).
    { destruct B as (x & sg & ot & s0 & B1 & B2 & B3 & B4 & B5). exists x, sg, ot, s0. cbn [with_prekey_id pm_prekey_id pm_signed_id pm_identity pm_base pm_reg] in *. rewrite En. auto. }
    eexists. split; [eapply decrypt_prekey_completes; [apply process_new; [exact T|exact Hh|exact B']|exact D]|]. intro x. reflexivity.
Qed.
End Once.
