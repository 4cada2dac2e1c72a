(** DecryptMessage, run by run. *)
From Verif Require Import M_Base M_Crypto M_Aes M_Curve M_Proto M_Message M_Ratchet M_State M_Store M_Session M_Group
  S_Crypto S_Message S_State S_Shape S_Ratchet S_Session S_Aes S_Api S_Send S_Group
  P_Base P_Proto P_Curve P_State P_Shape P_Ratchet P_Message P_Aes P_Chain P_Decrypt P_Receive P_Encrypt P_Record P_Prog
  P_Init P_Send P_Bundle.
From Coq Require Import ZifyBool ZifyNat ZifyN.
Local Open Scope nat_scope.

(** *** Sub-programs *)
Lemma skipn_tl : forall {A} k (l : list A), skipn k (tl l) = skipn (S k) l.
Proof. intros A k [|x l]; [destruct k; reflexivity|reflexivity]. Qed.
Lemma run_bind : forall {A B} (p : prog A) (f : res A -> prog B) fs w,
  exists k, run (pbind p f) fs w = run (f (fst (run p fs w))) (skipn k fs) (snd (run p fs w)).
Proof.
  intros A B p f. induction p as [r|X o k IH]; intros fs w; [exists 0; reflexivity|].
  cbn [pbind run]. destruct (exec_f o (hd_fault fs) w) as [x w1].
  destruct (IH x (tl fs) w1) as (n & E). exists (S n). rewrite E, skipn_tl. reflexivity.
Qed.
Lemma run0_bind : forall {A B} (p : prog A) (f : res A -> prog B) w,
  run0 (pbind p f) w = run0 (f (fst (run0 p w))) (snd (run0 p w)).
Proof.
  intros A B p f w. unfold run0. destruct (run_bind p f [] w) as (k & E). rewrite E. destruct k; reflexivity.
Qed.
Lemma crash_bind : forall {A B} (p : prog A) (f : res A -> prog B) fs w n,
  crash n (pbind p f) fs w = crash n p fs w \/
  exists k j, crash n (pbind p f) fs w = crash j (f (fst (run p fs w))) (skipn k fs) (snd (run p fs w)).
Proof.
  intros A B p f. induction p as [r|X o k IH]; intros fs w n.
  - right. exists 0, n. reflexivity.
  - destruct n as [|n]; [left; reflexivity|]. cbn [pbind run crash pstep]. destruct (exec_f o (hd_fault fs) w) as [x w1].
    destruct (IH x (tl fs) w1 n) as [E|(i & j & E)]; [left; exact E|right]. exists (S i), j. rewrite E, skipn_tl. reflexivity.
Qed.
Lemma pall_rel : forall (R : world -> world -> Prop) (ok : forall X, op X -> Prop),
  (forall w, R w w) -> (forall w1 w2 w3, R w1 w2 -> R w2 w3 -> R w1 w3) ->
  (forall X (o : op X) f w, ok X o -> R w (snd (exec_f o f w))) ->
  forall {A} (p : prog A), pall ok any_ans p -> forall fs w, R w (snd (run p fs w)) /\ forall n, R w (crash n p fs w).
Proof.
  intros R ok Rf Tr St A p. induction p as [r|X o k IH]; intros P fs w.
  - split; [apply Rf|]. intro n. rewrite crash_ret. apply Rf.
  - destruct P as [P1 P2]. pose proof (St X o (hd_fault fs) w P1) as S1. cbn [run]. destruct (exec_f o (hd_fault fs) w) as [x w1] eqn:E.
    cbn [snd] in S1. destruct (IH x (P2 x I) (tl fs) w1) as [A1 A2]. split; [eapply Tr; eauto|].
    intros [|n]; [apply Rf|]. cbn [crash pstep]. rewrite E. eapply Tr; eauto.
Qed.

(** *** ProcessPreKey *)
Definition bob_session (C : Crypto) (w : world) (m : prekeymsg) (s : state) : Prop :=
  exists x signed onetime s0,
    w_signed w (pm_signed_id m) = Some x /\ prekeyrec_pair C x = Ok signed /\
    match pm_prekey_id m with
    | None => onetime = None
    | Some id => match w_prekeys w id with
                 | None => onetime = None
                 | Some y => exists k, prekeyrec_pair C y = Ok k /\ onetime = Some k
                 end
    end /\
    init_bob C (w_pair w) (Some signed) onetime (Some signed) (pm_identity m) (pm_base m) = Ok s0 /\
    s = with_alice_base (with_regs (with_regs s0 (ss_remote_reg s0) (w_reg w)) (pm_reg m) (w_reg w)) (pub_bytes (pm_base m)).

Definition touched (w : world) (a : addr) (ex : bool) (r : record) : world :=
  if (ex && w_shared w)%bool then set_sess w a r else w.

Lemma process_v3_inv : forall C a ex r m fs w r1 id w1,
  run (process_prekey_v3 C a ex r m) fs w = (Ok (r1, id), w1) ->
  (rc_has_state r (pm_version m) (pub_bytes (pm_base m)) = Ok true /\ r1 = r /\ id = None /\ w1 = w) \/
  (rc_has_state r (pm_version m) (pub_bytes (pm_base m)) = Ok false /\ id = pm_prekey_id m /\
   exists s, bob_session C w m s /\ r1 = rc_promote r s /\ w1 = touched w a ex r1).
Proof.
  intros C a ex r m fs w r1 id w1 E. unfold process_prekey_v3 in E.
  destruct (rc_has_state r (pm_version m) (pub_bytes (pm_base m))) as [[]|e|]; cbn [plift] in E; [|right|discriminate..].
  { cbn [run] in E. injection E as <- <- <-. left. auto. }
  split; [reflexivity|]. unfold pdo at 1 in E. cbn [run exec_f fallible exec] in E.
  destruct (hd_fault fs); cbn [snd] in E; [|discriminate..].
  unfold bob_session. destruct (w_signed w (pm_signed_id m)) as [x|] eqn:Es.
  2: { cbn [plift bind] in E. exfalso.
       assert (Z : forall ot fs1 w0, run (pdo OKeyPair (fun ident => match init_bob C ident None ot None (pm_identity m) (pm_base m) with
         | Ok s => pdo ORegistrationID (fun reg => let s := with_regs s (ss_remote_reg s) reg in let s := with_regs s (pm_reg m) (ss_local_reg s) in
              let s := with_alice_base s (pub_bytes (pm_base m)) in let r' := rc_promote r s in
              if ex then pdo (OTouchSession a r') (fun _ => PRet (Ok (r', pm_prekey_id m))) else PRet (Ok (r', pm_prekey_id m)))
         | _ => PRet Panic end)) fs1 w0 <> (Ok (r1, id), w1)).
       { intros ot fs1 w0. unfold pdo at 1. cbn [run exec_f fallible exec init_bob]. discriminate. }
       destruct (pm_prekey_id m) as [i|].
       - unfold pdo at 1 in E. cbn [run exec_f fallible exec] in E. destruct (hd_fault (tl fs)); cbn [snd] in E; [|discriminate..].
         destruct (match w_prekeys w i with Some x => _ | None => Ok None end) as [o|e|]; cbn [plift] in E; [|discriminate..].
         apply Z in E. exact E.
       - apply Z in E. exact E. }
  destruct (prekeyrec_pair C x) as [signed|e|] eqn:Ep; cbn [plift bind] in E; [|discriminate..].
  assert (Z : forall ot fs1 w0, w_pair w0 = w_pair w -> w_reg w0 = w_reg w -> w_shared w0 = w_shared w ->
     run (pdo OKeyPair (fun ident => match init_bob C ident (Some signed) ot (Some signed) (pm_identity m) (pm_base m) with
         | Ok s => pdo ORegistrationID (fun reg => let s := with_regs s (ss_remote_reg s) reg in let s := with_regs s (pm_reg m) (ss_local_reg s) in
              let s := with_alice_base s (pub_bytes (pm_base m)) in let r' := rc_promote r s in
              if ex then pdo (OTouchSession a r') (fun _ => PRet (Ok (r', pm_prekey_id m))) else PRet (Ok (r', pm_prekey_id m)))
         | _ => PRet Panic end)) fs1 w0 = (Ok (r1, id), w1) ->
     id = pm_prekey_id m /\ exists s0, init_bob C (w_pair w) (Some signed) ot (Some signed) (pm_identity m) (pm_base m) = Ok s0 /\
       r1 = rc_promote r (with_alice_base (with_regs (with_regs s0 (ss_remote_reg s0) (w_reg w)) (pm_reg m) (w_reg w)) (pub_bytes (pm_base m))) /\
       w1 = touched w0 a ex r1).
  { intros ot fs1 w0 P1 P2 P3 Q. unfold pdo at 1 in Q. cbn [run exec_f fallible exec] in Q. rewrite P1 in Q.
    destruct (init_bob C (w_pair w) (Some signed) ot (Some signed) (pm_identity m) (pm_base m)) as [s0|e|]; [|discriminate..].
    unfold pdo at 1 in Q. cbn [run exec_f fallible exec] in Q. rewrite P2 in Q. unfold touched. destruct ex.
    - unfold pdo at 1 in Q. cbn [run exec_f fallible exec] in Q. injection Q as <- <- <-. split; [reflexivity|]. exists s0. auto.
    - cbn [run] in Q. injection Q as <- <- <-. split; [reflexivity|]. exists s0. auto. }
  destruct (pm_prekey_id m) as [i|].
  - unfold pdo at 1 in E. cbn [run exec_f fallible exec] in E. destruct (hd_fault (tl fs)); cbn [snd] in E; [|discriminate..].
    destruct (w_prekeys w i) as [y|].
    + destruct (prekeyrec_pair C y) as [k|e|] eqn:Ek; cbn [plift bind] in E; [|discriminate..].
      apply Z in E; auto. destruct E as (-> & s0 & I & -> & ->). split; [reflexivity|]. eexists. split; [|split; reflexivity].
      exists x, signed, (Some k), s0. repeat (split; [auto; fail|]). split; [exists k; auto|]. auto.
    + cbn [plift] in E. apply Z in E; auto. destruct E as (-> & s0 & I & -> & ->). split; [reflexivity|]. eexists. split; [|split; reflexivity].
      exists x, signed, None, s0. auto 10.
  - apply Z in E; auto. destruct E as (-> & s0 & I & -> & ->). split; [reflexivity|]. eexists. split; [|split; reflexivity].
    exists x, signed, None, s0. auto 10.
Qed.
Lemma process_v3_completes : forall C a ex r m w s,
  rc_has_state r (pm_version m) (pub_bytes (pm_base m)) = Ok false -> bob_session C w m s ->
  run0 (process_prekey_v3 C a ex r m) w = (Ok (rc_promote r s, pm_prekey_id m), touched w a ex (rc_promote r s)).
Proof.
  intros C a ex r m w s Hh (x & signed & onetime & s0 & E1 & E2 & E3 & E4 & ->). unfold run0, process_prekey_v3. rewrite Hh. cbn [plift].
  unfold pdo at 1. cbn [run exec_f fallible exec hd_fault tl]. rewrite E1, E2. cbn [bind plift].
  assert (Z : run (pdo OKeyPair (fun ident => match init_bob C ident (Some signed) onetime (Some signed) (pm_identity m) (pm_base m) with
         | Ok s => pdo ORegistrationID (fun reg => let s := with_regs s (ss_remote_reg s) reg in let s := with_regs s (pm_reg m) (ss_local_reg s) in
              let s := with_alice_base s (pub_bytes (pm_base m)) in let r' := rc_promote r s in
              if ex then pdo (OTouchSession a r') (fun _ => PRet (Ok (r', pm_prekey_id m))) else PRet (Ok (r', pm_prekey_id m)))
         | _ => PRet Panic end)) [] w =
    (Ok (rc_promote r (with_alice_base (with_regs (with_regs s0 (ss_remote_reg s0) (w_reg w)) (pm_reg m) (w_reg w)) (pub_bytes (pm_base m))), pm_prekey_id m),
     touched w a ex (rc_promote r (with_alice_base (with_regs (with_regs s0 (ss_remote_reg s0) (w_reg w)) (pm_reg m) (w_reg w)) (pub_bytes (pm_base m)))))).
  { unfold pdo at 1. cbn [run exec_f fallible exec hd_fault tl]. rewrite E4. unfold pdo at 1. cbn [run exec_f fallible exec hd_fault tl].
    unfold touched. destruct ex; [|reflexivity]. unfold pdo at 1. cbn [run exec_f fallible exec hd_fault tl]. reflexivity. }
  destruct (pm_prekey_id m) as [i|].
  - unfold pdo at 1. cbn [run exec_f fallible exec hd_fault tl]. destruct (w_prekeys w i) as [y|].
    + destruct E3 as (k & -> & ->). cbn [bind plift]. exact Z.
    + subst onetime. cbn [plift]. exact Z.
  - subst onetime. exact Z.
Qed.
Lemma process_inv : forall C a ex r m fs w r1 id w1,
  run (process_prekey C a ex r m) fs w = (Ok (r1, id), w1) ->
  w_policy w a (w_ident w a) (pm_identity m) Receiving = true /\
  ((rc_has_state r (pm_version m) (pub_bytes (pm_base m)) = Ok true /\ r1 = r /\ id = None /\ w1 = set_ident w a (pm_identity m)) \/
   (rc_has_state r (pm_version m) (pub_bytes (pm_base m)) = Ok false /\ id = pm_prekey_id m /\
    exists s, bob_session C w m s /\ r1 = rc_promote r s /\ w1 = set_ident (touched w a ex r1) a (pm_identity m))).
Proof.
  intros C a ex r m fs w r1 id w1 E. unfold process_prekey in E. unfold pdo at 1 in E. cbn [run exec_f fallible exec] in E.
  destruct (hd_fault fs); cbn [snd] in E; [|discriminate..].
  destruct (w_policy w a (w_ident w a) (pm_identity m) Receiving) eqn:T; cbn [negb] in E; [|discriminate].
  split; [reflexivity|]. unfold pseq in E.
  match type of E with run (pbind ?p ?f) ?fs ?w = _ => destruct (run_bind p f fs w) as (k & Eb) end. rewrite Eb in E. clear Eb.
  destruct (run (process_prekey_v3 C a ex r m) (tl fs) w) as [[[r2 id2]|e|] w2] eqn:V; cbn [fst snd plift] in E; [|discriminate..].
  unfold pdo at 1 in E. cbn [run exec_f fallible exec] in E. destruct (hd_fault (skipn k (tl fs))); cbn [snd] in E; [|discriminate..].
  cbn [run] in E. injection E as <- <- <-. apply process_v3_inv in V.
  destruct V as [(V1 & -> & -> & ->)|(V1 & -> & s & V2 & -> & ->)]; [left|right]; auto. split; [exact V1|]. split; [reflexivity|].
  exists s. auto.
Qed.
Lemma process_has : forall C a ex r m w,
  w_policy w a (w_ident w a) (pm_identity m) Receiving = true ->
  rc_has_state r (pm_version m) (pub_bytes (pm_base m)) = Ok true ->
  run0 (process_prekey C a ex r m) w = (Ok (r, None), set_ident w a (pm_identity m)).
Proof.
  intros C a ex r m w T Hh. unfold run0, process_prekey. unfold pdo at 1. cbn [run exec_f fallible exec hd_fault tl]. rewrite T.
  cbn [negb]. unfold process_prekey_v3. rewrite Hh. cbn [plift]. unfold pseq. cbn [pbind plift]. unfold pdo.
  cbn [run exec_f fallible exec hd_fault tl]. reflexivity.
Qed.
Lemma process_new : forall C a ex r m w s,
  w_policy w a (w_ident w a) (pm_identity m) Receiving = true ->
  rc_has_state r (pm_version m) (pub_bytes (pm_base m)) = Ok false -> bob_session C w m s ->
  run0 (process_prekey C a ex r m) w = (Ok (rc_promote r s, pm_prekey_id m), set_ident (touched w a ex (rc_promote r s)) a (pm_identity m)).
Proof.
  intros C a ex r m w s T Hh B. unfold run0, process_prekey. unfold pdo at 1. cbn [run exec_f fallible exec hd_fault tl]. rewrite T.
  cbn [negb]. unfold pseq.
  match goal with |- run (pbind ?p ?f) [] ?w = _ => change (run (pbind p f) [] w) with (run0 (pbind p f) w) end.
  rewrite run0_bind. rewrite (process_v3_completes _ _ _ _ _ _ _ Hh B). cbn [fst snd plift]. unfold run0, pdo.
  cbn [run exec_f fallible exec hd_fault tl]. reflexivity.
Qed.

(** *** decryptPreKey *)
Definition prekey_rest (C : Crypto) (a : addr) (rnd : bytes) (ex : bool) (m : prekeymsg) (x : record * option N) : prog bytes :=
  plift (decrypt_record C rnd (fst x) (pm_message m)) (fun '(pt, r2) =>
  let fin :=
    pdo (OStoreSession a r2) (fun _ =>
    match snd x with
    | Some id => pdo (ODeletePreKey id) (fun _ => PRet (Ok pt))
    | None => PRet (Ok pt)
    end) in
  if ex then pdo (OTouchSession a r2) (fun _ => fin) else fin).
Definition prekey_body (C : Crypto) (a : addr) (rnd : bytes) (m : prekeymsg) (lr : option record) : prog bytes :=
  pbind (process_prekey C a (existed lr) (loaded lr) m) (fun r => plift r (prekey_rest C a rnd (existed lr) m)).
Lemma plift_ext : forall {A X} (r : res X) (f g : X -> prog A), (forall x, f x = g x) -> plift r f = plift r g.
Proof. intros A X [x|e|] f g E; cbn; auto. Qed.
Lemma pbind_ext_run : forall {A B} (p : prog A) (f g : res A -> prog B), (forall x, f x = g x) ->
  forall fs w, run (pbind p f) fs w = run (pbind p g) fs w /\ forall n, crash n (pbind p f) fs w = crash n (pbind p g) fs w.
Proof.
  intros A B p f g E. induction p as [r|X o k IH]; intros fs w; [cbn [pbind]; rewrite E; auto|]. cbn [pbind run].
  destruct (exec_f o (hd_fault fs) w) as [x w1] eqn:Q. destruct (IH x (tl fs) w1) as [R K]. split; [exact R|].
  intros [|n]; [reflexivity|]. cbn [crash pstep]. rewrite Q. apply K.
Qed.
Lemma decrypt_prekey_runs : forall C a rnd m fs w,
  run (decrypt_prekey C a rnd m) fs w =
    (match hd_fault fs with FNone => run (prekey_body C a rnd m (w_sess w a)) (tl fs) w | _ => (Err EStore, w) end) /\
  forall n, crash (S n) (decrypt_prekey C a rnd m) fs w =
    match hd_fault fs with FNone => crash n (prekey_body C a rnd m (w_sess w a)) (tl fs) w | _ => w end.
Proof.
  intros C a rnd m fs w. unfold decrypt_prekey. unfold pdo at 1 4. cbn [run crash pstep exec_f fallible exec].
  destruct (hd_fault fs); [|split; [reflexivity|intro n; apply crash_ret]..].
  unfold pseq, prekey_body.
  fold (existed (w_sess w a)). fold (loaded (w_sess w a)).
  match goal with |- run (pbind ?p ?f) ?fs ?w = run (pbind ?p ?g) ?fs ?w /\ _ =>
    assert (X : forall x, f x = g x) by (intros [[r1 id]|e|]; reflexivity);
    destruct (pbind_ext_run p f g X fs w) as [R K] end.
  split; [exact R|]. intro n. apply K.
Qed.

Definition prekey_done (w1 : world) (a : addr) (ex : bool) (r2 : record) (id : option N) : world :=
  let w2 := set_sess (touched w1 a ex r2) a r2 in
  match id with Some i => del_prekey w2 i | None => w2 end.
Lemma prekey_rest_inv : forall C a rnd ex m x fs w pt w',
  run (prekey_rest C a rnd ex m x) fs w = (Ok pt, w') ->
  exists r2, decrypt_record C rnd (fst x) (pm_message m) = Ok (pt, r2) /\ w' = prekey_done w a ex r2 (snd x).
Proof.
  intros C a rnd ex m x fs w pt w' E. unfold prekey_rest in E.
  destruct (decrypt_record C rnd (fst x) (pm_message m)) as [[p r2]|e|]; cbn [plift] in E; [|discriminate..].
  exists r2. unfold prekey_done, touched. destruct ex; cbn [andb].
  - unfold pdo at 1 in E. cbn [run exec_f fallible exec] in E. unfold pdo at 1 in E. cbn [run exec_f fallible exec] in E.
    destruct (hd_fault (tl fs)); cbn [snd] in E; [|discriminate..]. destruct (snd x) as [i|].
    + unfold pdo at 1 in E. cbn [run exec_f fallible exec] in E. destruct (hd_fault (tl (tl fs))); cbn [snd] in E; [|discriminate..].
      cbn [run] in E. injection E as <- <-. auto.
    + cbn [run] in E. injection E as <- <-. auto.
  - unfold pdo at 1 in E. cbn [run exec_f fallible exec] in E.
    destruct (hd_fault fs); cbn [snd] in E; [|discriminate..]. destruct (snd x) as [i|].
    + unfold pdo at 1 in E. cbn [run exec_f fallible exec] in E. destruct (hd_fault (tl fs)); cbn [snd] in E; [|discriminate..].
      cbn [run] in E. injection E as <- <-. auto.
    + cbn [run] in E. injection E as <- <-. auto.
Qed.
Lemma prekey_rest_completes : forall C a rnd ex m x w pt r2, decrypt_record C rnd (fst x) (pm_message m) = Ok (pt, r2) ->
  run0 (prekey_rest C a rnd ex m x) w = (Ok pt, prekey_done w a ex r2 (snd x)).
Proof.
  intros C a rnd ex m x w pt r2 E. unfold run0, prekey_rest, prekey_done, touched. rewrite E. cbn [plift]. unfold pdo.
  destruct ex; cbn [andb run exec_f fallible exec hd_fault tl]; destruct (snd x); cbn [run exec_f fallible exec hd_fault tl]; reflexivity.
Qed.
(** A pre-key message that is answered with a plaintext. *)
Lemma decrypt_prekey_inv : forall C a rnd m fs w pt w',
  run (decrypt_prekey C a rnd m) fs w = (Ok pt, w') ->
  exists r1 r2 id w1,
    w_policy w a (w_ident w a) (pm_identity m) Receiving = true /\
    ((rc_has_state (loaded (w_sess w a)) (pm_version m) (pub_bytes (pm_base m)) = Ok true /\ r1 = loaded (w_sess w a) /\ id = None /\
      w1 = set_ident w a (pm_identity m)) \/
     (rc_has_state (loaded (w_sess w a)) (pm_version m) (pub_bytes (pm_base m)) = Ok false /\ id = pm_prekey_id m /\
      exists s, bob_session C w m s /\ r1 = rc_promote (loaded (w_sess w a)) s /\
        w1 = set_ident (touched w a (existed (w_sess w a)) r1) a (pm_identity m))) /\
    decrypt_record C rnd r1 (pm_message m) = Ok (pt, r2) /\
    w' = prekey_done w1 a (existed (w_sess w a)) r2 id.
Proof.
  intros C a rnd m fs w pt w' E. destruct (decrypt_prekey_runs C a rnd m fs w) as [R _]. rewrite R in E.
  destruct (hd_fault fs); [|discriminate..]. unfold prekey_body in E.
  match type of E with run (pbind ?p ?f) ?fs ?w = _ => destruct (run_bind p f fs w) as (k & Eb) end. rewrite Eb in E. clear Eb.
  destruct (run (process_prekey C a (existed (w_sess w a)) (loaded (w_sess w a)) m) (tl fs) w) as [[[r1 id]|e|] w1] eqn:V;
    cbn [fst snd plift] in E; [|discriminate..].
  apply process_inv in V. destruct V as [T V]. apply prekey_rest_inv in E. destruct E as (r2 & D & ->). cbn [fst snd] in *.
  exists r1, r2, id, w1. auto.
Qed.
Lemma decrypt_prekey_completes : forall C a rnd m w pt r1 r2 id w1,
  run0 (process_prekey C a (existed (w_sess w a)) (loaded (w_sess w a)) m) w = (Ok (r1, id), w1) ->
  decrypt_record C rnd r1 (pm_message m) = Ok (pt, r2) ->
  run0 (decrypt_prekey C a rnd m) w = (Ok pt, prekey_done w1 a (existed (w_sess w a)) r2 id).
Proof.
  intros C a rnd m w pt r1 r2 id w1 V D. unfold run0. destruct (decrypt_prekey_runs C a rnd m [] w) as [R _]. rewrite R.
  cbn [hd_fault tl]. unfold prekey_body. 
  match goal with |- run (pbind ?p ?f) [] ?w = _ => change (run (pbind p f) [] w) with (run0 (pbind p f) w) end.
  rewrite run0_bind, V. cbn [fst snd plift].
  apply (prekey_rest_completes C a rnd (existed (w_sess w a)) m (r1, id)). exact D.
Qed.

(** *** decryptSignal *)
Definition signal_rest (a : addr) (pt : bytes) (r' : record) : prog bytes :=
  match rc_current r' with
  | None => PRet (Err (EOther "successfully decrypted; must have a current state"))
  | Some s =>
      match st_remote_identity s with
      | Ok (Some rid) =>
          pdo (OIsTrusted a rid Receiving) (fun trusted =>
          if negb trusted then PRet (Err (EUntrusted a))
          else
            pdo (OStoreIdentity a rid) (fun _ =>
            pdo (OStoreSession a r') (fun _ =>
            PRet (Ok pt))))
      | Panic => PRet Panic
      | _ => PRet (Err (EOther "successfully decrypted; must have a remote identity key"))
      end
  end.
Definition signal_body (C : Crypto) (a : addr) (rnd : bytes) (m : signal) (lr : option record) : prog bytes :=
  match lr with
  | None => PRet (Err (ESessionNotFound a))
  | Some r => match decrypt_record C rnd r m with
              | Ok (pt, r') => pdo (OTouchSession a r') (fun _ => signal_rest a pt r')
              | Err _ => signal_rest a [] r
              | Panic => PRet Panic
              end
  end.
Lemma decrypt_signal_runs : forall C a rnd m fs w,
  run (decrypt_signal C a rnd m) fs w =
    (match hd_fault fs with FNone => run (signal_body C a rnd m (w_sess w a)) (tl fs) w | _ => (Err EStore, w) end) /\
  forall n, crash (S n) (decrypt_signal C a rnd m) fs w =
    match hd_fault fs with FNone => crash n (signal_body C a rnd m (w_sess w a)) (tl fs) w | _ => w end.
Proof.
  intros C a rnd m fs w. unfold decrypt_signal. unfold pdo at 1 5. cbn [run crash pstep exec_f fallible exec].
  destruct (hd_fault fs); [|split; [reflexivity|intro n; apply crash_ret]..]. split; [|intro n]; reflexivity.
Qed.
Lemma signal_rest_inv : forall a pt r' fs w pt' w', run (signal_rest a pt r') fs w = (Ok pt', w') ->
  pt' = pt /\ exists s rid, rc_current r' = Some s /\ st_remote_identity s = Ok (Some rid) /\
    w_policy w a (w_ident w a) rid Receiving = true /\ w' = set_sess (set_ident w a rid) a r'.
Proof.
  intros a pt r' fs w pt' w' E. unfold signal_rest in E. destruct (rc_current r') as [s|]; [|discriminate].
  destruct (st_remote_identity s) as [[rid|]|e|] eqn:Er; [|discriminate..].
  unfold pdo at 1 in E. cbn [run exec_f fallible exec] in E. destruct (hd_fault fs); cbn [snd] in E; [|discriminate..].
  destruct (w_policy w a (w_ident w a) rid Receiving) eqn:T; cbn [negb] in E; [|discriminate].
  unfold pdo at 1 in E. cbn [run exec_f fallible exec] in E. destruct (hd_fault (tl fs)); cbn [snd] in E; [|discriminate..].
  unfold pdo at 1 in E. cbn [run exec_f fallible exec] in E. destruct (hd_fault (tl (tl fs))); cbn [snd] in E; [|discriminate..].
  cbn [run] in E. injection E as <- <-. split; [reflexivity|]. exists s, rid. split; [reflexivity|].
  auto.
Qed.
Lemma signal_rest_completes : forall a pt r' w s rid, rc_current r' = Some s -> ss_remote s = pub_bytes rid -> List.length rid = 32 ->
  w_policy w a (w_ident w a) rid Receiving = true ->
  run0 (signal_rest a pt r') w = (Ok pt, set_sess (set_ident w a rid) a r').
Proof.
  intros a pt r' w s rid Ec Es L T. unfold run0, signal_rest. rewrite Ec.
  assert (R : st_remote_identity s = Ok (Some rid)).
  { unfold st_remote_identity. rewrite Es. change (match pub_bytes rid with [] => Ok None | b => do k <- new_public_key b; Ok (Some k) end)
      with (do k <- new_public_key (pub_bytes rid); Ok (Some k)). rewrite new_public_key_bytes by exact L. reflexivity. }
  rewrite R. unfold pdo. cbn [run exec_f fallible exec hd_fault tl].
  rewrite T. cbn [negb run exec_f fallible exec hd_fault tl]. reflexivity.
Qed.
