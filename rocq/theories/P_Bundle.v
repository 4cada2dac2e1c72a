(** ProcessPreKeyBundle. *)
From Verif Require Import M_Base M_Crypto M_Aes M_Curve M_Proto M_Message M_Ratchet M_State M_Store M_Session M_Group
  S_Crypto S_Message S_State S_Shape S_Ratchet S_Session S_Aes S_Api S_Send S_Group S_Curve S_Bundle
  P_Base P_Proto P_Curve P_Verify P_CryptoTop P_State P_Shape P_Ratchet P_Message P_Aes P_Chain P_Decrypt P_Receive P_Encrypt P_Record P_Prog
  P_Init P_Send.
From Coq Require Import ZifyBool ZifyNat ZifyN.
Local Open Scope nat_scope.

Definition loaded (o : option record) : record := match o with Some r => r | None => new_record None end.
Definition existed (o : option record) : bool := match o with Some _ => true | None => false end.
(** The state that is stored. *)
Definition bundle_state (b : bundle) (s : state) (base : pubkey) (reg : N) : state :=
  let s := st_set_unack s (bd_prekey_id b) (bd_signed_id b) base in
  let s := with_regs s (ss_remote_reg s) reg in
  let s := with_regs s (bd_reg b) (ss_local_reg s) in
  with_alice_base s (pub_bytes base).
Definition bundle_world (w : world) (a : addr) (ti : pubkey) (r' : record) : world :=
  let w1 := set_ident w a ti in
  set_sess (if (existed (w_sess w a) && w_shared w)%bool then set_sess w1 a r' else w1) a r'.

Lemma bundle_success : forall C a rnd b fs w w', run (process_bundle C a rnd b) fs w = (Ok tt, w') ->
  exists ti ts base rnd1 s0 rest, bd_identity b = Some ti /\ bd_signed b = Some ts /\
    w_policy w a (w_ident w a) ti Sending = true /\
    verify_signature C ti (bd_signature b) [pub_bytes ts] = Ok true /\
    gen_keypair C rnd = (Ok base, rnd1) /\
    init_alice C rnd1 (w_pair w) base ti ts (bd_prekey b) ts = (Ok s0, rest) /\
    w' = bundle_world w a ti (rc_promote (loaded (w_sess w a)) (bundle_state b s0 (kp_pub base) (w_reg w))).
Proof.
  intros C a rnd b fs w w' E. unfold process_bundle in E.
  destruct (bd_identity b) as [ti|]; [|discriminate].
  unfold pdo at 1 in E. cbn [run exec_f fallible exec] in E.
  destruct (hd_fault fs); cbn [snd] in E; [|discriminate..].
  destruct (w_policy w a (w_ident w a) ti Sending) eqn:T; cbn [negb] in E; [|discriminate].
  destruct (bd_signed b) as [ts|]; [|discriminate].
  destruct (verify_signature C ti (bd_signature b) [pub_bytes ts]) as [[]|e|] eqn:V; cbn [plift negb] in E; [|discriminate..].
  unfold pdo at 1 in E. cbn [run exec_f fallible exec] in E.
  destruct (hd_fault (tl fs)); cbn [snd] in E; [|discriminate..].
  destruct (gen_keypair C rnd) as [[base|e|] rnd1] eqn:G; [|discriminate..].
  unfold pdo at 1 in E. cbn [run exec_f fallible exec] in E.
  destruct (init_alice C rnd1 (w_pair w) base ti ts (bd_prekey b) ts) as [[s0|e|] rest] eqn:I; cbn [plift fst] in E; [|discriminate..].
  unfold pdo at 1 in E. cbn [run exec_f fallible exec] in E.
  unfold pdo at 1 in E. cbn [run exec_f fallible exec] in E.
  destruct (hd_fault (tl (tl (tl (tl fs))))); cbn [snd] in E; [|discriminate..].
  exists ti, ts, base, rnd1, s0, rest. repeat (split; [auto; fail|]). unfold bundle_world, existed, loaded.
  set (s1 := bundle_state b s0 (kp_pub base) (w_reg w)).
  change (with_alice_base _ (pub_bytes (kp_pub base))) with s1 in E. clearbody s1.
  destruct (w_sess w a) as [r|].
  - unfold pdo at 1 in E. cbn [run exec_f fallible exec] in E. unfold pdo at 1 in E. cbn [run exec_f fallible exec] in E.
    cbn [andb]. change (w_shared (set_ident w a ti)) with (w_shared w) in E.
    destruct (hd_fault _); cbn [snd] in E; [|discriminate..]. cbn [run] in E. injection E as <-. reflexivity.
  - unfold pdo at 1 in E. cbn [run exec_f fallible exec] in E. cbn [andb].
    destruct (hd_fault _); cbn [snd] in E; [|discriminate..]. cbn [run] in E. injection E as <-. reflexivity.
Qed.
Lemma bundle_completes : forall C a rnd b w ti ts base rnd1 s0 rest, bd_identity b = Some ti -> bd_signed b = Some ts ->
    w_policy w a (w_ident w a) ti Sending = true ->
    verify_signature C ti (bd_signature b) [pub_bytes ts] = Ok true ->
    gen_keypair C rnd = (Ok base, rnd1) ->
    init_alice C rnd1 (w_pair w) base ti ts (bd_prekey b) ts = (Ok s0, rest) ->
  run0 (process_bundle C a rnd b) w =
   (Ok tt, bundle_world w a ti (rc_promote (loaded (w_sess w a)) (bundle_state b s0 (kp_pub base) (w_reg w)))).
Proof.
  intros C a rnd b w ti ts base rnd1 s0 rest E1 E2 T V G I. unfold run0, process_bundle. rewrite E1.
  unfold pdo at 1. cbn [run exec_f fallible exec hd_fault tl]. rewrite T. cbn [negb]. rewrite E2, V. cbn [plift negb].
  unfold pdo at 1. cbn [run exec_f fallible exec hd_fault tl]. rewrite G.
  unfold pdo at 1. cbn [run exec_f fallible exec hd_fault tl]. rewrite I. cbn [plift fst].
  unfold pdo at 1. cbn [run exec_f fallible exec hd_fault tl].
  unfold pdo at 1. cbn [run exec_f fallible exec hd_fault tl].
  unfold bundle_world, existed, loaded.
  set (s1 := bundle_state b s0 (kp_pub base) (w_reg w)).
  change (with_alice_base _ (pub_bytes (kp_pub base))) with s1. clearbody s1.
  destruct (w_sess w a) as [r|].
  - unfold pdo at 1. cbn [run exec_f fallible exec hd_fault tl]. unfold pdo at 1. cbn [run exec_f fallible exec hd_fault tl].
    reflexivity.
  - unfold pdo at 1. cbn [run exec_f fallible exec hd_fault tl]. reflexivity.
Qed.

Lemma crash_ret : forall {A} n (r : res A) fs w, crash n (PRet r) fs w = w.
Proof. intros A n. induction n as [|n IH]; intros r fs w; [reflexivity|]. cbn [crash pstep]. apply IH. Qed.
(** Without trust and a valid signature nothing happens. *)
Lemma bundle_refused : forall C a rnd b fs w,
  ~ (exists ti ts, bd_identity b = Some ti /\ bd_signed b = Some ts /\ w_policy w a (w_ident w a) ti Sending = true /\
      verify_signature C ti (bd_signature b) [pub_bytes ts] = Ok true) ->
  snd (run (process_bundle C a rnd b) fs w) = w /\ (forall n, crash n (process_bundle C a rnd b) fs w = w) /\
  fst (run (process_bundle C a rnd b) fs w) <> Ok tt.
Proof.
  intros C a rnd b fs w N. unfold process_bundle.
  destruct (bd_identity b) as [ti|]; [|split; [reflexivity|split; [intro; apply crash_ret|discriminate]]].
  unfold pdo at 1 3 5. cbn [run exec_f fallible exec].
  assert (K : forall (k : res bool -> prog unit) x,
     exec_f (OIsTrusted a ti Sending) (hd_fault fs) w = (x, w) ->
     (snd (run (k x) (tl fs) w) = w /\ (forall n, crash n (k x) (tl fs) w = w) /\ fst (run (k x) (tl fs) w) <> Ok tt) ->
     snd (run (PDo (OIsTrusted a ti Sending) k) fs w) = w /\ (forall n, crash n (PDo (OIsTrusted a ti Sending) k) fs w = w) /\
     fst (run (PDo (OIsTrusted a ti Sending) k) fs w) <> Ok tt).
  { intros k x X (A & B & D). cbn [run]. rewrite X. split; [exact A|]. split; [|exact D]. intros [|n]; [reflexivity|].
    cbn [crash pstep]. rewrite X. apply B. }
  unfold pdo at 1.
  assert (X : exec_f (OIsTrusted a ti Sending) (hd_fault fs) w =
     (match hd_fault fs with FNone => Ok (w_policy w a (w_ident w a) ti Sending) | _ => Err EStore end, w))
    by (cbn [exec_f fallible exec]; destruct (hd_fault fs); reflexivity).
  apply (K _ _ X). clear K.
  assert (Z : forall r : res unit, r <> Ok tt ->
     snd (run (PRet r) (tl fs) w) = w /\ (forall n, crash n (PRet r) (tl fs) w = w) /\ fst (run (PRet r) (tl fs) w) <> Ok tt).
  { intros r Hr. split; [reflexivity|]. split; [intro; apply crash_ret|exact Hr]. }
  destruct (hd_fault fs); [|apply Z; discriminate..].
  destruct (w_policy w a (w_ident w a) ti Sending) eqn:T; cbn [negb]; [|apply Z; discriminate].
  destruct (bd_signed b) as [ts|]; [|apply Z; discriminate].
  destruct (verify_signature C ti (bd_signature b) [pub_bytes ts]) as [[]|e|] eqn:V; cbn [plift negb]; [|apply Z; discriminate..].
  exfalso. apply N. exists ti, ts. auto.
Qed.
