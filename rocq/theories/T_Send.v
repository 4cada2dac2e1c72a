(** Theorems about sending. See MANIFEST.json. *)
From Verif Require Import M_Base M_Crypto M_Aes M_Curve M_Message M_Ratchet M_State M_Store M_Session M_Group
  S_Crypto S_Message S_Ratchet S_Session S_Shape S_Api S_Send S_Group
  P_SendTop K_Toy K_World K_SendCases.
Local Open Scope nat_scope.

(** C20. Successful calls only: consecutive counters on one ratchet key, each message
    under the keys of its own position. *)
Theorem c20_consecutive_counters : forall C a w w' s ratchet key i l, CryptoOk C -> wf_device w ->
  device_at w a s ratchet key i -> sends_ok C a w l w' -> (i + N.of_nat (List.length l) < 2 ^ 32)%N ->
  (forall j pt c, nth_error l j = Some (pt, c) -> exists m local remote,
     inner c = Some m /\ sg_ratchet m = ratchet /\ sg_counter m = (i + N.of_nat j)%N /\
     ss_local s = Byte.x05 :: local /\ ss_remote s = Byte.x05 :: remote /\
     whisper C (chain_at C key j) (i + N.of_nat j) ratchet local remote pt m) /\
  exists s', device_at w' a s' ratchet (chain_at C key (List.length l)) (i + N.of_nat (List.length l)).
Proof. exact consecutive. Qed.
Print Assumptions c20_consecutive_counters.
(** With failures and crashes in between: counters never repeat. *)
Theorem c20_never_repeated : forall C a w w' s ratchet key i n l, CryptoOk C -> wf_device w ->
  device_at w a s ratchet key i -> sends C a n w l w' -> (i + N.of_nat n < 2 ^ 32)%N ->
  (forall j pt c, nth_error l j = Some (pt, c) -> exists m, inner c = Some m /\ sg_ratchet m = ratchet /\
     (i <= sg_counter m < i + N.of_nat n)%N) /\
  (forall j1 j2 pt1 c1 pt2 c2 m1 m2, j1 < j2 ->
     nth_error l j1 = Some (pt1, c1) -> nth_error l j2 = Some (pt2, c2) ->
     inner c1 = Some m1 -> inner c2 = Some m2 -> (sg_counter m1 < sg_counter m2)%N).
Proof. exact never_repeated. Qed.
Print Assumptions c20_never_repeated.
Example c20_case : wf_device ex_world /\
  device_at ex_world ex_addr ex_state (b32 Byte.x03) (b32 Byte.x08) 7 /\
  exists l w', sends_ok toy ex_addr ex_world l w' /\ map fst l = [str "one"; []; str "three"].
Proof.
  split; [apply ex_world_of_wf|]. split; [apply ex_device_at|].
  exact (send_works toy ex_addr ex_world ex_record ex_state (b32 Byte.x02) _ toy_ok (proj1 (ex_world_of_wf _ _))
    eq_refl eq_refl eq_refl eq_refl eq_refl).
Qed.

(** C42. One-to-one part; the group part is in T_Group.v. *)
Theorem c42_persisted_before_return : forall C a pt fs w c w' s ratchet key i, CryptoOk C -> wf_device w ->
  device_at w a s ratchet key i -> run (encrypt_message C a pt) fs w = (Ok c, w') ->
  (exists m, inner c = Some m /\ sg_ratchet m = ratchet /\ sg_counter m = i) /\
  exists s', device_at w' a s' ratchet (c_hmac C key [Byte.x02]) ((i + 1) mod 2 ^ 32).
Proof. exact persisted. Qed.
Print Assumptions c42_persisted_before_return.
Theorem c42_crash_points : forall C a pt fs w n s ratchet key i, CryptoOk C -> wf_device w ->
  device_at w a s ratchet key i ->
  exists s', device_at (crash n (encrypt_message C a pt) fs w) a s' ratchet key i \/
             device_at (crash n (encrypt_message C a pt) fs w) a s' ratchet (c_hmac C key [Byte.x02]) ((i + 1) mod 2 ^ 32).
Proof. exact crash_points. Qed.
Print Assumptions c42_crash_points.
Example c42_case : wf_device ex_world /\
  device_at ex_world ex_addr ex_state (b32 Byte.x03) (b32 Byte.x08) 7 /\
  exists l w', sends_ok toy ex_addr ex_world l w' /\ map fst l = [str "one"].
Proof.
  split; [apply ex_world_of_wf|]. split; [apply ex_device_at|].
  exact (send_works toy ex_addr ex_world ex_record ex_state (b32 Byte.x02) _ toy_ok (proj1 (ex_world_of_wf _ _))
    eq_refl eq_refl eq_refl eq_refl eq_refl).
Qed.

(** C41. A store that returns copies, and calls that fail without effect: no session
    changes. *)
Theorem c41_failed_encrypt_copying_partial : forall C a pt fs w e w', w_shared w = false -> ~ In FAfter fs ->
  run (encrypt_message C a pt) fs w = (Err e, w') -> w_sess w' = w_sess w.
Proof. exact failed_copying. Qed.
Print Assumptions c41_failed_encrypt_copying_partial.
Example c41_case : fst (run (encrypt_message toy ex_addr (str "x")) [FNone; FNone; FNone; FNone; FBefore]
    (ex_world_of inmem_policy false)) = Err EStore /\ ~ In FAfter [FNone; FNone; FNone; FNone; FBefore].
Proof. split; [exact (store_fails toy _ toy_ok)|]. cbn. intuition discriminate. Qed.
(** The in-memory store: once the record is loaded the chain advances whatever happens. *)
Theorem c41_shared_exact : forall C a pt fs w s ratchet key i, CryptoOk C -> wf_device w -> w_shared w = true ->
  hd_fault fs = FNone -> device_at w a s ratchet key i ->
  exists s', device_at (snd (run (encrypt_message C a pt) fs w)) a s' ratchet (c_hmac C key [Byte.x02]) ((i + 1) mod 2 ^ 32).
Proof. exact failed_shared. Qed.
Print Assumptions c41_shared_exact.
(** So C41 is false there: an untrusted peer's chain moves on each refused call. *)
Theorem c41_failed_encrypt_refuted : exists C w a pt s ratchet key i,
  CryptoOk C /\ wf_device w /\ w_shared w = true /\ device_at w a s ratchet key i /\
  fst (run0 (encrypt_message C a pt) w) = Err (EUntrusted a) /\
  forall s', ~ device_at (snd (run0 (encrypt_message C a pt) w)) a s' ratchet key i.
Proof. exact failed_refuted. Qed.
Print Assumptions c41_failed_encrypt_refuted.

(** C43 is false for every device with a trusted peer: if both calls load the record
    before either stores it, two plaintexts go out under one ratchet key and counter. *)
Theorem c43_concurrent_refuted : forall C a w s ratchet key i remote pt1 pt2, CryptoOk C -> wf_device w ->
  device_at w a s ratchet key i -> ss_remote s = Byte.x05 :: remote ->
  w_policy w a (w_ident w a) remote Sending = true -> w_policy w a (Some remote) remote Sending = true ->
  exists c1 c2 w' m1 m2 local,
    run2 [true; false] (encrypt_message C a pt1) (encrypt_message C a pt2) w = (Ok c1, Ok c2, w') /\
    inner c1 = Some m1 /\ inner c2 = Some m2 /\
    sg_ratchet m1 = ratchet /\ sg_ratchet m2 = ratchet /\ sg_counter m1 = i /\ sg_counter m2 = i /\
    whisper C key i ratchet local remote pt1 m1 /\ whisper C key i ratchet local remote pt2 m2.
Proof. exact concurrent. Qed.
Print Assumptions c43_concurrent_refuted.
Example c43_case : wf_device ex_world /\ device_at ex_world ex_addr ex_state (b32 Byte.x03) (b32 Byte.x08) 7 /\
  ss_remote ex_state = Byte.x05 :: b32 Byte.x02 /\
  w_policy ex_world ex_addr (w_ident ex_world ex_addr) (b32 Byte.x02) Sending = true /\
  w_policy ex_world ex_addr (Some (b32 Byte.x02)) (b32 Byte.x02) Sending = true.
Proof. split; [apply ex_world_of_wf|]. split; [apply ex_device_at|]. auto. Qed.
