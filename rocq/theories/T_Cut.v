(** Store failures, crashes and concurrency: C24 (within conversations), C57, C62-C68. *)
From Verif Require Import M_Base M_Crypto M_Aes M_Curve M_Proto M_Message M_Ratchet M_State M_Store M_Session M_Group
  S_Crypto S_Message S_Ratchet S_Session S_Shape S_Api S_Send S_Group S_X3dh S_Receive S_Conv S_History S_Bundle S_Isolation S_Pin S_Atomic S_Spent S_Once S_Apart
  P_History P_Pin P_Atomic P_CrashConv P_Spent P_Redeliver P_IdZero P_Once P_Apart K_Toy K_World K_Receive K_Conv K_Pin K_Cut K_Once.
Local Open Scope nat_scope.

(** * C24  within a conversation *)
(** A genuine message that is behind the chain and has no saved key is never decrypted
    again, and the attempt leaves the session as it is, whatever the stores do. Missing from
    C24: the position the chain stands at. A whisper message is answered with no error and
    no bytes (C25). *)
Theorem c24_gone_refused_partial : forall C b at_ base dev par keys notes side ep n pt c rnd, CryptoOk C ->
  history C at_ b base dev par keys notes -> In (mkNote (negb side) ep n pt c) notes -> gone (par side) ep n ->
  (forall fs, fst (run (decrypt_message C (at_ side) rnd c) fs (dev side)) = Ok [] \/
     exists e, fst (run (decrypt_message C (at_ side) rnd c) fs (dev side)) = Err e) /\
  (forall w', leaves (decrypt_message C (at_ side) rnd c) (dev side) w' -> w_sess w' (at_ side) = w_sess (dev side) (at_ side)) /\
  (w_policy (dev side) (at_ side) (w_ident (dev side) (at_ side)) (kp_pub (w_pair (dev (negb side)))) Receiving = true ->
   fst (run0 (decrypt_message C (at_ side) rnd c) (dev side)) =
     match c with CSignal _ => Ok [] | _ => Err EDuplicate end).
Proof. intros C b at_ base dev par keys notes side ep n pt c rnd H. exact (spent_refused C H b at_ base dev par keys notes side ep n pt c rnd). Qed.
Print Assumptions c24_gone_refused_partial.
Example c24_gone_case : gone (mkParty 2 1 [mkView 1 1 []]) 1 0.
Proof. exists (mkView 1 1 []). repeat split; [left; reflexivity|intros []]. Qed.

(** * C57  A pinned identity key is never replaced *)
(** Once the key is stored, no interleaving of calls, store failures and crashes changes it. *)
Theorem c57_pinned_partial : forall C w0 a k, first_use_policy w0 -> w_ident w0 a = Some k ->
  forall ts w, lib_steps C w0 (ts, w) -> w_ident w a = Some k.
Proof. exact first_use_kept. Qed.
Print Assumptions c57_pinned_partial.
(** False for the first use: a call that made its trust check before another call stored its
    key replaces that key. In sequence the second call is refused. *)
Theorem c57_race_refuted : forall C a rnd1 b1 rnd2 b2 w k1 k2 w1 w2, bd_identity b1 = Some k1 -> bd_identity b2 = Some k2 ->
  run0 (process_bundle C a rnd1 b1) w = (Ok tt, w1) -> run0 (process_bundle C a rnd2 b2) w = (Ok tt, w2) ->
  w_ident w1 a = Some k1 /\
  (exists w', run2 [false] (process_bundle C a rnd1 b1) (process_bundle C a rnd2 b2) w = (Ok tt, Ok tt, w') /\ w_ident w' a = Some k2) /\
  (first_use_policy w -> k2 <> k1 ->
     (exists e, fst (run0 (process_bundle C a rnd2 b2) w1) = Err e) /\ snd (run0 (process_bundle C a rnd2 b2) w1) = w1).
Proof. exact first_use_race. Qed.
Print Assumptions c57_race_refuted.
(** Two signed bundles with different identity keys, on a device with the in-memory policy. *)
Example c57_case : forall sh, exists b1 b2 k1 k2 w1 w2,
  bd_identity b1 = Some k1 /\ bd_identity b2 = Some k2 /\ k1 <> k2 /\ first_use_policy (careful_world sh) /\
  run0 (process_bundle toy (conv_at true) alice_rnd b1) (careful_world sh) = (Ok tt, w1) /\
  run0 (process_bundle toy (conv_at true) alice_rnd b2) (careful_world sh) = (Ok tt, w2).
Proof. exact two_identities. Qed.

(** * C62  Updates of session and group records are all-or-nothing *)
Theorem c62_all_or_nothing : forall C c fs w, w_shared w = false -> let '@Thread A p := start C c in
  (forall n, untouched w (crash n p fs w) \/
     is_ok (fst (run0 p w)) /\ same_records (snd (run0 p w)) (crash n p fs w)) /\
  (untouched w (snd (run p fs w)) \/
     is_ok (fst (run0 p w)) /\ same_records (snd (run0 p w)) (snd (run p fs w))).
Proof. exact call_atomic. Qed.
Print Assumptions c62_all_or_nothing.
(** A call that did all its work and reports an error. *)
Example c62_case : exists w c w1 fs, w_shared w = false /\
  run0 (decrypt_message toy (conv_at false) [] c) w = (Ok (str "one"), w1) /\
  run (decrypt_message toy (conv_at false) [] c) fs w = (Err EStore, w1).
Proof. exact cut_case. Qed.

(** * C63  A conversation survives failures and crashes *)
(** Whatever is left of a call that sends or receives, the two devices are still in a state
    of a conversation, so that C23 applies: either as if the call had not been made, or as
    if it had been completed. *)
Theorem c63_send_cut : forall C b at_ base dev par keys notes side pt w', CryptoOk C ->
  history C at_ b base dev par keys notes -> w_shared (dev side) = false ->
  (side = true \/ p_epoch (par false) <> 0) -> (p_sent (par side) + 1 < 4294967296)%N ->
  leaves (encrypt_message C (at_ side) pt) (dev side) w' ->
  exists dev', (forall y, dev' y = upd dev side w' y) /\
    (history C at_ b base dev' par keys notes \/
     exists c, history C at_ b base dev' (upd par side (sent_one (par side))) keys
       (mkNote side (p_epoch (par side)) (p_sent (par side)) pt c :: notes)).
Proof. intros C b at_ base dev par keys notes side pt w' H. exact (send_cut C H b at_ base dev par keys notes side pt w'). Qed.
Print Assumptions c63_send_cut.
Theorem c63_receive_cut : forall C b at_ base dev par keys notes side ep n pt c rnd w', CryptoOk C ->
  history C at_ b base dev par keys notes -> w_shared (dev side) = false ->
  In (mkNote (negb side) ep n pt c) notes -> receivable (par side) ep n -> fresh C keys (par side) ep rnd ->
  leaves (decrypt_message C (at_ side) rnd c) (dev side) w' ->
  exists dev', (forall y, dev' y = upd dev side w' y) /\
    (history C at_ b base dev' par keys notes \/
     history C at_ b base dev' (upd par side (party_after (par side) ep n)) (keys_after C keys (par side) ep rnd) notes).
Proof. intros C b at_ base dev par keys notes side ep n pt c rnd w' H. exact (receive_cut C H b at_ base dev par keys notes side ep n pt c rnd w'). Qed.
Print Assumptions c63_receive_cut.
(** Two messages sent, the second delivered, on stores that copy. *)
Example c63_case : exists b base dev par keys c1 c2,
  history toy conv_at b base dev par keys [mkNote true 1 1 (str "two") c2; mkNote true 1 0 (str "one") c1] /\
  par true = mkParty 1 2 [mkView 0 0 []] /\ par false = mkParty 2 0 [mkView 1 1 [0%N]] /\ open_policy dev /\ copying dev.
Proof. exact half_way. Qed.

(** * C64  A message whose decryption was cut off can be delivered again *)
(** True for messages at or ahead of the chain and for those opening a new epoch. *)
Theorem c64_redelivered_partial : forall C b at_ base dev par keys notes side ep n pt c rnd w' rnd2, CryptoOk C ->
  history C at_ b base dev par keys notes -> w_shared (dev side) = false ->
  In (mkNote (negb side) ep n pt c) notes -> ahead (par side) ep n -> fresh C keys (par side) ep rnd ->
  leaves (decrypt_message C (at_ side) rnd c) (dev side) w' -> fresh C keys (par side) ep rnd2 ->
  w_policy w' (at_ side) (w_ident w' (at_ side)) (kp_pub (w_pair (dev (negb side)))) Receiving = true ->
  exists w'', run0 (decrypt_message C (at_ side) rnd2 c) w' = (Ok pt, w'').
Proof. intros C b at_ base dev par keys notes side ep n pt c rnd w' rnd2 H. exact (redelivered C H b at_ base dev par keys notes side ep n pt c rnd w' rnd2). Qed.
Print Assumptions c64_redelivered_partial.
(** False for every message whose key is saved: if the last store call takes effect and
    reports an error, the plaintext is lost. *)
Theorem c64_saved_lost_refuted : forall C b at_ base dev par keys notes side ep n pt c rnd, CryptoOk C ->
  history C at_ b base dev par keys notes ->
  In (mkNote (negb side) ep n pt c) notes -> kept_back (par side) ep n ->
  w_policy (dev side) (at_ side) (w_ident (dev side) (at_ side)) (kp_pub (w_pair (dev (negb side)))) Receiving = true ->
  exists fs w', run (decrypt_message C (at_ side) rnd c) fs (dev side) = (Err EStore, w') /\
    forall rnd2 fs2, fst (run (decrypt_message C (at_ side) rnd2 c) fs2 w') = Ok [] \/
      exists e, fst (run (decrypt_message C (at_ side) rnd2 c) fs2 w') = Err e.
Proof. intros C b at_ base dev par keys notes side ep n pt c rnd H. exact (saved_lost C H b at_ base dev par keys notes side ep n pt c rnd). Qed.
Print Assumptions c64_saved_lost_refuted.
(** In the conversation of C63 the first message is kept back and the second is ahead. *)
Example c64_case : kept_back (mkParty 2 0 [mkView 1 1 [0%N]]) 1 0 /\ ahead (mkParty 2 0 [mkView 1 1 [0%N]]) 1 1.
Proof.
  split; [exists (mkView 1 1 [0%N]); repeat split; left; reflexivity|].
  left. exists (mkView 1 1 [0%N]). repeat split; [left; reflexivity|discriminate|discriminate].
Qed.

(** * C68  No store failure is swallowed *)
Theorem c68_failures_reported : forall C c fs w f, let '@Thread A p := start C c in
  In f (met p fs w) -> f <> FNone -> fst (run p fs w) = Err EStore.
Proof. exact call_reports. Qed.
Print Assumptions c68_failures_reported.
Example c68_case : In FAfter (met (encrypt_message toy ex_addr []) [FAfter] (alice_world true)).
Proof. left. reflexivity. Qed.

(** * C65  No one-time pre-key is left behind: false *)
(** Whenever a message sets up a session with a one-time pre-key, a failure of the last store
    call leaves the session in place and the pre-key too; delivering the message again does
    not remove it. *)
Theorem c65_left_behind_refuted : forall C a rnd pm w pt w' id, CryptoOk C -> wf_device w -> wf_prekeymsg pm -> unused_base w a (pm_base pm) ->
  pm_prekey_id pm = Some id -> run0 (decrypt_message C a rnd (CPreKey pm)) w = (Ok pt, w') ->
  exists fs w1, run (decrypt_message C a rnd (CPreKey pm)) fs w = (Err EStore, w1) /\
    (forall x, w_sess w1 x = w_sess w' x) /\ w_prekeys w1 id = w_prekeys w id /\
    forall rnd2 fs2, w_prekeys (snd (run (decrypt_message C a rnd2 (CPreKey pm)) fs2 w1)) id = w_prekeys w id.
Proof. intros C a rnd pm w pt w' id H. exact (prekey_left C H a rnd pm w pt w' id). Qed.
Print Assumptions c65_left_behind_refuted.
Example c65_case : exists pm w', pm_prekey_id pm = Some 7%N /\ wf_prekeymsg pm /\ pm_base pm = mont_pub toy (b32 Byte.x41) /\
  run0 (decrypt_message toy carol_at (b32 Byte.x43) (CPreKey pm)) (bob_world 7 false) = (Ok (str "hello"), w').
Proof. exact (first_from carol_at Byte.x41 (Some 7%N) false (or_intror eq_refl)). Qed.

(** * C66  A one-time pre-key sets up at most one session: false *)
(** Two messages of different senders that name the same key and would each be accepted are
    both accepted if they are processed at the same time. *)
Theorem c66_concurrent_refuted : forall C a1 rnd1 pm1 pt1 w1 a2 rnd2 pm2 pt2 w2 w id, CryptoOk C -> a1 <> a2 -> wf_device w -> wf_prekeymsg pm2 ->
  unused_base w a2 (pm_base pm2) -> pm_prekey_id pm2 = Some id ->
  run0 (decrypt_message C a1 rnd1 (CPreKey pm1)) w = (Ok pt1, w1) -> run0 (decrypt_message C a2 rnd2 (CPreKey pm2)) w = (Ok pt2, w2) ->
  exists sched w', run2 sched (decrypt_message C a1 rnd1 (CPreKey pm1)) (decrypt_message C a2 rnd2 (CPreKey pm2)) w = (Ok pt1, Ok pt2, w') /\
    w_sess w' a1 = w_sess w1 a1 /\ w_sess w' a2 = w_sess w2 a2.
Proof. intros C a1 rnd1 pm1 pt1 w1 a2 rnd2 pm2 pt2 w2 w id H. exact (prekey_twice C H a1 rnd1 pm1 pt1 w1 a2 rnd2 pm2 pt2 w2 w id). Qed.
Print Assumptions c66_concurrent_refuted.
(** In sequence: a message that names a key which is not there (any more) is accepted
    exactly as if it named none. *)
Theorem c66_missing_ignored_refuted : forall C a rnd pm w pt w0 id, w_prekeys w id = None ->
  run0 (decrypt_message C a rnd (CPreKey (with_prekey_id pm None))) w = (Ok pt, w0) ->
  exists w', run0 (decrypt_message C a rnd (CPreKey (with_prekey_id pm (Some id)))) w = (Ok pt, w') /\ forall x, w_sess w' x = w_sess w0 x.
Proof. exact missing_ignored. Qed.
Print Assumptions c66_missing_ignored_refuted.
(** What holds: the key itself is not used again. A message of an initiator that did use a key
    which is gone is accepted only if two MAC keys give the same tag. *)
Theorem c66_consumed_needs_collision_exact : forall C ia ib sb o id rnd a aB b fs w w1 pt fs1 c w2 wB rndB fs2 pt' wB', CryptoOk C ->
  wf_device w -> wf_device wB -> wf_bundle b -> pair_for C ia (w_pair w) -> pair_for C ib (w_pair wB) -> List.length o = 32 ->
  bd_identity b = Some (mont_pub C ib) -> bd_signed b = Some (mont_pub C sb) ->
  (exists x p, w_signed wB (bd_signed_id b) = Some x /\ prekeyrec_pair C x = Ok p /\ pair_for C sb p) ->
  bd_prekey_id b = Some id -> w_prekeys wB id = None -> bd_prekey b = Some (mont_pub C o) -> 64 <= List.length rnd -> w_sess wB aB = None ->
  run (process_bundle C a rnd b) fs w = (Ok tt, w1) -> run (encrypt_message C a pt) fs1 w1 = (Ok c, w2) ->
  run (decrypt_message C aB rndB c) fs2 wB = (Ok pt', wB') ->
  exists pm mk mk0 t, c = CPreKey pm /\
    keys_at C (x3dh_first_chain C ia (firstn 32 rnd) ib sb (Some o) (firstn 32 (skipn 32 rnd))) 0 mk /\
    keys_at C (x3dh_first_chain C ia (firstn 32 rnd) ib sb None (firstn 32 (skipn 32 rnd))) 0 mk0 /\
    sg_raw (pm_message pm) = t ++ firstn 8 (c_hmac C (mk_mac mk) ((Byte.x05 :: mont_pub C ia) ++ (Byte.x05 :: mont_pub C ib) ++ t)) /\
    sg_raw (pm_message pm) = t ++ firstn 8 (c_hmac C (mk_mac mk0) ((Byte.x05 :: mont_pub C ia) ++ (Byte.x05 :: mont_pub C ib) ++ t)).
Proof.
  intros C ia ib sb o id rnd a aB b fs w w1 pt fs1 c w2 wB rndB fs2 pt' wB' H Wd WB Wb PA PB Lo Ei Es X E0 Em.
  exact (missing_key_collides C H ia ib sb o rnd a aB b fs w w1 pt fs1 c w2 wB rndB fs2 pt' wB' Wd WB Wb PA PB Lo Ei Es X (or_intror (ex_intro _ id (conj E0 Em)))).
Qed.
Print Assumptions c66_consumed_needs_collision_exact.
Example c66_concurrent_case : forall sh, exists pm1 pm2 w1 w2, pm_prekey_id pm1 = Some 7%N /\ pm_prekey_id pm2 = Some 7%N /\ pm_base pm1 <> pm_base pm2 /\
  wf_prekeymsg pm1 /\ wf_prekeymsg pm2 /\ unused_base (bob_world 7 sh) carol_at (pm_base pm2) /\
  run0 (decrypt_message toy (conv_at false) (b32 Byte.x43) (CPreKey pm1)) (bob_world 7 sh) = (Ok (str "hello"), w1) /\
  run0 (decrypt_message toy carol_at (b32 Byte.x43) (CPreKey pm2)) (bob_world 7 sh) = (Ok (str "hello"), w2).
Proof. exact same_prekey. Qed.
Example c66_missing_case : forall sh, exists pm w1, w_prekeys (bob_world 7 sh) 9%N = None /\
  run0 (decrypt_message toy (conv_at false) (b32 Byte.x43) (CPreKey (with_prekey_id pm None))) (bob_world 7 sh) = (Ok (str "hello"), w1).
Proof. exact missing_case. Qed.

(** * C67  Calls on different conversations do not influence each other *)
(** Any number of calls at the same time, each apart from the others, with any interleaving
    and failures of their store calls: at every moment each call is exactly where it would be
    if it ran alone with the same failures, its own entries are what it alone would have made
    them, and entries that belong to no call are as in the beginning. *)
Theorem c67_side_by_side : forall C w0 l w, side_by_side C w0 l w ->
  (forall c fs t, In (c, fs, t) l -> let '@Thread A p := start C c in
     t = Thread (fst (after fs p w0)) /\ own_same c (snd (after fs p w0)) w) /\
  same_device w0 w /\ forall c, (forall c' fs t, In (c', fs, t) l -> apart c' c) -> own_same c w0 w.
Proof. exact side_alone. Qed.
Print Assumptions c67_side_by_side.
(** Two calls that run to the end. *)
Theorem c67_pair : forall C c1 c2 sched w, apart c1 c2 ->
  match start C c1, start C c2 with
  | Thread p, Thread q => forall x y w', run2 sched p q w = (x, y, w') ->
      x = fst (run0 p w) /\ y = fst (run0 q w) /\ own_same c1 (snd (run0 p w)) w' /\ own_same c2 (snd (run0 q w)) w'
  end.
Proof. exact pair_alone. Qed.
Print Assumptions c67_pair.
Example c67_case : forall sh, exists pm1 pm2 w1 w2,
  apart (CDecrypt (conv_at false) (b32 Byte.x43) (CPreKey pm1)) (CDecrypt carol_at (b32 Byte.x43) (CPreKey pm2)) /\
  run0 (decrypt_message toy (conv_at false) (b32 Byte.x43) (CPreKey pm1)) (bob_world 7 sh) = (Ok (str "hello"), w1) /\
  run0 (decrypt_message toy carol_at (b32 Byte.x43) (CPreKey pm2)) (bob_world 7 sh) = (Ok (str "hello"), w2).
Proof. exact different_prekey. Qed.
(** Two calls in progress, the second one having done its first store call. *)
Example c67_side_case : forall w, exists t1 t2, side_by_side toy w
  [(CEncrypt carol_at [], [], t1); (CEncrypt (conv_at false) [], [FNone], t2)] w.
Proof.
  intro w. exists (Thread (encrypt_message toy carol_at [])).
  assert (T : exists k, start toy (CEncrypt (conv_at false) []) = Thread (PDo (OLoadSession (conv_at false)) k)) by (eexists; reflexivity).
  destruct T as [k T]. exists (Thread (k (Ok (w_sess w (conv_at false))))).
  apply (sb_op toy w [(CEncrypt carol_at [], [], start toy (CEncrypt carol_at []))] (CEncrypt (conv_at false) []) [] [] (OLoadSession (conv_at false)) k FNone w _ w);
    [|reflexivity]. cbn [app].
  apply sb_call; [rewrite <- T; apply sb_call; [apply sb_none|constructor]|].
  constructor; [|constructor]. split; [discriminate|left; reflexivity].
Qed.
