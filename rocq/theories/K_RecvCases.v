(** Concrete cases and witnesses for T_Receive.v. *)
From Coq Require Import String.
From Verif Require Import M_Base M_Crypto M_Aes M_Curve M_Uuid M_Message M_Ratchet M_State M_Store M_Session M_Group
  S_Crypto S_Message S_State S_Shape S_Ratchet S_Session S_Api S_Send S_Group S_X3dh S_Receive S_Conv S_History S_Bundle
  P_Base P_Curve P_Shape P_Ratchet P_Chain P_Encrypt P_Send P_X3dh P_DecTop P_DecMore P_Replay P_Archive P_Trust P_History P_Establish P_Frames
  K_Toy K_World K_Receive K_Conv.
From Coq Require Import ZifyBool ZifyNat ZifyN.
Local Open Scope nat_scope.

(** The device of the examples: current session at index 2, nothing archived. *)
Definition rx_one (sh : bool) : world := rx_world (rx_state 2 []) [] None sh.
Lemma rx_one_wf : forall sh, wf_device (rx_one sh).
Proof. intro sh. apply rx_world_wf; [apply rx_state_wf; [reflexivity|cbn; lia|constructor]|constructor|cbn; lia]. Qed.

Lemma replay_case : exists m w1 w2, run0 (decrypt_message toy ex_addr [] (CSignal m)) (rx_one true) = (Ok (str "pay"), w1) /\
  run0 (decrypt_message toy ex_addr [] (CSignal m)) w1 = (Ok (str "pay"), w2).
Proof.
  destruct (rx_message toy (chain_at toy (b32 Byte.x07) (N.to_nat (3 - 2))) 3 (str "pay") toy_ok) as [m Wm]. exists m.
  apply (replayed toy ex_addr [] [] m (rx_one true) (rx_state 2 []) (b32 Byte.x06) (b32 Byte.x07) 2 [] (b32 Byte.x01) (b32 Byte.x02) 3 (str "pay") toy_ok
    (rx_one_wf true)); [apply rx_session|apply rx_receiving|apply rx_trusts|apply small_u32; reflexivity|lia|exact Wm].
Qed.
Lemma replay_later_case : exists m1 m2, let dev w := (w : world) in exists w1 w2 w3 w4,
  run0 (decrypt_message toy ex_addr [] (CSignal m1)) (dev (rx_one true)) = (Ok (str "one"), w1) /\
  run0 (decrypt_message toy ex_addr [] (CSignal m2)) w1 = (Ok (str "two"), w2) /\
  run0 (decrypt_message toy ex_addr [] (CSignal m1)) w2 = (Ok (str "one"), w3) /\
  run0 (decrypt_message toy ex_addr [] (CSignal m1)) w3 = (Ok [], w4) /\ w_sess w4 ex_addr = w_sess w3 ex_addr.
Proof.
  destruct (rx_message toy (chain_at toy (b32 Byte.x07) (N.to_nat (2 - 2))) 2 (str "one") toy_ok) as [m1 W1].
  destruct (rx_message toy (chain_at toy (b32 Byte.x07) (N.to_nat (9 - 2))) 9 (str "two") toy_ok) as [m2 W2]. exists m1, m2. cbv zeta.
  apply (replayed_later toy ex_addr (fun _ => []) m1 m2 (rx_one true) (rx_state 2 []) (b32 Byte.x06) (b32 Byte.x07) 2 [] (b32 Byte.x01) (b32 Byte.x02) 2 9
    (str "one") (str "two") toy_ok (rx_one_wf true)); try lia; [apply rx_session|apply rx_receiving|apply rx_trusts|apply small_u32; reflexivity|exact W1|exact W2].
Qed.
(** Position 1 of a chain at index 2 without its key. *)
Lemma spent_case : spent (rx_state 2 []) (b32 Byte.x06) 1 /\ NoDup (map pc_ratchet (ss_receivers (rx_state 2 []))).
Proof. split; [exists (b32 Byte.x07), 2%N, []; split; [apply rx_receiving|split; [lia|intros x []]]|]. repeat constructor. intros []. Qed.

(** Junk is accepted. *)
Lemma junk_case : exists w', run0 (decrypt_message toy ex_addr [] (CSignal junk)) (rx_one true) = (Ok [], w').
Proof.
  eapply (garbage_accepted toy ex_addr [] junk (rx_one true) _ (rx_state 2 []) (b32 Byte.x02) toy_ok (rx_one_wf true) junk_wf);
    try reflexivity. intros s pt _. apply junk_opens.
Qed.

(** Bob's device with a session, sharing its store; a stranger's pre-key message whose
    inside nobody can open. *)
Definition bob_current : state := with_alice_base (rx_state 2 []) (Byte.x05 :: b32 Byte.xff).
Definition bob_shared : world :=
  mkWorld (fun a => if addr_eqb a ex_addr then Some (mkRecord (Some bob_current) []) else None) (fun _ => None) (fun _ => None)
    (fun i => if N.eqb i 5 then Some (new_prekeyrec (pair_of toy bob_signed_key)) else None) (fun _ _ => None) (pair_of toy bob_key) 12 inmem_policy true.
Lemma mont_small : forall k, mont_pub toy k <> b32 Byte.xff.
Proof.
  intros k E. apply (f_equal (fun b => nth 31 b Byte.x00)) in E. unfold mont_pub, ed_to_mont, fe_bytes in E. 
  match type of E with nth 31 (n2le 32 ?n) _ = _ => assert (L : (n < two255)%N) end.
  { eapply N.lt_trans; [apply N.mod_lt; discriminate|]. vm_compute. reflexivity. }
  destruct (n2le_last _ L) as (l & t & Q & Hl & Ht). rewrite Q, app_nth2, Hl in E by lia. cbn [Nat.sub nth] in E. rewrite E in Ht. vm_compute in Ht. discriminate.
Qed.
Lemma base_differs : Byte.x05 :: b32 Byte.xff <> Byte.x05 :: mont_pub toy rx_base.
Proof. intro E. apply (f_equal (fun l => match l with [] => [] | _ :: t => t end)) in E. exact (mont_small rx_base (eq_sym E)). Qed.
Lemma bob_shared_wf : wf_device bob_shared.
Proof.
  assert (Wc : wf_state bob_current).
  { pose proof (rx_state_wf 2 [] eq_refl ltac:(cbn; lia) ltac:(constructor)) as (V & K1 & K2 & Lr & Gp & Sc & Rc & Pd & G1 & G2 & K3).
    unfold wf_state. cbn. repeat (split; [assumption|]). apply b32_key. }
  split; [split; [|split]|].
  - cbn [w_sess bob_shared]. intros a r. destruct (addr_eqb a ex_addr); [|discriminate]. intro E. injection E as <-.
    split; [intros s E; injection E as <-; exact Wc|]. cbn. split; [lia|constructor].
  - apply ed_to_mont_length.
  - apply small_u32. reflexivity.
  - cbn. discriminate.
Qed.
Lemma disturbed_case : exists e w' r' s, run0 (decrypt_message toy ex_addr [] (CPreKey (junk_prekey toy))) bob_shared = (Err e, w') /\
  w_sess w' ex_addr = Some r' /\ rc_current r' = Some s /\ s <> bob_current /\ ss_alice_base s = Byte.x05 :: mont_pub toy rx_base.
Proof.
  destruct (shared_disturbed toy ex_addr [] (junk_prekey toy) bob_shared (mkRecord (Some bob_current) []) toy_ok bob_shared_wf (junk_prekey_wf toy) eq_refl)
    as (e & w' & r' & s & R & E1 & E2 & E3 & _).
  - reflexivity.
  - reflexivity.
  - intros s [E|(b & [] & _)]. cbn in E. injection E as <-. change (Byte.x05 :: b32 Byte.xff <> Byte.x05 :: mont_pub toy rx_base). exact base_differs.
  - destruct (pair_stored toy bob_signed_key (pair_of toy bob_signed_key)) as (p & E & P); [apply pair_of_for, b32_len|].
    exists rx_peer, rx_base, bob_key, bob_signed_key. eexists. exists p. split; [apply b32_len|]. split; [apply b32_len|]. split; [reflexivity|]. split; [reflexivity|].
    split; [apply pair_of_for, b32_len|]. split; [reflexivity|]. auto.
  - discriminate.
  - exists e, w', r', s. split; [exact R|]. split; [exact E1|]. split; [exact E2|]. split; [|exact E3].
    intros ->. change (Byte.x05 :: b32 Byte.xff = Byte.x05 :: mont_pub toy rx_base) in E3. exact (base_differs E3).
Qed.

(** A session between [b32 2] and us; the identity store knows another key for the
    address; the message comes in a pre-key frame that names that other key. *)
Definition frame_msg (m : signal) : prekeymsg := mkPreKeyMsg 3 9 None 5 (b32 Byte.x0d) (b32 Byte.x77) m [].
Lemma frame_case : exists m w', w_ident (rx_world (rx_state 2 []) [] (Some (b32 Byte.x77)) true) ex_addr = Some (b32 Byte.x77) /\
  run0 (decrypt_message toy ex_addr [] (CPreKey (frame_msg m))) (rx_world (rx_state 2 []) [] (Some (b32 Byte.x77)) true) = (Ok (str "hi"), w').
Proof.
  destruct (rx_message toy (chain_at toy (b32 Byte.x07) (N.to_nat (2 - 2))) 2 (str "hi") toy_ok) as [m Wh]. exists m.
  pose proof (whisper_wf _ _ _ _ _ _ _ _ toy_ok Wh (b32_len _) (small_u32 2 eq_refl)) as Wm.
  destruct (whisper_fields _ _ _ _ _ _ _ _ Wh) as (_ & Er & _).
  destruct (frame_identity toy ex_addr [] (frame_msg m) (rx_world (rx_state 2 []) [] (Some (b32 Byte.x77)) true) (mkRecord (Some (rx_state 2 [])) []) (rx_state 2 [])
    (b32 Byte.x07) 2 [] (b32 Byte.x01) (b32 Byte.x02) 2 (str "hi") toy_ok) as (w' & R).
  - apply rx_world_wf; [apply rx_state_wf; [reflexivity|cbn; lia|constructor]|constructor|cbn; lia].
  - split; [reflexivity|]. split; [apply b32_len|]. split; [apply b32_len|]. split; [apply small_u32; reflexivity|]. split; [apply small_u32; reflexivity|].
    split; [discriminate|exact Wm].
  - reflexivity.
  - reflexivity.
  - reflexivity.
  - reflexivity.
  - reflexivity.
  - reflexivity.
  - cbn [frame_msg pm_message]. rewrite Er. apply rx_receiving.
  - apply small_u32. reflexivity.
  - lia.
  - cbn [frame_msg pm_message]. rewrite Er. exact Wh.
  - exists w'. split; [reflexivity|exact R].
Qed.

(** A device without sessions and signed pre-keys. *)
Definition empty_world : world :=
  mkWorld (fun _ => None) (fun _ => None) (fun _ => None) (fun _ => None) (fun _ _ => None) ex_pair 12 inmem_policy true.
Lemma empty_wf : wf_device empty_world.
Proof. split; [split; [cbn; discriminate|split; [apply ed_to_mont_length|apply small_u32; reflexivity]]|cbn; discriminate]. Qed.
Lemma panic_case : fst (run0 (decrypt_message toy ex_addr [] (CPreKey (junk_prekey toy))) empty_world) = Panic.
Proof. apply unknown_signed_panics; try reflexivity; [apply empty_wf|apply junk_prekey_wf|]. cbn. discriminate. Qed.

(** Archived sessions: the second one can read the message, the first one takes it for a
    duplicate, the current one for too far ahead. *)
Definition dup_world : world := rx_world (rx_state 0 []) [rx_state 25002 []; rx_state 25001 []] None true.
Lemma rx_wf : forall i, N.ltb i 4294967296 = true -> wf_state (rx_state i []).
Proof. intros i E. apply rx_state_wf; [exact E|cbn; lia|constructor]. Qed.
Lemma rx_ahead : forall rnd i n m pt, N.ltb i 4294967296 = true -> go_u32 n -> (i <= n <= i + 25000)%N ->
  whisper toy (chain_at toy (b32 Byte.x07) (N.to_nat (n - i))) n (b32 Byte.x06) (b32 Byte.x02) (b32 Byte.x01) pt m ->
  exists s', fst (decrypt_session toy rnd (rx_state i []) m) = Ok (pt, s').
Proof.
  intros rnd i n m pt E G J Wh. eexists.
  rewrite (decrypt_ahead toy rnd (rx_state i []) (rx_chain i []) (mkPChainKey i (b32 Byte.x07)) n (b32 Byte.x06) (b32 Byte.x02) (b32 Byte.x01) pt m toy_ok (rx_wf i E)
    (b32_len _) G eq_refl eq_refl eq_refl eq_refl (proj1 J) (or_introl (proj2 J)) Wh). reflexivity.
Qed.
Lemma rx_far : forall rnd i m, N.ltb i 4294967296 = true -> wf_signal m -> sg_ratchet m = b32 Byte.x06 -> (i + 25000 < sg_counter m)%N ->
  decrypt_session toy rnd (rx_state i []) m = (Err (EOther "message from too far in the future"), rnd).
Proof. intros rnd i m E Wm Er J. apply (far_refused toy rnd (rx_state i []) m (b32 Byte.x07) i [] (rx_wf i E) Wm); [rewrite Er; apply rx_receiving|exact J|discriminate]. Qed.
Lemma rx_dup : forall rnd i m, N.ltb i 4294967296 = true -> wf_signal m -> sg_ratchet m = b32 Byte.x06 -> (sg_counter m < i)%N ->
  decrypt_session toy rnd (rx_state i []) m = (Err EDuplicate, rnd).
Proof.
  intros rnd i m E Wm Er J. apply (decrypt_consumed toy rnd (rx_state i []) (rx_chain i []) (mkPChainKey i (b32 Byte.x07)) m toy_ok (rx_wf i E) Wm);
    [rewrite Er; reflexivity|reflexivity|exact J|intros x []].
Qed.
Lemma archived_refuted : exists C w a rnd m r s pt w', CryptoOk C /\ wf_device w /\ wf_signal m /\ w_sess w a = Some r /\
  current_fails C rnd r m /\ In (state_bytes s) (rc_previous r) /\ wf_state s /\
  (forall rnd', exists s', fst (decrypt_session C rnd' s m) = Ok (pt, s')) /\ pt <> [] /\
  run0 (decrypt_message C a rnd (CSignal m)) w = (Ok [], w').
Proof.
  destruct (rx_message toy (chain_at toy (b32 Byte.x07) (N.to_nat (25001 - 25001))) 25001 (str "late") toy_ok) as [m Wh].
  assert (G : go_u32 25001) by (apply small_u32; reflexivity).
  pose proof (whisper_wf _ _ _ _ _ _ _ _ toy_ok Wh (b32_len _) G) as Wm. destruct (whisper_fields _ _ _ _ _ _ _ _ Wh) as (_ & Er & En).
  set (r := mkRecord (Some (rx_state 0 [])) (map state_bytes [rx_state 25002 []; rx_state 25001 []])).
  assert (Wd : wf_device dup_world).
  { apply rx_world_wf; [apply rx_wf; reflexivity| |cbn; lia]. constructor; [apply rx_wf; reflexivity|constructor; [apply rx_wf; reflexivity|constructor]]. }
  assert (F : current_fails toy [] r m).
  { intros s E. cbn in E. injection E as <-. eexists. eexists. split; [apply rx_far; [reflexivity|exact Wm|exact Er|rewrite En; reflexivity]|discriminate]. }
  destruct (duplicate_swallowed toy ex_addr [] m dup_world r (rx_state 0 []) (rx_state 25002 []) (b32 Byte.x02) toy_ok Wd Wm eq_refl eq_refl eq_refl
    (rx_trusts _ _ _) F) as (w' & R & _).
  - left. reflexivity.
  - apply rx_wf. reflexivity.
  - intro rnd'. rewrite rx_dup; [reflexivity|reflexivity|exact Wm|exact Er|rewrite En; reflexivity].
  - exists toy, dup_world, ex_addr, [], m, r, (rx_state 25001 []), (str "late"), w'.
    split; [exact toy_ok|]. split; [exact Wd|]. split; [exact Wm|]. split; [reflexivity|]. split; [exact F|]. split; [right; left; reflexivity|].
    split; [apply rx_wf; reflexivity|]. split; [intro rnd'; apply (rx_ahead rnd' 25001 25001 m (str "late")); [reflexivity|exact G|lia|exact Wh]|]. split; [discriminate|exact R].
Qed.
(** Without the confusing one it works. *)
Lemma archived_case : exists m w' r', run0 (decrypt_message toy ex_addr [] (CSignal m)) (rx_world (rx_state 0 []) [rx_state 0 []; rx_state 25001 []] None true) = (Ok (str "late"), w') /\
  w_sess w' ex_addr = Some r' /\ rc_previous r' = map state_bytes [rx_state 0 []; rx_state 0 []].
Proof.
  destruct (rx_message toy (chain_at toy (b32 Byte.x07) (N.to_nat (25001 - 25001))) 25001 (str "late") toy_ok) as [m Wh].
  assert (G : go_u32 25001) by (apply small_u32; reflexivity).
  pose proof (whisper_wf _ _ _ _ _ _ _ _ toy_ok Wh (b32_len _) G) as Wm. destruct (whisper_fields _ _ _ _ _ _ _ _ Wh) as (_ & Er & En).
  set (r := mkRecord (Some (rx_state 0 [])) (map state_bytes [rx_state 0 []; rx_state 25001 []])).
  assert (Far : forall rnd', decrypt_session toy rnd' (rx_state 0 []) m = (Err (EOther "message from too far in the future"), rnd')).
  { intro rnd'. apply rx_far; [reflexivity|exact Wm|exact Er|rewrite En; reflexivity]. }
  destruct (archived_receives toy ex_addr [] m (rx_world (rx_state 0 []) [rx_state 0 []; rx_state 25001 []] None true) r [rx_state 0 []] (rx_state 25001 []) [] (str "late") (b32 Byte.x02) toy_ok)
    as (w' & r' & s' & R & E1 & _ & _ & E2).
  - apply rx_world_wf; [apply rx_wf; reflexivity| |cbn; lia]. constructor; [apply rx_wf; reflexivity|constructor; [apply rx_wf; reflexivity|constructor]].
  - exact Wm.
  - reflexivity.
  - intros s E. cbn in E. injection E as <-. eexists. eexists. split; [apply Far|discriminate].
  - reflexivity.
  - constructor; [apply rx_wf; reflexivity|constructor; [apply rx_wf; reflexivity|constructor]].
  - reflexivity.
  - apply rx_trusts.
  - intro rnd'. apply (rx_ahead rnd' 25001 25001 m (str "late")); [reflexivity|exact G|lia|exact Wh].
  - intros x rnd' [<-|[]]. eexists. rewrite Far. split; [reflexivity|discriminate].
  - exists m, w', r'. auto.
Qed.

(** A genuine first message with one-time pre-key 7. *)
Lemma first_message : exists pm w', pm_prekey_id pm = Some 7%N /\ wf_prekeymsg pm /\
  run0 (decrypt_message toy (conv_at false) (b32 Byte.x43) (CPreKey pm)) (bob_world 7 true) = (Ok (str "hello"), w').
Proof.
  destruct (bob_bundle_signed (Some 7%N)) as [sig Sg]. set (b := bob_bundle (Some 7%N) sig).
  assert (Wb : wf_bundle b) by (apply bob_bundle_wf; intros i E; injection E as <-; apply small_u32; reflexivity).
  destruct (established toy toy_ok b conv_at (alice_world true) (bob_world 7 true) alice_key bob_key bob_signed_key (Some bob_once_key) alice_rnd (b32 Byte.x43)
    (alice_wf true) (bob_wf 7 true) Wb) with (pt := str "hello") as (wA1 & c & wA2 & wB1 & E1 & E2 & E3).
  - apply pair_of_for, b32_len.
  - apply (bob_published 7 (Some 7%N)); [right; reflexivity|discriminate].
  - unfold alice_rnd. rewrite app_length, !b32_len. apply le_n.
  - rewrite b32_len. apply le_n.
  - apply none_unused. reflexivity.
  - exact conv_fresh.
  - exact Sg.
  - reflexivity.
  - reflexivity.
  - reflexivity.
  - destruct (initiated toy (conv_at true) alice_rnd b [] (alice_world true) wA1 [(str "hello", c)] wA2 toy_ok (alice_wf true) Wb E1) with (pt := str "hello") (c := c) as (pm & m & -> & F).
    + eapply sok_cons; [exact E2|constructor].
    + left. reflexivity.
    + exists pm, wB1. destruct F as (F1 & F2 & F3 & F4 & F5 & F6 & F7). split; [exact F3|]. split; [|exact E3].
      destruct (bundle_awaiting toy (conv_at true) alice_rnd b [] (alice_world true) wA1 toy_ok (alice_wf true) Wb E1) as (W1 & _).
      exact (sent_wf _ _ _ _ _ _ _ toy_ok W1 E2).
Qed.
Lemma far_case : exists m, whisper toy (chain_at toy (b32 Byte.x07) (N.to_nat (25002 - 2))) 25002 (b32 Byte.x06) (b32 Byte.x02) (b32 Byte.x01) (str "far") m /\
  receiving_at (rx_state 2 []) (b32 Byte.x06) (b32 Byte.x07) 2 [] /\ ss_remote (rx_state 2 []) <> ss_local (rx_state 2 []).
Proof.
  destruct (rx_message toy (chain_at toy (b32 Byte.x07) (N.to_nat (25002 - 2))) 25002 (str "far") toy_ok) as [m Wh].
  exists m. split; [exact Wh|]. split; [apply rx_receiving|discriminate].
Qed.
Lemma trust_case : inmem_policy ex_addr (Some (b32 Byte.x77)) (b32 Byte.x02) Sending = false /\
  exists c w', run0 (encrypt_message toy ex_addr (str "hi")) (rx_one true) = (Ok c, w').
Proof.
  split; [reflexivity|].
  destruct (encrypt_state_exact toy (rx_state 2 []) (str "hi") toy_ok (rx_wf 2 eq_refl)) as (sc & k & rt & lo & rem & m & out & _ & _ & _ & _ & _ & E5 & _ & _ & _ & _ & En).
  eexists. eexists. eapply (encrypt_completes toy ex_addr (str "hi") (mkRecord (Some (rx_state 2 [])) []) (rx_state 2 []) _ _ _ (rx_one true) eq_refl eq_refl En).
  reflexivity.
Qed.
Lemma frame_refuted : exists C w a r s remote pm w', CryptoOk C /\ wf_device w /\ w_policy w = inmem_policy /\
  w_sess w a = Some r /\ (forall s', state_in s' r -> s' = s) /\ ss_remote s = Byte.x05 :: remote /\ 
  w_policy w a (w_ident w a) remote Receiving = false /\
  run0 (decrypt_message C a [] (CPreKey pm)) w = (Ok (str "hi"), w').
Proof.
  destruct frame_case as (m & w' & _ & E).
  exists toy, (rx_world (rx_state 2 []) [] (Some (b32 Byte.x77)) true), ex_addr, (mkRecord (Some (rx_state 2 [])) []), (rx_state 2 []), (b32 Byte.x02), (frame_msg m), w'.
  split; [exact toy_ok|]. split; [apply rx_world_wf; [apply rx_wf; reflexivity|constructor|cbn; lia]|]. split; [reflexivity|]. split; [reflexivity|].
  split; [intros s' [Q|(b & [] & _)]; cbn in Q; injection Q as <-; reflexivity|]. split; [reflexivity|]. split; [reflexivity|exact E].
Qed.
Lemma signed_case : (exists sig, bundle_signed toy (bob_bundle (Some 7%N) sig)) /\ ~ bundle_signed toy (bob_bundle (Some 7%N) []).
Proof. split; [apply bob_bundle_signed|]. intros (i & sg & r & t & y & _ & _ & _ & L & _). discriminate L. Qed.
Lemma consumed_case : w_prekeys (bob_world 7 true) 7%N <> None /\ exists pm w',
  run0 (decrypt_message toy (conv_at false) (b32 Byte.x43) (CPreKey pm)) (bob_world 7 true) = (Ok (str "hello"), w') /\ w_prekeys w' 7%N = None.
Proof.
  split; [discriminate|]. destruct first_message as (pm & w' & Ei & Wp & E). exists pm, w'. split; [exact E|].
  apply (consumed_on_success toy (conv_at false) (b32 Byte.x43) pm [] (bob_world 7 true) (str "hello") w' 7%N (bob_wf 7 true) Wp E Ei).
  intros r s Q. discriminate Q.
Qed.
Lemma record_case : wf_record (mkRecord (Some (rx_state 0 [])) (map state_bytes [rx_state 1 []; rx_state 2 []])).
Proof.
  split; [intros s E; cbn in E; injection E as <-; apply rx_wf; reflexivity|]. split; [cbn; lia|].
  cbn [rc_previous map]. constructor; [exists (rx_state 1 []); split; [apply rx_wf; reflexivity|reflexivity]|].
  constructor; [exists (rx_state 2 []); split; [apply rx_wf; reflexivity|reflexivity]|constructor].
Qed.
Lemma untrusted_case : exists e, fst (run0 (encrypt_message toy ex_addr []) (rx_world (rx_state 2 []) [] (Some (b32 Byte.x77)) true)) = Err e /\ is_err_untrusted e = true.
Proof.
  eapply (untrusted_encrypt toy ex_addr [] _ (mkRecord (Some (rx_state 2 [])) []) (rx_state 2 []) (b32 Byte.x02) toy_ok); try reflexivity.
  apply rx_world_wf; [apply rx_wf; reflexivity|constructor|cbn; lia].
Qed.
