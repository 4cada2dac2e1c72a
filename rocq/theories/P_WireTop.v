(** The wire theorems in the form in which they are stated (T_Wire.v). *)
From Verif Require Import M_Base M_Crypto M_Curve M_Proto M_Uuid M_Message M_Ratchet M_State M_Store M_Session
  S_Crypto S_Message S_Uuid S_State S_Wire S_Shape K_Toy
  P_Base P_Proto P_Curve P_Uuid P_Message P_Wire P_State P_Shape.
From Coq Require Import ZifyBool ZifyNat ZifyN.
Local Open Scope N_scope.

Lemma signal_wire : forall C mackey ratchet prev counter body s r,
  CryptoOk C -> List.length mackey = 32%nat -> List.length ratchet = 32%nat ->
  go_u32 prev -> go_u32 counter -> go_slice body ->
  exists m b, new_signal C 3 mackey ratchet prev counter body s r = Ok m /\
    sg_raw m = (Byte.x33 :: b) ++
      firstn 8 (c_hmac C mackey ((Byte.x05 :: s) ++ (Byte.x05 :: r) ++ Byte.x33 :: b)) /\
    wire b [(1, WLen (Byte.x05 :: ratchet)); (2, WVarint counter); (3, WVarint prev); (4, WLen body)] /\
    m = mkSignal 3 ratchet prev counter body (sg_raw m) /\
    parse_signal (sg_raw m) = Ok m /\
    verify_mac C m mackey s r = Ok true.
Proof.
  intros C mackey ratchet prev counter body s r H Lm Lr Gp Gc Gb.
  destruct (proj2 (new_signal_total C 3 mackey ratchet prev counter body s r) Lm) as [m E].
  destruct (new_signal_text _ _ _ _ _ _ _ _ _ H Lr Gp Gc Gb E) as (b & W & R).
  destruct (signal_roundtrip _ _ _ _ _ _ _ _ _ H Lr Gp Gc Gb E) as [P Q].
  exists m, b. split; [auto|]. split; [auto|]. split; [auto|]. split; [auto|]. split; [auto|].
  destruct (verify_mac_built _ _ _ _ _ _ _ _ _ m mackey s r H E) as (ser & _ & V). apply V. auto.
Qed.

Lemma prekey_wire : forall reg pkid spkid base identity inner,
  List.length base = 32%nat -> List.length identity = 32%nat ->
  go_u32 reg -> go_u32 spkid -> (forall i, pkid = Some i -> go_u32 i) ->
  go_slice (sg_raw inner) -> parse_signal (sg_raw inner) = Ok inner ->
  exists b, let m := new_prekey_msg 3 reg pkid spkid base identity inner in
    pm_raw m = Byte.x33 :: b /\
    wire b ((match pkid with Some i => [(1, WVarint i)] | None => [] end) ++
      [(2, WLen (Byte.x05 :: base)); (3, WLen (Byte.x05 :: identity)); (4, WLen (sg_raw inner));
       (5, WVarint reg); (6, WVarint spkid)]) /\
    m = mkPreKeyMsg 3 reg pkid spkid base identity inner (pm_raw m) /\
    parse_prekey_msg (pm_raw m) = Ok m.
Proof.
  intros. destruct (new_prekey_text reg pkid spkid base identity inner) as (b & R & W); auto.
  exists b. cbv zeta. split; [auto|]. split; [auto|]. split; [reflexivity|]. apply prekey_roundtrip; auto.
Qed.

Lemma senderkey_wire : forall C kb key rnd d chain iter body,
  CryptoOk C -> new_private_key C kb = Ok key -> (64 <= List.length rnd)%nat ->
  List.length d = 16%nat -> go_u32 chain -> go_u32 iter -> go_slice body ->
  exists m rest b sig, new_senderkey C rnd 3 d chain iter body key = (Ok m, rest) /\
    sm_raw m = (Byte.x33 :: b) ++ sig /\ List.length sig = 64%nat /\
    wire b [(1, WLen (canonical d)); (2, WVarint chain); (3, WVarint iter); (4, WLen body)] /\
    m = mkSenderKeyMsg 3 d chain iter body (sm_raw m) /\
    parse_senderkey (sm_raw m) = Ok m /\
    verify_signature C (sk_pub key) sig [Byte.x33 :: b] = Ok true /\
    verify_senderkey C m (sk_pub key) = Ok true.
Proof.
  intros C kb key rnd d chain iter body H K Lr Ld Gc Gi Gb.
  destruct (new_senderkey_total C 3 rnd d chain iter body key Lr) as (m & rest & E).
  destruct (new_senderkey_text _ _ _ _ _ _ _ _ _ Ld Gc Gi Gb E) as (b & sig & S & R & W).
  destruct (senderkey_roundtrip _ _ _ _ _ _ _ _ _ _ H K Ld Gc Gi Gb E) as (P & Q & V).
  destruct (sign_verifies C H _ _ _ _ _ _ [Byte.x33 :: b] K S eq_refl) as [L VS].
  exists m, rest, b, sig. auto 10.
Qed.

Lemma dist_wire : forall d chain iter ck signing,
  List.length d = 16%nat -> go_u32 chain -> go_u32 iter ->
  List.length ck = 32%nat -> List.length signing = 32%nat ->
  exists b, let m := new_dist 3 d chain iter ck signing in
    dm_raw m = Byte.x33 :: b /\
    wire b [(1, WLen (canonical d)); (2, WVarint chain); (3, WVarint iter); (4, WLen ck);
            (5, WLen (Byte.x05 :: signing))] /\
    m = mkDistMsg 3 d chain iter ck signing (dm_raw m) /\
    parse_dist (dm_raw m) = Ok m.
Proof.
  intros. destruct (new_dist_text d chain iter ck signing) as (b & R & W); auto.
  exists b. cbv zeta. split; [auto|]. split; [auto|]. split; [reflexivity|]. apply dist_roundtrip_msg; auto.
Qed.

Lemma parsers_crash : exists b b', parse_signal b = Panic /\ parse_prekey_msg b' = Panic.
Proof.
  exists [Byte.x33], (Byte.x33 :: enc_fields
    [(2, WLen (pub_bytes (repeat Byte.x01 32))); (3, WLen (pub_bytes (repeat Byte.x01 32))); (4, WLen [Byte.x33])]).
  split; vm_compute; reflexivity.
Qed.

Lemma parsers_exact :
  (forall b, parse_signal b = Panic <-> (version_of b 3 /\ (List.length b <= 8)%nat)) /\
  (forall b, parse_prekey_msg b = Panic <->
     exists v body fs base ident, b = v :: body /\ b2n v / 16 = 3 /\ wire body fs /\
       key_text (the_bytes 2 fs) base /\ key_text (the_bytes 3 fs) ident /\
       version_of (the_bytes 4 fs) 3 /\ (List.length (the_bytes 4 fs) <= 8)%nat) /\
  (forall b, parse_senderkey b <> Panic) /\ (forall b, parse_dist b <> Panic) /\
  (forall b, parse_plaintext b <> Panic) /\ (forall b, state_parse b <> Panic) /\
  (forall b, dist_parse b <> Panic) /\ (forall b, new_public_key b <> Panic).
Proof.
  split; [exact parse_signal_panic|]. split; [exact prekey_panic_iff|]. split; [exact parse_senderkey_no_panic|].
  split; [exact parse_dist_no_panic|]. split; [exact parse_plaintext_no_panic|].
  split; [exact state_parse_no_panic|]. split; [exact dist_parse_no_panic|exact new_public_key_no_panic].
Qed.

Lemma parsers_accept :
  (forall b m, parse_signal b = Ok m <-> signal_text b m) /\
  (forall b m, parse_prekey_msg b = Ok m <-> prekey_text b m) /\
  (forall b m, parse_senderkey b = Ok m <-> senderkey_text b m) /\
  (forall b m, parse_dist b = Ok m <-> dist_text b m) /\
  (forall b k, new_public_key b = Ok k <-> key_text b k).
Proof.
  split; [exact parse_signal_iff|]. split; [exact parse_prekey_iff|]. split; [exact parse_senderkey_iff|].
  split; [exact parse_dist_iff|exact key_text_iff].
Qed.

Lemma uuid_text :
  (forall u, List.length u = 16%nat -> uuid_string u = canonical u /\ List.length (uuid_string u) = 36%nat /\
     dist_parse (uuid_string u) = Ok u) /\
  (forall u v, List.length u = 16%nat -> List.length v = 16%nat -> uuid_string u = uuid_string v -> u = v) /\
  (forall b u, dist_parse b = Ok u <-> denotes b u) /\
  (forall b, dist_parse b <> Panic).
Proof.
  split; [|split; [|split; [exact dist_parse_exact|exact dist_parse_no_panic]]].
  - intros u L. split; [apply uuid_string_canonical; auto|]. split; [apply uuid_string_length; auto|apply dist_roundtrip; auto].
  - intros u v Lu Lv E. pose proof (dist_roundtrip u Lu) as A. pose proof (dist_roundtrip v Lv) as B.
    rewrite E in A. congruence.
Qed.

Lemma unexpected_types : forall C a rnd fs w,
  (forall m, run (decrypt_message C a rnd (CSenderKey m)) fs w =
     (Err (EOther "DecryptMessage cannot be used to decrypt this message type"), w)) /\
  (forall p, run (decrypt_message C a rnd (CPlaintext p)) fs w =
     (Err (EOther "DecryptMessage cannot be used to decrypt this message type"), w)) /\
  (forall b x, parse_plaintext b = Ok x <-> (x = b /\ exists r, b = Byte.xc0 :: r)) /\
  (forall b, parse_plaintext b <> Panic).
Proof.
  intros. split; [reflexivity|]. split; [reflexivity|]. split; [exact parse_plaintext_exact|exact parse_plaintext_no_panic].
Qed.

(** Concrete cases. *)
Lemma some_signal : exists inner, go_slice (sg_raw inner) /\ parse_signal (sg_raw inner) = Ok inner.
Proof.
  set (b := Byte.x33 :: enc_fields (signal_fields (repeat Byte.x02 32) 7 3 (repeat Byte.x09 16)) ++ repeat Byte.x05 8).
  exists (mkSignal 3 (repeat Byte.x02 32) 3 7 (repeat Byte.x09 16) b).
  split; vm_compute; reflexivity.
Qed.

Definition some_chain : pchain :=
  mkPChain (pub_bytes (repeat Byte.x04 32)) [] (Some (mkPChainKey 3 (repeat Byte.x05 32)))
    [mkPMsgKey 1 (repeat Byte.x06 32) (repeat Byte.x07 32) (repeat Byte.x08 16)].
Definition some_state : state :=
  mkState 3 (pub_bytes (repeat Byte.x01 32)) (pub_bytes (repeat Byte.x02 32)) (repeat Byte.x03 32) 2
    (Some (mkPChain (pub_bytes (repeat Byte.x04 32)) (repeat Byte.x40 32) (Some (mkPChainKey 9 (repeat Byte.x05 32))) []))
    [some_chain] (Some (mkPPending 5 (pub_bytes (repeat Byte.x09 32)) (-1))) 11 12 (pub_bytes (repeat Byte.x09 32)).
Lemma some_key33 : forall x, key33 (pub_bytes (repeat x 32)).
Proof. intro x. exists (repeat x 32). split; [apply repeat_length|reflexivity]. Qed.
Lemma some_state_wf : wf_state some_state.
Proof.
  unfold wf_state, some_state. cbn [ss_version ss_local ss_remote ss_root ss_prevctr ss_sender ss_receivers ss_pending ss_remote_reg ss_local_reg ss_alice_base].
  split; [reflexivity|]. split; [apply some_key33|]. split; [apply some_key33|]. split; [apply repeat_length|].
  split; [reflexivity|]. split.
  { eexists. split; [reflexivity|]. split; [|apply repeat_length]. split; [apply some_key33|].
    split; [eexists; split; [reflexivity|split; [reflexivity|apply repeat_length]]|].
    split; [cbn; lia|constructor]. }
  split.
  { split; [cbn; lia|]. constructor; [|constructor]. split; [|reflexivity]. split; [apply some_key33|].
    split; [eexists; split; [reflexivity|split; [reflexivity|apply repeat_length]]|].
    split; [cbn; lia|]. constructor; [|constructor]. split; [reflexivity|]. repeat split; apply repeat_length. }
  split; [|split; [reflexivity|split; [reflexivity|apply some_key33]]].
  intros p E. injection E as <-. split; [reflexivity|]. split; [split; cbn; lia|apply some_key33].
Qed.
