(** Several sessions with one peer: C58, C59. Sizes: C60, C27 in bytes. *)
From Verif Require Import M_Base M_Crypto M_Aes M_Curve M_Proto M_Message M_Ratchet M_State M_Store M_Session M_Group
  S_Crypto S_Message S_Ratchet S_Session S_Shape S_Api S_Send S_Group S_X3dh S_Receive S_Conv S_History S_Bundle S_Atomic S_Sessions S_Size S_GroupMsg
  P_Cross P_Sessions P_Size P_Bytes P_Keep P_GroupTop K_Toy K_World K_Receive K_Conv K_Cross K_Group K_Size.
Local Open Scope nat_scope.

(** * C58  both sides initiate at the same time *)
(** Two devices process each other's bundles and send, before either has received anything.
    Both messages are then read, and each device holds both sessions, the one the peer began
    being the current one. Store failures are allowed while the messages are prepared. *)
Theorem c58_crossing : forall C aA aB wA wB bA bB ia ib sa sb oa ob rA rB dA dB fs1 fs2 fs3 fs4 wA1 wA2 wB1 wB2 cA cB ptA ptB, CryptoOk C ->
  wf_device wA -> wf_device wB -> wf_bundle bA -> wf_bundle bB -> published C wA bA ia sa oa -> published C wB bB ib sb ob ->
  64 <= List.length rA -> 64 <= List.length rB -> 32 <= List.length dA -> 32 <= List.length dB ->
  let eA := mont_pub C (firstn 32 rA) in let eB := mont_pub C (firstn 32 rB) in
  unused_base wA aB eB -> unused_base wB aA eA -> eA <> eB ->
  NoDup [mont_pub C sb; mont_pub C (firstn 32 (skipn 32 rA)); mont_pub C (firstn 32 dB)] ->
  NoDup [mont_pub C sa; mont_pub C (firstn 32 (skipn 32 rB)); mont_pub C (firstn 32 dA)] ->
  run (process_bundle C aB rA bB) fs1 wA = (Ok tt, wA1) -> run (encrypt_message C aB ptA) fs2 wA1 = (Ok cA, wA2) ->
  run (process_bundle C aA rB bA) fs3 wB = (Ok tt, wB1) -> run (encrypt_message C aA ptB) fs4 wB1 = (Ok cB, wB2) ->
  w_policy wA aB (Some (mont_pub C ib)) (mont_pub C ib) Receiving = true ->
  w_policy wB aA (Some (mont_pub C ia)) (mont_pub C ia) Receiving = true ->
  exists wA3 wB3 r1 s1 s1' r2 s2 s2',
    run0 (decrypt_message C aB dA cB) wA2 = (Ok ptB, wA3) /\ run0 (decrypt_message C aA dB cA) wB2 = (Ok ptA, wB3) /\
    w_sess wA3 aB = Some r1 /\ rc_current r1 = Some s1 /\ ss_alice_base s1 = Byte.x05 :: eB /\ state_in s1' r1 /\ ss_alice_base s1' = Byte.x05 :: eA /\
    w_sess wB3 aA = Some r2 /\ rc_current r2 = Some s2 /\ ss_alice_base s2 = Byte.x05 :: eA /\ state_in s2' r2 /\ ss_alice_base s2' = Byte.x05 :: eB.
Proof. exact crossed. Qed.
Print Assumptions c58_crossing.
Example c58_case : forall sh, exists bA bB wA1 wA2 wB1 wB2 cA cB,
  crossing (conv_at false) (conv_at true) (plain_device Byte.x31 Byte.x32 sh) (plain_device Byte.x33 Byte.x34 sh) bA bB
    (b32 Byte.x31) (b32 Byte.x33) (b32 Byte.x32) (b32 Byte.x34)
    (b32 Byte.x41 ++ b32 Byte.x42) (b32 Byte.x51 ++ b32 Byte.x52) (b32 Byte.x61) (b32 Byte.x62) wA1 wA2 wB1 wB2 cA cB (str "hello") (str "hi").
Proof. exact crossing_case. Qed.

(** * C59  no session is lost *)
(** Whatever a call does to the stored record of any address, the sessions in it are still
    there, further on at most. The one exception is the oldest of 40 archived sessions when a
    session is set up. The current session is never lost. *)
Theorem c59_no_session_lost : forall C c w, CryptoOk C -> wf_device w -> wf_call c -> let '@Thread A p := start C c in
  forall w' a r, (exists fs x, run p fs w = (Ok x, w')) \/ (w_shared w = false /\ leaves p w w') ->
  w_sess w a = Some r -> exists r', w_sess w' a = Some r' /\ sessions_kept c r r'.
Proof. exact session_kept. Qed.
Print Assumptions c59_no_session_lost.
(** A device with a session of its own reads the message of a crossing session. *)
Example c59_case : forall sh : bool, exists w a rnd c x w' r s, wf_device w /\ 32 <= List.length rnd /\
  w_shared w = sh /\ w_sess w a = Some r /\ rc_current r = Some s /\ run0 (decrypt_message toy a rnd c) w = (Ok x, w').
Proof. exact crossing_keeps. Qed.

(** * C60  messages show the length class of the plaintext only *)
(** The exact size of what EncryptMessage returns, and parsing gives the message back. *)
Theorem c60_size : forall C a pt fs w c w', CryptoOk C -> wf_device w -> (size pt < 2 ^ 62)%N -> run (encrypt_message C a pt) fs w = (Ok c, w') ->
  exists m, inner c = Some m /\ size (sg_raw m) = whisper_size (sg_counter m) (sg_prev m) (size pt) /\
    parse_signal (sg_raw m) = Ok m /\
    match c with
    | CPreKey pm => size (pm_raw pm) = prekey_size (pm_prekey_id pm) (pm_reg pm) (pm_signed_id pm) (size (sg_raw m)) /\ parse_prekey_msg (pm_raw pm) = Ok pm
    | _ => True
    end.
Proof. exact sent_size. Qed.
Print Assumptions c60_size.
(** Two plaintexts with the same number of whole 16-byte blocks, sent from the same device:
    everything but the body and the MAC is the same. *)
Theorem c60_looks_same : forall C a pt1 pt2 fs1 fs2 w c1 c2 w1 w2, CryptoOk C -> wf_device w -> (size pt1 < 2 ^ 62)%N ->
  run (encrypt_message C a pt1) fs1 w = (Ok c1, w1) -> run (encrypt_message C a pt2) fs2 w = (Ok c2, w2) ->
  (size pt1 / 16 = size pt2 / 16)%N -> looks_same c1 c2.
Proof. exact sent_looks. Qed.
Print Assumptions c60_looks_same.
(** The same for group messages. *)
Theorem c60_group_size : forall C a d rnd pt fs w m w', CryptoOk C -> wf_device w -> List.length d = 16 -> (size pt < 2 ^ 62)%N -> run (gencrypt C a d rnd pt) fs w = (Ok m, w') ->
  size (sm_raw m) = group_size (sm_chain m) (sm_iter m) (size pt) /\ parse_senderkey (sm_raw m) = Ok m.
Proof. exact gsent_size. Qed.
Print Assumptions c60_group_size.
Theorem c60_group_looks_same : forall C a d rnd1 rnd2 pt1 pt2 fs1 fs2 w m1 m2 w1 w2, CryptoOk C -> wf_device w -> List.length d = 16 -> (size pt1 < 2 ^ 62)%N ->
  run (gencrypt C a d rnd1 pt1) fs1 w = (Ok m1, w1) -> run (gencrypt C a d rnd2 pt2) fs2 w = (Ok m2, w2) ->
  (size pt1 / 16 = size pt2 / 16)%N -> looks_same_group m1 m2.
Proof. exact gsent_looks. Qed.
Print Assumptions c60_group_looks_same.
(** "hello" at counter 0 of a first session: 66 bytes. *)
Example c60_number : whisper_size 0 0 5 = 66%N /\ whisper_size 0 0 15 = 66%N /\ whisper_size 0 0 16 = 82%N /\ whisper_size 128 0 5 = 67%N.
Proof. repeat split. Qed.
Example c60_case : forall sh : bool, exists w a c1 c2 w1 w2, wf_device w /\ run0 (encrypt_message toy a (str "hello")) w = (Ok c1, w1) /\
  run0 (encrypt_message toy a (str "bye")) w = (Ok c2, w2) /\ looks_same c1 c2 /\ exists m, inner c1 = Some m /\ size (sg_raw m) = whisper_size (sg_counter m) (sg_prev m) 5.
Proof. exact sized_case. Qed.

(** * C27  in bytes *)
(** A stored session state takes at most 1,128,907 bytes, a record at most 41 of them. *)
Theorem c27_session_bytes : forall C ts w a r, CryptoOk C -> reachable C (ts, w) -> w_sess w a = Some r ->
  (forall s, rc_current r = Some s -> size (state_bytes s) <= 1128907)%N /\
  List.length (rc_previous r) <= 40 /\ forall b, In b (rc_previous r) -> (size b <= 1128907)%N.
Proof. exact session_bytes. Qed.
Print Assumptions c27_session_bytes.
Example c27_bytes_case : exists w r, reachable toy ([], w) /\ w_sess w gx_addr = Some r /\ rc_current r <> None.
Proof. exact gx_reach_session. Qed.
