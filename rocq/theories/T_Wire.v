(** Property theorems: wire messages (C01-C06, C52, C54) and stored states (C07). *)
From Verif Require Import M_Base M_Crypto M_Curve M_Proto M_Uuid M_Message M_Ratchet M_State M_Store M_Session
  S_Crypto S_Message S_Uuid S_State S_Wire S_Shape K_Toy
  P_Base P_Proto P_Curve P_Uuid P_Message P_Wire P_State P_Shape P_WireTop P_Mac.
Local Open Scope N_scope.

(** C01. A built whisper message has exactly the documented text, parses back to the same
    message, and its MAC verifies for the same key and parties. *)
Theorem c01_signal_roundtrip : forall C mackey ratchet prev counter body s r,
  CryptoOk C -> List.length mackey = 32%nat -> List.length ratchet = 32%nat ->
  go_u32 prev -> go_u32 counter -> go_slice body ->
  exists m b, new_signal C 3 mackey ratchet prev counter body s r = Ok m /\
    sg_raw m = (Byte.x33 :: b) ++
      firstn 8 (c_hmac C mackey ((Byte.x05 :: s) ++ (Byte.x05 :: r) ++ Byte.x33 :: b)) /\
    wire b [(1, WLen (Byte.x05 :: ratchet)); (2, WVarint counter); (3, WVarint prev); (4, WLen body)] /\
    m = mkSignal 3 ratchet prev counter body (sg_raw m) /\
    parse_signal (sg_raw m) = Ok m /\
    verify_mac C m mackey s r = Ok true.
Proof. exact signal_wire. Qed.
Print Assumptions c01_signal_roundtrip.
Example c01_case : CryptoOk toy /\ List.length (repeat Byte.x01 32) = 32%nat /\
  go_u32 4294967295 /\ go_slice (str "hello").
Proof. split; [apply toy_ok|]. repeat split. Qed.

(** It verifies for exactly the keys and parties under which the code is the message's own. *)
Theorem c01_mac_exact : forall C raw m key s r, parse_signal raw = Ok m ->
  exists text tag, raw = text ++ tag /\ List.length tag = 8%nat /\
    (verify_mac C m key s r = Ok true <->
       (List.length key = 32%nat /\ tag = firstn 8 (c_hmac C key ((Byte.x05 :: s) ++ (Byte.x05 :: r) ++ text)))) /\
    (List.length key <> 32%nat -> exists e, verify_mac C m key s r = Err e) /\
    verify_mac C m key s r <> Panic.
Proof. exact mac_exact. Qed.
Print Assumptions c01_mac_exact.
Example c01_mac_case : exists raw m, parse_signal raw = Ok m.
Proof. destruct some_signal as (m & _ & E). exists (sg_raw m), m. exact E. Qed.

(** C02. *)
Theorem c02_prekey_roundtrip : forall reg pkid spkid base identity inner,
  List.length base = 32%nat -> List.length identity = 32%nat ->
  go_u32 reg -> go_u32 spkid -> (forall i, pkid = Some i -> go_u32 i) ->
  go_slice (sg_raw inner) -> parse_signal (sg_raw inner) = Ok inner ->
  exists b, let m := new_prekey_msg 3 reg pkid spkid base identity inner in
    pm_raw m = Byte.x33 :: b /\
    wire b ((match pkid with Some i => [(1, WVarint i)] | None => [] end) ++
      [(2, WLen (Byte.x05 :: base)); (3, WLen (Byte.x05 :: identity)); (4, WLen (sg_raw inner));
       (5, WVarint reg); (6, WVarint spkid)]) /\
    m = mkPreKeyMsg 3 reg pkid spkid base identity inner (pm_raw m) /\
    parse_prekey_msg (pm_raw m) = Ok m.
Proof. exact prekey_wire. Qed.
Print Assumptions c02_prekey_roundtrip.
Example c02_case : exists inner, go_slice (sg_raw inner) /\ parse_signal (sg_raw inner) = Ok inner.
Proof. exact some_signal. Qed.

(** C03. A built group message parses back and its signature verifies. *)
Theorem c03_senderkey_roundtrip : forall C kb key rnd d chain iter body,
  CryptoOk C -> new_private_key C kb = Ok key -> (64 <= List.length rnd)%nat ->
  List.length d = 16%nat -> go_u32 chain -> go_u32 iter -> go_slice body ->
  exists m rest b sig, new_senderkey C rnd 3 d chain iter body key = (Ok m, rest) /\
    sm_raw m = (Byte.x33 :: b) ++ sig /\ List.length sig = 64%nat /\
    wire b [(1, WLen (canonical d)); (2, WVarint chain); (3, WVarint iter); (4, WLen body)] /\
    m = mkSenderKeyMsg 3 d chain iter body (sm_raw m) /\
    parse_senderkey (sm_raw m) = Ok m /\
    verify_signature C (sk_pub key) sig [Byte.x33 :: b] = Ok true /\
    verify_senderkey C m (sk_pub key) = Ok true.
Proof. exact senderkey_wire. Qed.
Print Assumptions c03_senderkey_roundtrip.
Example c03_case : exists key, new_private_key toy (repeat Byte.x07 32) = Ok key.
Proof. eexists. reflexivity. Qed.

(** C04. *)
Theorem c04_distribution_roundtrip : forall d chain iter ck signing,
  List.length d = 16%nat -> go_u32 chain -> go_u32 iter ->
  List.length ck = 32%nat -> List.length signing = 32%nat ->
  exists b, let m := new_dist 3 d chain iter ck signing in
    dm_raw m = Byte.x33 :: b /\
    wire b [(1, WLen (canonical d)); (2, WVarint chain); (3, WVarint iter); (4, WLen ck);
            (5, WLen (Byte.x05 :: signing))] /\
    m = mkDistMsg 3 d chain iter ck signing (dm_raw m) /\
    parse_dist (dm_raw m) = Ok m.
Proof. exact dist_wire. Qed.
Print Assumptions c04_distribution_roundtrip.
Example c04_case : List.length (repeat Byte.x0d 16) = 16%nat /\ go_u32 0 /\ go_u32 4294967295 /\
  List.length (repeat Byte.xff 32) = 32%nat.
Proof. repeat split. Qed.

(** C05. Some byte strings crash the whisper-message parser ... *)
Theorem c05_parsers_refuted : exists b b', parse_signal b = Panic /\ parse_prekey_msg b' = Panic.
Proof. exact parsers_crash. Qed.
Print Assumptions c05_parsers_refuted.
(** ... exactly these, and the other parsers never crash. *)
Theorem c05_parsers_exact :
  (forall b, parse_signal b = Panic <-> (version_of b 3 /\ (List.length b <= 8)%nat)) /\
  (forall b, parse_prekey_msg b = Panic <->
     exists v body fs base ident, b = v :: body /\ b2n v / 16 = 3 /\ wire body fs /\
       key_text (the_bytes 2 fs) base /\ key_text (the_bytes 3 fs) ident /\
       version_of (the_bytes 4 fs) 3 /\ (List.length (the_bytes 4 fs) <= 8)%nat) /\
  (forall b, parse_senderkey b <> Panic) /\ (forall b, parse_dist b <> Panic) /\
  (forall b, parse_plaintext b <> Panic) /\ (forall b, state_parse b <> Panic) /\
  (forall b, dist_parse b <> Panic) /\ (forall b, new_public_key b <> Panic).
Proof. exact parsers_exact. Qed.
Print Assumptions c05_parsers_exact.
Example c05_case : version_of [Byte.x33; Byte.x01] 3 /\ (List.length [Byte.x33; Byte.x01] <= 8)%nat /\
  exists b m, parse_signal b = Ok m.
Proof.
  split; [eexists _, _; split; reflexivity|]. split; [repeat constructor|].
  destruct some_signal as (m & _ & E). exists (sg_raw m), m. exact E.
Qed.

(** C06. Each parser accepts exactly the texts of the grammar. *)
Theorem c06_parsers_accept :
  (forall b m, parse_signal b = Ok m <-> signal_text b m) /\
  (forall b m, parse_prekey_msg b = Ok m <-> prekey_text b m) /\
  (forall b m, parse_senderkey b = Ok m <-> senderkey_text b m) /\
  (forall b m, parse_dist b = Ok m <-> dist_text b m) /\
  (forall b k, new_public_key b = Ok k <-> key_text b k).
Proof. exact parsers_accept. Qed.
Print Assumptions c06_parsers_accept.
Example c06_case : exists b m, signal_text b m.
Proof. destruct some_signal as (m & _ & E). exists (sg_raw m), m. apply parse_signal_iff. exact E. Qed.

(** C07. Archiving a state and reading it back is the identity. *)
Theorem c07_state_roundtrip : forall s, go_state s -> go_slice (state_bytes s) ->
  state_parse (state_bytes s) = Ok s.
Proof. exact state_roundtrip. Qed.
Print Assumptions c07_state_roundtrip.
(** Every state of the shape that sessions have (C27) is small enough. *)
Theorem c07_wf_state_roundtrip : forall s, wf_state s -> state_parse (state_bytes s) = Ok s.
Proof. exact wf_roundtrip. Qed.
Print Assumptions c07_wf_state_roundtrip.
Example c07_case : wf_state some_state.
Proof. exact some_state_wf. Qed.

(** C52. *)
Theorem c52_uuid_text : 
  (forall u, List.length u = 16%nat -> uuid_string u = canonical u /\ List.length (uuid_string u) = 36%nat /\
     dist_parse (uuid_string u) = Ok u) /\
  (forall u v, List.length u = 16%nat -> List.length v = 16%nat -> uuid_string u = uuid_string v -> u = v) /\
  (forall b u, dist_parse b = Ok u <-> denotes b u) /\
  (forall b, dist_parse b <> Panic).
Proof. exact uuid_text. Qed.
Print Assumptions c52_uuid_text.
Example c52_case : dist_parse (str "d1d1d1d1-7000-11EB-b32a-33b8a8a487a6") =
  Ok (map n2b [209;209;209;209;112;0;17;235;179;42;51;184;168;164;135;166]).
Proof. reflexivity. Qed.

(** C54. *)
Theorem c54_unexpected_types : forall C a rnd fs w,
  (forall m, run (decrypt_message C a rnd (CSenderKey m)) fs w =
     (Err (EOther "DecryptMessage cannot be used to decrypt this message type"), w)) /\
  (forall p, run (decrypt_message C a rnd (CPlaintext p)) fs w =
     (Err (EOther "DecryptMessage cannot be used to decrypt this message type"), w)) /\
  (forall b x, parse_plaintext b = Ok x <-> (x = b /\ exists r, b = Byte.xc0 :: r)) /\
  (forall b, parse_plaintext b <> Panic).
Proof. exact unexpected_types. Qed.
Print Assumptions c54_unexpected_types.
Example c54_case : exists b x, parse_plaintext b = Ok x /\ List.length x = 3%nat.
Proof. exists [Byte.xc0; Byte.x41; Byte.x80], [Byte.xc0; Byte.x41; Byte.x80]. split; reflexivity. Qed.
