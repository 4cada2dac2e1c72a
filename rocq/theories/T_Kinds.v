(** C99: the kinds of message are not confused on the wire. *)
From Verif Require Import M_Base M_Crypto M_Curve M_Proto M_Uuid M_Message.
From Verif Require Import S_Crypto S_Message S_Uuid S_Wire S_Kinds K_Toy P_Kinds K_Kinds.
Local Open Scope N_scope.

(** A whisper message is refused by the parsers of the other four kinds ... *)
Theorem c99_signal : forall C mackey ratchet prev counter body s r m,
  CryptoOk C -> List.length ratchet = 32%nat -> go_u32 prev -> go_u32 counter -> go_slice body ->
  new_signal C 3 mackey ratchet prev counter body s r = Ok m ->
  refused (parse_prekey_msg (sg_raw m)) /\ refused (parse_senderkey (sg_raw m)) /\
  refused (parse_dist (sg_raw m)) /\ refused (parse_plaintext (sg_raw m)).
Proof. exact kinds_signal. Qed.
Print Assumptions c99_signal.
Example c99_signal_case : exists m,
  new_signal toy 3 (fill 32) (fill 32) 0 4294967295 (str "hello") (fill 32) (fill 32) = Ok m /\
  go_u32 4294967295 /\ go_slice (str "hello").
Proof. eexists. split; [reflexivity|]. repeat split. Qed.

(** ... so is a pre-key message ... *)
Theorem c99_prekey : forall reg pkid spkid base identity inner,
  List.length base = 32%nat -> List.length identity = 32%nat ->
  go_u32 reg -> go_u32 spkid -> (forall i, pkid = Some i -> go_u32 i) -> go_slice (sg_raw inner) ->
  let raw := pm_raw (new_prekey_msg 3 reg pkid spkid base identity inner) in
  refused (parse_signal raw) /\ refused (parse_senderkey raw) /\ refused (parse_dist raw) /\
  refused (parse_plaintext raw).
Proof. exact kinds_prekey. Qed.
Print Assumptions c99_prekey.
Example c99_prekey_case : List.length (fill 32) = 32%nat /\ go_u32 7 /\ go_slice (fill 60).
Proof. repeat split. Qed.

(** ... a sender-key distribution message ... *)
Theorem c99_distribution : forall d chain iter ck signing,
  List.length d = 16%nat -> go_u32 chain -> go_u32 iter ->
  List.length ck = 32%nat -> List.length signing = 32%nat ->
  let raw := dm_raw (new_dist 3 d chain iter ck signing) in
  refused (parse_signal raw) /\ refused (parse_prekey_msg raw) /\ refused (parse_senderkey raw) /\
  refused (parse_plaintext raw).
Proof. exact dist_kind. Qed.
Print Assumptions c99_distribution.
Example c99_distribution_case : List.length (fill 16) = 16%nat /\ go_u32 0 /\ List.length (fill 32) = 32%nat.
Proof. repeat split. Qed.

(** ... and everything the plaintext parser accepts. *)
Theorem c99_plaintext : forall b x, parse_plaintext b = Ok x ->
  refused (parse_signal b) /\ refused (parse_prekey_msg b) /\ refused (parse_senderkey b) /\
  refused (parse_dist b).
Proof. exact plaintext_kind. Qed.
Print Assumptions c99_plaintext.
Example c99_plaintext_case : exists x, parse_plaintext (Byte.xc0 :: str "hello") = Ok x.
Proof. eexists. reflexivity. Qed.

(** A group message is always refused as a pre-key message and as plaintext. The parser of
    whisper messages takes it only if the first 56 bytes of its signature are fields one of
    which holds a public key under number 1; the parser of distribution messages only if the
    signature is fields with a public key under number 5. *)
Theorem c99_senderkey : forall C rnd d chain iter body key k m rest,
  CryptoOk C -> List.length d = 16%nat -> go_u32 chain -> go_u32 iter -> go_slice body ->
  new_private_key C key = Ok k ->
  new_senderkey C rnd 3 d chain iter body k = (Ok m, rest) ->
  let raw := sm_raw m in
  let sig := skipn (List.length raw - 64) raw in
  refused (parse_prekey_msg raw) /\ refused (parse_plaintext raw) /\
  (refused (parse_signal raw) \/ exists hs k, wire (firstn 56 sig) hs /\ key_text (the_bytes 1 hs) k) /\
  (refused (parse_dist raw) \/ exists hs k, wire sig hs /\ key_text (the_bytes 5 hs) k).
Proof. exact kinds_senderkey. Qed.
Print Assumptions c99_senderkey.
Example c99_senderkey_case : exists k m rest, new_private_key toy (fill 32) = Ok k /\
  new_senderkey toy (fill 64) 3 (fill 16) 7 0 (fill 16) k = (Ok m, rest).
Proof. eexists _, _, _. split; reflexivity. Qed.

(** The exception is there: some texts read as two kinds. *)
Theorem c99_overlap : exists b b' m n m' n',
  parse_senderkey b = Ok m /\ parse_signal b = Ok n /\
  parse_senderkey b' = Ok m' /\ parse_dist b' = Ok n'.
Proof. exact overlap. Qed.
Print Assumptions c99_overlap.
