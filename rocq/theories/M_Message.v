(** protocol/message *)
From Verif Require Import M_Base M_Crypto M_Curve M_Proto M_Uuid.

(** message/signal.go:53, prekey.go:55, senderkey.go:51,174:
    ((version & 0xF) << 4) | 3 as a byte. *)
Definition version_prefix (v : N) : byte := n2b (N.land v 15 * 16 + 3).
(** bytes[0] >> 4 *)
Definition version_nibble (b : byte) : N := (b2n b / 16)%N.

(** message/mac.go:18-30 mac. *)
Definition mac (C : Crypto) (key : bytes) (sender receiver : pubkey) (msg : bytes) : res bytes :=
  if negb (Nat.eqb (List.length key) 32) then Err (EInvalidKeyLength 32 (List.length key))
  else Ok (firstn 8 (c_hmac C key (pub_bytes sender ++ pub_bytes receiver ++ msg))).

(** message/signal.go:21-28 Signal. *)
Record signal := mkSignal {
  sg_version : N;
  sg_ratchet : pubkey;
  sg_prev : N;
  sg_counter : N;
  sg_body : bytes;
  sg_raw : bytes
}.

(** The protobuf fields of SignalMessage (proto/v1/wire.proto), in field-number order.
    A nil ciphertext slice would be omitted; the callers never pass one. *)
Definition signal_fields (ratchet : pubkey) (counter prev : N) (body : bytes) : list field :=
  [(1%N, WLen (pub_bytes ratchet)); (2%N, WVarint counter); (3%N, WVarint prev); (4%N, WLen body)].

(** message/signal.go:42-73 NewSignal. *)
Definition new_signal (C : Crypto) (version : N) (mackey : bytes) (ratchet : pubkey)
    (prev counter : N) (body : bytes) (sender receiver : pubkey) : res signal :=
  let ser := version_prefix version :: enc_fields (signal_fields ratchet counter prev body) in
  do m <- mac C mackey sender receiver ser;
  Ok (mkSignal version ratchet prev counter body (ser ++ m)).

(** message/signal.go:75-104 NewSignalFromBytes. bytes[1:len(bytes)-8] panics when
    len(bytes)-8 < 1. *)
Definition parse_signal (b : bytes) : res signal :=
  match b with
  | [] => Err (EOther "message too short")
  | v :: _ =>
      if negb (N.eqb (version_nibble v) 3) then Err (EOther "unsupported message version")
      else if Nat.ltb (List.length b - 8) 1 then Panic
      else
        match dec_fields (firstn (List.length b - 8 - 1) (skipn 1 b)) with
        | None => Err (EOther "proto")
        | Some fs =>
            do k <- new_public_key (ornil (get_bytes 1 fs));
            Ok (mkSignal (version_nibble v) k (or0 (get_u32 3 fs)) (or0 (get_u32 2 fs))
                         (ornil (get_bytes 4 fs)) b)
        end
  end.

(** message/signal.go:134-146 VerifyMAC. The slices panic if the raw message is
    shorter than a MAC (only possible for a zero-value Signal). *)
Definition verify_mac (C : Crypto) (m : signal) (key : bytes) (sender receiver : pubkey) : res bool :=
  let n := List.length (sg_raw m) in
  if Nat.ltb n 8 then Panic else
  do ours <- mac C key sender receiver (firstn (n - 8) (sg_raw m));
  Ok (bytes_eqb ours (skipn (n - 8) (sg_raw m))).

(** message/prekey.go:20-29 PreKey. *)
Record prekeymsg := mkPreKeyMsg {
  pm_version : N;
  pm_reg : N;
  pm_prekey_id : option N;
  pm_signed_id : N;
  pm_base : pubkey;
  pm_identity : pubkey;
  pm_message : signal;
  pm_raw : bytes
}.

(** Fields of PreKeySignalMessage (proto/v1/wire.proto) in field-number order. *)
Definition prekey_fields (reg : N) (pkid : option N) (spkid : N) (base identity : pubkey)
    (inner : bytes) : list field :=
  (match pkid with Some i => [(1%N, WVarint i)] | None => [] end) ++
  [(2%N, WLen (pub_bytes base)); (3%N, WLen (pub_bytes identity)); (4%N, WLen inner);
   (5%N, WVarint reg); (6%N, WVarint spkid)].

(** message/prekey.go:42-71 NewPreKey. *)
Definition new_prekey_msg (version reg : N) (pkid : option N) (spkid : N) (base identity : pubkey)
    (inner : signal) : prekeymsg :=
  mkPreKeyMsg version reg pkid spkid base identity inner
    (version_prefix version :: enc_fields (prekey_fields reg pkid spkid base identity (sg_raw inner))).

(** message/prekey.go:73-117 NewPreKeyFromBytes. *)
Definition parse_prekey_msg (b : bytes) : res prekeymsg :=
  match b with
  | [] => Err (EOther "message too short")
  | v :: r =>
      if negb (N.eqb (version_nibble v) 3) then Err (EOther "unsupported message version")
      else
        match dec_fields r with
        | None => Err (EOther "proto")
        | Some fs =>
            do base <- new_public_key (ornil (get_bytes 2 fs));
            do ident <- new_public_key (ornil (get_bytes 3 fs));
            do msg <- parse_signal (ornil (get_bytes 4 fs));
            Ok (mkPreKeyMsg (version_nibble v) (or0 (get_u32 5 fs)) (get_u32 1 fs)
                            (or0 (get_u32 6 fs)) base ident msg b)
        end
  end.

(** message/senderkey.go:21-28 SenderKey. *)
Record senderkeymsg := mkSenderKeyMsg {
  sm_version : N;
  sm_dist : distid;
  sm_chain : N;
  sm_iter : N;
  sm_body : bytes;
  sm_raw : bytes
}.

Definition senderkey_fields (d : distid) (chain iter : N) (body : bytes) : list field :=
  [(1%N, WLen (uuid_string d)); (2%N, WVarint chain); (3%N, WVarint iter); (4%N, WLen body)].

(** message/senderkey.go:40-71 NewSenderKey (the version field is always 3). *)
Definition new_senderkey (C : Crypto) (rnd : bytes) (version : N) (d : distid) (chain iter : N)
    (body : bytes) (key : privkey) : res senderkeymsg * bytes :=
  let ser := version_prefix version :: enc_fields (senderkey_fields d chain iter body) in
  match sign C key rnd [ser] with
  | (Ok sg, r) => (Ok (mkSenderKeyMsg 3 d chain iter body (ser ++ sg)), r)
  | (Err e, r) => (Err e, r)
  | (Panic, r) => (Panic, r)
  end.

(** message/senderkey.go:73-102 NewSenderKeyFromBytes. *)
Definition parse_senderkey (b : bytes) : res senderkeymsg :=
  if Nat.ltb (List.length b) 65 then Err (EOther "message too short")
  else match b with
  | [] => Panic
  | v :: r =>
      if negb (N.eqb (version_nibble v) 3) then Err (EOther "unsupported message version")
      else
        match dec_fields (firstn (List.length b - 64 - 1) r) with
        | None => Err (EOther "proto")
        | Some fs =>
            do d <- dist_parse (ornil (get_bytes 1 fs));
            Ok (mkSenderKeyMsg (version_nibble v) d (or0 (get_u32 2 fs)) (or0 (get_u32 3 fs))
                               (ornil (get_bytes 4 fs)) b)
        end
  end.

(** message/senderkey.go:134-137 VerifySignature. *)
Definition verify_senderkey (C : Crypto) (m : senderkeymsg) (key : pubkey) : res bool :=
  let n := List.length (sm_raw m) in
  if Nat.ltb n 64 then Panic
  else verify_signature C key (skipn (n - 64) (sm_raw m)) [firstn (n - 64) (sm_raw m)].

(** message/senderkey.go:141-149 SenderKeyDistribution. *)
Record distmsg := mkDistMsg {
  dm_version : N;
  dm_dist : distid;
  dm_chain : N;
  dm_iter : N;
  dm_chainkey : bytes;
  dm_signing : pubkey;
  dm_raw : bytes
}.

Definition dist_fields (d : distid) (chain iter : N) (ck : bytes) (signing : pubkey) : list field :=
  [(1%N, WLen (uuid_string d)); (2%N, WVarint chain); (3%N, WVarint iter); (4%N, WLen ck);
   (5%N, WLen (pub_bytes signing))].

(** message/senderkey.go:162-189 NewSenderKeyDistribution. *)
Definition new_dist (version : N) (d : distid) (chain iter : N) (ck : bytes) (signing : pubkey) : distmsg :=
  mkDistMsg version d chain iter ck signing
    (version_prefix version :: enc_fields (dist_fields d chain iter ck signing)).

(** message/senderkey.go:191-232 NewSenderKeyDistributionFromBytes. *)
Definition parse_dist (b : bytes) : res distmsg :=
  if Nat.ltb (List.length b) 65 then Err (EOther "message too short")
  else match b with
  | [] => Panic
  | v :: r =>
      if negb (N.eqb (version_nibble v) 3) then Err (EOther "unsupported message version")
      else
        match dec_fields r with
        | None => Err (EOther "proto")
        | Some fs =>
            do d <- dist_parse (ornil (get_bytes 1 fs));
            let ck := ornil (get_bytes 4 fs) in
            if negb (Nat.eqb (List.length ck) 32) then Err (EInvalidKeyLength 32 (List.length ck))
            else
              do k <- new_public_key (ornil (get_bytes 5 fs));
              Ok (mkDistMsg (version_nibble v) d (or0 (get_u32 2 fs)) (or0 (get_u32 3 fs)) ck k b)
        end
  end.

(** message/plaintext.go:22-34 NewPlaintextFromBytes, :44-46 Message. The value is the
    serialized form. *)
Definition parse_plaintext (b : bytes) : res bytes :=
  match b with
  | [] => Err (EOther "message too short")
  | x :: _ => if Byte.eqb x Byte.xc0 then Ok b else Err (EOther "unsupported message version")
  end.
Definition plaintext_message (ser : bytes) : res bytes :=
  match ser with [] => Panic | _ :: r => Ok r end.

(** message/ciphertext.go:24-29 Ciphertext: the four implementations. *)
Inductive ciphertext :=
| CSignal (m : signal)
| CPreKey (m : prekeymsg)
| CSenderKey (m : senderkeymsg)
| CPlaintext (ser : bytes).

Definition ct_type (c : ciphertext) : N :=
  match c with CSignal _ => 2 | CPreKey _ => 3 | CSenderKey _ => 7 | CPlaintext _ => 8 end.
Definition ct_bytes (c : ciphertext) : bytes :=
  match c with
  | CSignal m => sg_raw m | CPreKey m => pm_raw m | CSenderKey m => sm_raw m | CPlaintext s => s
  end.
