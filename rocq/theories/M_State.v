(** protocol/session/state.go, protocol/session/record.go and the storage protobuf
    SessionStructure (proto/v1/storage.proto). *)
From Verif Require Import M_Base M_Crypto M_Curve M_Proto M_Ratchet.

(** SessionStructure.Chain.ChainKey *)
Record pchainkey := mkPChainKey { pck_index : N; pck_key : bytes }.
(** SessionStructure.Chain.MessageKey *)
Record pmsgkey := mkPMsgKey { pmk_index : N; pmk_cipher : bytes; pmk_mac : bytes; pmk_iv : bytes }.
(** SessionStructure.Chain *)
Record pchain := mkPChain {
  pc_ratchet : bytes;
  pc_ratchet_priv : bytes;
  pc_key : option pchainkey;
  pc_msgkeys : list pmsgkey
}.
(** SessionStructure.PendingPreKey *)
Record ppending := mkPPending { pp_prekey : N; pp_base : bytes; pp_signed : Z }.
(** SessionStructure; state.go:31-33 State holds one. Unknown fields are not kept. *)
Record state := mkState {
  ss_version : N;
  ss_local : bytes;
  ss_remote : bytes;
  ss_root : bytes;
  ss_prevctr : N;
  ss_sender : option pchain;
  ss_receivers : list pchain;
  ss_pending : option ppending;
  ss_remote_reg : N;
  ss_local_reg : N;
  ss_alice_base : bytes
}.

(** ** Marshalling (proto.Marshal, state.go:359-362 Bytes) *)
Definition pchainkey_fields (k : pchainkey) : list field :=
  p3_u32 1 (pck_index k) ++ p3_bytes 2 (pck_key k).
Definition pmsgkey_fields (k : pmsgkey) : list field :=
  p3_u32 1 (pmk_index k) ++ p3_bytes 2 (pmk_cipher k) ++ p3_bytes 3 (pmk_mac k) ++ p3_bytes 4 (pmk_iv k).
Definition pchain_fields (c : pchain) : list field :=
  p3_bytes 1 (pc_ratchet c) ++ p3_bytes 2 (pc_ratchet_priv c)
  ++ p_sub 3 (option_map pchainkey_fields (pc_key c))
  ++ p_subs 4 (map pmsgkey_fields (pc_msgkeys c)).
Definition ppending_fields (p : ppending) : list field :=
  p3_u32 1 (pp_prekey p) ++ p3_bytes 2 (pp_base p) ++ p3_int32 3 (pp_signed p).
Definition state_fields (s : state) : list field :=
  p3_u32 1 (ss_version s) ++ p3_bytes 2 (ss_local s) ++ p3_bytes 3 (ss_remote s)
  ++ p3_bytes 4 (ss_root s) ++ p3_u32 5 (ss_prevctr s)
  ++ p_sub 6 (option_map pchain_fields (ss_sender s))
  ++ p_subs 7 (map pchain_fields (ss_receivers s))
  ++ p_sub 9 (option_map ppending_fields (ss_pending s))
  ++ p3_u32 10 (ss_remote_reg s) ++ p3_u32 11 (ss_local_reg s) ++ p3_bytes 13 (ss_alice_base s).
Definition state_bytes (s : state) : bytes := enc_fields (state_fields s).

(** ** Unmarshalling (proto.Unmarshal) *)
Fixpoint map_opt {A B} (f : A -> option B) (l : list A) : option (list B) :=
  match l with
  | [] => Some []
  | x :: r => match f x, map_opt f r with
              | Some y, Some s => Some (y :: s)
              | _, _ => None
              end
  end.
(** A singular sub-message read by [f]; decode errors propagate. *)
Definition sub_opt {A} (f : list field -> option A) (o : option (list field)) : option (option A) :=
  match o with
  | None => Some None
  | Some fs => match f fs with Some a => Some (Some a) | None => None end
  end.

Definition pchainkey_of (fs : list field) : pchainkey :=
  mkPChainKey (or0 (get_u32 1 fs)) (ornil (get_bytes 2 fs)).
Definition pmsgkey_of (fs : list field) : pmsgkey :=
  mkPMsgKey (or0 (get_u32 1 fs)) (ornil (get_bytes 2 fs)) (ornil (get_bytes 3 fs)) (ornil (get_bytes 4 fs)).
Definition pchain_of (fs : list field) : option pchain :=
  match get_sub 3 fs, get_subs 4 fs with
  | Some ck, Some mks =>
      Some (mkPChain (ornil (get_bytes 1 fs)) (ornil (get_bytes 2 fs))
                     (option_map pchainkey_of ck) (map pmsgkey_of mks))
  | _, _ => None
  end.
Definition ppending_of (fs : list field) : ppending :=
  mkPPending (or0 (get_u32 1 fs)) (ornil (get_bytes 2 fs)) (varint_int32 (or0 (get_varint 3 fs))).
Definition state_of (fs : list field) : option state :=
  match get_sub 6 fs, get_subs 7 fs, get_sub 9 fs with
  | Some sc, Some rcs, Some pd =>
      match sub_opt pchain_of sc, map_opt pchain_of rcs with
      | Some sc', Some rcs' =>
          Some (mkState (or0 (get_u32 1 fs)) (ornil (get_bytes 2 fs)) (ornil (get_bytes 3 fs))
                        (ornil (get_bytes 4 fs)) (or0 (get_u32 5 fs)) sc' rcs'
                        (option_map ppending_of pd)
                        (or0 (get_u32 10 fs)) (or0 (get_u32 11 fs)) (ornil (get_bytes 13 fs)))
      | _, _ => None
      end
  | _, _, _ => None
  end.
Definition state_parse (b : bytes) : res state :=
  match dec_fields b with
  | Some fs => match state_of fs with Some s => Ok s | None => Err (EOther "proto") end
  | None => Err (EOther "proto")
  end.

(** ** State accessors and mutators (record-field update helpers first) *)
Definition with_root (s : state) (k : bytes) : state :=
  mkState (ss_version s) (ss_local s) (ss_remote s) k (ss_prevctr s) (ss_sender s)
          (ss_receivers s) (ss_pending s) (ss_remote_reg s) (ss_local_reg s) (ss_alice_base s).
Definition with_prevctr (s : state) (n : N) : state :=
  mkState (ss_version s) (ss_local s) (ss_remote s) (ss_root s) n (ss_sender s)
          (ss_receivers s) (ss_pending s) (ss_remote_reg s) (ss_local_reg s) (ss_alice_base s).
Definition with_sender (s : state) (c : option pchain) : state :=
  mkState (ss_version s) (ss_local s) (ss_remote s) (ss_root s) (ss_prevctr s) c
          (ss_receivers s) (ss_pending s) (ss_remote_reg s) (ss_local_reg s) (ss_alice_base s).
Definition with_receivers (s : state) (l : list pchain) : state :=
  mkState (ss_version s) (ss_local s) (ss_remote s) (ss_root s) (ss_prevctr s) (ss_sender s)
          l (ss_pending s) (ss_remote_reg s) (ss_local_reg s) (ss_alice_base s).
Definition with_pending (s : state) (p : option ppending) : state :=
  mkState (ss_version s) (ss_local s) (ss_remote s) (ss_root s) (ss_prevctr s) (ss_sender s)
          (ss_receivers s) p (ss_remote_reg s) (ss_local_reg s) (ss_alice_base s).
Definition with_regs (s : state) (remote localr : N) : state :=
  mkState (ss_version s) (ss_local s) (ss_remote s) (ss_root s) (ss_prevctr s) (ss_sender s)
          (ss_receivers s) (ss_pending s) remote localr (ss_alice_base s).
Definition with_alice_base (s : state) (k : bytes) : state :=
  mkState (ss_version s) (ss_local s) (ss_remote s) (ss_root s) (ss_prevctr s) (ss_sender s)
          (ss_receivers s) (ss_pending s) (ss_remote_reg s) (ss_local_reg s) k.
Definition with_chainkey (c : pchain) (k : pchainkey) : pchain :=
  mkPChain (pc_ratchet c) (pc_ratchet_priv c) (Some k) (pc_msgkeys c).
Definition with_msgkeys (c : pchain) (l : list pmsgkey) : pchain :=
  mkPChain (pc_ratchet c) (pc_ratchet_priv c) (pc_key c) l.

(** state.go:17-22 *)
Definition max_receiver_chains : nat := 5.
Definition max_archived_states : nat := 40.
Definition max_message_keys : nat := 2000.

(** state.go:54-61 Version. *)
Definition st_version (s : state) : N := if N.eqb (ss_version s) 0 then 2%N else ss_version s.

(** state.go:63-75 RemoteIdentityKey: no key when the field is empty. *)
Definition st_remote_identity (s : state) : res (option pubkey) :=
  match ss_remote s with
  | [] => Ok None
  | b => do k <- new_public_key b; Ok (Some k)
  end.

(** state.go:77-79 LocalIdentityKey. *)
Definition st_local_identity (s : state) : res pubkey := new_public_key (ss_local s).

(** state.go:81-96 SessionWithSelf. *)
Definition st_with_self (s : state) : res bool :=
  do r <- st_remote_identity s;
  match r with
  | Some remote => do l <- st_local_identity s; Ok (pub_equal remote l)
  | None => Ok false
  end.

(** state.go:110-112 RootKey. *)
Definition st_root (s : state) : res bytes := new_root_key (ss_root s).

(** state.go:114-126 SenderRatchetPrivateKey. *)
Definition st_sender_ratchet_priv (C : Crypto) (s : state) : res privkey :=
  match ss_sender s with
  | None => Err (EOther "missing sender chain")
  | Some c => new_private_key C (pc_ratchet_priv c)
  end.

(** state.go:128-140 SenderRatchetKey. *)
Definition st_sender_ratchet (s : state) : res pubkey :=
  match ss_sender s with
  | None => Err (EOther "missing sender chain")
  | Some c => new_public_key (pc_ratchet c)
  end.

(** state.go:142-151 ReceiverChain: the first chain with that ratchet key. *)
Fixpoint find_chain (key : bytes) (l : list pchain) : option pchain :=
  match l with
  | [] => None
  | c :: r => if bytes_eqb (pc_ratchet c) key then Some c else find_chain key r
  end.
(** Replace the first chain with that ratchet key (writes through the chain pointer). *)
Fixpoint upd_chain (key : bytes) (f : pchain -> pchain) (l : list pchain) : list pchain :=
  match l with
  | [] => []
  | c :: r => if bytes_eqb (pc_ratchet c) key then f c :: r else c :: upd_chain key f r
  end.
Definition st_receiver_chain (s : state) (sender : pubkey) : option pchain :=
  find_chain (pub_bytes sender) (ss_receivers s).

(** state.go:153-167 SetReceiverChainKey. *)
Definition st_set_receiver_chain_key (s : state) (sender : pubkey) (k : chainkey) : res state :=
  match st_receiver_chain s sender with
  | None => Err (EOther "SetReceiverChainKey called for non-existent chain")
  | Some _ =>
      Ok (with_receivers s (upd_chain (pub_bytes sender)
            (fun c => with_chainkey c (mkPChainKey (ck_index k) (ck_key k))) (ss_receivers s)))
  end.

(** state.go:169-181 ReceiverChainKey; nil-safe getters give empty key, index 0. *)
Definition st_receiver_chain_key (s : state) (sender : pubkey) : res (option chainkey) :=
  match st_receiver_chain s sender with
  | None => Ok None
  | Some c =>
      let '(key, idx) := match pc_key c with Some k => (pck_key k, pck_index k) | None => ([], 0%N) end in
      do ck <- new_chain_key key idx; Ok (Some ck)
  end.

(** state.go:183-197 AddReceiverChain: append, drop the first beyond five. *)
Definition trim_front {A} (limit : nat) (l : list A) : list A :=
  if Nat.ltb limit (List.length l) then skipn 1 l else l.
Definition st_add_receiver_chain (s : state) (sender : pubkey) (k : chainkey) : state :=
  with_receivers s (trim_front max_receiver_chains
    (ss_receivers s ++ [mkPChain (pub_bytes sender) [] (Some (mkPChainKey (ck_index k) (ck_key k))) []])).

(** state.go:199-208 SetSenderChain. *)
Definition st_set_sender_chain (s : state) (pair : keypair) (k : chainkey) : state :=
  with_sender s (Some (mkPChain (pub_bytes (kp_pub pair)) (sk_bytes (kp_priv pair))
                                (Some (mkPChainKey (ck_index k) (ck_key k))) [])).

(** state.go:210-222 SenderChainKey. *)
Definition st_sender_chain_key (s : state) : res chainkey :=
  match ss_sender s with
  | None => Err (EOther "missing sender chain")
  | Some c => match pc_key c with
              | None => Err (EOther "missing sender chain key")
              | Some k => new_chain_key (pck_key k) (pck_index k)
              end
  end.

(** state.go:224-239 SetSenderChainKey. *)
Definition st_set_sender_chain_key (s : state) (k : chainkey) : state :=
  let pk := mkPChainKey (ck_index k) (ck_key k) in
  match ss_sender s with
  | Some c => with_sender s (Some (with_chainkey c pk))
  | None => with_sender s (Some (mkPChain [] [] (Some pk) []))
  end.

(** state.go:241-262 SetMessageKeys: append, drop the first beyond 2000. *)
Definition st_set_message_keys (s : state) (sender : pubkey) (m : msgkeys) : res state :=
  match st_receiver_chain s sender with
  | None => Err (EOther "SetMessageKeys called for non-existent chain")
  | Some _ =>
      Ok (with_receivers s (upd_chain (pub_bytes sender)
            (fun c => with_msgkeys c (trim_front max_message_keys
               (pc_msgkeys c ++ [mkPMsgKey (mk_counter m) (mk_cipher m) (mk_mac m) (mk_iv m)])))
            (ss_receivers s)))
  end.

(** state.go:264-288 MessageKeys: removes every saved key with that index; the last
    one found is returned (with its own error). *)
Fixpoint last_msgkey (counter : N) (l : list pmsgkey) : option pmsgkey :=
  match l with
  | [] => None
  | k :: r => match last_msgkey counter r with
              | Some k' => Some k'
              | None => if N.eqb (pmk_index k) counter then Some k else None
              end
  end.
Definition st_take_message_keys (s : state) (sender : pubkey) (counter : N)
  : state * res (option msgkeys) :=
  match st_receiver_chain s sender with
  | None => (s, Ok None)
  | Some c =>
      let s' := with_receivers s (upd_chain (pub_bytes sender)
                  (fun c => with_msgkeys c
                     (filter (fun k => negb (N.eqb (pmk_index k) counter)) (pc_msgkeys c)))
                  (ss_receivers s)) in
      match last_msgkey counter (pc_msgkeys c) with
      | None => (s', Ok None)
      | Some k =>
          (s', do m <- new_message_keys (pmk_cipher k) (pmk_mac k) (pmk_iv k) counter; Ok (Some m))
      end
  end.

(** state.go:290-300 SetUnacknowledgedPreKeyMessage. *)
Definition st_set_unack (s : state) (pkid : option N) (spkid : N) (base : pubkey) : state :=
  with_pending s (Some (mkPPending (match pkid with Some i => i | None => 0%N end)
                                   (pub_bytes base) (to_int32 spkid))).
(** state.go:302-304 ClearUnacknowledgedPreKeyMessage. *)
Definition st_clear_unack (s : state) : state := with_pending s None.

(** state.go:306-310 UnacknowledgedPreKeyMessageItems. *)
Record unack := mkUnack { ua_prekey : option N; ua_signed : N; ua_base : pubkey }.
(** state.go:324-345 UnacknowledgedPreKeyMessages: id 0 reads back as "none". *)
Definition st_unack (s : state) : res (option unack) :=
  match ss_pending s with
  | None => Ok None
  | Some p =>
      do k <- new_public_key (pp_base p);
      Ok (Some (mkUnack (if N.eqb (pp_prekey p) 0 then None else Some (pp_prekey p))
                        (of_int32 (pp_signed p)) k))
  end.

(** ** record.go:17-20 Record: current state and archived states as bytes. *)
Record record := mkRecord { rc_current : option state; rc_previous : list bytes }.

(** record.go:24-29 NewRecord. *)
Definition new_record (s : option state) : record := mkRecord s [].
(** record.go:31-41 NewRecordBytes. *)
Definition new_record_bytes (b : bytes) : res record :=
  do s <- state_parse b; Ok (mkRecord (Some s) []).

(** record.go:56-67 PreviousStates. *)
Fixpoint parse_all (l : list bytes) : res (list state) :=
  match l with
  | [] => Ok []
  | b :: r => do s <- state_parse b; do t <- parse_all r; Ok (s :: t)
  end.
Definition rc_previous_states (r : record) : res (list state) := parse_all (rc_previous r).

(** record.go:69-71 SetSessionState. *)
Definition rc_set_state (r : record) (s : state) : record := mkRecord (Some s) (rc_previous r).

Definition has_version_base (version : N) (base : bytes) (s : state) : bool :=
  N.eqb version (st_version s) && bytes_eqb base (ss_alice_base s).
(** record.go:73-91 HasSessionState. *)
Definition rc_has_state (r : record) (version : N) (base : bytes) : res bool :=
  if match rc_current r with Some s => has_version_base version base s | None => false end
  then Ok true
  else do l <- rc_previous_states r;
       Ok (existsb (has_version_base version base) l).

(** record.go:107-118 ArchiveCurrentState. *)
Definition rc_archive (r : record) : record :=
  match rc_current r with
  | None => r
  | Some s =>
      let prev := if Nat.leb max_archived_states (List.length (rc_previous r))
                  then skipn 1 (rc_previous r) else rc_previous r in
      mkRecord (rc_current r) (prev ++ [state_bytes s])
  end.
(** record.go:102-105 PromoteState. *)
Definition rc_promote (r : record) (s : state) : record :=
  mkRecord (Some s) (rc_previous (rc_archive r)).
(** record.go:93-100 PromoteOldState. *)
Definition rc_promote_old (r : record) (idx : nat) (s : state) : record :=
  if Nat.leb (List.length (rc_previous r)) idx then r
  else rc_promote (mkRecord (rc_current r)
                     (firstn idx (rc_previous r) ++ skipn (S idx) (rc_previous r))) s.
