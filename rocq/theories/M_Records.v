(** protocol/session/session.go:197-204, 266-273 (records made from agreed parameters) and
    the accessors of protocol/session/record.go:43-54, 120-154. *)
From Verif Require Import M_Base M_Crypto M_Aes M_Curve M_Proto M_Message M_Ratchet M_State M_Store M_Session.

(** session.go:197-204 InitializeAliceSessionRecord. Also the rest of the random reader. *)
Definition alice_record (C : Crypto) (rnd : bytes) (ident base : keypair)
    (their_ident their_signed : pubkey) (their_onetime : option pubkey) (their_ratchet : pubkey)
  : res record * bytes :=
  match init_alice C rnd ident base their_ident their_signed their_onetime their_ratchet with
  | (Ok s, rest) => (Ok (new_record (Some s)), rest)
  | (Err e, rest) => (Err e, rest)
  | (Panic, rest) => (Panic, rest)
  end.

(** session.go:266-273 InitializeBobSessionRecord. *)
Definition bob_record (C : Crypto) (ident : keypair) (signed onetime ratchet_pair : option keypair)
    (their_ident their_base : pubkey) : res record :=
  do s <- init_bob C ident signed onetime ratchet_pair their_ident their_base;
  Ok (new_record (Some s)).

(** record.go:43-45 State; every accessor below starts with it. *)
Definition on_current {A} (r : record) (f : state -> res A) : res A :=
  match rc_current r with None => Err ENoCurrentSession | Some s => f s end.
(** record.go:47-54 Version. *)
Definition rec_version (r : record) : res N := on_current r (fun s => Ok (st_version s)).
(** record.go:120-127 LocalIdentityKey. *)
Definition rec_local (r : record) : res pubkey := on_current r st_local_identity.
(** record.go:129-136 RemoteIdentityKey. *)
Definition rec_remote (r : record) : res (option pubkey) := on_current r st_remote_identity.
(** record.go:138-145 ReceiverChainKey. *)
Definition rec_receiver_key (r : record) (sender : pubkey) : res (option chainkey) :=
  on_current r (fun s => st_receiver_chain_key s sender).
(** record.go:147-154 SenderChainKey. *)
Definition rec_sender_key (r : record) : res chainkey := on_current r st_sender_chain_key.
