(** Conversations over a byte transport: C72. *)
From Verif Require Import M_Base M_Crypto M_Curve M_Message M_Ratchet M_State M_Store M_Session M_Group S_Message S_Session.

(** What travels: the serialized form of the message and whether it is a pre-key message
    (cipher.go:88-95 leaves it to the application to tell the two kinds apart). *)
Definition posted (c : ciphertext) : bool * bytes :=
  match c with CPreKey m => (true, pm_raw m) | CSignal m => (false, sg_raw m) | _ => (false, []) end.
(** The receiving application: NewPreKeyFromBytes or NewSignalFromBytes, then DecryptMessage. *)
Definition unposted (x : bool * bytes) : res ciphertext :=
  if fst x then do m <- parse_prekey_msg (snd x); Ok (CPreKey m) else do m <- parse_signal (snd x); Ok (CSignal m).
Definition receive_bytes (C : Crypto) (a : addr) (rnd : bytes) (x : bool * bytes) : prog bytes :=
  plift (unposted x) (decrypt_message C a rnd).
(** The same for groups: NewSenderKeyFromBytes, then the group DecryptMessage;
    NewSenderKeyDistributionFromBytes, then Process. *)
Definition greceive_bytes (C : Crypto) (a : addr) (x : bytes) : prog bytes := plift (parse_senderkey x) (gdecrypt C a).
Definition gjoin_bytes (a : addr) (x : bytes) : prog unit := plift (parse_dist x) (process_dist a).
