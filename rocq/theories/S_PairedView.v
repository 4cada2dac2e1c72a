(** What the accessors of a record show, and when the two set-ups succeed (C83). *)
From Verif Require Import M_Base M_Crypto M_Aes M_Curve M_Message M_Ratchet M_State M_Store M_Session M_Records.

(** Version 3, the local and the remote identity key, and the position of the sending chain. *)
Definition shows (r : record) (local remote : pubkey) (sent : N) : Prop :=
  rec_version r = Ok 3%N /\ rec_local r = Ok local /\ rec_remote r = Ok (Some remote) /\
  exists ck, rec_sender_key r = Ok ck /\ ck_index ck = sent.
(** The agreement of a private and a public key gives a key. *)
Definition agrees (C : Crypto) (k : keypair) (p : pubkey) : Prop := exists x, agreement C (kp_priv k) p = Ok x.
Definition opt_agrees (C : Crypto) (k : keypair) (p : option pubkey) : Prop :=
  match p with Some q => agrees C k q | None => True end.
