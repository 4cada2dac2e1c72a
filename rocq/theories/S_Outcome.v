(** When the calls that send and start must succeed (C95). *)
From Verif Require Import M_Base M_Crypto M_Curve M_Proto M_Message M_Ratchet M_State M_Store M_Session M_Group
  S_Crypto S_State S_Curve S_Bundle.
Local Open Scope nat_scope.

(** The Diffie-Hellman value of these two keys is not all zero. *)
Definition agreeable (C : Crypto) (secret public : bytes) : Prop := exists x, In x (c_x25519 C secret public) /\ x <> Byte.x00.

(** Every agreement that opening a session with this bundle needs has a value: the X3DH specification's DH1 to DH4 with our
    identity key [mine] and base key [base], and the first step of the Double Ratchet with [ratchet]. *)
Definition all_agree (C : Crypto) (mine base ratchet : bytes) (b : bundle) : Prop :=
  exists their_identity their_signed, bd_identity b = Some their_identity /\ bd_signed b = Some their_signed /\
    agreeable C mine their_signed /\ agreeable C base their_identity /\ agreeable C base their_signed /\
    (forall one, bd_prekey b = Some one -> agreeable C base one) /\
    agreeable C ratchet their_signed.
