(** One-time pre-keys: C65, C66. *)
From Verif Require Import M_Base M_Crypto M_Message.

(** The same pre-key message naming another one-time pre-key, or none. The frame around the
    inner message is not authenticated. *)
Definition with_prekey_id (m : prekeymsg) (id : option N) : prekeymsg :=
  mkPreKeyMsg (pm_version m) (pm_reg m) id (pm_signed_id m) (pm_base m) (pm_identity m) (pm_message m) (pm_raw m).
