(** Which entries of the stores a call owns. *)
From Verif Require Import M_Base M_Crypto M_Curve M_Uuid M_Message M_Ratchet M_State M_Store M_Session M_Group S_Api.

(** A session call owns the session and identity of its address; a group call owns the
    entry of its sender address and distribution id. *)
Inductive scope := OwnSession (a : addr) | OwnGroup (a : addr) (d : distid).
Definition scope_of (c : call) : scope :=
  match c with
  | CBundle a _ _ | CEncrypt a _ | CDecrypt a _ _ => OwnSession a
  | CGProcess a m => OwnGroup a (dm_dist m)
  | CGNew a d _ _ => OwnGroup a d
  | CGEncrypt a d _ _ => OwnGroup a d
  | CGDecrypt a m => OwnGroup a (sm_dist m)
  end.

(** Everything outside the scope is the same in both worlds. (A session call may also
    consume one-time pre-keys.) *)
Definition outside_same (sc : scope) (w w' : world) : Prop :=
  w_signed w' = w_signed w /\ w_pair w' = w_pair w /\ w_reg w' = w_reg w /\ w_policy w' = w_policy w /\
  w_shared w' = w_shared w /\
  match sc with
  | OwnSession a =>
      (forall b, b <> a -> w_sess w' b = w_sess w b /\ w_ident w' b = w_ident w b) /\
      w_groups w' = w_groups w
  | OwnGroup a d =>
      w_sess w' = w_sess w /\ w_ident w' = w_ident w /\ w_prekeys w' = w_prekeys w /\
      (forall b e, (b, e) <> (a, d) -> w_groups w' b e = w_groups w b e)
  end.

(** Two worlds that a call in this scope cannot tell apart. *)
Definition same_view (sc : scope) (w w' : world) : Prop :=
  w_shared w' = w_shared w /\
  match sc with
  | OwnSession a =>
      w_sess w' a = w_sess w a /\ w_ident w' a = w_ident w a /\
      w_policy w' a = w_policy w a /\
      (forall i, w_prekeys w' i = w_prekeys w i) /\ (forall i, w_signed w' i = w_signed w i) /\
      w_pair w' = w_pair w /\ w_reg w' = w_reg w
  | OwnGroup a d => w_groups w' a d = w_groups w a d
  end.
