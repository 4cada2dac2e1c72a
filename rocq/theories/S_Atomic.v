(** All-or-nothing updates: the records that a call may write. *)
From Verif Require Import M_Base M_Crypto M_Curve M_Uuid M_Message M_Ratchet M_State M_Store M_Session M_Group
  S_Api.

(** All session and group records. *)
Definition same_records (w w' : world) : Prop :=
  (forall a, w_sess w' a = w_sess w a) /\ (forall a d, w_groups w' a d = w_groups w a d).
(** Session and group records and pre-keys. *)
Definition untouched (w w' : world) : Prop :=
  same_records w w' /\ (forall id, w_prekeys w' id = w_prekeys w id) /\ (forall id, w_signed w' id = w_signed w id).
(** A call of any result type ended without error. *)
Definition is_ok {A} (r : res A) : Prop := exists x, r = Ok x.
(** The failures that the store calls of a run actually meet. *)
Fixpoint met {A} (p : prog A) (fs : list fault) (w : world) : list fault :=
  match p with
  | PRet _ => []
  | PDo o k => (if fallible o then hd_fault fs else FNone) ::
      (let '(x, w') := exec_f o (hd_fault fs) w in met (k x) (tl fs) w')
  end.
(** [w'] is what the call [p] leaves of [w] if store calls fail in any way, or if the process
    stops at any point. *)
Definition leaves {A} (p : prog A) (w w' : world) : Prop :=
  exists fs, w' = snd (run p fs w) \/ exists n, w' = crash n p fs w.
