(** Trust on first use: executions in which the application does not itself touch the
    identity store. *)
From Verif Require Import M_Base M_Crypto M_Curve M_Uuid M_Message M_Ratchet M_State M_Store M_Session M_Group
  S_Api.

(** Any number of calls in progress, store calls interleaved and failing, calls abandoned. *)
Inductive lib_steps (C : Crypto) (w0 : world) : list thread * world -> Prop :=
| ls_start : lib_steps C w0 ([], w0)
| ls_call : forall c ts w, lib_steps C w0 (ts, w) -> lib_steps C w0 (start C c :: ts, w)
| ls_op : forall ts1 ts2 {A X} (o : op X) (k : res X -> prog A) f w x w',
    lib_steps C w0 (ts1 ++ Thread (PDo o k) :: ts2, w) -> exec_f o f w = (x, w') ->
    lib_steps C w0 (ts1 ++ Thread (k x) :: ts2, w')
| ls_crash : forall ts1 t ts2 w, lib_steps C w0 (ts1 ++ t :: ts2, w) -> lib_steps C w0 (ts1 ++ ts2, w).

(** The identity store trusts, once it holds a key for an address, that key only. *)
Definition first_use_policy (w : world) : Prop :=
  forall a k k' d, w_policy w a (Some k) k' d = true -> k' = k.
