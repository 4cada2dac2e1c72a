(** All executions of the library on one device: any number of API calls in progress,
    their store calls interleaved in any order, each store call succeeding or failing
    before or after taking effect, any call abandoned at any point (crash), and the
    application changing everything that is not a session or group record. *)
From Verif Require Import M_Base M_Crypto M_Curve M_Uuid M_Message M_Ratchet M_State M_Store M_Session M_Group
  S_Message S_State S_Shape S_Session.

(** The calls of the public API. *)
Inductive call :=
| CBundle (a : addr) (rnd : bytes) (b : bundle)
| CEncrypt (a : addr) (pt : bytes)
| CDecrypt (a : addr) (rnd : bytes) (c : ciphertext)
| CGProcess (a : addr) (m : distmsg)
| CGNew (a : addr) (d : distid) (sysrnd rnd : bytes)
| CGEncrypt (a : addr) (d : distid) (rnd pt : bytes)
| CGDecrypt (a : addr) (m : senderkeymsg).

(** A call in progress. *)
Inductive thread :=
| Thread (A : Type) (p : prog A).
Arguments Thread {A} p.

Definition start (C : Crypto) (c : call) : thread :=
  match c with
  | CBundle a rnd b => Thread (process_bundle C a rnd b)
  | CEncrypt a pt => Thread (encrypt_message C a pt)
  | CDecrypt a rnd m => Thread (decrypt_message C a rnd m)
  | CGProcess a m => Thread (process_dist a m)
  | CGNew a d sysrnd rnd => Thread (new_sender_dist C a d sysrnd rnd)
  | CGEncrypt a d rnd pt => Thread (gencrypt C a d rnd pt)
  | CGDecrypt a m => Thread (gdecrypt C a m)
  end.

(** Arguments a Go program can pass: keys have 32 bytes, ids are uint32. *)
Definition wf_key (k : option pubkey) : Prop := forall x, k = Some x -> List.length x = 32.
Definition wf_bundle (b : bundle) : Prop :=
  go_u32 (bd_reg b) /\ (forall i, bd_prekey_id b = Some i -> go_u32 i) /\ wf_key (bd_prekey b) /\
  go_u32 (bd_signed_id b) /\ wf_key (bd_signed b) /\ wf_key (bd_identity b).
Definition wf_dist (m : distmsg) : Prop :=
  go_u32 (dm_chain m) /\ go_u32 (dm_iter m) /\ List.length (dm_chainkey m) = 32 /\
  List.length (dm_signing m) = 32 /\ dm_version m = 3%N.
Definition wf_senderkey (m : senderkeymsg) : Prop :=
  go_u32 (sm_chain m) /\ go_u32 (sm_iter m) /\ sm_version m = 3%N.
Definition wf_call (c : call) : Prop :=
  match c with
  | CBundle _ _ b => wf_bundle b
  | CDecrypt _ _ m => wf_ciphertext m
  | CGProcess _ m => wf_dist m
  | CGDecrypt _ m => wf_senderkey m
  | _ => True
  end.

(** The application's own changes: identities, pre-keys, its identity key pair and
    registration id, the trust policy. *)
Definition env_change (w w' : world) : Prop :=
  w_sess w' = w_sess w /\ w_groups w' = w_groups w /\ w_shared w' = w_shared w /\
  List.length (kp_pub (w_pair w')) = 32 /\ go_u32 (w_reg w').

Inductive step (C : Crypto) : list thread * world -> list thread * world -> Prop :=
| step_call : forall c ts w, wf_call c -> step C (ts, w) (start C c :: ts, w)
| step_op : forall ts1 ts2 {A X} (o : op X) (k : res X -> prog A) f w x w',
    exec_f o f w = (x, w') ->
    step C (ts1 ++ Thread (PDo o k) :: ts2, w) (ts1 ++ Thread (k x) :: ts2, w')
| step_crash : forall ts1 t ts2 w, step C (ts1 ++ t :: ts2, w) (ts1 ++ ts2, w)
| step_env : forall ts w w', env_change w w' -> step C (ts, w) (ts, w').

(** From a device without sessions and groups. *)
Definition empty_world (w : world) : Prop :=
  (forall a, w_sess w a = None) /\ (forall a d, w_groups w a d = None) /\
  List.length (kp_pub (w_pair w)) = 32 /\ go_u32 (w_reg w).
Inductive reachable (C : Crypto) : list thread * world -> Prop :=
| reach_init : forall w, empty_world w -> reachable C ([], w)
| reach_step : forall c c', reachable C c -> step C c c' -> reachable C c'.
