(** Calls that have nothing to do with each other: C67. *)
From Verif Require Import M_Base M_Crypto M_Curve M_Uuid M_Message M_Ratchet M_State M_Store M_Session M_Group S_Api S_Isolation.
From Coq Require Import List.

(** The one-time pre-key that a call may use. *)
Definition prekey_named (c : call) : option N :=
  match c with CDecrypt _ _ (CPreKey m) => pm_prekey_id m | _ => None end.
(** The calls belong to different conversations and do not name the same one-time pre-key. *)
Definition apart (c1 c2 : call) : Prop :=
  match scope_of c1, scope_of c2 with
  | OwnSession a, OwnSession b => a <> b /\ (prekey_named c1 = None \/ prekey_named c1 <> prekey_named c2)
  | OwnGroup a d, OwnGroup b e => (a, d) <> (b, e)
  | _, _ => True
  end.
(** The entries of [c] are the same in both worlds. *)
Definition own_same (c : call) (w w' : world) : Prop :=
  match scope_of c with
  | OwnSession a => w_sess w' a = w_sess w a /\ w_ident w' a = w_ident w a /\
      forall id, prekey_named c = Some id -> w_prekeys w' id = w_prekeys w id
  | OwnGroup a d => w_groups w' a d = w_groups w a d
  end.
(** The device's own keys and its settings are the same. *)
Definition same_device (w w' : world) : Prop :=
  w_signed w' = w_signed w /\ w_pair w' = w_pair w /\ w_reg w' = w_reg w /\ w_policy w' = w_policy w /\ w_shared w' = w_shared w.

(** A program alone, after store calls that behave as [fs] says. *)
Fixpoint after {A} (fs : list fault) (p : prog A) (w : world) : prog A * world :=
  match fs with [] => (p, w) | f :: fs => let '(p', w') := pstep p f w in after fs p' w' end.

(** Any number of calls on one device, started at any time, their store calls interleaved and
    failing in any way; each call is apart from all others. Each entry: the call, the
    behaviour of its store calls so far, and what is left of it. *)
Inductive side_by_side (C : Crypto) (w0 : world) : list (call * list fault * thread) -> world -> Prop :=
| sb_none : side_by_side C w0 [] w0
| sb_call : forall c l w, side_by_side C w0 l w -> Forall (fun x => apart c (fst (fst x))) l ->
    side_by_side C w0 ((c, [], start C c) :: l) w
| sb_op : forall l1 c fs l2 {A X} (o : op X) (k : res X -> prog A) f w x w',
    side_by_side C w0 (l1 ++ (c, fs, Thread (PDo o k)) :: l2) w -> exec_f o f w = (x, w') ->
    side_by_side C w0 (l1 ++ (c, fs ++ [f], Thread (k x)) :: l2) w'.
