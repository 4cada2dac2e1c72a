(** Stores that answer anything (C98). *)
From Verif Require Import M_Base M_Crypto M_Curve M_Ratchet M_State M_Store.

(** The call [p] can end with [r] when every store call is answered as [ans] allows. Nothing
    relates the answers to each other or to what was stored before. *)
Inductive may_return (ans : forall X, op X -> res X -> Prop) {A : Type} : prog A -> res A -> Prop :=
| mr_ret : forall r, may_return ans (PRet r) r
| mr_do : forall X (o : op X) (k : res X -> prog A) x r, ans X o x -> may_return ans (k x) r -> may_return ans (PDo o k) r.

(** Any value or any error. *)
Definition anything : forall X, op X -> res X -> Prop := fun _ _ x => x <> Panic.

(** Any value or any error, except that a signed pre-key asked for exists and the device's own
    private key has 32 bytes. *)
Definition keys_there : forall X, op X -> res X -> Prop := fun X o x => x <> Panic /\
  match o in op Y return res Y -> Prop with
  | OLoadSigned _ => fun x => x <> Ok None
  | OKeyPair => fun x => forall k, x = Ok k -> List.length (sk_ecdh (kp_priv k)) = 32
  | _ => fun _ => True
  end x.

(** No private key gives an all-zero secret with [u]. *)
Definition no_zero (C : Crypto) (u : pubkey) : Prop :=
  forall k, List.length k = 32 -> ~ Forall (eq Byte.x00) (c_x25519 C k u).
