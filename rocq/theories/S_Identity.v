(** Histories of the in-memory identity store and what it should remember. *)
From Verif Require Import M_Base M_Curve M_Identity.

(** Events, most recent first: a Store call, a Clear call, or one step of the background
    goroutine started by an earlier Clear (it deletes address [a] from the map that Clear
    retired, the [i]-th map ever made). *)
Inductive ievent := EvStore (a : addr) (k : ikey) | EvClear | EvDelete (i : nat) (a : addr).

(** The store after a history. A goroutine only runs on a map that was retired. *)
Inductive ihist : list ievent -> istore -> list nat -> Prop :=
| ih_init : ihist [] is_init []
| ih_store : forall h s ret a k, ihist h s ret -> ihist (EvStore a k :: h) (snd (is_store s a k)) ret
| ih_clear : forall h s ret, ihist h s ret -> ihist (EvClear :: h) (is_clear s) (is_cur s :: ret)
| ih_delete : forall h s ret i a, ihist h s ret -> In i ret ->
    ihist (EvDelete i a :: h) (is_bg_delete s i a) ret.

(** The key most recently stored for [a] since the last Clear. *)
Fixpoint last_key (h : list ievent) (a : addr) : option ikey :=
  match h with
  | [] => None
  | EvStore b k :: r => if addr_eqb a b then Some k else last_key r a
  | EvClear :: _ => None
  | EvDelete _ _ :: r => last_key r a
  end.

(** Pointers: one address holds one value. *)
Definition ptr_ok (k k' : ikey) : Prop := ik_ptr k = ik_ptr k' -> ik_pub k = ik_pub k'.

(** The signed string: 32 bytes 0xFF, the label, the encoded key. *)
Definition alternate_message (k : pubkey) : bytes :=
  repeat Byte.xff 32 ++ str "Signal_PNI_Signature" ++ (Byte.x05 :: k).
