(** protocol/identity/store_inmem.go at the level of Go values: an identity.Key holds a
    pointer to a DJBPublicKey, and [==] on Key compares the pointers. *)
From Verif Require Import M_Base M_Curve.

(** identity/keys.go:20-22 Key: the pointer and what it points to. *)
Record ikey := mkIKey { ik_ptr : nat; ik_pub : pubkey }.

(** A Go map; and the store: its current map is one of the maps ever allocated (the
    clearing goroutine keeps a reference to an old one). store_inmem.go:13-17. *)
Definition imap := addr -> option ikey.
Definition imap_set (m : imap) (a : addr) (k : ikey) : imap :=
  fun x => if addr_eqb x a then Some k else m x.
Definition imap_del (m : imap) (a : addr) : imap :=
  fun x => if addr_eqb x a then None else m x.

(** Heap of maps and the index of [i.knownKeys]. *)
Record istore := mkIStore { is_heap : nat -> imap; is_cur : nat; is_next : nat }.

(** store_inmem.go:20-26 NewInMemStore. *)
Definition is_init : istore := mkIStore (fun _ _ => None) 0 1.

Definition is_map (s : istore) : imap := is_heap s (is_cur s).
Definition heap_set (h : nat -> imap) (i : nat) (m : imap) : nat -> imap :=
  fun j => if Nat.eqb j i then m else h j.

(** store_inmem.go:36-39 Load. *)
Definition is_load (s : istore) (a : addr) : option ikey := is_map s a.
(** store_inmem.go:41-46 Store: [identity != knownIdentity] compares pointers. *)
Definition is_store (s : istore) (a : addr) (k : ikey) : bool * istore :=
  (match is_map s a with
   | Some k' => negb (Nat.eqb (ik_ptr k) (ik_ptr k'))
   | None => false
   end,
   mkIStore (heap_set (is_heap s) (is_cur s) (imap_set (is_map s) a k)) (is_cur s) (is_next s)).
(** store_inmem.go:48-59 Clear: a new map; the old one is emptied later by a goroutine. *)
Definition is_clear (s : istore) : istore :=
  mkIStore (heap_set (is_heap s) (is_next s) (fun _ => None)) (is_next s) (S (is_next s)).
(** store_inmem.go:52-56 one iteration of the goroutine started by the Clear that
    retired map [i]: delete one entry of [tmp]. *)
Definition is_bg_delete (s : istore) (i : nat) (a : addr) : istore :=
  mkIStore (heap_set (is_heap s) i (imap_del (is_heap s i) a)) (is_cur s) (is_next s).
(** store_inmem.go:61-68 IsTrustedIdentity. *)
Definition is_trusted (s : istore) (a : addr) (k : ikey) : bool :=
  match is_map s a with None => true | Some k' => pub_equal (ik_pub k) (ik_pub k') end.
