(** The store interfaces (session/store.go, identity/store.go, prekey/store.go), programs
    over them, and the world they act on. *)
From Verif Require Import M_Base M_Crypto M_Curve M_Uuid M_Ratchet M_State.

(** prekey/prekey.go:19-32 PreKey and prekey/signed.go:9-24 SignedPreKey: serialized key
    pair (id, signature and timestamp are never read back). *)
Record prekeyrec := mkPreKeyRec { pr_pub : bytes; pr_priv : bytes }.
(** prekey/prekey.go:24-32 NewPreKey, prekey/signed.go:14-24 NewSigned. *)
Definition new_prekeyrec (k : keypair) : prekeyrec :=
  mkPreKeyRec (pub_bytes (kp_pub k)) (sk_bytes (kp_priv k)).
(** prekey/prekey.go:35-37, signed.go:27-29 KeyPair. *)
Definition prekeyrec_pair (C : Crypto) (r : prekeyrec) : res keypair :=
  new_keypair C (pr_priv r) (pr_pub r).

(** Group state (proto SenderKeyStateStructure), session/group_state.go. *)
Record gmk := mkGmk { gm_iter : N; gm_seed : bytes }.
Record gstate := mkGState {
  gs_version : N;
  gs_chain : N;
  gs_iter : N;
  gs_seed : bytes;
  gs_pub : bytes;
  gs_priv : bytes;
  gs_keys : list gmk
}.
(** session/group_record.go:14-16 GroupRecord. *)
Definition grecord := list gstate.

(** direction/direction.go *)
Inductive direction := Sending | Receiving.

(** Calls on the stores. [OTouchSession]/[OTouchGroup] are not calls: they mark the
    points where the code writes through a record pointer obtained from Load, which the
    in-memory stores (session/store_inmem.go:24-32,50-67) share with their map. *)
Inductive op : Type -> Type :=
| OLoadSession (a : addr) : op (option record)
| OStoreSession (a : addr) (r : record) : op unit
| OTouchSession (a : addr) (r : record) : op unit
| OLoadPreKey (id : N) : op (option prekeyrec)
| ODeletePreKey (id : N) : op unit
| OLoadSigned (id : N) : op (option prekeyrec)
| OKeyPair : op keypair
| ORegistrationID : op N
| OIsTrusted (a : addr) (k : pubkey) (d : direction) : op bool
| OStoreIdentity (a : addr) (k : pubkey) : op bool
| OLoadGroup (a : addr) (d : distid) : op (option grecord)
| OStoreGroup (a : addr) (d : distid) (r : grecord) : op unit
| OTouchGroup (a : addr) (d : distid) (r : grecord) : op unit.

(** An API call: a tree of store calls, each continuing on the store's answer. *)
Inductive prog (A : Type) :=
| PRet (r : res A)
| PDo {X : Type} (o : op X) (k : res X -> prog A).
Arguments PRet {A} r.
Arguments PDo {A X} o k.

Fixpoint pbind {A B} (p : prog A) (f : res A -> prog B) : prog B :=
  match p with
  | PRet r => f r
  | PDo o k => PDo o (fun x => pbind (k x) f)
  end.

(** "if err != nil { return nil, err }" after a store call. *)
Definition pdo {A X} (o : op X) (k : X -> prog A) : prog A :=
  PDo o (fun r => match r with Ok x => k x | Err e => PRet (Err e) | Panic => PRet Panic end).
(** The same after a pure call. *)
Definition plift {A X} (r : res X) (k : X -> prog A) : prog A :=
  match r with Ok x => k x | Err e => PRet (Err e) | Panic => PRet Panic end.
(** The same after a sub-program. *)
Definition pseq {A B} (p : prog A) (f : A -> prog B) : prog B := pbind p (fun r => plift r f).

(** Everything behind the store interfaces of one device. Maps are functions.
    [w_policy] is the trust decision of the identity store given the stored key, if any
    (identity/store_inmem.go:61-68 is [inmem_policy]). [w_shared] says whether Load
    returns the stored pointer itself or a copy. *)
Record world := mkWorld {
  w_sess : addr -> option record;
  w_ident : addr -> option pubkey;
  w_prekeys : N -> option prekeyrec;
  w_signed : N -> option prekeyrec;
  w_groups : addr -> distid -> option grecord;
  w_pair : keypair;
  w_reg : N;
  w_policy : addr -> option pubkey -> pubkey -> direction -> bool;
  w_shared : bool
}.

(** identity/store_inmem.go:61-68 IsTrustedIdentity. *)
Definition inmem_policy (a : addr) (known : option pubkey) (k : pubkey) (d : direction) : bool :=
  match known with None => true | Some k' => pub_equal k k' end.

Definition set_sess (w : world) (a : addr) (r : record) : world :=
  mkWorld (fun x => if addr_eqb x a then Some r else w_sess w x) (w_ident w) (w_prekeys w)
          (w_signed w) (w_groups w) (w_pair w) (w_reg w) (w_policy w) (w_shared w).
Definition set_ident (w : world) (a : addr) (k : pubkey) : world :=
  mkWorld (w_sess w) (fun x => if addr_eqb x a then Some k else w_ident w x) (w_prekeys w)
          (w_signed w) (w_groups w) (w_pair w) (w_reg w) (w_policy w) (w_shared w).
Definition del_prekey (w : world) (id : N) : world :=
  mkWorld (w_sess w) (w_ident w) (fun x => if N.eqb x id then None else w_prekeys w x)
          (w_signed w) (w_groups w) (w_pair w) (w_reg w) (w_policy w) (w_shared w).
Definition set_group (w : world) (a : addr) (d : distid) (r : grecord) : world :=
  mkWorld (w_sess w) (w_ident w) (w_prekeys w) (w_signed w)
          (fun x y => if addr_eqb x a && distid_eqb y d then Some r else w_groups w x y)
          (w_pair w) (w_reg w) (w_policy w) (w_shared w).

(** Effect and answer of one store call that does not fail.
    session/store_inmem.go:24-32,50-67; prekey/store_inmem.go:19-32,48-56;
    identity/store_inmem.go:28-46,61-68 (the answer of Store is discarded by every
    caller; its exact value is modelled in M_Identity.v). *)
Definition exec {X} (o : op X) (w : world) : X * world :=
  match o in op T return T * world with
  | OLoadSession a => (w_sess w a, w)
  | OStoreSession a r => (tt, set_sess w a r)
  | OTouchSession a r => (tt, if w_shared w then set_sess w a r else w)
  | OLoadPreKey id => (w_prekeys w id, w)
  | ODeletePreKey id => (tt, del_prekey w id)
  | OLoadSigned id => (w_signed w id, w)
  | OKeyPair => (w_pair w, w)
  | ORegistrationID => (w_reg w, w)
  | OIsTrusted a k d => (w_policy w a (w_ident w a) k d, w)
  | OStoreIdentity a k =>
      (match w_ident w a with Some k' => negb (pub_equal k k') | None => false end, set_ident w a k)
  | OLoadGroup a d => (w_groups w a d, w)
  | OStoreGroup a d r => (tt, set_group w a d r)
  | OTouchGroup a d r => (tt, if w_shared w then set_group w a d r else w)
  end.

(** Calls whose interface has an error result. *)
Definition fallible {X} (o : op X) : bool :=
  match o with
  | OTouchSession _ _ | OTouchGroup _ _ _ | OKeyPair | ORegistrationID => false
  | _ => true
  end.

(** Behaviour of a store call: succeed, fail without effect, or take effect and still
    report an error. *)
Inductive fault := FNone | FBefore | FAfter.

Definition exec_f {X} (o : op X) (f : fault) (w : world) : res X * world :=
  if fallible o then
    match f with
    | FNone => let '(x, w') := exec o w in (Ok x, w')
    | FBefore => (Err EStore, w)
    | FAfter => (Err EStore, snd (exec o w))
    end
  else let '(x, w') := exec o w in (Ok x, w').

Definition hd_fault (fs : list fault) : fault := match fs with [] => FNone | f :: _ => f end.

(** Run to completion; the i-th store call behaves as the i-th fault says (no fault
    beyond the list). *)
Fixpoint run {A} (p : prog A) (fs : list fault) (w : world) : res A * world :=
  match p with
  | PRet r => (r, w)
  | PDo o k => let '(x, w') := exec_f o (hd_fault fs) w in run (k x) (tl fs) w'
  end.
Definition run0 {A} (p : prog A) (w : world) : res A * world := run p [] w.

(** One store call of a program. *)
Definition pstep {A} (p : prog A) (f : fault) (w : world) : prog A * world :=
  match p with
  | PRet r => (PRet r, w)
  | PDo o k => let '(x, w') := exec_f o f w in (k x, w')
  end.
(** The world after the first [n] store calls: what a crash at that point leaves behind
    in a persistent store. *)
Fixpoint crash {A} (n : nat) (p : prog A) (fs : list fault) (w : world) : world :=
  match n with
  | O => w
  | S m => let '(p', w') := pstep p (hd_fault fs) w in crash m p' (tl fs) w'
  end.

(** Two callers of the same stores, interleaved at store-call granularity by a schedule
    ([true]: the first one moves); afterwards the first then the second run to the end. *)
Fixpoint run2 {A B} (sched : list bool) (p : prog A) (q : prog B) (w : world)
  : res A * res B * world :=
  match sched with
  | [] => let '(a, w1) := run0 p w in let '(b, w2) := run0 q w1 in (a, b, w2)
  | true :: s => let '(p', w') := pstep p FNone w in run2 s p' q w'
  | false :: s => let '(q', w') := pstep q FNone w in run2 s p q' w'
  end.
