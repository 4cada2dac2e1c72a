(** Bytes, machine words, results: the vocabulary of the model. *)
From Coq Require Export List NArith ZArith Lia Bool Arith String.
From Coq Require Export Strings.Byte.
Export ListNotations.

Open Scope list_scope.

Notation byte := Byte.byte.
Definition bytes := list byte.

(** Go [byte] values seen as numbers below 256. *)
Definition b2n (b : byte) : N := Byte.to_N b.

(** Conversion to [byte]: Go's [byte(n)] keeps the low 8 bits. *)
Definition n2b (n : N) : byte :=
  match Byte.of_N (n mod 256) with Some b => b | None => Byte.x00 end.

(** Go [uint32] wrap-around. *)
Definition two32 : N := 4294967296.
Definition u32 (n : N) : N := (n mod two32)%N.

(** Go [bytes.Equal], and [crypto/subtle.ConstantTimeCompare(..) == 1],
    [crypto/hmac.Equal]: equal length and equal contents. *)
Fixpoint bytes_eqb (a b : bytes) : bool :=
  match a, b with
  | [], [] => true
  | x :: a', y :: b' => Byte.eqb x y && bytes_eqb a' b'
  | _, _ => false
  end.

(** Bytewise exclusive or of two equally long strings (CBC). *)
Definition bxor (a b : byte) : byte := n2b (N.lxor (b2n a) (b2n b)).
Fixpoint xor_bytes (a b : bytes) : bytes :=
  match a, b with
  | x :: a', y :: b' => bxor x y :: xor_bytes a' b'
  | _, _ => []
  end.

(** Little-endian numbers. *)
Fixpoint le2n (b : bytes) : N :=
  match b with
  | [] => 0%N
  | x :: r => (b2n x + 256 * le2n r)%N
  end.
Fixpoint n2le (len : nat) (n : N) : bytes :=
  match len with
  | O => []
  | S k => n2b n :: n2le k (n / 256)%N
  end.

(** ASCII text as bytes (Go string literals). *)
Fixpoint str (s : string) : bytes :=
  match s with
  | EmptyString => []
  | String a r => Ascii.byte_of_ascii a :: str r
  end.

(** protocol/address/address.go:10-13 Address: comparable struct used as map key. *)
Record addr := mkAddr { a_name : string; a_dev : N }.
Definition addr_eqb (x y : addr) : bool :=
  String.eqb (a_name x) (a_name y) && N.eqb (a_dev x) (a_dev y).

(** Errors. The first five constructors are protocol/perrors/errors.go:11-68
    ([ErrDuplicateMessage], [ErrNoCurrentSession], [errInvalidKeyLength],
    [errSessionNotFound], [errUntrustedIdentity]); [EOther] is any error made by
    [errors.New]/[fmt.Errorf] in the protocol packages or returned by a library,
    [EStore] is an error returned by a store, [EEOF] is [io.EOF] /
    [io.ErrUnexpectedEOF] from [io.ReadFull]. *)
Inductive err :=
| EDuplicate
| ENoCurrentSession
| EInvalidKeyLength (expected got : nat)
| ESessionNotFound (a : addr)
| EUntrusted (a : addr)
| EOther (msg : string)
| EStore
| EEOF.

(** protocol/perrors/errors.go:62-65 IsErrUntrustedIdentity. *)
Definition is_err_untrusted (e : err) : bool :=
  match e with EUntrusted _ => true | _ => false end.

(** Outcome of a Go call: a value with nil error, a non-nil error, or a run-time panic. *)
Inductive res (A : Type) :=
| Ok (a : A)
| Err (e : err)
| Panic.
Arguments Ok {A} a.
Arguments Err {A} e.
Arguments Panic {A}.

Definition bind {A B} (r : res A) (f : A -> res B) : res B :=
  match r with Ok a => f a | Err e => Err e | Panic => Panic end.
Notation "'do' x <- r ; k" := (bind r (fun x => k))
  (at level 200, x pattern, r at level 100, k at level 200, right associativity).

(** io.ReadFull on the remaining contents of a reader: the bytes and the rest,
    or an error having consumed everything. *)
Definition read_full (n : nat) (rnd : bytes) : res bytes * bytes :=
  if Nat.ltb (List.length rnd) n then (Err EEOF, [])
  else (Ok (firstn n rnd), skipn n rnd).
