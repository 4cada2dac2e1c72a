(** protocol/curve and protocol/curve/curve25519, protocol/identity/keys.go *)
From Verif Require Import M_Base M_Crypto.

(** A public key is its 32 key bytes (curve/djb_public.go:13-15 DJBPublicKey; the
    only implementation of curve.PublicKey). *)
Definition pubkey := bytes.

(** curve/djb_public.go:32-37 Bytes: type byte 0x05 then the key. *)
Definition pub_bytes (k : pubkey) : bytes := Byte.x05 :: k.

(** curve/public.go:34-49 NewPublicKey: at least 33 bytes, trailing data ignored,
    type byte must be 0x05. *)
Definition new_public_key (key : bytes) : res pubkey :=
  if Nat.ltb (List.length key) 33 then Err (EInvalidKeyLength 33 (List.length key))
  else match key with
       | t :: r => if Byte.eqb t Byte.x05 then Ok (firstn 32 r)
                   else Err (EOther "unsupported key type")
       | [] => Panic
       end.

(** curve/djb_public.go:45-48 Equal; identity/keys.go:59-61 Key.Equal. *)
Definition pub_equal (a b : pubkey) : bool := bytes_eqb a b.

(** Order of the prime subgroup of edwards25519 (filippo.io/edwards25519 Scalar). *)
Definition ell : N := 7237005577332262213973186563042994240857116359379907606001950938285454250989.
(** Field prime 2^255 - 19. *)
Definition p25519 : N := 57896044618658097711785492504343953926634992332820282019728792003956564819949.
Definition two255 : N := 57896044618658097711785492504343953926634992332820282019728792003956564819968.

(** Modular exponentiation by squaring on the binary representation. *)
Fixpoint powm_pos (m b : N) (e : positive) : N :=
  match e with
  | xH => (b mod m)%N
  | xO e' => let r := powm_pos m b e' in ((r * r) mod m)%N
  | xI e' => let r := powm_pos m b e' in ((((r * r) mod m) * b) mod m)%N
  end.
Definition powm (m b e : N) : N :=
  match e with N0 => (1 mod m)%N | Npos q => powm_pos m b q end.

(** filippo.io/edwards25519/field: Add, Subtract, Multiply, Invert (z^(p-2), so 0 for 0). *)
Definition fadd (a b : N) : N := ((a + b) mod p25519)%N.
Definition fsub (a b : N) : N := ((a + (p25519 - b mod p25519)) mod p25519)%N.
Definition fmul (a b : N) : N := ((a * b) mod p25519)%N.
Definition finv (a : N) : N := powm p25519 a (p25519 - 2).

(** field.Element.SetBytes ignores the top bit; values are taken modulo p. *)
Definition fe_of_bytes (b : bytes) : N := ((le2n b mod two255) mod p25519)%N.
(** field.Element.Bytes: canonical little-endian encoding. *)
Definition fe_bytes (n : N) : bytes := n2le 32 (n mod p25519).

(** edwards25519 Point.BytesMontgomery of the point with this compressed encoding:
    u = (1 + y) / (1 - y). *)
Definition ed_to_mont (comp : bytes) : bytes :=
  let y := fe_of_bytes comp in fe_bytes (fmul (fadd 1 y) (finv (fsub 1 y))).

(** Replace byte [i] of a string. *)
Fixpoint upd_nth (i : nat) (f : byte -> byte) (b : bytes) : bytes :=
  match b, i with
  | [], _ => []
  | x :: r, O => f x :: r
  | x :: r, S j => x :: upd_nth j f r
  end.

(** curve25519.go:80-82 clamping of the stored private key. *)
Definition clamp (key : bytes) : bytes :=
  upd_nth 31 (fun x => n2b (N.lor (N.land (b2n x) 63) 64))
          (upd_nth 0 (fun x => n2b (N.land (b2n x) 248)) key).

(** curve25519.go:34-39 PrivateKey: the clamped bytes, the Montgomery public key,
    the Edwards scalar, and the raw key held by crypto/ecdh. *)
Record privkey := mkPriv {
  sk_bytes : bytes;
  sk_pub : pubkey;
  sk_scalar : N;
  sk_ecdh : bytes
}.

(** edwards25519 Scalar.SetBytesWithClamping: clamp, then reduce modulo the order. *)
Definition scalar_of (key : bytes) : N := (le2n (clamp key) mod ell)%N.

(** curve25519.go:60-90 NewPrivateKey (and curve/private.go:26-32, which makes the
    same length check first). *)
Definition new_private_key (C : Crypto) (key : bytes) : res privkey :=
  if negb (Nat.eqb (List.length key) 32) then Err (EInvalidKeyLength 32 (List.length key))
  else let s := scalar_of key in
       Ok (mkPriv (clamp key) (ed_to_mont (c_edbase C s)) s key).

(** curve25519.go:45-57 GeneratePrivateKey, curve/pair.go:15-27 GenerateKeyPair.
    curve/djb_private.go:47-50 PublicKey() ignores the length error of
    newDJBPublicKey; the Montgomery encoding always has 32 bytes. *)
Definition gen_private_key (C : Crypto) (rnd : bytes) : res privkey * bytes :=
  match read_full 32 rnd with
  | (Ok k, r) => (new_private_key C k, r)
  | (Err e, r) => (Err e, r)
  | (Panic, r) => (Panic, r)
  end.

(** curve/pair.go:6-9 KeyPair. *)
Record keypair := mkPair { kp_priv : privkey; kp_pub : pubkey }.

Definition gen_keypair (C : Crypto) (rnd : bytes) : res keypair * bytes :=
  match gen_private_key C rnd with
  | (Ok k, r) => (Ok (mkPair k (sk_pub k)), r)
  | (Err e, r) => (Err e, r)
  | (Panic, r) => (Panic, r)
  end.

(** curve/pair.go:33-47 NewKeyPair. *)
Definition new_keypair (C : Crypto) (priv pub : bytes) : res keypair :=
  do k <- new_private_key C priv;
  do p <- new_public_key pub;
  Ok (mkPair k p).

Definition all_zero (b : bytes) : bool := forallb (fun x => Byte.eqb x Byte.x00) b.

(** curve25519.go:108-119 Agreement; crypto/ecdh rejects an all-zero result. *)
Definition agreement (C : Crypto) (k : privkey) (pub : pubkey) : res bytes :=
  if negb (Nat.eqb (List.length pub) 32) then Err (EInvalidKeyLength 32 (List.length pub))
  else let s := c_x25519 C (sk_ecdh k) pub in
       if all_zero s then Err (EOther "crypto/ecdh: bad X25519 remote ECDH input: low order point")
       else Ok s.

(** curve25519.go:26-30 hashPrefix. *)
Definition hash_prefix : bytes := Byte.xfe :: repeat Byte.xff 31.

(** Scalar.SetUniformBytes on a 64-byte digest. *)
Definition scalar_uniform (d : bytes) : N := (le2n d mod ell)%N.

(** curve25519.go:127-184 Sign (XEdDSA). *)
Definition sign (C : Crypto) (k : privkey) (rnd : bytes) (messages : list bytes) : res bytes * bytes :=
  match read_full 64 rnd with
  | (Ok z, rest) =>
      let m := List.concat messages in
      let a := n2le 32 (sk_scalar k) in
      let A := c_edbase C (sk_scalar k) in
      let r := scalar_uniform (c_sha512 C (hash_prefix ++ a ++ m ++ z)) in
      let R := c_edbase C r in
      let h := scalar_uniform (c_sha512 C (R ++ A ++ m)) in
      let s := n2le 32 ((sk_scalar k * h + r) mod ell) in
      let signbit := N.land (b2n (nth 31 A Byte.x00)) 128 in
      let sig := firstn 32 R ++ s in
      (Ok (upd_nth 63 (fun x => n2b (N.lor (N.land (b2n x) 127) signbit)) sig), rest)
  | (Err e, rest) => (Err e, rest)
  | (Panic, rest) => (Panic, rest)
  end.

(** util.go:21-47 utoy. *)
Definition utoy (u : bytes) (positive : bool) : res bytes :=
  if negb (Nat.eqb (List.length u) 32) then Err (EOther "edwards25519: invalid field element input size")
  else let x := fe_of_bytes u in
       if N.eqb x (p25519 - 1) then Err (EOther "invalid u-point")
       else let y := fe_bytes (fmul (fsub x 1) (finv (fadd x 1))) in
            Ok (upd_nth 31 (fun b => bxor b (if positive then Byte.x00 else Byte.x80)) y).

(** curve25519.go:190-208 VerifySignature; signature[63] panics on a short signature. *)
Definition verify25519 (C : Crypto) (pub sig : bytes) (messages : list bytes) : res bool :=
  if Nat.ltb (List.length sig) 64 then Panic else
  let last := b2n (nth 63 sig Byte.x00) in
  do y <- utoy pub (N.eqb (N.land last 128) 0);
  let sig' := upd_nth 63 (fun x => n2b (N.land (b2n x) 127)) (firstn 64 sig) in
  Ok (c_edverify C y (List.concat messages) sig').

(** curve/djb_public.go:50-56 VerifySignature. *)
Definition verify_signature (C : Crypto) (pub sig : bytes) (messages : list bytes) : res bool :=
  if negb (Nat.eqb (List.length sig) 64) then Ok false
  else verify25519 C pub sig messages.

(** identity/keys.go:10-17 prefixes, :50-56 VerifyAlternateIdentity, :113-119
    SignAlternateIdentity. *)
Definition alt_prefix1 : bytes := repeat Byte.xff 32.
Definition alt_prefix2 : bytes := str "Signal_PNI_Signature".
Definition sign_alternate (C : Crypto) (k : privkey) (rnd : bytes) (other : pubkey) : res bytes * bytes :=
  sign C k rnd [alt_prefix1; alt_prefix2; pub_bytes other].
Definition verify_alternate (C : Crypto) (k : pubkey) (sig : bytes) (other : pubkey) : res bool :=
  verify_signature C k sig [alt_prefix1; alt_prefix2; pub_bytes other].
