(** protocol/crypto/aes/aes.go *)
From Verif Require Import M_Base M_Crypto.

(** crypto/aes.NewCipher accepts keys of 16, 24 or 32 bytes. *)
Definition aes_key_ok (key : bytes) : bool :=
  let n := List.length key in
  Nat.eqb n 16 || Nat.eqb n 24 || Nat.eqb n 32.

(** cipher.NewCBCEncrypter(..).CryptBlocks over [n] whole blocks. *)
Fixpoint cbc_enc_blocks (C : Crypto) (key prev : bytes) (n : nat) (pt : bytes) : bytes :=
  match n with
  | O => []
  | S m => let c := c_aes_enc C key (xor_bytes (firstn 16 pt) prev) in
           c ++ cbc_enc_blocks C key c m (skipn 16 pt)
  end.

(** cipher.NewCBCDecrypter(..).CryptBlocks over [n] whole blocks. *)
Fixpoint cbc_dec_blocks (C : Crypto) (key prev : bytes) (n : nat) (ct : bytes) : bytes :=
  match n with
  | O => []
  | S m => let b := firstn 16 ct in
           xor_bytes (c_aes_dec C key b) prev ++ cbc_dec_blocks C key b m (skipn 16 ct)
  end.

(** aes.go:66-70 pkcs7pad (value of the returned slice; the effect on the caller's
    backing array is modelled in M_Slice.v). *)
Definition pkcs7pad (pt : bytes) : bytes :=
  let n := 16 - (List.length pt mod 16) in
  pt ++ repeat (n2b (N.of_nat n)) n.

(** aes.go:73-82 pkcs7unpad. plaintext[length-1] panics on the empty slice;
    plaintext[:length-n] panics when n > length. *)
Definition pkcs7unpad (pt : bytes) : res bytes :=
  match List.length pt with
  | O => Panic
  | S k =>
      let n := b2n (nth k pt Byte.x00) in
      if N.ltb n 1 || N.ltb 16 n then Err (EOther "invalid padding")
      else if Nat.ltb (List.length pt) (N.to_nat n) then Panic
      else Ok (firstn (List.length pt - N.to_nat n) pt)
  end.

(** aes.go:13-33 CBCEncrypt. *)
Definition cbc_encrypt (C : Crypto) (key iv pt : bytes) : res bytes :=
  if negb (aes_key_ok key) then Err (EOther "crypto/aes: invalid key size")
  else if negb (Nat.eqb (List.length iv) 16) then Err (EOther "IV length must equal block size")
  else let p := pkcs7pad pt in
       Ok (cbc_enc_blocks C key iv (List.length p / 16) p).

(** aes.go:37-59 CBCDecrypt. *)
Definition cbc_decrypt (C : Crypto) (key iv ct : bytes) : res bytes :=
  if negb (aes_key_ok key) then Err (EOther "crypto/aes: invalid key size")
  else if Nat.eqb (List.length ct) 0 || negb (Nat.eqb (List.length ct mod 16) 0)
  then Err (EOther "ciphertext length must be a non-zero multiple of the block size")
  else if negb (Nat.eqb (List.length iv) 16) then Err (EOther "IV length must equal block size")
  else pkcs7unpad (cbc_dec_blocks C key iv (List.length ct / 16) ct).
