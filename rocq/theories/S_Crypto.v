(** The laws of the primitives that theorems may assume, as one explicit hypothesis.
    They are facts about the real HMAC-SHA256, SHA-512, AES, X25519 and Ed25519; K_Toy.v
    shows that the list is consistent. *)
From Verif Require Import M_Base M_Crypto M_Aes M_Curve.

(** The Montgomery public key of a 32-byte private key. *)
Definition mont_pub (C : Crypto) (k : bytes) : bytes := ed_to_mont (c_edbase C (scalar_of k)).

Record CryptoOk (C : Crypto) : Prop := mkCryptoOk {
  (** digest sizes *)
  ok_hmac_len : forall k m, List.length (c_hmac C k m) = 32;
  ok_sha_len : forall m, List.length (c_sha512 C m) = 64;
  (** AES is a permutation of 16-byte blocks *)
  ok_aes_enc_len : forall k b, aes_key_ok k = true -> List.length b = 16 ->
    List.length (c_aes_enc C k b) = 16;
  ok_aes_dec_len : forall k b, aes_key_ok k = true -> List.length b = 16 ->
    List.length (c_aes_dec C k b) = 16;
  ok_aes_inv : forall k b, aes_key_ok k = true -> List.length b = 16 ->
    c_aes_dec C k (c_aes_enc C k b) = b;
  (** X25519 *)
  ok_x_len : forall k u, List.length k = 32 -> List.length u = 32 ->
    List.length (c_x25519 C k u) = 32;
  ok_x_clamp : forall k u, List.length k = 32 -> c_x25519 C (clamp k) u = c_x25519 C k u;
  ok_dh : forall a b, List.length a = 32 -> List.length b = 32 ->
    c_x25519 C a (mont_pub C b) = c_x25519 C b (mont_pub C a);
  ok_dh_nz : forall a b, List.length a = 32 -> List.length b = 32 ->
    all_zero (c_x25519 C a (mont_pub C b)) = false;
  (** Edwards points: canonical encodings, and only the neutral element has y = 1 *)
  ok_ed_len : forall s, (s < ell)%N -> List.length (c_edbase C s) = 32;
  ok_ed_canon : forall s, (0 < s < ell)%N ->
    (le2n (c_edbase C s) mod two255 < p25519)%N /\ (le2n (c_edbase C s) mod two255 <> 1)%N;
  (** Ed25519 accepts (R, S) when S = a h + r *)
  ok_ed_verify : forall a r m, (0 < a < ell)%N -> (r < ell)%N ->
    let A := c_edbase C a in let R := c_edbase C r in
    c_edverify C A m
      (R ++ n2le 32 ((a * (le2n (c_sha512 C (R ++ A ++ m)) mod ell) + r) mod ell)) = true
}.
