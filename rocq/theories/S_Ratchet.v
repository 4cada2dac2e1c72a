(** Symmetric-key ratchet, stated on its own: position [n] of a chain. *)
From Verif Require Import M_Base M_Crypto M_Ratchet.

(** The chain key bytes [n] steps after [k]. *)
Definition chain_at (C : Crypto) (k : bytes) (n : nat) : bytes :=
  Nat.iter n (fun x => c_hmac C x [Byte.x02]) k.
(** RFC 5869: T(0) is empty, T(i) = HMAC(prk, T(i-1) | info | i); the output is the first
    [n] bytes of T(1) | T(2) | ...; the default salt is 32 zero bytes. *)
Fixpoint rfc_T (C : Crypto) (prk info : bytes) (i : nat) : bytes :=
  match i with
  | O => []
  | S j => c_hmac C prk (rfc_T C prk info j ++ info ++ [n2b (N.of_nat i)])
  end.
Definition rfc_hkdf (C : Crypto) (salt : option bytes) (secret info : bytes) (n : nat) : bytes :=
  let prk := c_hmac C (match salt with Some s => s | None => repeat Byte.x00 32 end) secret in
  firstn n (List.concat (map (rfc_T C prk info) (seq 1 ((n + 31) / 32)))).
(** The keys of a whisper message encrypted with chain key bytes [k] at counter [i]:
    80 bytes of HKDF-SHA256 output over HMAC(k, 1), split 32/32/16. *)
Definition keys_at (C : Crypto) (k : bytes) (i : N) (m : msgkeys) : Prop :=
  mk_cipher m ++ mk_mac m ++ mk_iv m =
    rfc_hkdf C None (c_hmac C k [Byte.x01]) (str "WhisperMessageKeys") 80 /\
  List.length (mk_cipher m) = 32 /\ List.length (mk_mac m) = 32 /\ List.length (mk_iv m) = 16 /\
  mk_counter m = i.
(** The same for a group message: 48 bytes split 16 (IV) / 32 (key). *)
Definition gkeys_at (C : Crypto) (k : bytes) (i : N) (m : gmsgkey) : Prop :=
  gk_iv m ++ gk_cipher m =
    rfc_hkdf C None (c_hmac C k [Byte.x01]) (str "WhisperGroup") 48 /\
  List.length (gk_cipher m) = 32 /\ List.length (gk_iv m) = 16 /\
  gk_seed m = c_hmac C k [Byte.x01] /\ gk_iter m = i.
