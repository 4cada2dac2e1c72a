(** Property theorems: the primitives of the standards (C81). *)
From Verif Require Import M_Base M_Crypto M_Aes M_Curve S_Crypto S_Aes S_Edwards R_Sha R_Aes R_Curve R_Real
  P_Base P_PrimeEll P_CurveSpec P_Real P_CryptoTop.
From Coq Require Import ZArith Znumtheory.
Local Open Scope nat_scope.

(** C81. HMAC-SHA256, SHA-512, AES, X25519 and Ed25519 as their standards define them obey
    every law that the other theorems assume. *)
Theorem c81_laws : CryptoOk real.
Proof. exact real_ok. Qed.
Print Assumptions c81_laws.

(** The points of the curve are a group, and the base point has the prime order [ell]. *)
Theorem c81_group : forall d, is_d d ->
  (forall p q, on_curve d p -> on_curve d q -> exists r, is_sum d p q r /\ forall r', is_sum d p q r' -> r' = r) /\
  (forall p q r, on_curve d p -> on_curve d q -> is_sum d p q r -> is_sum d q p r) /\
  (forall p q r pq qr t, on_curve d p -> on_curve d q -> on_curve d r ->
     is_sum d p q pq -> is_sum d pq r t -> is_sum d q r qr -> is_sum d p qr t) /\
  (forall p, on_curve d p -> is_sum d neutral p p) /\
  (forall p q, on_curve d p -> negated p q -> is_sum d p q neutral) /\
  prime (Z.of_N ell) /\ (exists B, is_base d B) /\
  (forall B n, is_base d B -> (is_mul d B n neutral <-> (n mod ell = 0)%N)).
Proof. exact curve_group. Qed.
Print Assumptions c81_group.

(** The ladder and the base-point multiplication are multiplications in that group. *)
Theorem c81_x25519 : forall d k u p r, is_d d -> List.length k = 32 -> on_curve d p ->
  snd p <> 1%Z -> snd p <> (fieldp - 1)%Z ->
  is_u (Z.of_N (le2n u) mod 2 ^ 255) p -> is_mul d p (le2n (clamp k)) r ->
  let v := Z.of_N (le2n (c_x25519 real k u)) in
  (0 <= v < fieldp)%Z /\ (snd r <> 1%Z -> is_u v r) /\ (snd r = 1%Z -> v = 0%Z).
Proof. exact real_x25519_spec. Qed.
Print Assumptions c81_x25519.
Theorem c81_edbase : forall d B s R, is_d d -> is_base d B -> is_mul d B s R -> encodes (c_edbase real s) R.
Proof. exact real_base_spec. Qed.
Print Assumptions c81_edbase.
(** Ed25519 accepts exactly when R = h(-A) + sB. *)
Theorem c81_edverify : forall d pk m sig, is_d d -> (c_edverify real pk m sig = true <-> accepts d real_sha512 pk m sig).
Proof. exact real_verify_spec. Qed.
Print Assumptions c81_edverify.

(** Unconditional forms of C08, C13 and C14. *)
Theorem c81_aes : forall key iv pt, legal_key key -> List.length iv = 16 ->
  exists ct, cbc_encrypt real key iv pt = Ok ct /\ cbc_decrypt real key iv ct = Ok pt.
Proof. exact real_cbc. Qed.
Print Assumptions c81_aes.
Theorem c81_agreement : forall ka kb, List.length ka = 32 -> List.length kb = 32 ->
  exists a b s, new_private_key real ka = Ok a /\ new_private_key real kb = Ok b /\
    agreement real a (sk_pub b) = Ok s /\ agreement real b (sk_pub a) = Ok s /\ List.length s = 32.
Proof. exact real_agreement. Qed.
Print Assumptions c81_agreement.
Theorem c81_signature : forall key rnd parts, List.length key = 32 -> 64 <= List.length rnd ->
  exists k sig, new_private_key real key = Ok k /\ sign real k rnd parts = (Ok sig, skipn 64 rnd) /\
    verify_signature real (sk_pub k) sig parts = Ok true.
Proof. exact real_signature. Qed.
Print Assumptions c81_signature.

(** Two private keys have one public key only if their scalars are equal or opposite. *)
Theorem c81_public_keys : forall ka kb, List.length ka = 32 -> List.length kb = 32 ->
  (mont_pub real ka = mont_pub real kb <->
   le2n (clamp ka) mod ell = le2n (clamp kb) mod ell \/ (le2n (clamp ka) + le2n (clamp kb)) mod ell = 0)%N.
Proof. exact real_public_keys. Qed.
Print Assumptions c81_public_keys.
Example c81_case : is_d (Z.of_N ed_d) /\ (exists B, is_base (Z.of_N ed_d) B /\ snd B <> 1%Z /\ snd B <> (fieldp - 1)%Z) /\
  List.length (repeat Byte.x01 32) = 32.
Proof. exact real_case. Qed.
