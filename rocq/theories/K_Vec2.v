(** Test vectors (see K_Vec1.v): curve/curve25519/curve25519_test.go TestVerifySignature, with
    four of its 64 altered signatures. *)
From Verif Require Import M_Base M_Crypto M_Aes M_Curve M_Ratchet  R_Real K_VecBase.
From Coq Require Import String.
Local Open Scope string_scope.

Definition t_verify : bool := Eval vm_compute in
  (let pub := (hex "ab7e717d4a163b7d9a1d8071dfe9dcf8cdcd1cea3339b6356be84d887e322c64") in let sig := (hex "5de88ca9a89b4a115da79109c67c9c7464a3e4180274f1cb8c63c2984e286dfbede82deb9dcd9fae0bfbb821569b3d9001bd8130cd11d486cef047bd60b86e88") in let msg := (hex "05edce9d9c415ca78cb7252e72c2c4a554d3eb29485a0e1d503118d1a82d99fb4a") in
   okb (new_private_key real (hex "c097248412e58bf05df487968205132794178e367637f5818f81e0e6ce73e865")) (fun k => bytes_eqb (sk_pub k) pub) &&
   okb (verify_signature real pub sig [msg]) (fun v => v) &&
   forallb (fun i => okb (verify_signature real pub (upd_nth i (fun x => bxor x Byte.x01) sig) [msg]) negb) [0; 31; 32; 63])%bool.
Example t_verify_ok : t_verify = true := eq_refl.
