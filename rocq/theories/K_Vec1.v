(** The repository's own test vectors, run on the model with the primitives of the standards
    when this file is compiled. These are tests, not proofs: each constant is the result of
    the computation. Here: crypto/aes/aes_test.go TestPKCS7Pad, TestCBC; ratchet/keys_test.go
    TestChainKey; curve/curve25519/curve25519_test.go TestAgreement. *)
From Verif Require Import M_Base M_Crypto M_Aes M_Curve M_Ratchet  R_Real K_VecBase.
From Coq Require Import String.
Local Open Scope string_scope.

Definition t_pad : bool := Eval vm_compute in
  (forallb (fun t => bytes_eqb (pkcs7pad (str (fst t))) (str (fst t) ++ snd t)%list && okb (pkcs7unpad (str (fst t) ++ snd t)%list) (fun p => bytes_eqb p (str (fst t))))
    [("", repeat (n2b 16) 16); ("H", repeat (n2b 15) 15); ("He", repeat (n2b 14) 14); ("Hel", repeat (n2b 13) 13); ("Hell", repeat (n2b 12) 12); ("Hello", repeat (n2b 11) 11); ("Hello,", repeat (n2b 10) 10); ("Hello, ", repeat (n2b 9) 9); ("Hello, W", repeat (n2b 8) 8); ("Hello, Wo", repeat (n2b 7) 7); ("Hello, Wor", repeat (n2b 6) 6); ("Hello, Worl", repeat (n2b 5) 5); ("Hello, World", repeat (n2b 4) 4); ("Hello, World!", repeat (n2b 3) 3); ("Hello, World! ", repeat (n2b 2) 2); ("Hello, World! :", repeat (n2b 1) 1); ("Hello, World! :)", repeat (n2b 16) 16)])%bool.
Example t_pad_ok : t_pad = true := eq_refl.
Definition t_cbc : bool := Eval vm_compute in
  (let key := hex "4e22eb16d964779994222e82192ce9f747da72dc4abe49dfdeeb71d0ffe3796e" in
   let iv := hex "6f8a557ddc0a140c878063a6d5f31d3d" in
   let pt := hex "30736294a124482a4159" in let ct := hex "dd3f573ab4508b9ed0e45e0baf5608f3" in
   okb (cbc_encrypt real key iv pt) (bytes_eqb ct) && okb (cbc_decrypt real key iv ct) (bytes_eqb pt) &&
   errb (cbc_decrypt real key iv pt) && errb (cbc_decrypt real key ct ct) &&
   okb (cbc_decrypt real key (hex "ef8a557ddc0a140c878063a6d5f31d3d") ct) (bytes_eqb (hex "b0736294a124482a4159")))%bool.
Example t_cbc_ok : t_cbc = true := eq_refl.
Definition t_chain : bool := Eval vm_compute in
  okb (new_chain_key (hex "8ab72d6f4cc5ac0d387eaf463378ddb28edd07385b1cb01250c715982e7ad48f") 0) (fun c =>
   let mk := ck_message_keys real c in
   bytes_eqb (mk_cipher mk) (hex "bf51e9d75e0e31031051f82a2491ffc084fa298b7793bd9db620056febf45217") && bytes_eqb (mk_mac mk) (hex "c6c77d6a73a354337a56435e34607dfe48e3ace14e77314dc6abc172e7a7030b") &&
   bytes_eqb (ck_key (ck_next real c)) (hex "28e8f8fee54b801eef7c5cfb2f17f32c7b334485bbb70fac6ec10342a246d15d") &&
   N.eqb (ck_index c) 0 && N.eqb (mk_counter mk) 0 && N.eqb (ck_index (ck_next real c)) 1 && N.eqb (mk_counter (ck_message_keys real (ck_next real c))) 1)%bool.
Example t_chain_ok : t_chain = true := eq_refl.
Definition t_agree : bool := Eval vm_compute in
  okb (new_private_key real (hex "c806439dc9d2c476ffed8f2580c0888d58ab406bf7ae3698879021b96bb4bf59")) (fun a => okb (new_private_key real (hex "b03b34c33a1c44f225b662d2bf4859b8135411fa7b0386d45fb75dc5b91b4466")) (fun b =>
   bytes_eqb (sk_pub a) (hex "1bb75966f2e93a3691dfff942bb2a466a1c08b8d78ca3f4d6df8b8bfa2e4ee28") && bytes_eqb (sk_pub b) (hex "653614993d2b15ee9e5fd3d86ce719ef4ec1daae1886a87b3f5fa9565a27a22f") &&
   okb (agreement real a (hex "653614993d2b15ee9e5fd3d86ce719ef4ec1daae1886a87b3f5fa9565a27a22f")) (bytes_eqb (hex "325f239328941ced6e673b86ba41017448e99b649a9c3806c1dd7ca4c477e629")) && okb (agreement real b (hex "1bb75966f2e93a3691dfff942bb2a466a1c08b8d78ca3f4d6df8b8bfa2e4ee28")) (bytes_eqb (hex "325f239328941ced6e673b86ba41017448e99b649a9c3806c1dd7ca4c477e629"))))%bool.
Example t_agree_ok : t_agree = true := eq_refl.
