(** Test vectors (see K_Vec1.v): tests/ratchet_test.go TestAliceSession. *)
From Verif Require Import M_Base M_Crypto M_Aes M_Curve M_Ratchet M_State M_Session R_Real K_VecBase.
From Coq Require Import String.
Local Open Scope string_scope.

Definition t_alice : bool := Eval vm_compute in
  okb (new_keypair real (hex "9040f0d4e09cf38f6dc7c13779c908c015a1da4fa78737a080eb0a6f4f5f8f58") (hex "05b4a8455660ada65b401007f615e654041746432e3339c6875149bceefcb42b4a")) (fun ident =>
  okb (new_keypair real (hex "11ae7c64d1e61cd596b76a0db5012673391cae66edbfcf073b4da80516a47449") (hex "05472d1fb1a9862c3af6beaca8920277e2b26f4a79213ec7c906aeb35e03cf8950")) (fun base =>
  okb (new_public_key (hex "05f1f43874f6966956c2dd473f8fa15adeb71d1cb991b2341692324cefb1c5e626")) (fun bi => okb (new_public_key (hex "05ac248a8f263be6863576eb0362e28c828f0107a3379d34bab1586bf8c770cd67")) (fun bs => okb (new_public_key (hex "052cb49776b8770205745a3a6e24f579cdb4ba7a89041005928ebbadc9c05ad458")) (fun be =>
  okb (fst (init_alice real (repeat Byte.x42 32) ident base bi bs None be)) (fun s =>
    bytes_eqb (ss_local s) (hex "05b4a8455660ada65b401007f615e654041746432e3339c6875149bceefcb42b4a") && bytes_eqb (ss_remote s) (hex "05f1f43874f6966956c2dd473f8fa15adeb71d1cb991b2341692324cefb1c5e626") &&
    match ss_receivers s with
    | [ch] => bytes_eqb (pc_ratchet ch) (hex "052cb49776b8770205745a3a6e24f579cdb4ba7a89041005928ebbadc9c05ad458") && match pc_key ch with Some k => bytes_eqb (pck_key k) (hex "ab9be50e5cb22a925446ab90ee5670545f4fd32902459ec274b6ad0ae5d6031a") | None => false end
    | _ => false
    end))))))%bool.
Example t_alice_ok : t_alice = true := eq_refl.
