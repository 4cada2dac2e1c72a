(** Test vectors (see K_Vec1.v): tests/ratchet_test.go TestBobSession. *)
From Verif Require Import M_Base M_Crypto M_Aes M_Curve M_Ratchet M_State M_Session R_Real K_VecBase.
From Coq Require Import String.
Local Open Scope string_scope.

Definition t_bob : bool := Eval vm_compute in
  okb (new_keypair real (hex "4875cc69ddf8ea0719ec947d61081135868d5fd801f02c0225e516df2156605e") (hex "05f1f43874f6966956c2dd473f8fa15adeb71d1cb991b2341692324cefb1c5e626")) (fun ident =>
  okb (new_keypair real (hex "a1cab48f7c893fafa9880a28c3b4999d28d6329562d27a4ea4e22e9ff1bdd65a") (hex "052cb49776b8770205745a3a6e24f579cdb4ba7a89041005928ebbadc9c05ad458")) (fun eph =>
  okb (new_keypair real (hex "583900131fb727998b7803fe6ac22cc591f342e4e42a8c8d5d78194209b8d253") (hex "05ac248a8f263be6863576eb0362e28c828f0107a3379d34bab1586bf8c770cd67")) (fun signed =>
  okb (new_public_key (hex "05b4a8455660ada65b401007f615e654041746432e3339c6875149bceefcb42b4a")) (fun ai => okb (new_public_key (hex "05472d1fb1a9862c3af6beaca8920277e2b26f4a79213ec7c906aeb35e03cf8950")) (fun ab =>
  okb (init_bob real ident (Some signed) None (Some eph) ai ab) (fun s =>
    bytes_eqb (ss_local s) (hex "05f1f43874f6966956c2dd473f8fa15adeb71d1cb991b2341692324cefb1c5e626") && bytes_eqb (ss_remote s) (hex "05b4a8455660ada65b401007f615e654041746432e3339c6875149bceefcb42b4a") &&
    match ss_sender s with
    | Some ch => match pc_key ch with Some k => bytes_eqb (pck_key k) (hex "9797caca53c989bbe229a40ca7727010eb2604fc14945d77958a0aeda088b44d") | None => false end
    | None => false
    end))))))%bool.
Example t_bob_ok : t_bob = true := eq_refl.
