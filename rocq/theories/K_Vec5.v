(** Test vectors (see K_Vec1.v): fingerprint/fingerprint_test.go TestFingerprint_V1 and _V2,
    fingerprint/scannable_test.go TestScannable. *)
From Verif Require Import M_Base M_Crypto M_Aes M_Curve M_Ratchet M_Fingerprint R_Real K_VecBase.
From Coq Require Import String.
Local Open Scope string_scope.

Definition alice_key : pubkey := match new_public_key (hex "0506863bc66d02b40d27b8d49ca7c09e9239236f9d7d25d6fcca5ce13c7064d868") with Ok k => k | _ => [] end.
Definition bob_key : pubkey := match new_public_key (hex "05f781b6fb32fed9ba1cf2de978d4d5da28dc34046ae814402b5c0dbd96fda907b") with Ok k => k | _ => [] end.
Definition fp_run (version : N) : res fprint :=
  new_fingerprint real version 5200 (str "+14152222222") alice_key (str "+14153333333") bob_key.
Definition t_fp : bool := Eval vm_compute in
  match fp_run 1 with
  | Ok f =>
      bytes_eqb (scan_bytes (fp_scan f)) (hex "080112220a201e301a0353dce3dbe7684cb8336e85136cdc0ee96219494ada305d62a7bd61df1a220a20d62cbf73a11592015b6b9f1682ac306fea3aaf3885b84d12bca631e9d4fb3a4d") &&
      bytes_eqb (fp_string f) (str "300354477692869396892869876765458257569162576843440918079131") &&
      (* the other side and version 2 use the same two digests *)
      okb (new_scannable 1 (sc_remote (fp_scan f)) (sc_local (fp_scan f))) (fun s => bytes_eqb (scan_bytes s) (hex "080112220a20d62cbf73a11592015b6b9f1682ac306fea3aaf3885b84d12bca631e9d4fb3a4d1a220a201e301a0353dce3dbe7684cb8336e85136cdc0ee96219494ada305d62a7bd61df")) &&
      okb (new_scannable 2 (sc_local (fp_scan f)) (sc_remote (fp_scan f))) (fun s => bytes_eqb (scan_bytes s) (hex "080212220a201e301a0353dce3dbe7684cb8336e85136cdc0ee96219494ada305d62a7bd61df1a220a20d62cbf73a11592015b6b9f1682ac306fea3aaf3885b84d12bca631e9d4fb3a4d"))
  | _ => false
  end%bool.
Example t_fp_ok : t_fp = true := eq_refl.
Definition t_scan : bool := Eval vm_compute in
  okb (new_scannable 2 (repeat Byte.x12 32) (repeat Byte.xba 32)) (fun s =>
    bytes_eqb (scan_bytes s) (hex "080212220a20" ++ repeat Byte.x12 32 ++ hex "1a220a20" ++ repeat Byte.xba 32)%list).
Example t_scan_ok : t_scan = true := eq_refl.
