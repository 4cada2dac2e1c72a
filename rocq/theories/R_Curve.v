(** The curve primitives as their standards define them: X25519 (RFC 7748) as in crypto/ecdh,
    edwards25519 (RFC 8032) as in filippo.io/edwards25519 and crypto/ed25519. They are
    instances of the fields of [Crypto] in M_Crypto.v. *)
From Verif Require Import M_Base M_Crypto M_Aes M_Curve.
Local Open Scope N_scope.

(** Arithmetic modulo 2^255 - 19 without long division: equal to [fmul], [fadd], [fsub] of
    M_Curve.v (P_RealCurve.v). *)
Definition fold255 (x : N) : N := N.land x 57896044618658097711785492504343953926634992332820282019728792003956564819967 + 19 * N.shiftr x 255.
Definition rmul (a b : N) : N := let y := fold255 (fold255 (a * b)) in if y <? p25519 then y else y mod p25519.
Definition radd (a b : N) : N :=
  let s := a + b in if s <? p25519 then s else let t := s - p25519 in if t <? p25519 then t else s mod p25519.
Definition rsub (a b : N) : N := if b <? p25519 then radd a (p25519 - b) else fsub a b.
Fixpoint rpow (b : N) (e : positive) : N :=
  match e with
  | xH => rmul b 1
  | xO q => let r := rpow b q in rmul r r
  | xI q => let r := rpow b q in rmul (rmul r r) b
  end.
Definition rinv (a : N) : N := match p25519 - 2 with N0 => 0 | Npos e => rpow a e end.

(** RFC 7748 section 5: one step of the ladder and the whole of it over the bits of the
    scalar; [x1] is the u coordinate, the state holds two projective points. *)
Definition lad_double (x z : N) : N * N :=
  let a := radd x z in let b := rsub x z in let aa := rmul a a in let bb := rmul b b in
  let e := rsub aa bb in (rmul aa bb, rmul e (radd aa (rmul 121665 e))).
Definition lad_add (x1 x z x' z' : N) : N * N :=
  let da := rmul (rsub x' z') (radd x z) in let cb := rmul (radd x' z') (rsub x z) in
  let s := radd da cb in let t := rsub da cb in (rmul s s, rmul x1 (rmul t t)).
Definition lad_step (x1 : N) (b : bool) (s : (N * N) * (N * N)) : (N * N) * (N * N) :=
  let '((x2, z2), (x3, z3)) := s in
  if b then (lad_add x1 x2 z2 x3 z3, lad_double x3 z3) else (lad_double x2 z2, lad_add x1 x2 z2 x3 z3).
Fixpoint ladder (x1 : N) (k : positive) : (N * N) * (N * N) :=
  match k with
  | xH => lad_step x1 true ((1, 0), (x1, 1))
  | xO q => lad_step x1 false (ladder x1 q)
  | xI q => lad_step x1 true (ladder x1 q)
  end.
(** X25519(k, u): the scalar is clamped (so bit 254, where RFC 7748 begins, is its top bit). *)
Definition real_x25519 (k u : bytes) : bytes :=
  match le2n (clamp k) with
  | N0 => repeat Byte.x00 32
  | Npos s => let '((x, z), _) := ladder (fe_of_bytes u) s in fe_bytes (rmul x (rinv z))
  end.

(** RFC 8032 section 5.1: -x^2 + y^2 = 1 + d x^2 y^2, d = -121665/121666. *)
Definition ed_d : N := 37095705934669439343138083508754565189542113879843219016388785533085940283555.
Definition ed_bx : N := 15112221349535400772501151409588531511454012693041857206046113283949847762202.
Definition ed_by : N := 46316835694926478169428394003475163141307993866256225615783033603165251855960.
Definition sqrt_m1 : N := 19681161376707505956807079304988542015446066515923890162744021073123829784752.
(** Extended coordinates: x = X/Z, y = Y/Z, xy = T/Z. *)
Record ext := mkExt { eX : N; eY : N; eZ : N; eT : N }.
Definition ext_zero : ext := mkExt 0 1 1 0.
Definition ext_base : ext := mkExt ed_bx ed_by 1 (rmul ed_bx ed_by).
Definition ext_neg (p : ext) : ext := mkExt (rsub 0 (eX p)) (eY p) (eZ p) (rsub 0 (eT p)).
(** RFC 8032 section 5.1.4, the addition formulas. *)
Definition ext_add (p q : ext) : ext :=
  let a := rmul (rsub (eY p) (eX p)) (rsub (eY q) (eX q)) in
  let b := rmul (radd (eY p) (eX p)) (radd (eY q) (eX q)) in
  let c := rmul (rmul (eT p) (radd ed_d ed_d)) (eT q) in
  let d := rmul (radd (eZ p) (eZ p)) (eZ q) in
  let e := rsub b a in let f := rsub d c in let g := radd d c in let h := radd b a in
  mkExt (rmul e f) (rmul g h) (rmul f g) (rmul e h).
Fixpoint ext_pos (k : positive) (p : ext) : ext :=
  match k with
  | xH => p
  | xO q => let r := ext_pos q p in ext_add r r
  | xI q => let r := ext_pos q p in ext_add p (ext_add r r)
  end.
Definition ext_mul (k : N) (p : ext) : ext := match k with N0 => ext_zero | Npos q => ext_pos q p end.
(** Section 5.1.2 encoding, 5.1.3 decoding (as edwards25519 Point.SetBytes: a y that is not
    reduced is accepted, and so is a set sign bit with x = 0). *)
Definition ext_bytes (p : ext) : bytes :=
  let zi := rinv (eZ p) in
  n2le 32 (rmul (eY p) zi + (rmul (eX p) zi mod 2) * two255).
Definition ed_root (w : N) : option N :=
  let r := match (p25519 + 3) / 8 with N0 => 0 | Npos e => rpow w e end in
  let rr := rmul r r in
  if rr =? w then Some r else if rr =? rsub 0 w then Some (rmul r sqrt_m1) else None.
Definition ext_of_bytes (b : bytes) : option ext :=
  let y := fe_of_bytes b in
  let yy := rmul y y in
  match ed_root (rmul (rsub yy 1) (rinv (radd (rmul ed_d yy) 1))) with
  | None => None
  | Some r => let x := if N.eqb (r mod 2) ((le2n b / two255) mod 2) then r else rsub 0 r in
              Some (mkExt x y 1 (rmul x y))
  end.
Definition real_edbase (s : N) : bytes := ext_bytes (ext_mul s ext_base).
(** crypto/ed25519 verify. *)
Definition real_edverify (sha : bytes -> bytes) (pk m sig : bytes) : bool :=
  let s := le2n (skipn 32 sig) in
  if negb (Nat.eqb (List.length sig) 64) || negb (s <? ell) then false
  else match ext_of_bytes pk with
       | None => false
       | Some a =>
           let h := le2n (sha (firstn 32 sig ++ pk ++ m)) mod ell in
           bytes_eqb (firstn 32 sig) (ext_bytes (ext_add (ext_mul h (ext_neg a)) (ext_mul s ext_base)))
       end.
