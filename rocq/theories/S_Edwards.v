(** The curve of RFC 7748 and RFC 8032 in whole numbers: -x^2 + y^2 = 1 + d x^2 y^2 modulo
    p = 2^255 - 19 with 121666 d = -121665, the sum of two points, multiples, encodings. *)
From Verif Require Import M_Base M_Curve.
From Coq Require Import ZArith.
Local Open Scope Z_scope.

Definition fieldp : Z := 2 ^ 255 - 19.
Definition cong (a b : Z) : Prop := a mod fieldp = b mod fieldp.
Definition is_d (d : Z) : Prop := cong (121666 * d) (-121665).
Definition point : Type := (Z * Z)%type.
Definition on_curve (d : Z) (P : point) : Prop :=
  let (x, y) := P in 0 <= x < fieldp /\ 0 <= y < fieldp /\ cong (y * y - x * x) (1 + d * x * x * y * y).
(** The addition law, without division. *)
Definition is_sum (d : Z) (P Q R : point) : Prop :=
  let (x1, y1) := P in let (x2, y2) := Q in let (x, y) := R in
  on_curve d R /\
  cong (x * (1 + d * x1 * x2 * y1 * y2)) (x1 * y2 + y1 * x2) /\
  cong (y * (1 - d * x1 * x2 * y1 * y2)) (y1 * y2 + x1 * x2).
Definition neutral : point := (0, 1).
Definition negated (P N : point) : Prop := cong (fst N) (- fst P) /\ 0 <= fst N < fieldp /\ snd N = snd P.
Inductive is_mul (d : Z) (P : point) : N -> point -> Prop :=
| mul_zero : is_mul d P 0%N neutral
| mul_succ : forall n Q R, is_mul d P n Q -> is_sum d P Q R -> is_mul d P (N.succ n) R.
(** The base point: y = 4/5 and x even. *)
Definition is_base (d : Z) (B : point) : Prop :=
  on_curve d B /\ cong (5 * snd B) 4 /\ fst B mod 2 = 0.
(** The compressed form: y in 255 bits, the parity of x on top. *)
Definition encodes (b : bytes) (P : point) : Prop :=
  List.length b = 32%nat /\ Z.of_N (le2n b) = snd P + 2 ^ 255 * (fst P mod 2).
(** What a decoder that tolerates an unreduced y and a sign on x = 0 accepts. *)
Definition decodes (b : bytes) (P : point) : Prop :=
  cong (Z.of_N (le2n b) mod 2 ^ 255) (snd P) /\ (fst P = 0 \/ fst P mod 2 = (Z.of_N (le2n b) / 2 ^ 255) mod 2).
(** u = (1 + y) / (1 - y) *)
Definition is_u (u : Z) (P : point) : Prop := cong (u * (1 - snd P)) (1 + snd P).

(** RFC 8032 section 5.1.7 without cofactor: the R of the signature is h(-A) + sB. *)
Definition accepts (d : Z) (sha : bytes -> bytes) (pk m sig : bytes) : Prop :=
  let s := le2n (skipn 32 sig) in let h := (le2n (sha (firstn 32 sig ++ pk ++ m)%list) mod ell)%N in
  List.length sig = 64%nat /\ (s < ell)%N /\
  exists B A A' hA sB R, is_base d B /\ on_curve d A /\ decodes pk A /\ negated A A' /\
    is_mul d A' h hA /\ is_mul d B s sB /\ is_sum d hA sB R /\ encodes (firstn 32 sig) R.

(** The u coordinates of the points whose eighth multiple is neutral, on the curve and on its
    twist (RFC 7748 section 6.1, cr.yp.to/ecdh.html). *)
Definition small_u (u : Z) : Prop :=
  In u [0; 1; 325606250916557431795983626356110631294008115727848805560023387167927233504;
        39382357235489614581723060781553021112529911719440698176882885853963445705823; fieldp - 1].
