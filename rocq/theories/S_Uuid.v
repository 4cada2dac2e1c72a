(** Text forms of a 128-bit identifier (RFC 4122 and the variants google/uuid accepts). *)
From Verif Require Import M_Base.
Local Open Scope N_scope.

(** Lower-case hexadecimal digit of a number below 16, from a table. *)
Definition hexdigits : bytes := str "0123456789abcdef".
Definition hexd (n : N) : byte := nth (N.to_nat n) hexdigits Byte.x00.
(** Two digits per byte. *)
Definition hex2 (b : byte) : bytes := [hexd (b2n b / 16); hexd (b2n b mod 16)].
Definition hexs (b : bytes) : bytes := flat_map hex2 b.

(** Canonical form: groups of 8, 4, 4, 4 and 12 digits separated by dashes. *)
Definition canonical (u : bytes) : bytes :=
  match u with
  | [a;b;c;d;e;f;g;h;i;j;k;l;m;n;o;p] =>
      hexs [a;b;c;d] ++ str "-" ++ hexs [e;f] ++ str "-" ++ hexs [g;h] ++ str "-"
      ++ hexs [i;j] ++ str "-" ++ hexs [k;l;m;n;o;p]
  | _ => []
  end.

(** ASCII lower case. *)
Definition lower (b : byte) : byte :=
  if (65 <=? b2n b) && (b2n b <=? 90) then n2b (b2n b + 32) else b.

(** The texts that denote [u], up to letter case: canonical, with the "urn:uuid:" prefix,
    between any two bracket characters, or 32 bare digits. *)
Definition denotes (b u : bytes) : Prop :=
  List.length u = 16%nat /\
  (map lower b = canonical u
   \/ map lower b = str "urn:uuid:" ++ canonical u
   \/ (exists x y t, b = x :: t ++ [y] /\ map lower t = canonical u)
   \/ map lower b = hexs u).
