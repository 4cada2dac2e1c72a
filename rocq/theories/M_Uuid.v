(** protocol/distribution/id.go and github.com/google/uuid v1.6.0
    (UUID.String, ParseBytes). *)
From Verif Require Import M_Base.
Local Open Scope N_scope.

(** A distribution ID is 16 bytes. *)
Definition distid := bytes.
Definition distid_eqb (a b : distid) : bool := bytes_eqb a b.

(** encoding/hex, lower case. *)
Definition hex_digit (n : N) : byte := n2b (if n <? 10 then 48 + n else 87 + n).
Definition hex_byte (b : byte) : bytes := [hex_digit (b2n b / 16); hex_digit (b2n b mod 16)].
Definition hex (b : bytes) : bytes := List.concat (map hex_byte b).

Definition dash : byte := Byte.x2d.

(** uuid.String / encodeHex: 8-4-4-4-12 lower-case hex digits. *)
Definition uuid_string (u : distid) : bytes :=
  hex (firstn 4 u) ++ dash :: hex (firstn 2 (skipn 4 u)) ++ dash ::
  hex (firstn 2 (skipn 6 u)) ++ dash :: hex (firstn 2 (skipn 8 u)) ++ dash ::
  hex (firstn 6 (skipn 10 u)).

(** uuid/util.go xvalues: value of a hex digit of either case, 255 otherwise. *)
Definition unhex (b : byte) : option N :=
  let n := b2n b in
  if (48 <=? n) && (n <=? 57) then Some (n - 48)
  else if (97 <=? n) && (n <=? 102) then Some (n - 87)
  else if (65 <=? n) && (n <=? 70) then Some (n - 55)
  else None.

(** uuid/util.go xtob. *)
Definition xtob (a b : byte) : option byte :=
  match unhex a, unhex b with
  | Some x, Some y => Some (n2b (x * 16 + y))
  | _, _ => None
  end.

(** Hex pairs at the given offsets. *)
Fixpoint xtobs (b : bytes) (offs : list nat) : option bytes :=
  match offs with
  | [] => Some []
  | o :: r => match xtob (nth o b Byte.x00) (nth (S o) b Byte.x00), xtobs b r with
              | Some x, Some l => Some (x :: l)
              | _, _ => None
              end
  end.

Definition uuid_offs : list nat :=
  [0; 2; 4; 6; 9; 11; 14; 16; 19; 21; 24; 26; 28; 30; 32; 34]%nat.
Definition raw_offs : list nat :=
  [0; 2; 4; 6; 8; 10; 12; 14; 16; 18; 20; 22; 24; 26; 28; 30]%nat.

(** bytes.EqualFold against the prefix "urn:uuid:": none of its letters has a
    non-ASCII case variant, so ASCII folding is exact. *)
Definition fold_ascii (b : byte) : byte :=
  let n := b2n b in if (65 <=? n) && (n <=? 90) then n2b (n + 32) else b.

(** uuid.ParseBytes, after the length switch. *)
Definition parse36 (b : bytes) : option distid :=
  if Byte.eqb (nth 8 b Byte.x00) dash && Byte.eqb (nth 13 b Byte.x00) dash
     && Byte.eqb (nth 18 b Byte.x00) dash && Byte.eqb (nth 23 b Byte.x00) dash
  then xtobs b uuid_offs else None.

(** uuid.ParseBytes; distribution/id.go:29-38 ParseBytes (and :18-27 Parse, whose
    uuid.Parse accepts the same texts). *)
Definition uuid_parse (b : bytes) : option distid :=
  let n := List.length b in
  if Nat.eqb n 36 then parse36 b
  else if Nat.eqb n 45 then
    (if bytes_eqb (map fold_ascii (firstn 9 b)) (str "urn:uuid:") then parse36 (skipn 9 b) else None)
  else if Nat.eqb n 38 then parse36 (skipn 1 b)
  else if Nat.eqb n 32 then xtobs b raw_offs
  else None.

Definition dist_parse (b : bytes) : res distid :=
  match uuid_parse b with Some u => Ok u | None => Err (EOther "invalid UUID") end.
