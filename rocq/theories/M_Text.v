(** The text forms of addresses, pre-key ids and ciphertext types. *)
From Verif Require Import M_Base.
Local Open Scope N_scope.

(** strconv.FormatUint(n, 10), and fmt's %d for an unsigned value: the digits of [n / 10]
    before the last one as long as there are any. *)
Fixpoint dec_from (fuel : nat) (n : N) : bytes :=
  match fuel with
  | O => []
  | S k => if n <? 10 then [n2b (48 + n)] else dec_from k (n / 10) ++ [n2b (48 + n mod 10)]
  end.
Definition format_uint (n : N) : bytes := dec_from (S (N.size_nat n)) n.
(** strconv.FormatInt(z, 10). *)
Definition format_int (z : Z) : bytes :=
  if (z <? 0)%Z then Byte.x2d :: format_uint (Z.abs_N z) else format_uint (Z.abs_N z).

(** protocol/address/address.go:15-17 Address.String: "%s.%d". *)
Definition address_string (a : addr) : bytes := str (a_name a) ++ Byte.x2e :: format_uint (a_dev a).

(** protocol/prekey/prekey.go:14-16 ID.String. *)
Definition prekey_id_string (id : N) : bytes := format_uint id.

(** protocol/message/ciphertexttype_string.go:17-38 CiphertextType.String (a Go int):
    slices of two joined tables of names. *)
Definition type_names_0 : bytes := str "WhisperTypePreKeyType".
Definition type_names_1 : bytes := str "SenderKeyTypePlaintextType".
Definition type_index_0 : list nat := [0; 11; 21]%nat.
Definition type_index_1 : list nat := [0; 13; 26]%nat.
Definition slice (b : bytes) (i j : nat) : bytes := firstn (j - i) (skipn i b).
Definition type_string (t : Z) : bytes :=
  if ((2 <=? t) && (t <=? 3))%Z then
    let i := Z.to_nat (t - 2) in slice type_names_0 (nth i type_index_0 0%nat) (nth (S i) type_index_0 0%nat)
  else if ((7 <=? t) && (t <=? 8))%Z then
    let i := Z.to_nat (t - 7) in slice type_names_1 (nth i type_index_1 0%nat) (nth (S i) type_index_1 0%nat)
  else str "CiphertextType(" ++ format_int t ++ str ")".
