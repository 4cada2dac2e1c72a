(** Protocol-buffer wire format as implemented by google.golang.org/protobuf
    (encoding/protowire and internal/impl), used by every codec of the repository
    (protocol/generated/v1). *)
From Verif Require Import M_Base.
Local Open Scope N_scope.

(** protowire.ConsumeVarint: at most ten bytes, the tenth below 2. *)
Fixpoint dec_varint_aux (fuel : nat) (b : bytes) : option (N * bytes) :=
  match fuel with
  | O => None
  | S f =>
      match b with
      | [] => None
      | x :: r =>
          let n := b2n x in
          if n <? 128 then
            (match f with
             | O => if n <? 2 then Some (n, r) else None
             | S _ => Some (n, r)
             end)
          else match dec_varint_aux f r with
               | Some (v, r') => Some (n - 128 + 128 * v, r')
               | None => None
               end
      end
  end.
Definition dec_varint (b : bytes) : option (N * bytes) := dec_varint_aux 10 b.

(** protowire.AppendVarint of a uint64. *)
Fixpoint enc_varint_aux (fuel : nat) (n : N) : bytes :=
  match fuel with
  | O => []
  | S f => if n <? 128 then [n2b n]
           else n2b (128 + n mod 128) :: enc_varint_aux f (n / 128)
  end.
Definition enc_varint (n : N) : bytes := enc_varint_aux 10 n.

(** One field value by wire type: 0 varint, 1 fixed64, 2 length-delimited, 5 fixed32,
    3 a (skipped) group. *)
Inductive wval :=
| WVarint (n : N)
| WI64 (b : bytes)
| WLen (b : bytes)
| WI32 (b : bytes)
| WGroup.

Definition field := (N * wval)%type.

(** Exactly [n] bytes. *)
Definition take (n : nat) (b : bytes) : option (bytes * bytes) :=
  if Nat.ltb (List.length b) n then None else Some (firstn n b, skipn n b).

(** protowire.ConsumeBytes. *)
Definition dec_len (b : bytes) : option (bytes * bytes) :=
  match dec_varint b with
  | Some (m, r) => if N.of_nat (List.length r) <? m then None
                   else Some (firstn (N.to_nat m) r, skipn (N.to_nat m) r)
  | None => None
  end.

(** protowire.consumeFieldValueD for the non-group types (6 and 7 are reserved). *)
Definition dec_scalar (typ : N) (b : bytes) : option (wval * bytes) :=
  if typ =? 0 then
    match dec_varint b with Some (n, r) => Some (WVarint n, r) | None => None end
  else if typ =? 1 then
    match take 8 b with Some (v, r) => Some (WI64 v, r) | None => None end
  else if typ =? 2 then
    match dec_len b with Some (v, r) => Some (WLen v, r) | None => None end
  else if typ =? 5 then
    match take 4 b with Some (v, r) => Some (WI32 v, r) | None => None end
  else None.

(** protowire.ConsumeTag: field numbers 1 .. 2^31-1. *)
Definition dec_tag (b : bytes) : option (N * N * bytes) :=
  match dec_varint b with
  | Some (t, r) =>
      let num := t / 8 in
      if (num <? 1) || (2147483647 <? num) then None else Some (num, t mod 8, r)
  | None => None
  end.

(** protowire.consumeFieldValueD, StartGroupType: skip up to the matching end group.
    [depth] starts at the default recursion limit 10000; [fuel] bounds the number of
    fields by the number of bytes (each takes at least one). *)
Fixpoint skip_group (fuel : nat) (depth : Z) (num : N) (b : bytes) : option bytes :=
  match fuel with
  | O => None
  | S f =>
      match dec_tag b with
      | None => None
      | Some (num2, typ2, r) =>
          if typ2 =? 4 then (if num =? num2 then Some r else None)
          else if typ2 =? 3 then
            (if (depth - 1 <? 0)%Z then None
             else match skip_group f (depth - 1) num2 r with
                  | Some r' => skip_group f depth num r'
                  | None => None
                  end)
          else match dec_scalar typ2 r with
               | Some (_, r') => skip_group f depth num r'
               | None => None
               end
      end
  end.

(** internal/impl unmarshalPointer: the sequence of fields of a message. A known field
    with the expected wire type and an unknown or mismatching field consume the same
    bytes and fail in the same cases, so the list of fields is independent of the
    message type. Field numbers above 2^29-1 are rejected here; an end-group tag at
    top level is rejected. *)
Fixpoint dec_fields_aux (fuel : nat) (b : bytes) : option (list field) :=
  match b with
  | [] => Some []
  | _ =>
      match fuel with
      | O => None
      | S f =>
          match dec_varint b with
          | None => None
          | Some (t, r) =>
              let num := t / 8 in
              let typ := t mod 8 in
              if (num <? 1) || (536870911 <? num) then None
              else
                let v := if typ =? 3
                         then match skip_group (List.length r) 10000 num r with
                              | Some r' => Some (WGroup, r')
                              | None => None
                              end
                         else dec_scalar typ r in
                match v with
                | None => None
                | Some (w, r') =>
                    match dec_fields_aux f r' with
                    | Some fs => Some ((num, w) :: fs)
                    | None => None
                    end
                end
          end
      end
  end.
Definition dec_fields (b : bytes) : option (list field) := dec_fields_aux (List.length b) b.

(** Marshalling of one field: tag (number and wire type) then payload. *)
Definition enc_wval (w : wval) : bytes :=
  match w with
  | WVarint n => enc_varint n
  | WI64 b => b
  | WLen b => enc_varint (N.of_nat (List.length b)) ++ b
  | WI32 b => b
  | WGroup => []
  end.
Definition wtype (w : wval) : N :=
  match w with WVarint _ => 0 | WI64 _ => 1 | WLen _ => 2 | WI32 _ => 5 | WGroup => 3 end.
Definition enc_field (f : field) : bytes :=
  enc_varint (fst f * 8 + wtype (snd f)) ++ enc_wval (snd f).
Definition enc_fields (fs : list field) : bytes := List.concat (map enc_field fs).

(** Reading fields out of the list: the last occurrence with the expected wire type
    wins for scalars and bytes. *)
Fixpoint get_varint (num : N) (fs : list field) : option N :=
  match fs with
  | [] => None
  | (m, WVarint n) :: r =>
      match get_varint num r with
      | Some v => Some v
      | None => if m =? num then Some n else None
      end
  | _ :: r => get_varint num r
  end.
Fixpoint get_bytes (num : N) (fs : list field) : option bytes :=
  match fs with
  | [] => None
  | (m, WLen b) :: r =>
      match get_bytes num r with
      | Some v => Some v
      | None => if m =? num then Some b else None
      end
  | _ :: r => get_bytes num r
  end.
Fixpoint get_fixed64 (num : N) (fs : list field) : option N :=
  match fs with
  | [] => None
  | (m, WI64 b) :: r =>
      match get_fixed64 num r with
      | Some v => Some v
      | None => if m =? num then Some (le2n b) else None
      end
  | _ :: r => get_fixed64 num r
  end.
(** Every occurrence, in order (repeated fields, and occurrences to be merged). *)
Fixpoint get_all (num : N) (fs : list field) : list bytes :=
  match fs with
  | [] => []
  | (m, WLen b) :: r => if m =? num then b :: get_all num r else get_all num r
  | _ :: r => get_all num r
  end.

(** Each byte string parsed as a message; fails if one fails. *)
Fixpoint dec_each (bs : list bytes) : option (list (list field)) :=
  match bs with
  | [] => Some []
  | b :: r => match dec_fields b, dec_each r with
              | Some fs, Some l => Some (fs :: l)
              | _, _ => None
              end
  end.

(** Singular sub-message: absent, or the merge of all its occurrences, which is the
    message read from the concatenation of their fields. Outer [None]: decode error. *)
Definition get_sub (num : N) (fs : list field) : option (option (list field)) :=
  match get_all num fs with
  | [] => Some None
  | bs => match dec_each bs with
          | Some l => Some (Some (List.concat l))
          | None => None
          end
  end.
(** Repeated sub-message. *)
Definition get_subs (num : N) (fs : list field) : option (list (list field)) :=
  dec_each (get_all num fs).

(** Defaults of the generated getters. *)
Definition or0 (o : option N) : N := match o with Some n => n | None => 0 end.
Definition ornil (o : option bytes) : bytes := match o with Some b => b | None => [] end.
(** uint32 fields keep the low 32 bits of the varint. *)
Definition get_u32 (num : N) (fs : list field) : option N :=
  match get_varint num fs with Some n => Some (u32 n) | None => None end.

(** proto3 marshalling omits zero numbers and empty byte strings. *)
Definition p3_u32 (num n : N) : list field := if n =? 0 then [] else [(num, WVarint n)].
Definition p3_bytes (num : N) (b : bytes) : list field :=
  match b with [] => [] | _ => [(num, WLen b)] end.
(** A sub-message that is present is always emitted. *)
Definition p_sub (num : N) (o : option (list field)) : list field :=
  match o with None => [] | Some fs => [(num, WLen (enc_fields fs))] end.
Definition p_subs (num : N) (l : list (list field)) : list field :=
  map (fun fs => (num, WLen (enc_fields fs))) l.

(** Go [int32(x)] of a uint32 and back, and the sign-extended 64-bit varint of an int32 field. *)
Definition to_int32 (n : N) : Z :=
  if n <? 2147483648 then Z.of_N n else (Z.of_N n - 4294967296)%Z.
Definition of_int32 (z : Z) : N := Z.to_N (z mod 4294967296).
Definition int32_varint (z : Z) : N := Z.to_N (z mod 18446744073709551616).
Definition varint_int32 (n : N) : Z := to_int32 (u32 n).
Definition p3_int32 (num : N) (z : Z) : list field :=
  if (z =? 0)%Z then [] else [(num, WVarint (int32_varint z))].
