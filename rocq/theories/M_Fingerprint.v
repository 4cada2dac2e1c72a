(** protocol/fingerprint *)
From Verif Require Import M_Base M_Crypto M_Curve M_Proto.
Local Open Scope N_scope.

(** fingerprint.go:70-76 the hashing loop: [n] further rounds. *)
Fixpoint fp_loop (C : Crypto) (key : bytes) (n : nat) (sum : bytes) : bytes :=
  match n with
  | O => sum
  | S m => fp_loop C key m (c_sha512 C (sum ++ key))
  end.

(** fingerprint.go:53-79 fingerprint. *)
Definition fp_digest (C : Crypto) (iterations : N) (id : bytes) (key : pubkey) : res bytes :=
  if (iterations <=? 1) || (1000000 <? iterations) then Err (EOther "invalid iterations")
  else let kb := pub_bytes key in
       Ok (fp_loop C kb (N.to_nat (iterations - 1))
             (c_sha512 C ([Byte.x00; Byte.x00] ++ kb ++ id ++ kb))).

(** encode.go:13-19 uint64FromChunk: big-endian. *)
Definition chunk_val (b : bytes) : N := fold_left (fun acc x => acc * 256 + b2n x) b 0.
Definition digit (n : N) : byte := n2b (48 + n).
(** fmt.Sprintf("%05d", v % 100000): five decimal digits, zero padded. *)
Definition five_digits (v : N) : bytes :=
  let v := v mod 100000 in
  [digit (v / 10000); digit (v / 1000 mod 10); digit (v / 100 mod 10);
   digit (v / 10 mod 10); digit (v mod 10)].
Definition encode_chunk (b : bytes) : bytes := five_digits (chunk_val b).

(** encode.go:8-33 encode. *)
Definition fp_encode (b : bytes) : res bytes :=
  if Nat.ltb (List.length b) 30 then Err (EOther "encoding too short")
  else Ok (encode_chunk (firstn 5 b) ++ encode_chunk (firstn 5 (skipn 5 b))
           ++ encode_chunk (firstn 5 (skipn 10 b)) ++ encode_chunk (firstn 5 (skipn 15 b))
           ++ encode_chunk (firstn 5 (skipn 20 b)) ++ encode_chunk (firstn 5 (skipn 25 b))).

(** Go string comparison [<]: bytewise lexicographic. *)
Fixpoint bytes_ltb (a b : bytes) : bool :=
  match a, b with
  | [], [] => false
  | [], _ :: _ => true
  | _ :: _, [] => false
  | x :: a', y :: b' =>
      if b2n x <? b2n y then true else if b2n y <? b2n x then false else bytes_ltb a' b'
  end.

(** displayable.go:4-24 NewDisplayable, :26-32 String. *)
Record displayable := mkDisp { dp_local : bytes; dp_remote : bytes }.
Definition new_displayable (localfp remotefp : bytes) : res displayable :=
  do l <- fp_encode localfp; do r <- fp_encode remotefp; Ok (mkDisp l r).
Definition disp_string (d : displayable) : bytes :=
  if bytes_ltb (dp_local d) (dp_remote d) then dp_local d ++ dp_remote d
  else dp_remote d ++ dp_local d.

(** scannable.go:14-34 NewScannable. *)
Record scannable := mkScan { sc_version : N; sc_local : bytes; sc_remote : bytes }.
Definition new_scannable (version : N) (localfp remotefp : bytes) : res scannable :=
  if Nat.ltb (List.length localfp) 32 then Err (EOther "invalid local fingerprint length")
  else if Nat.ltb (List.length remotefp) 32 then Err (EOther "invalid remote fingerprint length")
  else Ok (mkScan version (firstn 32 localfp) (firstn 32 remotefp)).

(** scannable.go:37-54 Bytes; proto/v1/fingerprint.proto (proto2). *)
Definition scan_bytes (s : scannable) : bytes :=
  enc_fields [(1, WVarint (sc_version s));
              (2, WLen (enc_fields [(1, WLen (sc_local s))]));
              (3, WLen (enc_fields [(1, WLen (sc_remote s))]))].

(** scannable.go:57-72 Compare. *)
Definition scan_compare (s : scannable) (scanned : bytes) : res bool :=
  match dec_fields scanned with
  | None => Err (EOther "proto")
  | Some fs =>
      match get_sub 2 fs, get_sub 3 fs with
      | Some l, Some r =>
          if negb (or0 (get_u32 1 fs) =? sc_version s) then Err (EOther "fingerprint version mismatch")
          else
            let content o := match o with Some f => ornil (get_bytes 1 f) | None => [] end in
            Ok (bytes_eqb (sc_local s) (content r) && bytes_eqb (sc_remote s) (content l))
      | _, _ => Err (EOther "proto")
      end
  end.

(** fingerprint.go:14-50 New, :81-83 String. *)
Record fprint := mkFP { fp_disp : displayable; fp_scan : scannable }.
Definition new_fingerprint (C : Crypto) (version iterations : N) (lid : bytes) (lkey : pubkey)
    (rid : bytes) (rkey : pubkey) : res fprint :=
  do l <- fp_digest C iterations lid lkey;
  do r <- fp_digest C iterations rid rkey;
  do d <- new_displayable l r;
  do s <- new_scannable version l r;
  Ok (mkFP d s).
Definition fp_string (f : fprint) : bytes := disp_string (fp_disp f).
