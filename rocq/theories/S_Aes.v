(** Textbook CBC and PKCS#7, block by block. *)
From Verif Require Import M_Base M_Crypto.

(** The [i]-th 16-byte block. *)
Definition blk (i : nat) (b : bytes) : bytes := firstn 16 (skipn (16 * i) b).

(** The predecessor in the chain: the IV, then the previous ciphertext block. *)
Definition chain_in (iv ct : bytes) (i : nat) : bytes :=
  match i with O => iv | S j => blk j ct end.

Definition is_cbc_enc (C : Crypto) (key iv pt ct : bytes) : Prop :=
  List.length ct = List.length pt /\
  forall i, i < List.length pt / 16 ->
    blk i ct = c_aes_enc C key (xor_bytes (blk i pt) (chain_in iv ct i)).

Definition is_cbc_dec (C : Crypto) (key iv ct pt : bytes) : Prop :=
  List.length pt = List.length ct /\
  forall i, i < List.length ct / 16 ->
    blk i pt = xor_bytes (c_aes_dec C key (blk i ct)) (chain_in iv ct i).

(** [pt] followed by between 1 and 16 bytes, each holding their number. *)
Definition is_padded (pt padded : bytes) : Prop :=
  exists n : nat, 1 <= n <= 16 /\ (List.length pt + n) mod 16 = 0 /\
    padded = pt ++ repeat (n2b (N.of_nat n)) n.

(** A legal AES key length in bytes. *)
Definition legal_key (key : bytes) : Prop :=
  List.length key = 16 \/ List.length key = 24 \/ List.length key = 32.
