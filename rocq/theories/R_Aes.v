(** AES (FIPS 197), the block cipher behind crypto/aes. *)
From Verif Require Import M_Base M_Crypto M_Aes.

(** Section 5.1.1: the substitution box and its inverse (5.3.2). *)
Definition sbox (b : byte) : byte :=
  match b with
  | Byte.x00 => Byte.x63 | Byte.x01 => Byte.x7c | Byte.x02 => Byte.x77 | Byte.x03 => Byte.x7b | Byte.x04 => Byte.xf2 | Byte.x05 => Byte.x6b | Byte.x06 => Byte.x6f | Byte.x07 => Byte.xc5
  | Byte.x08 => Byte.x30 | Byte.x09 => Byte.x01 | Byte.x0a => Byte.x67 | Byte.x0b => Byte.x2b | Byte.x0c => Byte.xfe | Byte.x0d => Byte.xd7 | Byte.x0e => Byte.xab | Byte.x0f => Byte.x76
  | Byte.x10 => Byte.xca | Byte.x11 => Byte.x82 | Byte.x12 => Byte.xc9 | Byte.x13 => Byte.x7d | Byte.x14 => Byte.xfa | Byte.x15 => Byte.x59 | Byte.x16 => Byte.x47 | Byte.x17 => Byte.xf0
  | Byte.x18 => Byte.xad | Byte.x19 => Byte.xd4 | Byte.x1a => Byte.xa2 | Byte.x1b => Byte.xaf | Byte.x1c => Byte.x9c | Byte.x1d => Byte.xa4 | Byte.x1e => Byte.x72 | Byte.x1f => Byte.xc0
  | Byte.x20 => Byte.xb7 | Byte.x21 => Byte.xfd | Byte.x22 => Byte.x93 | Byte.x23 => Byte.x26 | Byte.x24 => Byte.x36 | Byte.x25 => Byte.x3f | Byte.x26 => Byte.xf7 | Byte.x27 => Byte.xcc
  | Byte.x28 => Byte.x34 | Byte.x29 => Byte.xa5 | Byte.x2a => Byte.xe5 | Byte.x2b => Byte.xf1 | Byte.x2c => Byte.x71 | Byte.x2d => Byte.xd8 | Byte.x2e => Byte.x31 | Byte.x2f => Byte.x15
  | Byte.x30 => Byte.x04 | Byte.x31 => Byte.xc7 | Byte.x32 => Byte.x23 | Byte.x33 => Byte.xc3 | Byte.x34 => Byte.x18 | Byte.x35 => Byte.x96 | Byte.x36 => Byte.x05 | Byte.x37 => Byte.x9a
  | Byte.x38 => Byte.x07 | Byte.x39 => Byte.x12 | Byte.x3a => Byte.x80 | Byte.x3b => Byte.xe2 | Byte.x3c => Byte.xeb | Byte.x3d => Byte.x27 | Byte.x3e => Byte.xb2 | Byte.x3f => Byte.x75
  | Byte.x40 => Byte.x09 | Byte.x41 => Byte.x83 | Byte.x42 => Byte.x2c | Byte.x43 => Byte.x1a | Byte.x44 => Byte.x1b | Byte.x45 => Byte.x6e | Byte.x46 => Byte.x5a | Byte.x47 => Byte.xa0
  | Byte.x48 => Byte.x52 | Byte.x49 => Byte.x3b | Byte.x4a => Byte.xd6 | Byte.x4b => Byte.xb3 | Byte.x4c => Byte.x29 | Byte.x4d => Byte.xe3 | Byte.x4e => Byte.x2f | Byte.x4f => Byte.x84
  | Byte.x50 => Byte.x53 | Byte.x51 => Byte.xd1 | Byte.x52 => Byte.x00 | Byte.x53 => Byte.xed | Byte.x54 => Byte.x20 | Byte.x55 => Byte.xfc | Byte.x56 => Byte.xb1 | Byte.x57 => Byte.x5b
  | Byte.x58 => Byte.x6a | Byte.x59 => Byte.xcb | Byte.x5a => Byte.xbe | Byte.x5b => Byte.x39 | Byte.x5c => Byte.x4a | Byte.x5d => Byte.x4c | Byte.x5e => Byte.x58 | Byte.x5f => Byte.xcf
  | Byte.x60 => Byte.xd0 | Byte.x61 => Byte.xef | Byte.x62 => Byte.xaa | Byte.x63 => Byte.xfb | Byte.x64 => Byte.x43 | Byte.x65 => Byte.x4d | Byte.x66 => Byte.x33 | Byte.x67 => Byte.x85
  | Byte.x68 => Byte.x45 | Byte.x69 => Byte.xf9 | Byte.x6a => Byte.x02 | Byte.x6b => Byte.x7f | Byte.x6c => Byte.x50 | Byte.x6d => Byte.x3c | Byte.x6e => Byte.x9f | Byte.x6f => Byte.xa8
  | Byte.x70 => Byte.x51 | Byte.x71 => Byte.xa3 | Byte.x72 => Byte.x40 | Byte.x73 => Byte.x8f | Byte.x74 => Byte.x92 | Byte.x75 => Byte.x9d | Byte.x76 => Byte.x38 | Byte.x77 => Byte.xf5
  | Byte.x78 => Byte.xbc | Byte.x79 => Byte.xb6 | Byte.x7a => Byte.xda | Byte.x7b => Byte.x21 | Byte.x7c => Byte.x10 | Byte.x7d => Byte.xff | Byte.x7e => Byte.xf3 | Byte.x7f => Byte.xd2
  | Byte.x80 => Byte.xcd | Byte.x81 => Byte.x0c | Byte.x82 => Byte.x13 | Byte.x83 => Byte.xec | Byte.x84 => Byte.x5f | Byte.x85 => Byte.x97 | Byte.x86 => Byte.x44 | Byte.x87 => Byte.x17
  | Byte.x88 => Byte.xc4 | Byte.x89 => Byte.xa7 | Byte.x8a => Byte.x7e | Byte.x8b => Byte.x3d | Byte.x8c => Byte.x64 | Byte.x8d => Byte.x5d | Byte.x8e => Byte.x19 | Byte.x8f => Byte.x73
  | Byte.x90 => Byte.x60 | Byte.x91 => Byte.x81 | Byte.x92 => Byte.x4f | Byte.x93 => Byte.xdc | Byte.x94 => Byte.x22 | Byte.x95 => Byte.x2a | Byte.x96 => Byte.x90 | Byte.x97 => Byte.x88
  | Byte.x98 => Byte.x46 | Byte.x99 => Byte.xee | Byte.x9a => Byte.xb8 | Byte.x9b => Byte.x14 | Byte.x9c => Byte.xde | Byte.x9d => Byte.x5e | Byte.x9e => Byte.x0b | Byte.x9f => Byte.xdb
  | Byte.xa0 => Byte.xe0 | Byte.xa1 => Byte.x32 | Byte.xa2 => Byte.x3a | Byte.xa3 => Byte.x0a | Byte.xa4 => Byte.x49 | Byte.xa5 => Byte.x06 | Byte.xa6 => Byte.x24 | Byte.xa7 => Byte.x5c
  | Byte.xa8 => Byte.xc2 | Byte.xa9 => Byte.xd3 | Byte.xaa => Byte.xac | Byte.xab => Byte.x62 | Byte.xac => Byte.x91 | Byte.xad => Byte.x95 | Byte.xae => Byte.xe4 | Byte.xaf => Byte.x79
  | Byte.xb0 => Byte.xe7 | Byte.xb1 => Byte.xc8 | Byte.xb2 => Byte.x37 | Byte.xb3 => Byte.x6d | Byte.xb4 => Byte.x8d | Byte.xb5 => Byte.xd5 | Byte.xb6 => Byte.x4e | Byte.xb7 => Byte.xa9
  | Byte.xb8 => Byte.x6c | Byte.xb9 => Byte.x56 | Byte.xba => Byte.xf4 | Byte.xbb => Byte.xea | Byte.xbc => Byte.x65 | Byte.xbd => Byte.x7a | Byte.xbe => Byte.xae | Byte.xbf => Byte.x08
  | Byte.xc0 => Byte.xba | Byte.xc1 => Byte.x78 | Byte.xc2 => Byte.x25 | Byte.xc3 => Byte.x2e | Byte.xc4 => Byte.x1c | Byte.xc5 => Byte.xa6 | Byte.xc6 => Byte.xb4 | Byte.xc7 => Byte.xc6
  | Byte.xc8 => Byte.xe8 | Byte.xc9 => Byte.xdd | Byte.xca => Byte.x74 | Byte.xcb => Byte.x1f | Byte.xcc => Byte.x4b | Byte.xcd => Byte.xbd | Byte.xce => Byte.x8b | Byte.xcf => Byte.x8a
  | Byte.xd0 => Byte.x70 | Byte.xd1 => Byte.x3e | Byte.xd2 => Byte.xb5 | Byte.xd3 => Byte.x66 | Byte.xd4 => Byte.x48 | Byte.xd5 => Byte.x03 | Byte.xd6 => Byte.xf6 | Byte.xd7 => Byte.x0e
  | Byte.xd8 => Byte.x61 | Byte.xd9 => Byte.x35 | Byte.xda => Byte.x57 | Byte.xdb => Byte.xb9 | Byte.xdc => Byte.x86 | Byte.xdd => Byte.xc1 | Byte.xde => Byte.x1d | Byte.xdf => Byte.x9e
  | Byte.xe0 => Byte.xe1 | Byte.xe1 => Byte.xf8 | Byte.xe2 => Byte.x98 | Byte.xe3 => Byte.x11 | Byte.xe4 => Byte.x69 | Byte.xe5 => Byte.xd9 | Byte.xe6 => Byte.x8e | Byte.xe7 => Byte.x94
  | Byte.xe8 => Byte.x9b | Byte.xe9 => Byte.x1e | Byte.xea => Byte.x87 | Byte.xeb => Byte.xe9 | Byte.xec => Byte.xce | Byte.xed => Byte.x55 | Byte.xee => Byte.x28 | Byte.xef => Byte.xdf
  | Byte.xf0 => Byte.x8c | Byte.xf1 => Byte.xa1 | Byte.xf2 => Byte.x89 | Byte.xf3 => Byte.x0d | Byte.xf4 => Byte.xbf | Byte.xf5 => Byte.xe6 | Byte.xf6 => Byte.x42 | Byte.xf7 => Byte.x68
  | Byte.xf8 => Byte.x41 | Byte.xf9 => Byte.x99 | Byte.xfa => Byte.x2d | Byte.xfb => Byte.x0f | Byte.xfc => Byte.xb0 | Byte.xfd => Byte.x54 | Byte.xfe => Byte.xbb | Byte.xff => Byte.x16
  end.
Definition inv_sbox (b : byte) : byte :=
  match b with
  | Byte.x00 => Byte.x52 | Byte.x01 => Byte.x09 | Byte.x02 => Byte.x6a | Byte.x03 => Byte.xd5 | Byte.x04 => Byte.x30 | Byte.x05 => Byte.x36 | Byte.x06 => Byte.xa5 | Byte.x07 => Byte.x38
  | Byte.x08 => Byte.xbf | Byte.x09 => Byte.x40 | Byte.x0a => Byte.xa3 | Byte.x0b => Byte.x9e | Byte.x0c => Byte.x81 | Byte.x0d => Byte.xf3 | Byte.x0e => Byte.xd7 | Byte.x0f => Byte.xfb
  | Byte.x10 => Byte.x7c | Byte.x11 => Byte.xe3 | Byte.x12 => Byte.x39 | Byte.x13 => Byte.x82 | Byte.x14 => Byte.x9b | Byte.x15 => Byte.x2f | Byte.x16 => Byte.xff | Byte.x17 => Byte.x87
  | Byte.x18 => Byte.x34 | Byte.x19 => Byte.x8e | Byte.x1a => Byte.x43 | Byte.x1b => Byte.x44 | Byte.x1c => Byte.xc4 | Byte.x1d => Byte.xde | Byte.x1e => Byte.xe9 | Byte.x1f => Byte.xcb
  | Byte.x20 => Byte.x54 | Byte.x21 => Byte.x7b | Byte.x22 => Byte.x94 | Byte.x23 => Byte.x32 | Byte.x24 => Byte.xa6 | Byte.x25 => Byte.xc2 | Byte.x26 => Byte.x23 | Byte.x27 => Byte.x3d
  | Byte.x28 => Byte.xee | Byte.x29 => Byte.x4c | Byte.x2a => Byte.x95 | Byte.x2b => Byte.x0b | Byte.x2c => Byte.x42 | Byte.x2d => Byte.xfa | Byte.x2e => Byte.xc3 | Byte.x2f => Byte.x4e
  | Byte.x30 => Byte.x08 | Byte.x31 => Byte.x2e | Byte.x32 => Byte.xa1 | Byte.x33 => Byte.x66 | Byte.x34 => Byte.x28 | Byte.x35 => Byte.xd9 | Byte.x36 => Byte.x24 | Byte.x37 => Byte.xb2
  | Byte.x38 => Byte.x76 | Byte.x39 => Byte.x5b | Byte.x3a => Byte.xa2 | Byte.x3b => Byte.x49 | Byte.x3c => Byte.x6d | Byte.x3d => Byte.x8b | Byte.x3e => Byte.xd1 | Byte.x3f => Byte.x25
  | Byte.x40 => Byte.x72 | Byte.x41 => Byte.xf8 | Byte.x42 => Byte.xf6 | Byte.x43 => Byte.x64 | Byte.x44 => Byte.x86 | Byte.x45 => Byte.x68 | Byte.x46 => Byte.x98 | Byte.x47 => Byte.x16
  | Byte.x48 => Byte.xd4 | Byte.x49 => Byte.xa4 | Byte.x4a => Byte.x5c | Byte.x4b => Byte.xcc | Byte.x4c => Byte.x5d | Byte.x4d => Byte.x65 | Byte.x4e => Byte.xb6 | Byte.x4f => Byte.x92
  | Byte.x50 => Byte.x6c | Byte.x51 => Byte.x70 | Byte.x52 => Byte.x48 | Byte.x53 => Byte.x50 | Byte.x54 => Byte.xfd | Byte.x55 => Byte.xed | Byte.x56 => Byte.xb9 | Byte.x57 => Byte.xda
  | Byte.x58 => Byte.x5e | Byte.x59 => Byte.x15 | Byte.x5a => Byte.x46 | Byte.x5b => Byte.x57 | Byte.x5c => Byte.xa7 | Byte.x5d => Byte.x8d | Byte.x5e => Byte.x9d | Byte.x5f => Byte.x84
  | Byte.x60 => Byte.x90 | Byte.x61 => Byte.xd8 | Byte.x62 => Byte.xab | Byte.x63 => Byte.x00 | Byte.x64 => Byte.x8c | Byte.x65 => Byte.xbc | Byte.x66 => Byte.xd3 | Byte.x67 => Byte.x0a
  | Byte.x68 => Byte.xf7 | Byte.x69 => Byte.xe4 | Byte.x6a => Byte.x58 | Byte.x6b => Byte.x05 | Byte.x6c => Byte.xb8 | Byte.x6d => Byte.xb3 | Byte.x6e => Byte.x45 | Byte.x6f => Byte.x06
  | Byte.x70 => Byte.xd0 | Byte.x71 => Byte.x2c | Byte.x72 => Byte.x1e | Byte.x73 => Byte.x8f | Byte.x74 => Byte.xca | Byte.x75 => Byte.x3f | Byte.x76 => Byte.x0f | Byte.x77 => Byte.x02
  | Byte.x78 => Byte.xc1 | Byte.x79 => Byte.xaf | Byte.x7a => Byte.xbd | Byte.x7b => Byte.x03 | Byte.x7c => Byte.x01 | Byte.x7d => Byte.x13 | Byte.x7e => Byte.x8a | Byte.x7f => Byte.x6b
  | Byte.x80 => Byte.x3a | Byte.x81 => Byte.x91 | Byte.x82 => Byte.x11 | Byte.x83 => Byte.x41 | Byte.x84 => Byte.x4f | Byte.x85 => Byte.x67 | Byte.x86 => Byte.xdc | Byte.x87 => Byte.xea
  | Byte.x88 => Byte.x97 | Byte.x89 => Byte.xf2 | Byte.x8a => Byte.xcf | Byte.x8b => Byte.xce | Byte.x8c => Byte.xf0 | Byte.x8d => Byte.xb4 | Byte.x8e => Byte.xe6 | Byte.x8f => Byte.x73
  | Byte.x90 => Byte.x96 | Byte.x91 => Byte.xac | Byte.x92 => Byte.x74 | Byte.x93 => Byte.x22 | Byte.x94 => Byte.xe7 | Byte.x95 => Byte.xad | Byte.x96 => Byte.x35 | Byte.x97 => Byte.x85
  | Byte.x98 => Byte.xe2 | Byte.x99 => Byte.xf9 | Byte.x9a => Byte.x37 | Byte.x9b => Byte.xe8 | Byte.x9c => Byte.x1c | Byte.x9d => Byte.x75 | Byte.x9e => Byte.xdf | Byte.x9f => Byte.x6e
  | Byte.xa0 => Byte.x47 | Byte.xa1 => Byte.xf1 | Byte.xa2 => Byte.x1a | Byte.xa3 => Byte.x71 | Byte.xa4 => Byte.x1d | Byte.xa5 => Byte.x29 | Byte.xa6 => Byte.xc5 | Byte.xa7 => Byte.x89
  | Byte.xa8 => Byte.x6f | Byte.xa9 => Byte.xb7 | Byte.xaa => Byte.x62 | Byte.xab => Byte.x0e | Byte.xac => Byte.xaa | Byte.xad => Byte.x18 | Byte.xae => Byte.xbe | Byte.xaf => Byte.x1b
  | Byte.xb0 => Byte.xfc | Byte.xb1 => Byte.x56 | Byte.xb2 => Byte.x3e | Byte.xb3 => Byte.x4b | Byte.xb4 => Byte.xc6 | Byte.xb5 => Byte.xd2 | Byte.xb6 => Byte.x79 | Byte.xb7 => Byte.x20
  | Byte.xb8 => Byte.x9a | Byte.xb9 => Byte.xdb | Byte.xba => Byte.xc0 | Byte.xbb => Byte.xfe | Byte.xbc => Byte.x78 | Byte.xbd => Byte.xcd | Byte.xbe => Byte.x5a | Byte.xbf => Byte.xf4
  | Byte.xc0 => Byte.x1f | Byte.xc1 => Byte.xdd | Byte.xc2 => Byte.xa8 | Byte.xc3 => Byte.x33 | Byte.xc4 => Byte.x88 | Byte.xc5 => Byte.x07 | Byte.xc6 => Byte.xc7 | Byte.xc7 => Byte.x31
  | Byte.xc8 => Byte.xb1 | Byte.xc9 => Byte.x12 | Byte.xca => Byte.x10 | Byte.xcb => Byte.x59 | Byte.xcc => Byte.x27 | Byte.xcd => Byte.x80 | Byte.xce => Byte.xec | Byte.xcf => Byte.x5f
  | Byte.xd0 => Byte.x60 | Byte.xd1 => Byte.x51 | Byte.xd2 => Byte.x7f | Byte.xd3 => Byte.xa9 | Byte.xd4 => Byte.x19 | Byte.xd5 => Byte.xb5 | Byte.xd6 => Byte.x4a | Byte.xd7 => Byte.x0d
  | Byte.xd8 => Byte.x2d | Byte.xd9 => Byte.xe5 | Byte.xda => Byte.x7a | Byte.xdb => Byte.x9f | Byte.xdc => Byte.x93 | Byte.xdd => Byte.xc9 | Byte.xde => Byte.x9c | Byte.xdf => Byte.xef
  | Byte.xe0 => Byte.xa0 | Byte.xe1 => Byte.xe0 | Byte.xe2 => Byte.x3b | Byte.xe3 => Byte.x4d | Byte.xe4 => Byte.xae | Byte.xe5 => Byte.x2a | Byte.xe6 => Byte.xf5 | Byte.xe7 => Byte.xb0
  | Byte.xe8 => Byte.xc8 | Byte.xe9 => Byte.xeb | Byte.xea => Byte.xbb | Byte.xeb => Byte.x3c | Byte.xec => Byte.x83 | Byte.xed => Byte.x53 | Byte.xee => Byte.x99 | Byte.xef => Byte.x61
  | Byte.xf0 => Byte.x17 | Byte.xf1 => Byte.x2b | Byte.xf2 => Byte.x04 | Byte.xf3 => Byte.x7e | Byte.xf4 => Byte.xba | Byte.xf5 => Byte.x77 | Byte.xf6 => Byte.xd6 | Byte.xf7 => Byte.x26
  | Byte.xf8 => Byte.xe1 | Byte.xf9 => Byte.x69 | Byte.xfa => Byte.x14 | Byte.xfb => Byte.x63 | Byte.xfc => Byte.x55 | Byte.xfd => Byte.x21 | Byte.xfe => Byte.x0c | Byte.xff => Byte.x7d
  end.

(** Columns of four bytes; the state is four columns. *)
Record col := mkCol { c0 : byte; c1 : byte; c2 : byte; c3 : byte }.
Record aes_st := mkSt { s0 : col; s1 : col; s2 : col; s3 : col }.
Definition col_map (f : byte -> byte) (c : col) : col := mkCol (f (c0 c)) (f (c1 c)) (f (c2 c)) (f (c3 c)).
Definition col_xor (a b : col) : col := mkCol (bxor (c0 a) (c0 b)) (bxor (c1 a) (c1 b)) (bxor (c2 a) (c2 b)) (bxor (c3 a) (c3 b)).
Definition st_map (f : col -> col) (s : aes_st) : aes_st := mkSt (f (s0 s)) (f (s1 s)) (f (s2 s)) (f (s3 s)).
(** Section 5.1.4 *)
Definition add_round_key (s k : aes_st) : aes_st := mkSt (col_xor (s0 s) (s0 k)) (col_xor (s1 s) (s1 k)) (col_xor (s2 s) (s2 k)) (col_xor (s3 s) (s3 k)).
Definition sub_bytes (s : aes_st) : aes_st := st_map (col_map sbox) s.
Definition inv_sub_bytes (s : aes_st) : aes_st := st_map (col_map inv_sbox) s.
(** Section 5.1.2: row r moves r columns to the left (5.3.1: to the right). *)
Definition shift_rows (s : aes_st) : aes_st :=
  mkSt (mkCol (c0 (s0 s)) (c1 (s1 s)) (c2 (s2 s)) (c3 (s3 s))) (mkCol (c0 (s1 s)) (c1 (s2 s)) (c2 (s3 s)) (c3 (s0 s)))
       (mkCol (c0 (s2 s)) (c1 (s3 s)) (c2 (s0 s)) (c3 (s1 s))) (mkCol (c0 (s3 s)) (c1 (s0 s)) (c2 (s1 s)) (c3 (s2 s))).
Definition inv_shift_rows (s : aes_st) : aes_st :=
  mkSt (mkCol (c0 (s0 s)) (c1 (s3 s)) (c2 (s2 s)) (c3 (s1 s))) (mkCol (c0 (s1 s)) (c1 (s0 s)) (c2 (s3 s)) (c3 (s2 s)))
       (mkCol (c0 (s2 s)) (c1 (s1 s)) (c2 (s0 s)) (c3 (s3 s))) (mkCol (c0 (s3 s)) (c1 (s2 s)) (c2 (s1 s)) (c3 (s0 s))).
(** Section 4.2.1: multiplication by x in GF(2^8) modulo x^8 + x^4 + x^3 + x + 1, and by the
    constants of the two column matrices. *)
Definition xtime (b : byte) : byte :=
  let d := N.shiftl (b2n b) 1 in if N.testbit d 8 then n2b (N.lxor d 283) else n2b d.
Definition mul3 (b : byte) : byte := bxor (xtime b) b.
Definition mul9 (b : byte) : byte := bxor (xtime (xtime (xtime b))) b.
Definition mul11 (b : byte) : byte := bxor (xtime (xtime (xtime b))) (bxor (xtime b) b).
Definition mul13 (b : byte) : byte := bxor (xtime (xtime (xtime b))) (bxor (xtime (xtime b)) b).
Definition mul14 (b : byte) : byte := bxor (xtime (xtime (xtime b))) (bxor (xtime (xtime b)) (xtime b)).
Definition x4 (a b c d : byte) : byte := bxor (bxor a b) (bxor c d).
(** Sections 5.1.3 and 5.3.3 *)
Definition mix_col (c : col) : col :=
  mkCol (x4 (xtime (c0 c)) (mul3 (c1 c)) (c2 c) (c3 c)) (x4 (c0 c) (xtime (c1 c)) (mul3 (c2 c)) (c3 c))
        (x4 (c0 c) (c1 c) (xtime (c2 c)) (mul3 (c3 c))) (x4 (mul3 (c0 c)) (c1 c) (c2 c) (xtime (c3 c))).
Definition inv_mix_col (c : col) : col :=
  mkCol (x4 (mul14 (c0 c)) (mul11 (c1 c)) (mul13 (c2 c)) (mul9 (c3 c))) (x4 (mul9 (c0 c)) (mul14 (c1 c)) (mul11 (c2 c)) (mul13 (c3 c)))
        (x4 (mul13 (c0 c)) (mul9 (c1 c)) (mul14 (c2 c)) (mul11 (c3 c))) (x4 (mul11 (c0 c)) (mul13 (c1 c)) (mul9 (c2 c)) (mul14 (c3 c))).

(** Section 5.2 key expansion: [i] counts words, the words built so far come newest first. *)
Definition rot_word (c : col) : col := mkCol (c1 c) (c2 c) (c3 c) (c0 c).
Fixpoint expand (nk i n : nat) (rc : byte) (ws : list col) : list col :=
  match n with
  | O => ws
  | S n' =>
      let t := hd (mkCol Byte.x00 Byte.x00 Byte.x00 Byte.x00) ws in
      let z := Nat.eqb (i mod nk) 0 in
      let t' := if z then col_xor (col_map sbox (rot_word t)) (mkCol rc Byte.x00 Byte.x00 Byte.x00)
                else if Nat.ltb 6 nk && Nat.eqb (i mod nk) 4 then col_map sbox t else t in
      expand nk (S i) n' (if z then xtime rc else rc) (col_xor (nth (nk - 1) ws (mkCol Byte.x00 Byte.x00 Byte.x00 Byte.x00)) t' :: ws)
  end.
Fixpoint cols_of (b : bytes) : list col :=
  match b with a :: b' :: c :: d :: r => mkCol a b' c d :: cols_of r | _ => [] end.
Fixpoint states_of (ws : list col) : list aes_st :=
  match ws with a :: b :: c :: d :: r => mkSt a b c d :: states_of r | _ => [] end.
(** Nk + 6 rounds, so Nk + 7 round keys. *)
Definition round_keys (k : bytes) : list aes_st :=
  let nk := List.length k / 4 in
  states_of (rev (expand nk nk (4 * (nk + 7) - nk) Byte.x01 (rev (cols_of k)))).

Definition st_of (b : bytes) : aes_st :=
  match states_of (cols_of b) with s :: _ => s
  | [] => let z := mkCol Byte.x00 Byte.x00 Byte.x00 Byte.x00 in mkSt z z z z end.
Definition col_bytes (c : col) : bytes := [c0 c; c1 c; c2 c; c3 c].
Definition st_bytes (s : aes_st) : bytes := col_bytes (s0 s) ++ col_bytes (s1 s) ++ col_bytes (s2 s) ++ col_bytes (s3 s).

(** Section 5.1, the rounds after the first AddRoundKey. *)
Fixpoint enc_rounds (ks : list aes_st) (s : aes_st) : aes_st :=
  match ks with
  | [] => s
  | [k] => add_round_key (shift_rows (sub_bytes s)) k
  | k :: r => enc_rounds r (add_round_key (st_map mix_col (shift_rows (sub_bytes s))) k)
  end.
(** Section 5.3, the same round keys taken from the last one back. *)
Fixpoint dec_rounds (ks : list aes_st) (s : aes_st) : aes_st :=
  match ks with
  | [] => s
  | [k] => inv_sub_bytes (inv_shift_rows (add_round_key s k))
  | k :: r => inv_sub_bytes (inv_shift_rows (st_map inv_mix_col (add_round_key (dec_rounds r s) k)))
  end.
Definition real_aes_enc (k b : bytes) : bytes :=
  match round_keys k with [] => b | k0 :: r => st_bytes (enc_rounds r (add_round_key (st_of b) k0)) end.
Definition real_aes_dec (k b : bytes) : bytes :=
  match round_keys k with [] => b | k0 :: r => st_bytes (add_round_key (dec_rounds r (st_of b)) k0) end.

