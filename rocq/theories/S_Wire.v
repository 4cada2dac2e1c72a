(** The protocol-buffer wire format as a grammar, and the four wire messages written in
    it (proto/v1/wire.proto). Nothing here uses the model's encoder or decoder. *)
From Verif Require Import M_Base M_Crypto M_Curve M_Proto M_Uuid M_Message S_Message S_Uuid.
Local Open Scope N_scope.

(** Base-128 numbers: seven bits per byte, least significant first, the high bit set on
    every byte but the last. *)
Inductive varint : bytes -> N -> Prop :=
| vi_last : forall x, b2n x < 128 -> varint [x] (b2n x)
| vi_more : forall x b n, 128 <= b2n x -> varint b n -> varint (x :: b) (b2n x - 128 + 128 * n).
(** On the wire: at most ten bytes, the value fits 64 bits. *)
Definition vint (b : bytes) (n : N) : Prop :=
  varint b n /\ (List.length b <= 10)%nat /\ n < 18446744073709551616.

(** A value of wire type [ty]. *)
Inductive scalar : N -> bytes -> wval -> Prop :=
| sc_varint : forall b n, vint b n -> scalar 0 b (WVarint n)
| sc_i64 : forall b, List.length b = 8%nat -> scalar 1 b (WI64 b)
| sc_len : forall l b, vint l (N.of_nat (List.length b)) -> scalar 2 (l ++ b) (WLen b)
| sc_i32 : forall b, List.length b = 4%nat -> scalar 5 b (WI32 b).

(** The contents of a group with number [num], up to and including its end tag; [d] more
    levels may be opened inside. *)
Inductive group : Z -> N -> bytes -> Prop :=
| gr_end : forall d num t, vint t (8 * num + 4) -> 1 <= num <= 2147483647 -> group d num t
| gr_scalar : forall d num t n ty v w r, vint t (8 * n + ty) -> 1 <= n <= 2147483647 -> ty < 8 ->
    scalar ty v w -> group d num r -> group d num (t ++ v ++ r)
| gr_nested : forall d num t n g r, vint t (8 * n + 3) -> 1 <= n <= 2147483647 -> (1 <= d)%Z ->
    group (d - 1) n g -> group d num r -> group d num (t ++ g ++ r).

(** A message body: a sequence of fields. *)
Inductive wire : bytes -> list field -> Prop :=
| w_nil : wire [] []
| w_scalar : forall t n ty v w r fs, vint t (8 * n + ty) -> 1 <= n <= 536870911 -> ty < 8 ->
    scalar ty v w -> wire r fs -> wire (t ++ v ++ r) ((n, w) :: fs)
| w_group : forall t n g r fs, vint t (8 * n + 3) -> 1 <= n <= 536870911 ->
    group 10000 n g -> wire r fs -> wire (t ++ g ++ r) ((n, WGroup) :: fs).

(** The last occurrence of a field counts; an absent field reads as empty or zero. *)
Definition all_bytes (n : N) (fs : list field) : list bytes :=
  flat_map (fun f => match f with (m, WLen b) => if m =? n then [b] else [] | _ => [] end) fs.
Definition all_nums (n : N) (fs : list field) : list N :=
  flat_map (fun f => match f with (m, WVarint x) => if m =? n then [x] else [] | _ => [] end) fs.
Definition the_bytes (n : N) (fs : list field) : bytes := last (all_bytes n fs) [].
Definition the_u32 (n : N) (fs : list field) : N := last (all_nums n fs) 0 mod 4294967296.
Definition the_opt_u32 (n : N) (fs : list field) : option N :=
  match all_nums n fs with [] => None | l => Some (last l 0 mod 4294967296) end.

(** An encoded public key, possibly followed by bytes that are ignored. *)
Definition key_text (b : bytes) (k : pubkey) : Prop :=
  List.length k = 32%nat /\ exists junk, b = Byte.x05 :: k ++ junk.

(** [b] is a text of the whisper message [m]: version nibble 3, body, 8 bytes of MAC. *)
Definition signal_text (b : bytes) (m : signal) : Prop :=
  exists v body tag fs,
    b = v :: body ++ tag /\ List.length tag = 8%nat /\ b2n v / 16 = 3 /\ wire body fs /\
    key_text (the_bytes 1 fs) (sg_ratchet m) /\
    m = mkSignal 3 (sg_ratchet m) (the_u32 3 fs) (the_u32 2 fs) (the_bytes 4 fs) b.
Definition prekey_text (b : bytes) (m : prekeymsg) : Prop :=
  exists v body fs,
    b = v :: body /\ b2n v / 16 = 3 /\ wire body fs /\
    key_text (the_bytes 2 fs) (pm_base m) /\ key_text (the_bytes 3 fs) (pm_identity m) /\
    signal_text (the_bytes 4 fs) (pm_message m) /\
    m = mkPreKeyMsg 3 (the_u32 5 fs) (the_opt_u32 1 fs) (the_u32 6 fs)
          (pm_base m) (pm_identity m) (pm_message m) b.
(** Body, then 64 bytes of signature. *)
Definition senderkey_text (b : bytes) (m : senderkeymsg) : Prop :=
  exists v body sig fs,
    b = v :: body ++ sig /\ List.length sig = 64%nat /\ b2n v / 16 = 3 /\ wire body fs /\
    denotes (the_bytes 1 fs) (sm_dist m) /\
    m = mkSenderKeyMsg 3 (sm_dist m) (the_u32 2 fs) (the_u32 3 fs) (the_bytes 4 fs) b.
(** Refused below 65 bytes; the chain key has exactly 32. *)
Definition dist_text (b : bytes) (m : distmsg) : Prop :=
  exists v body fs,
    b = v :: body /\ (65 <= List.length b)%nat /\ b2n v / 16 = 3 /\ wire body fs /\
    denotes (the_bytes 1 fs) (dm_dist m) /\ List.length (dm_chainkey m) = 32%nat /\
    key_text (the_bytes 5 fs) (dm_signing m) /\
    m = mkDistMsg 3 (dm_dist m) (the_u32 2 fs) (the_u32 3 fs) (the_bytes 4 fs) (dm_signing m) b.
