(** Two devices that share several sessions at the same time: C85. *)
From Verif Require Import M_Base M_Crypto M_Aes M_Curve M_Message M_Ratchet M_State M_Store M_Session
  S_Crypto S_Message S_Shape S_Ratchet S_Session S_Api S_Send S_Group S_X3dh S_Receive S_Conv S_History.

(** There are two devices, [true] and [false]. A link is a session that one of them,
    [ln_from], began with the bundle [ln_bundle] and the base key [ln_base]. Its parties, keys and
    messages are those of S_History.v; the party [true] is the one that began it. *)
Record link := mkLink { ln_from : bool; ln_bundle : bundle; ln_base : pubkey;
  ln_par : bool -> party; ln_keys : list pubkey; ln_notes : list note }.
(** The part that device [x] plays in a link, and the device that plays a part. *)
Definition role (l : link) (x : bool) : bool := Bool.eqb x (ln_from l).
Definition player (l : link) (part : bool) : bool := Bool.eqb part (ln_from l).
(** Device [x] has the session of [l]: it began it or has accepted a message of it. *)
Definition has_link (l : link) (x : bool) : Prop := role l x = true \/ p_epoch (ln_par l false) <> 0.
Definition bases (ls : list link) : list pubkey := map ln_base ls.
Definition all_keys (ls : list link) : list pubkey := flat_map ln_keys ls.

(** Another session of [w] with [a] than the one with base key [base] opens a message: it has
    a valid tag under a key that is not its own, an HMAC collision. *)
Definition misread (C : Crypto) (w : world) (a : addr) (base : pubkey) (c : ciphertext) : Prop :=
  exists m r s pt, inner c = Some m /\ w_sess w a = Some r /\ state_in s r /\ ss_alice_base s <> Byte.x05 :: base /\ opens C s m pt.

(** The random bytes [rnd] of a call: every session that is tried may use up 32 of them
    before the one that opens the message draws its new ratchet key. [n]: the number of
    sessions. *)
Definition all_fresh (C : Crypto) (keys : list pubkey) (p : party) (k n : nat) (rnd : bytes) : Prop :=
  k = S (p_epoch p) -> forall j, j < n ->
  32 * S j <= List.length rnd /\ ~ In (mont_pub C (firstn 32 (skipn (32 * j) rnd))) keys.
(** The current session of [w] with [a] has the base key [base]; it has the ratchet key [u]. *)
Definition current_base (w : world) (a : addr) (base : pubkey) : Prop :=
  exists s, current_session w a = Some s /\ ss_alice_base s = Byte.x05 :: base.
Definition current_ratchet (w : world) (a : addr) (u : pubkey) : Prop :=
  exists s sc, current_session w a = Some s /\ ss_sender s = Some sc /\ pc_ratchet sc = Byte.x05 :: u.

(** [u] is the public key of one of the private keys that [rnd] offers to [n] sessions. *)
Definition drawn (C : Crypto) (n : nat) (rnd : bytes) (u : pubkey) : Prop :=
  exists j, j < n /\ u = mont_pub C (firstn 32 (skipn (32 * j) rnd)).

(** [link_sent l part pt c]: [l] after its party [part] has sent [pt] as [c]; [link_got l part k n u]: after the
    party has received message [n] of epoch [k]; [u] is its new ratchet key, if it drew one. *)
Definition link_sent (l : link) (part : bool) (pt : bytes) (c : ciphertext) : link :=
  let p := ln_par l part in
  mkLink (ln_from l) (ln_bundle l) (ln_base l) (upd (ln_par l) part (sent_one p)) (ln_keys l)
    (mkNote part (p_epoch p) (p_sent p) pt c :: ln_notes l).
Definition link_got (l : link) (part : bool) (k : nat) (n : N) (u : pubkey) : link :=
  let p := ln_par l part in
  mkLink (ln_from l) (ln_bundle l) (ln_base l) (upd (ln_par l) part (party_after p k n))
    (if Nat.eqb k (S (p_epoch p)) then ln_keys l ++ [u] else ln_keys l) (ln_notes l).

(** [many C at_ dev ls]: executions of two devices; [at_ x] is the address under which
    device [x] knows the other one. Calls may meet store failures if they return without
    error. *)
Inductive many (C : Crypto) (at_ : bool -> addr) : (bool -> world) -> list link -> Prop :=
| many_start : forall dev, (forall x, wf_device (dev x)) -> (forall x, w_sess (dev x) (at_ x) = None) -> many C at_ dev []
(** Device [x] processes a bundle that the other one published, at any time. Its base key
    and ratchet key are new; the signed pre-key is nobody's ratchet key; the one-time pre-key was not given
    out before. A record holds 41 sessions. *)
| many_begin : forall dev ls x b ia ib sb ob rnd fs w', many C at_ dev ls -> List.length ls <= 40 -> wf_bundle b ->
    pair_for C ia (w_pair (dev x)) -> published C (dev (negb x)) b ib sb ob -> 64 <= List.length rnd ->
    ~ In (mont_pub C (firstn 32 rnd)) (bases ls) ->
    ~ In (mont_pub C (firstn 32 (skipn 32 rnd))) (mont_pub C sb :: all_keys ls) ->
    (forall l, In l ls -> ~ In (mont_pub C sb) (tl (ln_keys l))) ->
    (forall l id, In l ls -> ln_from l = x -> bd_prekey_id (ln_bundle l) = Some id -> bd_prekey_id b <> Some id) ->
    run (process_bundle C (at_ x) rnd b) fs (dev x) = (Ok tt, w') ->
    many C at_ (upd dev x w')
      (mkLink x b (mont_pub C (firstn 32 rnd)) start_party [mont_pub C sb; mont_pub C (firstn 32 (skipn 32 rnd))] [] :: ls)
(** Device [x] sends, in its current session. *)
| many_send : forall dev l1 l l2 x pt fs c w', many C at_ dev (l1 ++ l :: l2) -> current_base (dev x) (at_ x) (ln_base l) ->
    (p_sent (ln_par l (role l x)) + 1 < 4294967296)%N ->
    run (encrypt_message C (at_ x) pt) fs (dev x) = (Ok c, w') ->
    many C at_ (upd dev x w') (l1 ++ link_sent l (role l x) pt c :: l2)
(** Device [x] receives any earlier message of any session, again or for the first time. *)
| many_receive : forall dev l1 l l2 x k n pt c rnd fs pt' u w', many C at_ dev (l1 ++ l :: l2) ->
    In (mkNote (negb (role l x)) k n pt c) (ln_notes l) -> receivable (ln_par l (role l x)) k n ->
    all_fresh C (all_keys (l1 ++ l :: l2)) (ln_par l (role l x)) k (List.length (l1 ++ l :: l2)) rnd ->
    (has_link l x -> ~ misread C (dev x) (at_ x) (ln_base l) c) ->
    run (decrypt_message C (at_ x) rnd c) fs (dev x) = (Ok pt', w') -> current_ratchet w' (at_ x) u ->
    many C at_ (upd dev x w') (l1 ++ link_got l (role l x) k n u :: l2)
(** Anything else that leaves the sessions of the two alone, and the pre-keys of sessions
    not yet accepted. *)
| many_other : forall dev ls x w', many C at_ dev ls -> wf_device w' -> w_pair w' = w_pair (dev x) ->
    w_sess w' (at_ x) = w_sess (dev x) (at_ x) ->
    (forall l, In l ls -> ~ has_link l x -> prekeys_kept (dev x) w' (ln_bundle l)) ->
    many C at_ (upd dev x w') ls.
