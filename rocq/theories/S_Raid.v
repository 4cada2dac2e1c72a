(** Thefts in a network: C88.

    The symbolic view of S_Secrecy.v for all sessions of a network (S_Net.v) at the same time:
    the private keys and plaintexts of all of them get names, and a thief who has copied any devices
    at any times may combine everything found on them. *)
From Verif Require Import M_Base M_Crypto M_Aes M_Curve M_Message M_Ratchet M_State M_Store M_Session
  S_Crypto S_Message S_Ratchet S_Session S_X3dh S_Conv S_History S_Secrecy S_Thefts S_Many S_Net.
Local Open Scope nat_scope.

(** The private keys of a network: the identity key of each device; a signed or one-time pre-key
    of a device, by its public key; the base key of a session; the later ratchet keys of the
    session with a base key. *)
Inductive nkey := NIdent (d : addr) | NSigned (d : addr) (u : pubkey) | NOneTime (d : addr) (u : pubkey)
| NBase (base : pubkey) | NRatchet (base : pubkey) (k : nat).
(** Terms as in S_Secrecy.v; [NText base k n]: the plaintext of message [n] of epoch [k] of a session. *)
Inductive nterm :=
| NPub (x : bytes)
| NPriv (a : nkey)
| NText (base : pubkey) (k : nat) (n : N)
| NDh (x y : nterm)
| NCat (x y : nterm)
| NHmac (key text : nterm)
| NFirst (n : nat) (x : nterm)
| NEnc (key iv text : nterm).
Inductive nderives (K : nterm -> Prop) : nterm -> Prop :=
| nd_known : forall t, K t -> nderives K t
| nd_pub : forall x, nderives K (NPub x)
| nd_dh : forall x y, nderives K x -> nderives K (NDh x y)
| nd_dh_other : forall x y, nderives K y -> nderives K (NDh x y)
(** X25519 of two key pairs is the same from both sides. *)
| nd_swap : forall x y, nderives K (NDh x y) -> nderives K (NDh y x)
| nd_cat : forall x y, nderives K x -> nderives K y -> nderives K (NCat x y)
| nd_left : forall x y, nderives K (NCat x y) -> nderives K x
| nd_right : forall x y, nderives K (NCat x y) -> nderives K y
| nd_hmac : forall x y, nderives K x -> nderives K y -> nderives K (NHmac x y)
| nd_first : forall n x, nderives K x -> nderives K (NFirst n x)
| nd_enc : forall x y z, nderives K x -> nderives K y -> nderives K z -> nderives K (NEnc x y z)
| nd_dec : forall x y z, nderives K (NEnc x y z) -> nderives K x -> nderives K z.
Section Value.
Variable C : Crypto.
Variable pr : nkey -> bytes.
Variable tx : pubkey -> nat -> N -> bytes.
Fixpoint nvalue (t : nterm) : bytes :=
  match t with
  | NPub x => x
  | NPriv a => clamp (pr a)
  | NText base k n => tx base k n
  | NDh x y => c_x25519 C (nvalue x) (mont_pub C (nvalue y))
  | NCat x y => nvalue x ++ nvalue y
  | NHmac x y => c_hmac C (nvalue x) (nvalue y)
  | NFirst n x => firstn n (nvalue x)
  | NEnc x y z => match cbc_encrypt C (nvalue x) (nvalue y) (nvalue z) with Ok c => c | _ => [] end
  end.
End Value.

(** The device that plays a part in a session; what the keys of the session are in the network. *)
Definition cb_end (c : cable) (part : bool) : addr := if part then cb_from c else cb_to c.
Definition cb_base (c : cable) : pubkey := ln_base (cb_link c).
Definition cb_bundle (c : cable) : bundle := ln_bundle (cb_link c).
Definition cb_one (c : cable) : bool := one_time (cb_bundle c).
Definition or_none (u : option pubkey) : pubkey := match u with Some x => x | None => [] end.
Definition key_of (c : cable) (a : atom) : nkey :=
  match a with
  | AIdent part => NIdent (cb_end c part)
  | ABase => NBase (cb_base c)
  | AOneTime => NOneTime (cb_to c) (or_none (bd_prekey (cb_bundle c)))
  | ARatchet 0 => NSigned (cb_to c) (or_none (bd_signed (cb_bundle c)))
  | ARatchet k => NRatchet (cb_base c) k
  end.
Fixpoint named (c : cable) (t : term) : nterm :=
  match t with
  | TPub x => NPub x
  | TPriv a => NPriv (key_of c a)
  | TText k n => NText (cb_base c) k n
  | TDh x y => NDh (named c x) (named c y)
  | TCat x y => NCat (named c x) (named c y)
  | THmac x y => NHmac (named c x) (named c y)
  | TFirst n x => NFirst n (named c x)
  | TEnc x y z => NEnc (named c x) (named c y) (named c z)
  end.

(** A theft: which device, all that was on it, where its sessions stood. *)
Record raided := mkRaided { rd_who : addr; rd_device : world; rd_cables : list cable }.
(** Executions of the network in which devices are copied now and then, the latest theft first. *)
Inductive raid (C : Crypto) : (addr -> world) -> list cable -> list raided -> Prop :=
| r_none : forall dev es, net C dev es -> raid C dev es []
| r_steal : forall dev es L d, raid C dev es L -> raid C dev es (mkRaided d (dev d) es :: L)
| r_later : forall dev es L dev1 es1, raid C dev es L -> net_from C (fun dev0 es0 => dev0 = dev /\ es0 = es) dev1 es1 -> raid C dev1 es1 L.

(** The private keys that are known: those of the set [X], and those in the stores of the stolen
    devices. ([dev]: the devices at the end, for their identity keys, which never change. Devices may
    share an identity key.) *)
Definition loses (C : Crypto) (dev : addr -> world) (w : world) (a : nkey) : Prop :=
  match a with
  | NIdent d => kp_pub (w_pair w) = kp_pub (w_pair (dev d))
  | NSigned _ u => exists id x p, w_signed w id = Some x /\ prekeyrec_pair C x = Ok p /\ u = kp_pub p
  | NOneTime _ u => exists id x p, w_prekeys w id = Some x /\ prekeyrec_pair C x = Ok p /\ u = kp_pub p
  | _ => False
  end.
Definition known (C : Crypto) (dev : addr -> world) (X : nkey -> Prop) (L : list raided) (a : nkey) : Prop :=
  X a \/ exists r, In r L /\ loses C dev (rd_device r) a.
(** Where the robbed devices stood in the session with base key [base]. *)
Definition stood (who : addr) (base : pubkey) (c : cable) : list party :=
  if bytes_eqb (cb_base c) base then
    (if addr_eqb who (cb_from c) then [ln_par (cb_link c) true] else []) ++ (if addr_eqb who (cb_to c) then [ln_par (cb_link c) false] else [])
  else [].
Definition robbed (L : list raided) (base : pubkey) : list party := flat_map (fun r => flat_map (stood (rd_who r) base) (rd_cables r)) L.
(** All that is known: these keys, the rest of all sessions of the stolen devices, everything that was ever
    sent, and all plaintexts but that of message [n] of epoch [k] of the session with base key [base]. *)
Definition booty (C : Crypto) (dev : addr -> world) (X : nkey -> Prop) (L : list raided) (es : list cable) (base : pubkey) (k : nat) (n : N) (t : nterm) : Prop :=
  (exists r c part x, In r L /\ In c (rd_cables r) /\ rd_who r = cb_end c part /\ In x (held (cb_one c) (ln_par (cb_link c) part)) /\ t = named c x) \/
  (exists a, t = NPriv a /\ known C dev X L a) \/
  (exists c x, In c es /\ In x (ln_notes (cb_link c)) /\
     (t = named c (body_of (cb_one c) (nt_epoch x) (nt_counter x)) \/ exists text, t = named c (tag_of (cb_one c) (nt_epoch x) (nt_counter x) text))) \/
  (exists base' k' n', t = NText base' k' n' /\ (base', k', n') <> (base, k, n)).
(** The thief can read message [x] of the session [c]. *)
Definition taken (C : Crypto) (dev : addr -> world) (X : nkey -> Prop) (L : list raided) (es : list cable) (c : cable) (x : note) : Prop :=
  nderives (booty C dev X L es (cb_base c) (nt_epoch x) (nt_counter x)) (NText (cb_base c) (nt_epoch x) (nt_counter x)).
(** What should be readable of a session: what its own stolen states and keys open, S_Thefts.v. *)
Definition laid_open (C : Crypto) (dev : addr -> world) (X : nkey -> Prop) (L : list raided) (c : cable) (x : note) : Prop :=
  message_open (cb_one c) (robbed L (cb_base c)) (fun a => known C dev X L (key_of c a)) (nt_epoch x) (nt_counter x).
