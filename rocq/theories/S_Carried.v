(** Group messages whose sender keys were carried by the conversations of a network: C89.

    One language for the terms of S_Raid.v (sessions) and of S_GroupSecrecy.v (one sender's chain),
    in which the plaintext of a message of a conversation may be a distribution message of the chain. *)
From Verif Require Import M_Base M_Crypto M_Aes M_Curve M_Uuid M_Message M_Ratchet M_State M_Store M_Session M_Group
  S_Crypto S_Message S_Ratchet S_Session S_Api S_Group S_GroupMsg S_GroupSecrecy S_X3dh S_Conv S_History S_Secrecy S_Thefts S_Many S_Net S_Raid.
Local Open Scope nat_scope.

Inductive uterm :=
| UPub (x : bytes)
| UPriv (a : nkey)
| UText (base : pubkey) (k : nat) (n : N)     (** a plaintext of a conversation *)
| UKey                                        (** the chain's first key *)
| UGroup (n : N)                              (** the plaintext of iteration [n] of the chain *)
| UDh (x y : uterm)
| UCat (x y : uterm)
| UHmac (key text : uterm)
| UFirst (n : nat) (x : uterm)
| USkip (n : nat) (x : uterm)
| UEnc (key iv text : uterm).
Inductive uderives (K : uterm -> Prop) : uterm -> Prop :=
| ud_known : forall t, K t -> uderives K t
| ud_pub : forall x, uderives K (UPub x)
| ud_dh : forall x y, uderives K x -> uderives K (UDh x y)
| ud_dh_other : forall x y, uderives K y -> uderives K (UDh x y)
| ud_swap : forall x y, uderives K (UDh x y) -> uderives K (UDh y x)
| ud_cat : forall x y, uderives K x -> uderives K y -> uderives K (UCat x y)
| ud_left : forall x y, uderives K (UCat x y) -> uderives K x
| ud_right : forall x y, uderives K (UCat x y) -> uderives K y
| ud_hmac : forall x y, uderives K x -> uderives K y -> uderives K (UHmac x y)
| ud_first : forall n x, uderives K x -> uderives K (UFirst n x)
| ud_skip : forall n x, uderives K x -> uderives K (USkip n x)
| ud_enc : forall x y z, uderives K x -> uderives K y -> uderives K z -> uderives K (UEnc x y z)
| ud_dec : forall x y z, uderives K (UEnc x y z) -> uderives K x -> uderives K z.
Section Value.
Variable C : Crypto.
Variable pr : nkey -> bytes.
Variable tx : pubkey -> nat -> N -> bytes.
Variable key : bytes.
Variable gx : N -> bytes.
Fixpoint uvalue (t : uterm) : bytes :=
  match t with
  | UPub x => x
  | UPriv a => clamp (pr a)
  | UText base k n => tx base k n
  | UKey => key
  | UGroup n => gx n
  | UDh x y => c_x25519 C (uvalue x) (mont_pub C (uvalue y))
  | UCat x y => uvalue x ++ uvalue y
  | UHmac x y => c_hmac C (uvalue x) (uvalue y)
  | UFirst n x => firstn n (uvalue x)
  | USkip n x => skipn n (uvalue x)
  | UEnc x y z => match cbc_encrypt C (uvalue x) (uvalue y) (uvalue z) with Ok c => c | _ => [] end
  end.
End Value.
(** The terms of a chain; those of the sessions, where [letter] says which plaintexts are not mere texts. *)
Fixpoint of_group (t : gterm) : uterm :=
  match t with
  | GPub x => UPub x
  | GKey => UKey
  | GText n => UGroup n
  | GCat x y => UCat (of_group x) (of_group y)
  | GHmac x y => UHmac (of_group x) (of_group y)
  | GFirst n x => UFirst n (of_group x)
  | GSkip n x => USkip n (of_group x)
  | GEnc x y z => UEnc (of_group x) (of_group y) (of_group z)
  end.
Fixpoint of_net (letter : pubkey -> nat -> N -> option uterm) (t : nterm) : uterm :=
  match t with
  | NPub x => UPub x
  | NPriv a => UPriv a
  | NText base k n => match letter base k n with Some u => u | None => UText base k n end
  | NDh x y => UDh (of_net letter x) (of_net letter y)
  | NCat x y => UCat (of_net letter x) (of_net letter y)
  | NHmac x y => UHmac (of_net letter x) (of_net letter y)
  | NFirst n x => UFirst n (of_net letter x)
  | NEnc x y z => UEnc (of_net letter x) (of_net letter y) (of_net letter z)
  end.

(** A distribution message of the chain [c], as its sender's library makes it, at the beginning or later. *)
Definition invitation (C : Crypto) (c : channel) (m : distmsg) : Prop :=
  same_channel C c (channel_of m) /\ List.length (dm_dist m) = 16 /\
  exists a d sysrnd rnd fs w w', own_device C w /\ run (new_sender_dist C a d sysrnd rnd) fs w = (Ok m, w').
(** All messages of the conversations [es] whose plaintext is one. *)
Definition carried (C : Crypto) (c : channel) (es : list cable) (inv : list (cable * note * distmsg)) : Prop :=
  forall e x m, In (e, x, m) inv <-> In e es /\ In x (ln_notes (cb_link e)) /\ invitation C c m /\ nt_text x = dm_raw m.
(** Its serialization as a term: what comes before the chain key, the key, what comes after it
    (tag, length and 33 bytes of the signing key). *)
Definition dist_term (c : channel) (m : distmsg) : uterm :=
  let n := List.length (dm_raw m) in
  UCat (UPub (firstn (n - 67) (dm_raw m))) (UCat (of_group (gchain_of c (dm_iter m))) (UPub (skipn (n - 35) (dm_raw m)))).
Definition letters (c : channel) (inv : list (cable * note * distmsg)) (base : pubkey) (k : nat) (n : N) : option uterm :=
  match find (fun y : cable * note * distmsg => let '(e, x, _) := y in bytes_eqb (cb_base e) base && Nat.eqb (nt_epoch x) k && N.eqb (nt_counter x) n) inv with
  | Some (_, _, m) => Some (dist_term c m)
  | None => None
  end.

(** The thieves know: all that C88's thieves know, except that the distribution messages are not among the
    plaintexts they are given; and all that C80's thieves know, except the plaintext of iteration [n]. *)
Definition spoils (C : Crypto) (dev : addr -> world) (X : nkey -> Prop) (L : list raided) (es : list cable) (c : channel) (inv : list (cable * note * distmsg))
  (bs : list mailbox) (sent : list N) (n : N) (t : uterm) : Prop :=
  (exists r e part x, In r L /\ In e (rd_cables r) /\ rd_who r = cb_end e part /\ In x (held (cb_one e) (ln_par (cb_link e) part)) /\ t = of_net (letters c inv) (named e x)) \/
  (exists a, t = UPriv a /\ known C dev X L a) \/
  (exists e x, In e es /\ In x (ln_notes (cb_link e)) /\
     (t = of_net (letters c inv) (named e (body_of (cb_one e) (nt_epoch x) (nt_counter x))) \/
      exists text, t = of_net (letters c inv) (named e (tag_of (cb_one e) (nt_epoch x) (nt_counter x) text)))) \/
  (exists base k m, t = UText base k m) \/
  (exists b g, In b bs /\ In g (gheld c b) /\ t = of_group g) \/
  (exists i, In i sent /\ t = of_group (gbody_of c i)) \/
  (exists i, t = UGroup i /\ i <> n).
Definition group_taken (C : Crypto) (dev : addr -> world) (X : nkey -> Prop) (L : list raided) (es : list cable) (c : channel) (inv : list (cable * note * distmsg))
  (bs : list mailbox) (sent : list N) (n : N) : Prop := uderives (spoils C dev X L es c inv bs sent n) (UGroup n).
