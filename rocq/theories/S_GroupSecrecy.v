(** What can be computed from stolen sender keys: C80. The symbolic view of S_Secrecy.v for
    one sender's chain in a group. *)
From Verif Require Import M_Base M_Crypto M_Aes M_Curve M_Uuid M_Message M_Ratchet M_State M_Store M_Session M_Group
  S_Crypto S_Message S_State S_Shape S_Ratchet S_Session S_Curve S_Api S_Group S_GroupMsg.
Local Open Scope nat_scope.

Inductive gterm :=
| GPub (x : bytes)                  (** anything public *)
| GKey                              (** the first chain key *)
| GText (n : N)                     (** the plaintext of iteration [n] *)
| GCat (x y : gterm)
| GHmac (key text : gterm)
| GFirst (n : nat) (x : gterm)
| GSkip (n : nat) (x : gterm)
| GEnc (key iv text : gterm).       (** AES-CBC *)
Inductive gderives (K : gterm -> Prop) : gterm -> Prop :=
| gd_known : forall t, K t -> gderives K t
| gd_pub : forall x, gderives K (GPub x)
| gd_cat : forall x y, gderives K x -> gderives K y -> gderives K (GCat x y)
| gd_left : forall x y, gderives K (GCat x y) -> gderives K x
| gd_right : forall x y, gderives K (GCat x y) -> gderives K y
| gd_hmac : forall x y, gderives K x -> gderives K y -> gderives K (GHmac x y)
| gd_first : forall n x, gderives K x -> gderives K (GFirst n x)
| gd_skip : forall n x, gderives K x -> gderives K (GSkip n x)
| gd_enc : forall x y z, gderives K x -> gderives K y -> gderives K z -> gderives K (GEnc x y z)
| gd_dec : forall x y z, gderives K (GEnc x y z) -> gderives K x -> gderives K z.
(** The byte string of a term; [key]: the first chain key, [tx]: the plaintexts. *)
Fixpoint gvalue (C : Crypto) (key : bytes) (tx : N -> bytes) (t : gterm) : bytes :=
  match t with
  | GPub x => x
  | GKey => key
  | GText n => tx n
  | GCat x y => gvalue C key tx x ++ gvalue C key tx y
  | GHmac x y => c_hmac C (gvalue C key tx x) (gvalue C key tx y)
  | GFirst n x => firstn n (gvalue C key tx x)
  | GSkip n x => skipn n (gvalue C key tx x)
  | GEnc x y z => match cbc_encrypt C (gvalue C key tx x) (gvalue C key tx y) (gvalue C key tx z) with Ok c => c | _ => [] end
  end.

(** The chain key, the message seed, and the keys of iteration [n] of the chain [c]. *)
Fixpoint ghkdf_block (prk : gterm) (info : bytes) (i : nat) : gterm :=
  match i with
  | O => GPub []
  | S j => GHmac prk (GCat (ghkdf_block prk info j) (GPub (info ++ [n2b (N.of_nat i)])))
  end.
Definition gchain_of (c : channel) (n : N) : gterm := Nat.iter (N.to_nat (n - cn_first c)) (fun x => GHmac x (GPub [Byte.x02])) GKey.
Definition gseed_of (c : channel) (n : N) : gterm := GHmac (gchain_of c n) (GPub [Byte.x01]).
Definition gblock (c : channel) (n : N) (i : nat) : gterm := ghkdf_block (GHmac (GPub (repeat Byte.x00 32)) (gseed_of c n)) (str "WhisperGroup") i.
Definition giv_of (c : channel) (n : N) : gterm := GFirst 16 (gblock c n 1).
Definition gcipher_of (c : channel) (n : N) : gterm := GCat (GSkip 16 (gblock c n 1)) (GFirst 16 (gblock c n 2)).
Definition gbody_of (c : channel) (n : N) : gterm := GEnc (gcipher_of c n) (giv_of c n) (GText n).

(** The secrets of a stored state (the signing key has no part in the encryption), and the
    same as terms for one that stands where the mailbox [b] says. *)
Definition group_secrets (s : gstate) : list bytes := gs_seed s :: map gm_seed (gs_keys s).
Definition gheld (c : channel) (b : mailbox) : list gterm := gchain_of c (mb_next b) :: map (gseed_of c) (mb_open b).

(** The channel [c'] is [c] as a later distribution message describes it. *)
Definition same_channel (C : Crypto) (c c' : channel) : Prop :=
  cn_dist c' = cn_dist c /\ cn_chain c' = cn_chain c /\ cn_signing c' = cn_signing c /\ (cn_first c <= cn_first c')%N /\
  cn_key c' = chain_at C (cn_key c) (N.to_nat (cn_first c' - cn_first c)).
(** A stolen state of the chain [c]: a member's, who joined with this or a later distribution
    message and to whom the messages [l] have come since; or the sender's own, who created
    the chain and has sent [l] since. *)
Inductive group_theft (C : Crypto) (c : channel) : mailbox -> gstate -> Prop :=
| gt_member : forall a c' l w s, same_channel C c c' -> member C a c' l w -> follows w a (cn_dist c') (cn_chain c') s ->
    group_theft C c (box c' l) s
| gt_sender : forall a d sysrnd rnd fs w m w1 l w2 s r, own_device C w -> w_groups w a d = None ->
    run (new_sender_dist C a d sysrnd rnd) fs w = (Ok m, w1) -> c = channel_of m -> gsends C a d w1 l w2 ->
    (dm_iter m + N.of_nat (List.length l) < 2 ^ 32)%N -> w_groups w2 a d = Some (s :: r) ->
    group_theft C c (mkMailbox (dm_iter m + N.of_nat (List.length l)) []) s.
(** The thieves know the stolen states, everything sent ([sent]: the iterations), and all
    plaintexts but that of iteration [n]. *)
Definition gloot (c : channel) (bs : list mailbox) (sent : list N) (n : N) (t : gterm) : Prop :=
  (exists b, In b bs /\ In t (gheld c b)) \/ (exists i, In i sent /\ t = gbody_of c i) \/ (exists i, t = GText i /\ i <> n).
Definition group_stolen (c : channel) (bs : list mailbox) (sent : list N) (n : N) : Prop := gderives (gloot c bs sent n) (GText n).
