(** What can be computed from stolen secrets: C77 and C78.

    The symbolic (Dolev-Yao) view of a conversation. A term says how a byte string was
    computed from private keys and plaintexts; [derives] says which terms somebody can
    compute who knows some others, when nothing but the operations themselves is used
    (hashes cannot be inverted, ciphertexts only opened with their key, Diffie-Hellman values
    only computed with one of the two private keys). [value] is the byte string that a term
    stands for. *)
From Verif Require Import M_Base M_Crypto M_Aes M_Curve M_Message M_Ratchet M_State M_Store M_Session
  S_Crypto S_Message S_Ratchet S_Session S_X3dh S_Conv S_History.
Local Open Scope nat_scope.

(** The private keys: identity keys of the initiator ([true]) and the responder, the
    initiator's base key, the responder's one-time pre-key, the ratchet key of each epoch
    (that of epoch 0 is the responder's signed pre-key). *)
Inductive atom := AIdent (side : bool) | ABase | AOneTime | ARatchet (k : nat).
Inductive term :=
| TPub (x : bytes)                  (** anything public *)
| TPriv (a : atom)                  (** a private key *)
| TText (k : nat) (n : N)           (** the plaintext of message [n] of epoch [k] *)
| TDh (x y : term)                  (** X25519 of the private key [x] and the public key of [y] *)
| TCat (x y : term)
| THmac (key text : term)
| TFirst (n : nat) (x : term)
| TEnc (key iv text : term).        (** AES-CBC *)

Inductive derives (K : term -> Prop) : term -> Prop :=
| d_known : forall t, K t -> derives K t
| d_pub : forall x, derives K (TPub x)
(** Public keys are public, so one private key is enough. *)
| d_dh : forall x y, derives K x -> derives K (TDh x y)
| d_dh_other : forall x y, derives K y -> derives K (TDh x y)
| d_cat : forall x y, derives K x -> derives K y -> derives K (TCat x y)
| d_left : forall x y, derives K (TCat x y) -> derives K x
| d_right : forall x y, derives K (TCat x y) -> derives K y
| d_hmac : forall x y, derives K x -> derives K y -> derives K (THmac x y)
| d_first : forall n x, derives K x -> derives K (TFirst n x)
| d_enc : forall x y z, derives K x -> derives K y -> derives K z -> derives K (TEnc x y z)
| d_dec : forall x y z, derives K (TEnc x y z) -> derives K x -> derives K z.

Section Value.
Variable C : Crypto.
Variable pr : atom -> bytes.
Variable tx : nat -> N -> bytes.
Fixpoint value (t : term) : bytes :=
  match t with
  | TPub x => x
  | TPriv a => clamp (pr a)
  | TText k n => tx k n
  | TDh x y => c_x25519 C (value x) (mont_pub C (value y))
  | TCat x y => value x ++ value y
  | THmac x y => c_hmac C (value x) (value y)
  | TFirst n x => firstn n (value x)
  | TEnc x y z => match cbc_encrypt C (value x) (value y) (value z) with Ok c => c | _ => [] end
  end.
End Value.

(** * The schedule of X3DH and the Double Ratchet *)
(** HKDF (RFC 5869), block [i] of the output. *)
Fixpoint hkdf_block (prk : term) (info : bytes) (i : nat) : term :=
  match i with
  | O => TPub []
  | S j => THmac prk (TCat (hkdf_block prk info j) (TPub (info ++ [n2b (N.of_nat i)])))
  end.
Definition no_salt : term := TPub (repeat Byte.x00 32).
Definition dh_of (a a' : atom) : term := TDh (TPriv a) (TPriv a').
(** [one]: with a one-time pre-key. *)
Definition x3dh_secret (one : bool) : term :=
  TCat (TPub (repeat Byte.xff 32)) (TCat (dh_of (AIdent true) (ARatchet 0)) (TCat (dh_of ABase (AIdent false))
    (TCat (dh_of ABase (ARatchet 0)) (if one then dh_of ABase AOneTime else TPub [])))).
Definition root_info (k : nat) : bytes := match k with O => str "WhisperText" | _ => str "WhisperRatchet" end.
Fixpoint root_prk (one : bool) (k : nat) : term :=
  match k with
  | O => THmac no_salt (x3dh_secret one)
  | S j => THmac (hkdf_block (root_prk one j) (root_info j) 1) (dh_of (ARatchet k) (ARatchet j))
  end.
(** Root key and first chain key of epoch [k]; chain key of message [n]; its three keys. *)
Definition root_of (one : bool) (k : nat) : term := hkdf_block (root_prk one k) (root_info k) 1.
Definition first_of (one : bool) (k : nat) : term := hkdf_block (root_prk one k) (root_info k) 2.
Definition chain_of (one : bool) (k : nat) (n : N) : term :=
  Nat.iter (N.to_nat n) (fun x => THmac x (TPub [Byte.x02])) (first_of one k).
Definition message_prk (one : bool) (k : nat) (n : N) : term := THmac no_salt (THmac (chain_of one k n) (TPub [Byte.x01])).
Definition cipher_of (one : bool) (k : nat) (n : N) : term := hkdf_block (message_prk one k n) (str "WhisperMessageKeys") 1.
Definition mac_of (one : bool) (k : nat) (n : N) : term := hkdf_block (message_prk one k n) (str "WhisperMessageKeys") 2.
Definition iv_of (one : bool) (k : nat) (n : N) : term := TFirst 16 (hkdf_block (message_prk one k n) (str "WhisperMessageKeys") 3).
(** What is sent: the encrypted plaintext, and a tag of some text. *)
Definition body_of (one : bool) (k : nat) (n : N) : term := TEnc (cipher_of one k n) (iv_of one k n) (TText k n).
Definition tag_of (one : bool) (k : nat) (n : N) (text : bytes) : term := TFirst 8 (THmac (mac_of one k n) (TPub text)).

(** * The loot *)
(** All secrets in a stored session state: the root key and, for every chain, the private
    ratchet key, the chain key and the saved message keys. *)
Definition chain_secrets (c : pchain) : list bytes :=
  pc_ratchet_priv c :: match pc_key c with Some k => [pck_key k] | None => [] end ++
  flat_map (fun x => [pmk_cipher x; pmk_mac x; pmk_iv x]) (pc_msgkeys c).
Definition session_secrets (s : state) : list bytes :=
  ss_root s :: match ss_sender s with Some c => chain_secrets c | None => [] end ++ flat_map chain_secrets (ss_receivers s).
(** The same as terms, for a party that stands at [p]. (The private key of a receiving chain
    is empty.) *)
Definition held (one : bool) (p : party) : list term :=
  match p_epoch p with
  | O => []
  | _ => root_of one (p_epoch p) :: [TPriv (ARatchet (p_epoch p)); chain_of one (p_epoch p) (p_sent p)] ++
      flat_map (fun v => [TPub []; chain_of one (rv_epoch v) (rv_idx v)] ++
        flat_map (fun n => [cipher_of one (rv_epoch v) n; mac_of one (rv_epoch v) n; iv_of one (rv_epoch v) n]) (rv_saved v)) (p_views p)
  end.
(** The stores of [w] still have the private keys of the bundle [b]. *)
Definition has_signed (C : Crypto) (w : world) (b : bundle) : Prop :=
  exists id x p, w_signed w id = Some x /\ prekeyrec_pair C x = Ok p /\ bd_signed b = Some (kp_pub p).
Definition has_one_time (C : Crypto) (w : world) (b : bundle) : Prop :=
  exists id x p, w_prekeys w id = Some x /\ prekeyrec_pair C x = Ok p /\ bd_prekey b = Some (kp_pub p).
Definition device_keys (C : Crypto) (b : bundle) (side : bool) (w : world) (a : atom) : Prop :=
  match a with
  | AIdent s => s = side
  | ABase => False
  | AOneTime => side = false /\ has_one_time C w b
  | ARatchet k => k = 0 /\ side = false /\ has_signed C w b
  end.
(** Everything a thief of the device [w] of [side] knows, who has also recorded the messages
    [notes] and knows all plaintexts but that of message [n] of epoch [k]. *)
Definition loot (C : Crypto) (b : bundle) (one : bool) (side : bool) (w : world) (p : party) (notes : list note) (k : nat) (n : N) (t : term) : Prop :=
  In t (held one p) \/ (exists a, t = TPriv a /\ device_keys C b side w a) \/
  (exists x, In x notes /\ (t = body_of one (nt_epoch x) (nt_counter x) \/ exists text, t = tag_of one (nt_epoch x) (nt_counter x) text)) \/
  (exists k' n', t = TText k' n' /\ (k', n') <> (k, n)).

(** What the thief should be able to read: with the keys still held for the peer's messages;
    what the victim has yet to send in its epoch, and the peer's next epoch; and, as long as
    the responder's device still has the pre-keys with which the session was set up, the
    initiator's first epoch (and the responder's answers, if it is still in its first). *)
Definition setup_open (C : Crypto) (b : bundle) (side : bool) (w : world) : Prop :=
  side = false /\ has_signed C w b /\ (bd_prekey b = None \/ has_one_time C w b).
Definition exposed (C : Crypto) (b : bundle) (side : bool) (w : world) (p : party) (k : nat) (n : N) : Prop :=
  (exists v, In v (p_views p) /\ rv_epoch v = k /\ ((rv_idx v <= n)%N \/ In n (rv_saved v))) \/
  (p_epoch p <> 0 /\ (k = p_epoch p /\ (p_sent p <= n)%N \/ k = S (p_epoch p))) \/
  (setup_open C b side w /\ (k = 1 \/ k = 2 /\ p_epoch p = 2)).

(** The private keys [pr] are those of the conversation. *)
Definition names (C : Crypto) (pr : atom -> bytes) (b : bundle) (base : pubkey) (dev : bool -> world) (keys : list pubkey) : Prop :=
  (forall s, kp_pub (w_pair (dev s)) = mont_pub C (pr (AIdent s)) /\ sk_bytes (kp_priv (w_pair (dev s))) = clamp (pr (AIdent s))) /\
  base = mont_pub C (pr ABase) /\ bd_signed b = Some (mont_pub C (pr (ARatchet 0))) /\
  (bd_prekey b = None \/ bd_prekey b = Some (mont_pub C (pr AOneTime))) /\
  forall k, k < List.length keys -> nth_error keys k = Some (mont_pub C (pr (ARatchet k))).
Definition one_time (b : bundle) : bool := match bd_prekey b with Some _ => true | None => false end.
(** The thief can read the message [x]. *)
Definition stolen (C : Crypto) (b : bundle) (side : bool) (w : world) (p : party) (notes : list note) (x : note) : Prop :=
  derives (loot C b (one_time b) side w p notes (nt_epoch x) (nt_counter x)) (TText (nt_epoch x) (nt_counter x)).

(** The conversation goes on: [later ... h0 h1], with the steps of [history]. *)
Section Later.
Variable C : Crypto.
Variable at_ : bool -> addr.
Variable b : bundle.
Variable base : pubkey.
Variable dev0 : bool -> world.
Variable par0 : bool -> party.
Variable keys0 : list pubkey.
Variable notes0 : list note.
Inductive later : (bool -> world) -> (bool -> party) -> list pubkey -> list note -> Prop :=
| l_now : later dev0 par0 keys0 notes0
| l_send : forall dev par keys notes side pt fs c w', later dev par keys notes ->
    (side = true \/ p_epoch (par false) <> 0) -> (p_sent (par side) + 1 < 4294967296)%N ->
    run (encrypt_message C (at_ side) pt) fs (dev side) = (Ok c, w') ->
    later (upd dev side w') (upd par side (sent_one (par side))) keys
      (mkNote side (p_epoch (par side)) (p_sent (par side)) pt c :: notes)
| l_receive : forall dev par keys notes side k n pt c rnd fs pt' w', later dev par keys notes ->
    In (mkNote (negb side) k n pt c) notes -> receivable (par side) k n -> fresh C keys (par side) k rnd ->
    run (decrypt_message C (at_ side) rnd c) fs (dev side) = (Ok pt', w') ->
    later (upd dev side w') (upd par side (party_after (par side) k n)) (keys_after C keys (par side) k rnd) notes
| l_other : forall dev par keys notes side w', later dev par keys notes ->
    left_alone at_ b base (par false) side (dev side) w' ->
    later (upd dev side w') par keys notes.
End Later.
