(** Any number of thefts, from both devices, and any set of leaked private keys: C79. *)
From Verif Require Import M_Base M_Crypto M_Aes M_Curve M_Message M_Ratchet M_State M_Store M_Session
  S_Crypto S_Message S_Ratchet S_Session S_X3dh S_Conv S_History S_Secrecy.
Local Open Scope nat_scope.

(** A theft: whose device, all that was on it, where the party stood. *)
Record theft := mkTheft { th_side : bool; th_device : world; th_party : party }.
(** Executions in which devices are copied now and then, the latest theft first. *)
Inductive heist (C : Crypto) (at_ : bool -> addr) (b : bundle) (base : pubkey)
  : (bool -> world) -> (bool -> party) -> list pubkey -> list note -> list theft -> Prop :=
| g_none : forall dev par keys notes, history C at_ b base dev par keys notes -> heist C at_ b base dev par keys notes []
| g_steal : forall dev par keys notes l side, heist C at_ b base dev par keys notes l ->
    heist C at_ b base dev par keys notes (mkTheft side (dev side) (par side) :: l)
| g_later : forall dev par keys notes l dev1 par1 keys1 notes1, heist C at_ b base dev par keys notes l ->
    later C at_ b base dev par keys notes dev1 par1 keys1 notes1 -> heist C at_ b base dev1 par1 keys1 notes1 l.

(** The private keys that are known: those of the set [X], those in the stores of the stolen
    devices, and the ratchet keys in their sessions. *)
Definition leaked (C : Crypto) (b : bundle) (X : atom -> Prop) (l : list theft) (a : atom) : Prop :=
  X a \/ exists th, In th l /\ device_keys C b (th_side th) (th_device th) a.
Definition has_key (ps : list party) (A : atom -> Prop) (a : atom) : Prop :=
  A a \/ exists p, In p ps /\ p_epoch p <> 0 /\ a = ARatchet (p_epoch p).
(** All that is known: also the rest of the stolen sessions, everything that was sent, and
    all plaintexts but that of message [n] of epoch [k]. *)
Definition hoard (one : bool) (ps : list party) (A : atom -> Prop) (notes : list note) (k : nat) (n : N) (t : term) : Prop :=
  (exists p, In p ps /\ In t (held one p)) \/ (exists a, t = TPriv a /\ A a) \/
  (exists x, In x notes /\ (t = body_of one (nt_epoch x) (nt_counter x) \/ exists text, t = tag_of one (nt_epoch x) (nt_counter x) text)) \/
  (exists k' n', t = TText k' n' /\ (k', n') <> (k, n)).
Definition plundered (C : Crypto) (b : bundle) (X : atom -> Prop) (l : list theft) (notes : list note) (x : note) : Prop :=
  derives (hoard (one_time b) (map th_party l) (leaked C b X l) notes (nt_epoch x) (nt_counter x)) (TText (nt_epoch x) (nt_counter x)).

(** * What should be readable *)
Section Open.
Variables (one : bool) (ps : list party) (A : atom -> Prop).
Notation has := (has_key ps A).
(** The root key of epoch [k] is open: it was stolen; all secrets of X3DH can be computed; or
    the one before is open, and one of the two ratchet keys of the step is known. *)
Inductive root_open : nat -> Prop :=
| ro_stolen : forall p, In p ps -> p_epoch p <> 0 -> root_open (p_epoch p)
| ro_setup : has (AIdent true) \/ has (ARatchet 0) -> has ABase \/ has (AIdent false) -> has ABase \/ has (ARatchet 0) ->
    (one = true -> has ABase \/ has AOneTime) -> root_open 0
| ro_step : forall k, root_open k -> has (ARatchet k) \/ has (ARatchet (S k)) -> root_open (S k).
(** A message is open: its key was stolen, or a chain key at or before its place, or all of
    its epoch is open. *)
Definition message_open (k : nat) (n : N) : Prop :=
  (exists p v, In p ps /\ p_epoch p <> 0 /\ In v (p_views p) /\ rv_epoch v = k /\ ((rv_idx v <= n)%N \/ In n (rv_saved v))) \/
  (exists p, In p ps /\ p_epoch p <> 0 /\ k = p_epoch p /\ (p_sent p <= n)%N) \/
  (exists j, k = S j /\ root_open j /\ (has (ARatchet j) \/ has (ARatchet k))).
End Open.
Definition opened (C : Crypto) (b : bundle) (X : atom -> Prop) (l : list theft) (x : note) : Prop :=
  message_open (one_time b) (map th_party l) (leaked C b X l) (nt_epoch x) (nt_counter x).
