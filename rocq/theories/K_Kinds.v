(** Two texts that read as two kinds, both with bytes in the place of the signature that
    happen to be fields. *)
From Verif Require Import M_Base M_Crypto M_Curve M_Proto M_Uuid M_Message.
From Verif Require Import S_Wire P_Wire.
Local Open Scope N_scope.

Definition fill (n : nat) : bytes := repeat Byte.x01 n.
(** Fields 1 and 15, then 8 bytes. *)
Definition sig_signal : bytes :=
  Byte.x0a :: Byte.x21 :: Byte.x05 :: fill 32 ++ Byte.x7a :: Byte.x13 :: fill 19 ++ fill 8.
(** Fields 5 and 15. *)
Definition sig_dist : bytes :=
  Byte.x2a :: Byte.x21 :: Byte.x05 :: fill 32 ++ Byte.x7a :: Byte.x1b :: fill 27.
Definition with_sig (sig : bytes) : bytes :=
  Byte.x33 :: enc_fields (senderkey_fields (fill 16) 7 0 (fill 32)) ++ sig.

Definition is_ok {A} (r : res A) : bool := match r with Ok _ => true | _ => false end.
Lemma is_ok_some : forall {A} (r : res A), is_ok r = true -> exists a, r = Ok a.
Proof. intros A [a| |] E; try discriminate. exists a. reflexivity. Qed.

Lemma overlap : exists b b' m n m' n',
  parse_senderkey b = Ok m /\ parse_signal b = Ok n /\
  parse_senderkey b' = Ok m' /\ parse_dist b' = Ok n'.
Proof.
  exists (with_sig sig_signal), (with_sig sig_dist).
  destruct (is_ok_some (parse_senderkey (with_sig sig_signal)) eq_refl) as [m E].
  destruct (is_ok_some (parse_signal (with_sig sig_signal)) eq_refl) as [n F].
  destruct (is_ok_some (parse_senderkey (with_sig sig_dist)) eq_refl) as [m' E'].
  destruct (is_ok_some (parse_dist (with_sig sig_dist)) eq_refl) as [n' F'].
  exists m, n, m', n'. auto.
Qed.
