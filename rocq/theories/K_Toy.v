(** An instance of the primitives that satisfies every law of [CryptoOk]: the laws are
    consistent, so no theorem that assumes them is vacuous. The group is the additive
    group modulo the order of the curve's prime subgroup; it is not secure, only lawful. *)
From Verif Require Import M_Base M_Crypto M_Aes M_Curve S_Crypto P_Base P_Curve.
From Coq Require Import ZifyBool ZifyNat ZifyN.
Local Open Scope N_scope.

(** A polynomial hash to [n] bytes. *)
Definition toy_hash (n : nat) (b : bytes) : bytes :=
  n2le n (fold_left (fun acc x => (acc * 1000003 + b2n x + 1) mod 256 ^ N.of_nat n) b 7).
Definition toy_hmac (k m : bytes) : bytes := toy_hash 32 (k ++ Byte.xff :: m).
Definition toy_sha (m : bytes) : bytes := toy_hash 64 m.
Definition toy_aes (k b : bytes) : bytes := xor_bytes b (firstn 16 k).
(** The "point" of scalar [s] has y coordinate s + 2 and sign bit 0. *)
Definition toy_edbase (s : N) : bytes := n2le 32 (s mod ell + 2).
(** Multiply the discrete logarithm found from the u coordinate; the point with u = 0
    has low order. *)
Definition toy_x (k u : bytes) : bytes :=
  match utoy u true with
  | Ok y => if le2n y =? p25519 - 1 then repeat Byte.x00 32
            else n2le 32 ((scalar_of k * ((le2n y + (p25519 * ell - 2)) mod ell)) mod ell + 1)
  | _ => repeat Byte.x00 32
  end.
Definition toy_log (A : bytes) : N := le2n A - 2.
Definition toy_verify (A m sig : bytes) : bool :=
  let R := firstn 32 sig in
  le2n (skipn 32 sig) =?
  (toy_log A * (le2n (toy_sha (R ++ A ++ m)) mod ell) + toy_log R) mod ell.
Definition toy : Crypto :=
  mkCrypto toy_hmac toy_sha toy_aes toy_aes toy_x toy_edbase toy_verify.

Lemma ell_small : ell + 2 < 256 ^ 32 /\ ell + 2 < p25519 - 1 /\ ell + 2 < two255 /\ 0 < ell.
Proof. repeat split; vm_compute; reflexivity. Qed.

Lemma toy_edbase_le2n : forall s, s < ell -> le2n (toy_edbase s) = s + 2.
Proof.
  intros s H. unfold toy_edbase. pose proof ell_small as (E1 & _ & _ & _).
  rewrite N.mod_small by exact H. apply le2n_n2le.
  change (N.of_nat 32) with 32. revert E1 H. generalize (256 ^ 32) ell. clear. intros; lia.
Qed.

Lemma toy_edbase_top : forall s, s < ell -> high_bit (nth 31 (toy_edbase s) Byte.x00) = 0.
Proof.
  intros s H. unfold toy_edbase. rewrite N.mod_small by exact H.
  pose proof ell_small as (_ & _ & E & _).
  assert (L : s + 2 < two255) by (revert E H; generalize two255 ell; clear; intros; lia).
  destruct (n2le_last (s + 2) L) as (l & t & -> & Hl & Ht).
  rewrite app_nth2 by lia. rewrite Hl. cbn [Nat.sub nth]. unfold high_bit.
  revert Ht. clear. destruct t; vm_compute; intro; congruence.
Qed.

Lemma toy_utoy : forall s, s < ell -> utoy (ed_to_mont (toy_edbase s)) true = Ok (toy_edbase s).
Proof.
  intros s H. pose proof (utoy_mont (toy_edbase s) (n2le_length _ _)) as U.
  rewrite toy_edbase_top in U by exact H. change (N.eqb 0 0) with true in U. apply U.
  - rewrite toy_edbase_le2n by exact H. pose proof ell_small as (_ & E1 & E2 & _).
    rewrite N.mod_small; revert E1 E2 H; generalize two255 ell p25519; clear; intros; lia.
  - rewrite toy_edbase_le2n by exact H. pose proof ell_small as (_ & E1 & E2 & _).
    rewrite N.mod_small; revert E1 E2 H; generalize two255 ell p25519; clear; intros; lia.
Qed.

Lemma toy_dh : forall a b, List.length a = 32%nat -> List.length b = 32%nat ->
  toy_x a (mont_pub toy b) = n2le 32 ((scalar_of a * scalar_of b) mod ell + 1).
Proof.
  intros a b La Lb. unfold toy_x, mont_pub. cbn [c_edbase toy].
  destruct (scalar_range b Lb) as [_ Hs]. rewrite toy_utoy, toy_edbase_le2n by exact Hs.
  pose proof ell_small as (_ & E1 & _ & E3).
  destruct (N.eqb_spec (scalar_of b + 2) (p25519 - 1)) as [E|_].
  { exfalso. revert E E1 Hs. generalize p25519 ell (scalar_of b). clear. intros; lia. }
  assert (P2 : 2 <= p25519 * ell) by (vm_compute; discriminate).
  replace (scalar_of b + 2 + (p25519 * ell - 2)) with (scalar_of b + p25519 * ell)
    by (revert P2; generalize (p25519 * ell); clear; intros; lia).
  rewrite (N.add_mod (scalar_of b)), N.mod_mul, N.add_0_r, N.mod_mod, N.mod_small with (b := ell) (a := scalar_of b)
    by (try exact Hs; revert E3; generalize ell; clear; intros; lia).
  reflexivity.
Qed.

Lemma n2le_nonzero : forall k n, 0 < n < 256 ^ N.of_nat k -> all_zero (n2le k n) = false.
Proof.
  induction k as [|k IH]; intros n H.
  - change (256 ^ N.of_nat 0) with 1 in H. lia.
  - cbn [n2le]. unfold all_zero. cbn [forallb]. fold (all_zero (n2le k (n / 256))).
    rewrite Nat2N.inj_succ, N.pow_succ_r in H by lia.
    destruct (Byte.eqb (n2b n) Byte.x00) eqn:E; [|reflexivity]. cbn [andb]. apply IH.
    apply byte_eqb_eq in E. apply (f_equal b2n) in E. rewrite b2n_n2b in E. change (b2n Byte.x00) with 0 in E.
    pose proof (N.div_mod n 256). split.
    + apply N.neq_0_lt_0. intro Z. rewrite Z in H0. lia.
    + apply N.div_lt_upper_bound; lia.
Qed.

Theorem toy_ok : CryptoOk toy.
Proof.
  pose proof ell_small as (E1 & E2 & E3 & E4).
  constructor; cbn [c_hmac c_sha512 c_aes_enc c_aes_dec c_x25519 c_edbase c_edverify toy].
  - intros. apply n2le_length.
  - intros. apply n2le_length.
  - intros k b Hk L. unfold toy_aes. rewrite xor_bytes_length; [exact L|].
    rewrite firstn_length. unfold aes_key_ok in Hk. lia.
  - intros k b Hk L. unfold toy_aes. rewrite xor_bytes_length; [exact L|].
    rewrite firstn_length. unfold aes_key_ok in Hk. lia.
  - intros k b Hk L. unfold toy_aes. apply xor_bytes_cancel.
    rewrite firstn_length. unfold aes_key_ok in Hk. lia.
  - intros k u Lk Lu. unfold toy_x. destruct (utoy u true); [|apply repeat_length..].
    destruct (_ =? _); [apply repeat_length|apply n2le_length].
  - intros k u L. unfold toy_x. rewrite scalar_clamp by exact L. reflexivity.
  - intros a b La Lb. rewrite !toy_dh by assumption. rewrite N.mul_comm. reflexivity.
  - intros a b La Lb. rewrite toy_dh by assumption. apply n2le_nonzero.
    change (N.of_nat 32) with 32.
    assert (scalar_of a * scalar_of b mod ell < ell) by (apply N.mod_lt; revert E4; generalize ell; clear; intros; lia).
    revert H E1. generalize (scalar_of a * scalar_of b mod ell) (256 ^ 32) ell. clear. intros; lia.
  - intros. apply n2le_length.
  - intros s Hs. rewrite toy_edbase_le2n by apply Hs.
    rewrite N.mod_small; revert E2 E3 Hs; generalize two255 ell p25519; clear; intros; lia.
  - intros a r m Ha Hr. set (A := toy_edbase a). set (R := toy_edbase r). unfold toy_verify.
    assert (LR : List.length R = 32%nat) by apply n2le_length.
    rewrite firstn_app_len, skipn_app_len by exact LR.
    apply N.eqb_eq. rewrite le2n_n2le.
    + assert (TA : toy_log A = a)
        by (unfold toy_log, A; rewrite toy_edbase_le2n by apply Ha; apply N.add_sub).
      assert (TR : toy_log R = r)
        by (unfold toy_log, R; rewrite toy_edbase_le2n by exact Hr; apply N.add_sub).
      rewrite TA, TR. reflexivity.
    + change (N.of_nat 32) with 32.
      apply N.lt_trans with ell.
      * apply N.mod_lt. revert E4; generalize ell; clear; intros; lia.
      * revert E1. generalize (256 ^ 32) ell. clear. intros; lia.
Qed.
