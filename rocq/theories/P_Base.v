(** Lemmas on bytes, words and lists. *)
From Verif Require Import M_Base M_Crypto M_Curve.
From Coq Require Import ZifyBool ZifyNat ZifyN.
Ltac Zify.zify_post_hook ::= Z.div_mod_to_equations.

Lemma b2n_lt : forall b, (b2n b < 256)%N.
Proof. intro b. unfold b2n. pose proof (Byte.to_N_bounded b). lia. Qed.

Lemma b2n_n2b : forall n, b2n (n2b n) = (n mod 256)%N.
Proof.
  intro n. unfold n2b, b2n.
  destruct (Byte.of_N (n mod 256)) eqn:E.
  - apply Byte.to_of_N in E. exact E.
  - apply Byte.of_N_None_iff in E.
    pose proof (N.mod_lt n 256). lia.
Qed.

Lemma b2n_n2b_small : forall n, (n < 256)%N -> b2n (n2b n) = n.
Proof. intros. rewrite b2n_n2b. apply N.mod_small; lia. Qed.

Lemma n2b_b2n : forall b, n2b (b2n b) = b.
Proof.
  intro b. unfold n2b. rewrite N.mod_small by apply b2n_lt.
  unfold b2n. rewrite Byte.of_to_N. reflexivity.
Qed.

Lemma b2n_inj : forall a b, b2n a = b2n b -> a = b.
Proof. intros a b H. rewrite <- (n2b_b2n a), <- (n2b_b2n b), H. reflexivity. Qed.

Lemma byte_eqb_eq : forall a b, Byte.eqb a b = true <-> a = b.
Proof.
  intros a b. split; intro H.
  - apply Byte.byte_dec_bl in H. exact H.
  - subst. apply Byte.byte_dec_lb; reflexivity.
Qed.

Lemma byte_eqb_refl : forall a, Byte.eqb a a = true.
Proof. intro; apply byte_eqb_eq; reflexivity. Qed.

Lemma bytes_eqb_eq : forall a b, bytes_eqb a b = true <-> a = b.
Proof.
  induction a as [|x a IH]; destruct b as [|y b]; simpl; split; intro H;
    try reflexivity; try discriminate.
  - apply andb_true_iff in H as [H1 H2]. apply byte_eqb_eq in H1. apply IH in H2. subst; auto.
  - inversion H; subst. rewrite byte_eqb_refl. simpl. apply IH; reflexivity.
Qed.

Lemma bytes_eqb_refl : forall a, bytes_eqb a a = true.
Proof. intro; apply bytes_eqb_eq; reflexivity. Qed.

Lemma bytes_eqb_neq : forall a b, bytes_eqb a b = false <-> a <> b.
Proof.
  intros. split; intro H.
  - intro E. apply bytes_eqb_eq in E. congruence.
  - destruct (bytes_eqb a b) eqn:E; auto. apply bytes_eqb_eq in E. contradiction.
Qed.

Lemma bytes_eqb_sym : forall a b, bytes_eqb a b = bytes_eqb b a.
Proof.
  intros. destruct (bytes_eqb a b) eqn:E.
  - apply bytes_eqb_eq in E. subst. symmetry. apply bytes_eqb_refl.
  - symmetry. apply bytes_eqb_neq. apply bytes_eqb_neq in E. congruence.
Qed.

Lemma addr_eqb_eq : forall a b, addr_eqb a b = true <-> a = b.
Proof.
  intros [n d] [n' d']. unfold addr_eqb; simpl. rewrite andb_true_iff, String.eqb_eq, N.eqb_eq.
  split; [intros [-> ->]; auto | intro H; inversion H; auto].
Qed.
Lemma addr_eqb_refl : forall a, addr_eqb a a = true.
Proof. intro; apply addr_eqb_eq; reflexivity. Qed.
Lemma addr_eqb_neq : forall a b, addr_eqb a b = false <-> a <> b.
Proof.
  intros. split; intro H.
  - intro E. apply addr_eqb_eq in E. congruence.
  - destruct (addr_eqb a b) eqn:E; auto. apply addr_eqb_eq in E. contradiction.
Qed.

(** xor *)
Lemma lxor_lt_256 : forall a b, (a < 256 -> b < 256 -> N.lxor a b < 256)%N.
Proof.
  intros a b Ha Hb.
  destruct (N.eq_dec (N.lxor a b) 0) as [E|E]; [rewrite E; lia|].
  change 256%N with (2 ^ 8)%N. apply N.log2_lt_pow2; [lia|].
  eapply N.le_lt_trans; [apply N.log2_lxor|].
  apply N.max_lub_lt.
  - destruct (N.eq_dec a 0) as [->|Na]; [simpl; lia|].
    apply N.log2_lt_pow2; [lia|exact Ha].
  - destruct (N.eq_dec b 0) as [->|Nb]; [simpl; lia|].
    apply N.log2_lt_pow2; [lia|exact Hb].
Qed.

Lemma b2n_bxor : forall a b, b2n (bxor a b) = N.lxor (b2n a) (b2n b).
Proof.
  intros. unfold bxor. apply b2n_n2b_small. apply lxor_lt_256; apply b2n_lt.
Qed.

Lemma bxor_assoc : forall a b c, bxor (bxor a b) c = bxor a (bxor b c).
Proof. intros. apply b2n_inj. rewrite !b2n_bxor. apply N.lxor_assoc. Qed.
Lemma bxor_comm : forall a b, bxor a b = bxor b a.
Proof. intros. apply b2n_inj. rewrite !b2n_bxor. apply N.lxor_comm. Qed.
Lemma bxor_cancel : forall a b, bxor (bxor a b) b = a.
Proof.
  intros. apply b2n_inj. rewrite !b2n_bxor, N.lxor_assoc, N.lxor_nilpotent, N.lxor_0_r. reflexivity.
Qed.

Lemma xor_bytes_length : forall a b, List.length a = List.length b ->
  List.length (xor_bytes a b) = List.length a.
Proof.
  induction a as [|x a IH]; destruct b as [|y b]; simpl; intro H; try discriminate; auto.
Qed.

Lemma xor_bytes_cancel : forall a b, List.length a = List.length b ->
  xor_bytes (xor_bytes a b) b = a.
Proof.
  induction a as [|x a IH]; destruct b as [|y b]; simpl; intro H; try discriminate; auto.
  rewrite bxor_cancel, IH; auto.
Qed.

(** little endian *)
Lemma n2le_length : forall l n, List.length (n2le l n) = l.
Proof. induction l; simpl; intros; auto. Qed.

Lemma le2n_n2le : forall l n, (n < 256 ^ N.of_nat l)%N -> le2n (n2le l n) = n.
Proof.
  induction l as [|l IH]; intros n H.
  - simpl in *. lia.
  - cbn [n2le le2n]. rewrite b2n_n2b, IH.
    + pose proof (N.div_mod n 256). lia.
    + rewrite Nat2N.inj_succ, N.pow_succ_r' in H.
      apply N.div_lt_upper_bound; lia.
Qed.

Lemma le2n_lt : forall b, (le2n b < 256 ^ N.of_nat (List.length b))%N.
Proof.
  induction b as [|x b IH].
  - simpl. lia.
  - cbn [le2n List.length]. rewrite Nat2N.inj_succ, N.pow_succ_r'.
    pose proof (b2n_lt x). lia.
Qed.

Lemma n2le_le2n : forall b, n2le (List.length b) (le2n b) = b.
Proof.
  induction b as [|x b IH]; [reflexivity|].
  cbn [List.length le2n n2le]. pose proof (b2n_lt x).
  f_equal.
  - apply b2n_inj. rewrite b2n_n2b. rewrite (N.mul_comm 256), N.mod_add by lia.
    apply N.mod_small; lia.
  - replace ((b2n x + 256 * le2n b) / 256)%N with (le2n b); auto.
    rewrite (N.mul_comm 256), N.div_add by lia. rewrite N.div_small by lia. reflexivity.
Qed.

Lemma le2n_inj : forall a b, List.length a = List.length b -> le2n a = le2n b -> a = b.
Proof. intros a b H E. rewrite <- (n2le_le2n a), <- (n2le_le2n b), H, E. reflexivity. Qed.

(** lists *)
Lemma firstn_app_exact : forall {A} (a b : list A), firstn (List.length a) (a ++ b) = a.
Proof. intros. rewrite firstn_app, Nat.sub_diag, firstn_all. simpl. apply app_nil_r. Qed.
Lemma skipn_app_exact : forall {A} (a b : list A), skipn (List.length a) (a ++ b) = b.
Proof. intros. rewrite skipn_app, Nat.sub_diag, skipn_all. reflexivity. Qed.
Lemma firstn_app_len : forall {A} n (a b : list A), List.length a = n -> firstn n (a ++ b) = a.
Proof. intros. subst. apply firstn_app_exact. Qed.
Lemma skipn_app_len : forall {A} n (a b : list A), List.length a = n -> skipn n (a ++ b) = b.
Proof. intros. subst. apply skipn_app_exact. Qed.

Lemma u32_small : forall n, (n < two32)%N -> u32 n = n.
Proof. intros. unfold u32. apply N.mod_small; auto. Qed.
Lemma u32_lt : forall n, (u32 n < two32)%N.
Proof. intros. unfold u32, two32. apply N.mod_lt. lia. Qed.

Lemma read_full_ok : forall n rnd, n <= List.length rnd ->
  read_full n rnd = (Ok (firstn n rnd), skipn n rnd).
Proof.
  intros. unfold read_full. destruct (Nat.ltb_spec (List.length rnd) n); auto; lia.
Qed.

(** Keep [simpl] from unrolling literal-length operations. *)
Global Arguments firstn : simpl nomatch.
Global Arguments skipn : simpl nomatch.
Global Arguments nth : simpl nomatch.
Global Arguments upd_nth : simpl nomatch.
Global Arguments N.add : simpl never.
Global Arguments N.mul : simpl never.
Global Arguments N.sub : simpl never.
Global Arguments N.div : simpl never.
Global Arguments N.modulo : simpl never.
