(** The order of the base point is prime. *)
From Verif Require Import M_Base M_Crypto M_Aes M_Curve P_Prime.
From Coq Require Import ZArith Znumtheory Lia.
Local Open Scope Z_scope.

(** As [pock1_b], with one exponentiation. *)
Definition pock1_c (n r a : Z) : bool :=
  let b := zpowm n a ((n - 1) / r) in
  (1 <? n) && (0 <? r) && ((n - 1) mod r =? 0) && (zpowm n b r =? 1) && (Z.gcd (b - 1) n =? 1) && (n <? r * r).
Lemma pock1_c_ok : forall n r a, pock1_c n r a = true -> prime r -> prime n.
Proof.
  intros n r a H Hr. unfold pock1_c in H. cbv zeta in H.
  repeat (apply andb_prop in H as [H ?]).
  apply Z.ltb_lt in H. apply Z.ltb_lt in H0, H4. apply Z.eqb_eq in H1, H2, H3.
  assert (D : 0 <= (n - 1) / r) by (apply Z.div_pos; lia).
  rewrite (zpowm_ok n a) in H1, H2 by lia. rewrite zpowm_ok in H2 by lia.
  apply (pock1 n r a); auto; [apply Z.mod_divide; auto; lia|].
  assert (E : n - 1 = (n - 1) / r * r) by (rewrite (Z.div_mod (n - 1) r) at 1 by lia; rewrite H3; ring).
  set (q := (n - 1) / r) in *. transitivity ((a ^ q mod n) ^ r mod n); [|exact H2].
  rewrite E, Z.pow_mul_r by lia. generalize (a ^ q). intro x.
  clear -H H4. assert (R : 0 <= r) by lia. revert R. clear H4. generalize r. apply natlike_ind; [reflexivity|]. intros k Hk IH. rewrite !Z.pow_succ_r by exact Hk.
  rewrite Z.mul_mod, IH by lia. rewrite Z.mul_mod_idemp_r by lia. reflexivity.
Qed.
Ltac by1 r a := apply (pock1_c_ok _ r a); [vm_compute; reflexivity|].
Lemma prime_1224481 : prime 1224481. Proof. by1 2551 2. small. Qed.
Lemma prime_531581 : prime 531581. Proof. by1 3797 2. small. Qed.
Lemma prime_l1 : prime 1257559732178653. Proof. by2 1224481 531581 2 2; [apply prime_1224481|apply prime_531581]. Qed.
Lemma prime_l2 : prime 4434155615661930479. Proof. by1 1257559732178653 2. apply prime_l1. Qed.
Lemma prime_l3 : prime 172054593956031949258510691. Proof. by1 4434155615661930479 2. apply prime_l2. Qed.
Lemma prime_l4 : prime 19757330305831588566944191468367130476339. Proof. by1 172054593956031949258510691 2. apply prime_l3. Qed.
Lemma prime_l5 : prime 276602624281642239937218680557139826668747. Proof. by1 19757330305831588566944191468367130476339 2. apply prime_l4. Qed.
Theorem prime_ell : prime (Z.of_N ell).
Proof.
  change (Z.of_N ell) with 7237005577332262213973186563042994240857116359379907606001950938285454250989.
  by1 276602624281642239937218680557139826668747 2. apply prime_l5.
Qed.
