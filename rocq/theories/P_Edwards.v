(** The group law of a twisted Edwards curve -x^2 + y^2 = 1 + d x^2 y^2 over the field. *)
From Verif Require Import P_Field.
From Coq Require Import NArith ZArith Lia Field NsatzTactic.
Local Open Scope fe_scope.

Lemma fe_mul_nz : forall a b : fe, a <> 0 -> b <> 0 -> a * b <> 0.
Proof. intros a b Ha Hb E. apply fe_integral in E. destruct E; contradiction. Qed.
Lemma fe_two : 1 + 1 <> 0.
Proof.
  change (F 1 + F 1 <> 0). rewrite F_add. apply F_nz. intro D. apply Z.divide_pos_le in D; [|reflexivity]. vm_compute in D. congruence.
Qed.
Lemma fe_sub_0 : forall a b : fe, a - b = 0 -> a = b.
Proof. intros a b E. replace a with ((a - b) + b) by ring. rewrite E. ring. Qed.
Lemma fe_div_eq : forall a b c : fe, b <> 0 -> (a / b = c <-> a = c * b).
Proof. intros a b c Hb. split; intro E; [subst c; field; exact Hb|subst a; field; exact Hb]. Qed.
Lemma fe_cancel : forall a b c : fe, c <> 0 -> a * c = b * c -> a = b.
Proof.
  intros a b c Hc E. apply fe_sub_0. assert (X : (a - b) * c = 0) by (replace ((a - b) * c) with (a * c - b * c) by ring; rewrite E; ring).
  apply fe_integral in X. destruct X; [assumption|contradiction].
Qed.

Definition pt := (fe * fe)%type.
Definition on (d : fe) (p : pt) : Prop := snd p * snd p - fst p * fst p = 1 + d * fst p * fst p * snd p * snd p.
Definition eadd (d : fe) (p q : pt) : pt :=
  ((fst p * snd q + snd p * fst q) / (1 + d * fst p * fst q * snd p * snd q),
   (snd p * snd q + fst p * fst q) / (1 - d * fst p * fst q * snd p * snd q)).
Definition eneg (p : pt) : pt := (- fst p, snd p).
Definition ezero : pt := (0, 1).

Section Curve.
Variables d i : fe.
Hypothesis Hi : i * i = - (1).
Hypothesis Hd : forall r, r * r <> d.
Notation "p ++ q" := (eadd d p q).
Lemma i_nz : i <> 0.
Proof. intro E. rewrite E in Hi. apply fe_10. transitivity (- (0 * 0)); [rewrite Hi; ring|ring]. Qed.
Lemma complete : forall p q, on d p -> on d q -> forall t, t * t = 1 -> d * fst p * fst q * snd p * snd q <> t.
Proof.
  intros [x1 y1] [x2 y2] O1 O2 t Ht E. unfold on in *. cbn [fst snd] in *.
  assert (Tn : t <> 0) by (intro X; rewrite X in Ht; apply fe_10; rewrite <- Ht; ring).
  assert (X1 : x1 <> 0) by (intro X; apply Tn; rewrite <- E, X; ring). assert (Y1 : y1 <> 0) by (intro X; apply Tn; rewrite <- E, X; ring).
  assert (X2 : x2 <> 0) by (intro X; apply Tn; rewrite <- E, X; ring).
  assert (G : forall j, j * j = - (1) -> y2 + j * x2 = 0).
  { intros j Hj. destruct (fe_eq_dec (y2 + j * x2) 0) as [Z|Nz]; [exact Z|exfalso].
    apply (Hd ((y1 + j * t * x1) / (x1 * y1 * (y2 + j * x2)))).
    assert (Q : (y1 + j * t * x1) * (y1 + j * t * x1) = d * ((x1 * y1 * (y2 + j * x2)) * (x1 * y1 * (y2 + j * x2)))) by nsatz.
    transitivity (((y1 + j * t * x1) * (y1 + j * t * x1)) / ((x1 * y1 * (y2 + j * x2)) * (x1 * y1 * (y2 + j * x2)))).
    - field. repeat split; assumption.
    - rewrite Q. field. repeat split; assumption. }
  pose proof (G i Hi) as G1. assert (G2 : y2 + - i * x2 = 0) by (apply G; transitivity (i * i); [ring|exact Hi]).
  assert (Z : (1 + 1) * (i * x2) = 0) by (transitivity ((y2 + i * x2) - (y2 + - i * x2)); [ring|rewrite G1, G2; ring]).
  apply fe_integral in Z. destruct Z as [Z|Z]; [exact (fe_two Z)|]. apply fe_integral in Z. destruct Z as [Z|Z]; [exact (i_nz Z)|exact (X2 Z)].
Qed.
Lemma den_plus : forall p q, on d p -> on d q -> 1 + d * fst p * fst q * snd p * snd q <> 0.
Proof.
  intros p q O1 O2 E. apply (complete p q O1 O2 (- (1))); [ring|]. transitivity ((1 + d * fst p * fst q * snd p * snd q) - 1); [ring|rewrite E; ring].
Qed.
Lemma den_minus : forall p q, on d p -> on d q -> 1 - d * fst p * fst q * snd p * snd q <> 0.
Proof.
  intros p q O1 O2 E. apply (complete p q O1 O2 1); [ring|]. transitivity (1 - (1 - d * fst p * fst q * snd p * snd q)); [ring|rewrite E; ring].
Qed.
Lemma on_zero : on d ezero.
Proof. unfold on, ezero. cbn [fst snd]. ring. Qed.
Lemma on_neg : forall p, on d p -> on d (eneg p).
Proof. intros [x y] O. unfold on, eneg in *. cbn [fst snd] in *. nsatz. Qed.
Lemma fe_div_mul : forall a b c : fe, b <> 0 -> c = a / b -> c * b = a.
Proof. intros a b c Hb ->. field. exact Hb. Qed.
Lemma on_add : forall p q, on d p -> on d q -> on d (p ++ q).
Proof.
  intros p q O1 O2. pose proof (den_plus p q O1 O2) as D1. pose proof (den_minus p q O1 O2) as D2. destruct p as [x1 y1], q as [x2 y2].
  unfold on, eadd in *. cbn [fst snd] in *.
  set (t := d * x1 * x2 * y1 * y2) in *. set (a := x1 * y2 + y1 * x2). set (b := y1 * y2 + x1 * x2).
  apply (fe_cancel _ _ ((1 + t) * (1 + t) * ((1 - t) * (1 - t)))); [repeat apply fe_mul_nz; assumption|].
  transitivity (b * b * ((1 + t) * (1 + t)) - a * a * ((1 - t) * (1 - t))); [field; split; assumption|].
  transitivity ((1 + t) * (1 + t) * ((1 - t) * (1 - t)) + d * a * a * b * b); [|field; split; assumption].
  subst t a b. nsatz.
Qed.
Lemma add_comm : forall p q, p ++ q = q ++ p.
Proof. intros [x1 y1] [x2 y2]. unfold eadd. cbn [fst snd]. apply f_equal2; apply f_equal2; ring. Qed.
Lemma add_0 : forall p, ezero ++ p = p.
Proof.
  intros [x y]. unfold eadd, ezero. cbn [fst snd]. apply f_equal2.
  - replace (1 + d * 0 * x * 1 * y) with 1 by ring. replace (0 * y + 1 * x) with x by ring. field. exact fe_10.
  - replace (1 - d * 0 * x * 1 * y) with 1 by ring. replace (1 * y + 0 * x) with y by ring. field. exact fe_10.
Qed.
Lemma add_neg : forall p, on d p -> p ++ eneg p = ezero.
Proof.
  intros p O. pose proof (den_plus p (eneg p) O (on_neg p O)) as D1. pose proof (den_minus p (eneg p) O (on_neg p O)) as D2.
  destruct p as [x y]. unfold eadd, ezero, eneg, on in *. cbn [fst snd] in *. apply f_equal2.
  - apply fe_div_eq; [exact D1|ring].
  - apply fe_div_eq; [exact D2|]. nsatz.
Qed.
Lemma add_assoc : forall p q r, on d p -> on d q -> on d r -> (p ++ q) ++ r = p ++ (q ++ r).
Proof.
  intros p q r O1 O2 O3.
  pose proof (den_plus _ _ O1 O2) as D1. pose proof (den_minus _ _ O1 O2) as D2. pose proof (den_plus _ _ O2 O3) as D3. pose proof (den_minus _ _ O2 O3) as D4.
  pose proof (den_plus _ _ (on_add _ _ O1 O2) O3) as D5. pose proof (den_minus _ _ (on_add _ _ O1 O2) O3) as D6.
  pose proof (den_plus _ _ O1 (on_add _ _ O2 O3)) as D7. pose proof (den_minus _ _ O1 (on_add _ _ O2 O3)) as D8.
  destruct p as [x1 y1], q as [x2 y2], r as [x3 y3]. unfold on, eadd in *. cbn [fst snd] in *.
  set (t := d * x1 * x2 * y1 * y2) in *. set (t' := d * x2 * x3 * y2 * y3) in *.
  set (a := x1 * y2 + y1 * x2) in *. set (b := y1 * y2 + x1 * x2) in *. set (a' := x2 * y3 + y2 * x3) in *. set (b' := y2 * y3 + x2 * x3) in *.
  assert (E5 : 1 + d * (a / (1 + t)) * x3 * (b / (1 - t)) * y3 = ((1 + t) * (1 - t) + d * a * b * x3 * y3) / ((1 + t) * (1 - t))) by (field; split; assumption).
  assert (E6 : 1 - d * (a / (1 + t)) * x3 * (b / (1 - t)) * y3 = ((1 + t) * (1 - t) - d * a * b * x3 * y3) / ((1 + t) * (1 - t))) by (field; split; assumption).
  assert (E7 : 1 + d * x1 * (a' / (1 + t')) * y1 * (b' / (1 - t')) = ((1 + t') * (1 - t') + d * x1 * y1 * a' * b') / ((1 + t') * (1 - t'))) by (field; split; assumption).
  assert (E8 : 1 - d * x1 * (a' / (1 + t')) * y1 * (b' / (1 - t')) = ((1 + t') * (1 - t') - d * x1 * y1 * a' * b') / ((1 + t') * (1 - t'))) by (field; split; assumption).
  rewrite E5 in *. rewrite E6 in *. rewrite E7 in *. rewrite E8 in *. clear E5 E6 E7 E8.
  assert (Dz : forall n m, n / m <> 0 -> m <> 0 -> n <> 0) by (intros n m N M X; apply N; rewrite X; field; exact M).
  assert (T1 : (1 + t) * (1 - t) <> 0) by (apply fe_mul_nz; assumption). assert (T2 : (1 + t') * (1 - t') <> 0) by (apply fe_mul_nz; assumption).
  apply (fun X => Dz _ _ X T1) in D5. apply (fun X => Dz _ _ X T1) in D6. apply (fun X => Dz _ _ X T2) in D7. apply (fun X => Dz _ _ X T2) in D8.
  apply f_equal2.
  - transitivity ((a * (1 - t) * y3 + b * (1 + t) * x3) / ((1 + t) * (1 - t) + d * a * b * x3 * y3)); [field; repeat split; assumption|].
    transitivity ((x1 * b' * (1 + t') + y1 * a' * (1 - t')) / ((1 + t') * (1 - t') + d * x1 * y1 * a' * b')); [|field; repeat split; assumption].
    apply fe_div_eq; [exact D5|]. apply (fe_cancel _ _ _ D7).
    transitivity ((x1 * b' * (1 + t') + y1 * a' * (1 - t')) * ((1 + t) * (1 - t) + d * a * b * x3 * y3)); [|field; repeat split; assumption].
    subst t t' a b a' b'. nsatz.
  - transitivity ((b * (1 + t) * y3 + a * (1 - t) * x3) / ((1 + t) * (1 - t) - d * a * b * x3 * y3)); [field; repeat split; assumption|].
    transitivity ((y1 * b' * (1 + t') + x1 * a' * (1 - t')) / ((1 + t') * (1 - t') - d * x1 * y1 * a' * b')); [|field; repeat split; assumption].
    apply fe_div_eq; [exact D6|]. apply (fe_cancel _ _ _ D8).
    transitivity ((y1 * b' * (1 + t') + x1 * a' * (1 - t')) * ((1 + t) * (1 - t) - d * a * b * x3 * y3)); [|field; repeat split; assumption].
    subst t t' a b a' b'. nsatz.
Qed.

(** *** Multiples *)
Definition emul (n : N) (p : pt) : pt := N.iter n (eadd d p) ezero.
Lemma emul_0 : forall p, emul 0 p = ezero. Proof. reflexivity. Qed.
Lemma emul_succ : forall n p, emul (N.succ n) p = p ++ emul n p.
Proof. intros n p. unfold emul. apply N.iter_succ. Qed.
Lemma emul_1 : forall p, emul 1 p = p.
Proof. intro p. change (emul 1 p) with (p ++ ezero). rewrite add_comm. apply add_0. Qed.
Lemma emul_on : forall n p, on d p -> on d (emul n p).
Proof. intros n p O. induction n as [|n IH] using N.peano_ind; [apply on_zero|]. rewrite emul_succ. apply on_add; assumption. Qed.
Lemma emul_add : forall m n p, on d p -> emul (m + n) p = emul m p ++ emul n p.
Proof.
  intros m n p O. induction m as [|m IH] using N.peano_ind; [rewrite emul_0, add_0; reflexivity|].
  rewrite N.add_succ_l, !emul_succ, IH. symmetry. apply add_assoc; auto using emul_on.
Qed.
Lemma emul_zero : forall n, emul n ezero = ezero.
Proof. intro n. induction n as [|n IH] using N.peano_ind; [reflexivity|]. rewrite emul_succ, IH. apply add_0. Qed.
Lemma emul_mul : forall m n p, on d p -> emul (m * n) p = emul m (emul n p).
Proof.
  intros m n p O. induction m as [|m IH] using N.peano_ind; [reflexivity|].
  rewrite N.mul_succ_l, N.add_comm, emul_add, emul_succ, IH by assumption. reflexivity.
Qed.
Lemma emul_mod : forall n l p, on d p -> emul l p = ezero -> emul n p = emul (n mod l) p.
Proof.
  intros n l p O E. destruct (N.eq_dec l 0) as [->|L]; [destruct n; reflexivity|]. rewrite (N.div_mod n l L) at 1. rewrite emul_add, N.mul_comm, emul_mul, E, emul_zero by assumption. apply add_0.
Qed.
Lemma add_cancel : forall p q, on d p -> on d q -> p ++ q = q -> p = ezero.
Proof.
  intros p q O1 O2 E. rewrite <- (add_neg q O2). rewrite <- E at 1. rewrite add_assoc, add_neg by auto using on_neg. rewrite add_comm. symmetry. apply add_0.
Qed.
(** An element whose [l]-th multiple vanishes, [l] prime, has order [l] or is zero. *)
Lemma emul_order : forall n l p, on d p -> Znumtheory.prime (Z.of_N l) -> emul l p = ezero -> p <> ezero -> emul n p = ezero -> (n mod l = 0)%N.
Proof.
  intros n l p O Pl El Np En. destruct (N.eq_dec (n mod l) 0) as [Z|Nz]; [exact Z|exfalso]. apply Np. rewrite <- (emul_1 p).
  pose proof (Znumtheory.prime_ge_2 _ Pl) as L2.
  assert (L : (n mod l < l)%N) by (apply N.mod_lt; intro X; subst l; cbn in L2; apply L2; reflexivity).
  assert (R : Znumtheory.rel_prime (Z.of_N l) (Z.of_N (n mod l))).
  { apply Znumtheory.prime_rel_prime; [exact Pl|]. intro D. apply Z.divide_pos_le in D; lia. }
  apply Znumtheory.rel_prime_bezout in R. destruct R as [u v E].
  set (k := Z.to_N ((v mod Z.of_N l))). assert (Q : ((k * (n mod l)) mod l = 1)%N).
  { apply N2Z.inj. rewrite N2Z.inj_mod, N2Z.inj_mul by lia. unfold k. rewrite Z2N.id by (apply Z.mod_pos_bound; lia). rewrite Z.mul_mod_idemp_l by lia.
    replace (v * Z.of_N (n mod l))%Z with (1 + (- u) * Z.of_N l)%Z by lia. rewrite Z.mod_add by lia. apply Z.mod_small. lia. }
  rewrite <- Q. rewrite <- (emul_mod (k * (n mod l)) l p O El). rewrite emul_mul by exact O. rewrite <- (emul_mod n l p O El), En. apply emul_zero.
Qed.
End Curve.
