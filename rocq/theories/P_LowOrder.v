(** Which u coordinates X25519 maps to zero. *)
From Verif Require Import M_Base M_Crypto M_Aes M_Curve S_Crypto P_Base P_Prime P_PrimeEll P_PrimeTwist P_Curve P_Field P_Edwards R_Curve P_RealCurve P_RealEd P_Ladder P_Count P_Twist.
From Coq Require Import ZArith Znumtheory Lia Field NsatzTactic ZifyBool ZifyNat ZifyN.
Local Open Scope fe_scope.

(** *** Squares *)
Local Notation half := 28948022309329048855892746252171976963317496166410141009864396001978282409974%N.
Lemma fe_m1 : (1 : fe) <> - (1).
Proof. intro E. apply fe_two. rewrite E at 1. ring. Qed.
Lemma half_square : forall w, fepow w half = 1 -> exists r, r * r = w.
Proof.
  intros w H. set (r := fepow w 7237005577332262213973186563042994240829374041602535252466099000494570602494).
  assert (E : (r * r) * (r * r) = w * w).
  { rewrite <- !fepow_2. unfold r. rewrite <- !fepow_mul.
    change (7237005577332262213973186563042994240829374041602535252466099000494570602494 * (2 * 2))%N with (half + 2)%N.
    rewrite fepow_add, H. unfold fe1. rewrite <- (F_fz (fepow w 2)). rewrite F_mul. apply (f_equal F). ring. }
  apply fe_sq_cases in E. destruct E as [E|E]; [exists r; exact E|]. exists (ii * r).
  transitivity ((ii * ii) * (r * r)); [ring|]. rewrite ii_ok, E. ring.
Qed.
Lemma half_cases : forall w, w <> 0 -> fepow w half = 1 \/ fepow w half = - (1).
Proof.
  intros w Nz. apply fe_sq_cases. rewrite <- fepow_2, <- fepow_mul. change (half * 2)%N with (p25519 - 1)%N. rewrite fepow_fermat by exact Nz. ring.
Qed.
Lemma half_m1 : fepow (- (1)) half = 1.
Proof.
  rewrite <- ii_ok, <- fepow_2, <- fepow_mul. change (2 * half)%N with (p25519 - 1)%N. apply fepow_fermat.
  intro E. pose proof ii_ok as Q. rewrite E in Q. apply fe_10. transitivity (- - (1)); [ring|]. rewrite <- Q. ring.
Qed.
Lemma half_d : fepow dd half = - (1).
Proof.
  destruct (half_cases dd dd_nz) as [E|E]; [exfalso|exact E]. apply half_square in E. destruct E as [r E]. exact (dd_nonsquare r E).
Qed.
Lemma half_md : fepow (- dd) half = - (1).
Proof. replace (- dd) with (- (1) * dd) by ring. rewrite fepow_mul_base, half_m1, half_d. ring. Qed.

(** *** Every u is the coordinate of a point of the curve or of its twist *)
Lemma which : forall u : fe, u <> 0 ->
  (exists D, P_Edwards.on dd D /\ snd D <> 1 /\ snd D <> - (1) /\ u * (1 - snd D) = 1 + snd D) \/
  (exists D, P_Edwards.on dtw D /\ snd D <> 1 /\ snd D <> - (1) /\ u * (1 - snd D) = - (1 + snd D)).
Proof.
  intros u Nu. destruct (fe_eq_dec (u + 1) 0) as [E|N1].
  - right. exists (ii, 0). unfold P_Edwards.on. cbn [fst snd]. split; [|split; [|split]].
    + transitivity (- (ii * ii)); [ring|]. rewrite ii_ok. ring.
    + intro Q. apply fe_10. symmetry. exact Q.
    + intro Q. apply fe_10. transitivity (- - (1)); [ring|]. rewrite <- Q. ring.
    + transitivity (u + 1 - 1); [ring|]. rewrite E. ring.
  - set (y := (u - 1) / (u + 1)). assert (Ey : y * (u + 1) = u - 1) by (unfold y; field; exact N1). clearbody y.
    pose proof (den_y dd ii ii_ok dd_nonsquare y) as Dy. set (w := (y * y - 1) / (1 + dd * y * y)).
    assert (Ew : w * (1 + dd * y * y) = y * y - 1) by (unfold w; field; exact Dy). clearbody w.
    assert (Y1 : y <> 1).
    { intro Q. rewrite Q in Ey. apply fe_two. transitivity (1 * (u + 1) - (u - 1)); [ring|rewrite Ey; ring]. }
    assert (Y2 : y <> - (1)).
    { intro Q. rewrite Q in Ey. assert (Z : (1 + 1) * u = 0) by (transitivity (u - 1 - (- (1) * (u + 1))); [ring|rewrite Ey; ring]).
      apply fe_integral in Z. destruct Z as [Z|Z]; [exact (fe_two Z)|exact (Nu Z)]. }
    assert (Nw : w <> 0).
    { intro Q. rewrite Q in Ew. assert (Z : (y - 1) * (y + 1) = 0) by (transitivity (y * y - 1); [ring|rewrite <- Ew; ring]).
      apply fe_integral in Z. destruct Z as [Z|Z]; [apply Y1, fe_sub_0; exact Z|apply Y2; transitivity (y + 1 - 1); [ring|rewrite Z; ring]]. }
    destruct (half_cases w Nw) as [H|H].
    + left. apply half_square in H. destruct H as [r Er]. exists (r, y). unfold P_Edwards.on. cbn [fst snd]. split; [|split; [exact Y1|split; [exact Y2|]]].
      * transitivity (1 + (y * y - 1) - r * r); [ring|]. rewrite <- Ew, <- Er. ring.
      * transitivity (u - (y * (u + 1)) + y); [ring|]. rewrite Ey. ring.
    + right. assert (Y0 : y <> 0).
      { intro Q. rewrite Q in Ew. assert (W : w = - (1)) by (transitivity (w * (1 + dd * 0 * 0)); [ring|rewrite Ew; ring]).
        rewrite W, half_m1 in H. exact (fe_m1 H). }
      assert (Hr : fepow (- dd * w) half = 1) by (rewrite fepow_mul_base, half_md, H; ring).
      apply half_square in Hr. destruct Hr as [r Er]. exists (r, 1 / y). unfold P_Edwards.on. cbn [fst snd]. split; [|split; [|split]].
      * apply (fe_cancel _ _ (y * y)); [apply fe_mul_nz; exact Y0|]. unfold dtw.
        transitivity (1 - r * r * (y * y)); [field; exact Y0|]. transitivity (y * y + r * r / dd); [|field; split; [exact Y0|exact dd_nz]]. rewrite Er.
        transitivity (1 + dd * y * y * w); [ring|]. transitivity (y * y - w); [|field; exact dd_nz].
        transitivity (1 + (w * (1 + dd * y * y)) - w); [ring|]. rewrite Ew. ring.
      * intro Q. apply Y1. apply fe_div_eq in Q; [|exact Y0]. transitivity (1 * y); [ring|]. symmetry. exact Q.
      * intro Q. apply Y2. apply fe_div_eq in Q; [|exact Y0]. transitivity (- (- (1) * y)); [ring|]. rewrite <- Q. ring.
      * apply (fe_cancel _ _ y Y0). transitivity (u * (y - 1)); [field; exact Y0|]. transitivity (- (y + 1)); [|field; exact Y0].
        transitivity (y * (u + 1) - u - y); [ring|]. rewrite Ey. ring.
Qed.

(** *** Points of order 1, 2, 4 and 8 *)
Section Torsion.
Variables d i : fe.
Hypothesis Hi : i * i = - (1).
Hypothesis Hd : forall r, r * r <> d.
Local Notation "p ++ q" := (eadd d p q).
Local Notation onc := (P_Edwards.on d).
Local Notation mul := (P_Edwards.emul d).
Definition minus : pt := (0, - (1)).
Lemma y_one : forall q, onc q -> snd q * snd q = 1 -> fst q = 0.
Proof.
  intros [x y] O E. unfold P_Edwards.on in O. cbn [fst snd] in *. pose proof (den_y d i Hi Hd y) as Dy.
  assert (Z : x * x * (1 + d * y * y) = 0).
  { transitivity (1 + d * x * x * y * y - 1 + x * x); [ring|]. rewrite <- O. transitivity (y * y - 1); [ring|]. rewrite E. ring. }
  apply fe_integral in Z. destruct Z as [Z|Z]; [|destruct (Dy Z)]. apply fe_integral in Z. destruct Z as [Z|Z]; exact Z.
Qed.
Lemma dbl_minus : minus ++ minus = ezero.
Proof. unfold eadd, minus, ezero. cbn [fst snd]. apply f_equal2; apply fe_div_eq; try ring; intro Q; apply fe_10; rewrite <- Q; ring. Qed.
Lemma dbl_y0 : forall q, onc q -> snd q = 0 -> q ++ q = minus.
Proof.
  intros [x y] O E. unfold P_Edwards.on in O. cbn [fst snd] in *. subst y. unfold eadd, minus. cbn [fst snd].
  apply f_equal2; apply fe_div_eq; try ring; try (intro Q; apply fe_10; rewrite <- Q; ring).
  transitivity (- (0 * 0 - x * x)); [ring|]. rewrite O. ring.
Qed.
Lemma dbl_coords : forall q, onc q ->
  fst (q ++ q) * (1 + d * fst q * fst q * snd q * snd q) = (1 + 1) * (fst q * snd q) /\
  snd (q ++ q) * (1 - d * fst q * fst q * snd q * snd q) = snd q * snd q + fst q * fst q.
Proof.
  intros q O. pose proof (den_plus d i Hi Hd q q O O) as A. pose proof (den_minus d i Hi Hd q q O O) as B. destruct q as [x y]. unfold eadd. cbn [fst snd] in *.
  split; field; assumption.
Qed.
Lemma half_zero : forall q, onc q -> q ++ q = ezero -> fst q = 0 /\ (snd q = 1 \/ snd q = - (1)).
Proof.
  intros q O E. destruct (dbl_coords q O) as [A B]. rewrite E in A, B. destruct q as [x y]. unfold ezero in A, B. unfold P_Edwards.on in O. cbn [fst snd] in *.
  assert (S : y * y = 1).
  { apply (fe_cancel _ _ (1 + 1) fe_two). transitivity ((y * y - x * x) + (y * y + x * x)); [ring|]. rewrite O, <- B. ring. }
  split; [apply (y_one (x, y)); [exact O|exact S]|]. apply fe_sq_cases. rewrite S. ring.
Qed.
Lemma half_minus : forall q, onc q -> q ++ q = minus -> snd q = 0.
Proof.
  intros q O E. destruct (dbl_coords q O) as [A B]. rewrite E in A, B. destruct q as [x y]. unfold minus in A, B. unfold P_Edwards.on in O. cbn [fst snd] in *.
  assert (S : y * y * (1 + 1) = 0 * (1 + 1) + (1 + 1) * (d * x * x * y * y)).
  { transitivity ((y * y - x * x) + (y * y + x * x)); [ring|]. rewrite O, <- B. ring. }
  assert (Z : x * y = 0).
  { apply (fe_cancel _ _ (1 + 1) fe_two). transitivity ((1 + 1) * (x * y)); [ring|]. rewrite <- A. ring. }
  assert (S' : y * y = d * (x * y) * (x * y)) by (apply (fe_cancel _ _ (1 + 1) fe_two); rewrite S; ring).
  rewrite Z in S'. assert (Q : y * y = 0) by (rewrite S'; ring). apply fe_integral in Q. destruct Q; assumption.
Qed.
Definition eighth (y : fe) : Prop := d * (y * y) * (y * y) + (1 + 1) * (y * y) - 1 = 0.
Lemma half_y0 : forall q, onc q -> (snd (q ++ q) = 0 <-> eighth (snd q)).
Proof.
  intros q O. destruct (dbl_coords q O) as [A B]. pose proof (den_minus d i Hi Hd q q O O) as M. destruct q as [x y]. unfold P_Edwards.on in O. unfold eighth. cbn [fst snd] in *. split.
  - intro E. rewrite E in B. assert (X : x * x = - (y * y)) by (transitivity ((y * y + x * x) - y * y); [ring|rewrite <- B; ring]).
    transitivity ((y * y - x * x) - (1 + d * (x * x) * (y * y)) + (x * x + y * y) * (d * (y * y) + 1)); [ring|].
    transitivity ((y * y - x * x) - (1 + d * x * x * y * y) + (x * x + y * y) * (d * (y * y) + 1)); [ring|]. rewrite O, X. ring.
  - intro E. assert (X : y * y + x * x = 0).
    { pose proof (den_y d i Hi Hd y) as Dy. apply (fe_cancel _ _ (1 + d * y * y) Dy).
      transitivity (y * y - (y * y - x * x) + (1 + d * x * x * y * y) - 1 + y * y + d * (y * y) * (y * y)); [ring|]. rewrite O.
      transitivity (d * (y * y) * (y * y) + (1 + 1) * (y * y) - 1); [ring|]. rewrite E. ring. }
    apply (fe_cancel _ _ _ M). rewrite B, X. ring.
Qed.
Lemma mul2 : forall q, mul 2 q = q ++ q.
Proof. intro q. change (mul 2 q) with (q ++ (q ++ ezero)). rewrite (P_Edwards.add_comm d q ezero), P_Edwards.add_0. reflexivity. Qed.
Lemma mul4 : forall q, onc q -> mul 4 q = (q ++ q) ++ (q ++ q).
Proof. intros q O. change 4%N with (2 + 2)%N. rewrite (P_Edwards.emul_add d i Hi Hd), mul2 by exact O. reflexivity. Qed.
Lemma mul8 : forall q, onc q -> mul 8 q = ((q ++ q) ++ (q ++ q)) ++ ((q ++ q) ++ (q ++ q)).
Proof. intros q O. change 8%N with (4 + 4)%N. rewrite (P_Edwards.emul_add d i Hi Hd), mul4 by exact O. reflexivity. Qed.
Lemma pt_eta : forall (q : pt) x y, fst q = x -> snd q = y -> q = (x, y).
Proof. intros [a b] x y <- <-. reflexivity. Qed.
Lemma eight : forall q, onc q -> (mul 8 q = ezero <-> snd q = 1 \/ snd q = - (1) \/ snd q = 0 \/ eighth (snd q)).
Proof.
  intros q O. rewrite (mul8 q O). pose proof (P_Edwards.on_add d i Hi Hd q q O O) as O2. pose proof (P_Edwards.on_add d i Hi Hd _ _ O2 O2) as O4. split.
  - intro E. apply (half_zero _ O4) in E. destruct E as [X [Y|Y]].
    + pose proof (pt_eta _ _ _ X Y) as E4. apply (half_zero _ O2) in E4. destruct E4 as [X2 [Y2|Y2]].
      * pose proof (pt_eta _ _ _ X2 Y2) as E2. apply (half_zero _ O) in E2. destruct E2 as [_ [Z|Z]]; [left; exact Z|right; left; exact Z].
      * pose proof (pt_eta _ _ _ X2 Y2) as E2. apply (half_minus _ O) in E2. right; right; left. exact E2.
    + pose proof (pt_eta _ _ _ X Y) as E4. apply (half_minus _ O2) in E4. right; right; right. apply half_y0; [exact O|exact E4].
  - intros [Y|[Y|[Y|Y]]].
    + assert (Q : q = ezero) by (apply pt_eta; [apply y_one; [exact O|rewrite Y; ring]|exact Y]). rewrite Q, !P_Edwards.add_0. reflexivity.
    + assert (Q : q = minus) by (apply pt_eta; [apply y_one; [exact O|rewrite Y; ring]|exact Y]). rewrite Q, dbl_minus, !P_Edwards.add_0. reflexivity.
    + rewrite (dbl_y0 q O Y), dbl_minus, P_Edwards.add_0. reflexivity.
    + apply (half_y0 q O) in Y. rewrite (dbl_y0 _ O2 Y). apply dbl_minus.
Qed.
Lemma order_eight : forall q, onc q -> eighth (snd q) -> has_order d 8 q.
Proof.
  intros q O E. assert (E8 : mul 8 q = ezero) by (apply eight; [exact O|right; right; right; exact E]).
  destruct (order_exists d i Hi Hd q 8 O eq_refl E8) as (n & Hn & D). assert (N4 : ~ N.divide n 4).
  { intro Q. apply Hn in Q. rewrite (mul4 q O) in Q. pose proof (P_Edwards.on_add d i Hi Hd q q O O) as O2. rewrite (dbl_y0 _ O2) in Q by (apply half_y0; [exact O|exact E]).
    apply fe_m1. symmetry. exact (f_equal snd Q). }
  assert (Ln : (n <= 8)%N) by (apply N.divide_pos_le; [reflexivity|exact D]). destruct D as [m Em]. destruct Hn as (H1 & L0 & H2).
  assert (C : (n = 1 \/ n = 2 \/ n = 3 \/ n = 4 \/ n = 5 \/ n = 6 \/ n = 7 \/ n = 8)%N) by lia.
  destruct C as [->|[->|[->|[->|[->|[->|[->| ->]]]]]]]; try (exfalso; lia); try (exfalso; apply N4; first [exists 4%N; reflexivity|exists 2%N; reflexivity|exists 1%N; reflexivity]).
  split; [exact H1|split; [reflexivity|exact H2]].
Qed.
Lemma order_four : forall q, onc q -> snd q = 0 -> has_order d 4 q.
Proof.
  intros q O E. assert (E4 : mul 4 q = ezero) by (rewrite (mul4 q O), (dbl_y0 q O E); apply dbl_minus).
  destruct (order_exists d i Hi Hd q 4 O eq_refl E4) as (n & Hn & D). assert (N2 : ~ N.divide n 2).
  { intro Q. apply Hn in Q. rewrite mul2, (dbl_y0 q O E) in Q. apply fe_m1. symmetry. exact (f_equal snd Q). }
  assert (Ln : (n <= 4)%N) by (apply N.divide_pos_le; [reflexivity|exact D]). destruct D as [m Em]. destruct Hn as (H1 & L0 & H2).
  assert (C : (n = 1 \/ n = 2 \/ n = 3 \/ n = 4)%N) by lia.
  destruct C as [->|[->|[->| ->]]]; try (exfalso; lia); try (exfalso; apply N2; first [exists 2%N; reflexivity|exists 1%N; reflexivity]).
  split; [exact H1|split; [reflexivity|exact H2]].
Qed.
End Torsion.
