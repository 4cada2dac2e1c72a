(** The curve arithmetic of R_Curve.v computes in the group of P_Edwards.v. *)
From Verif Require Import M_Base M_Crypto M_Aes M_Curve S_Crypto P_Base P_Prime P_Curve P_Field P_Edwards R_Curve.
From Coq Require Import ZArith Znumtheory Lia Field NsatzTactic ZifyBool ZifyNat ZifyN.
Local Open Scope fe_scope.

(** *** Field operations *)
Lemma p_nz : (p25519 <> 0)%N. Proof. discriminate. Qed.
Lemma fold255_ok : forall x, (fold255 x mod p25519 = x mod p25519)%N.
Proof.
  intro x. unfold fold255. change 57896044618658097711785492504343953926634992332820282019728792003956564819967%N with (N.ones 255).
  rewrite N.land_ones, N.shiftr_div_pow2. set (q := (x / 2 ^ 255)%N).
  rewrite (N.div_mod x (2 ^ 255)%N) at 2 by discriminate. fold q.
  change (2 ^ 255 * q)%N with (((p25519 + 19) * q)%N).
  replace ((p25519 + 19) * q + x mod 2 ^ 255)%N with (x mod 2 ^ 255 + 19 * q + q * p25519)%N by (generalize p25519 (x mod 2 ^ 255)%N; intros; ring).
  rewrite N.mod_add by exact p_nz. reflexivity.
Qed.
Lemma rmul_ok : forall a b, rmul a b = fmul a b.
Proof.
  intros a b. unfold rmul, fmul. set (y := fold255 (fold255 (a * b))). assert (E : (y mod p25519 = (a * b) mod p25519)%N) by (unfold y; rewrite !fold255_ok; reflexivity).
  destruct (N.ltb_spec y p25519) as [L|L]; [|exact E]. rewrite <- E. symmetry. apply N.mod_small. exact L.
Qed.
Lemma radd_ok : forall a b, radd a b = fadd a b.
Proof.
  intros a b. unfold radd, fadd. set (s := (a + b)%N). destruct (N.ltb_spec s p25519) as [L|L]; [symmetry; apply N.mod_small; exact L|].
  destruct (N.ltb_spec (s - p25519) p25519) as [L2|L2]; [|reflexivity].
  replace s with (s - p25519 + 1 * p25519)%N at 2 by lia. rewrite N.mod_add by exact p_nz. symmetry. apply N.mod_small. exact L2.
Qed.
Lemma rsub_ok : forall a b, rsub a b = fsub a b.
Proof.
  intros a b. unfold rsub. destruct (N.ltb_spec b p25519) as [L|L]; [|reflexivity]. rewrite radd_ok. unfold fadd, fsub. rewrite (N.mod_small b) by exact L. reflexivity.
Qed.
Lemma rpow_ok : forall b e, rpow b e = powm_pos p25519 b e.
Proof.
  intros b e. induction e as [e IH|e IH|]; cbn [rpow powm_pos]; rewrite ?IH, !rmul_ok; unfold fmul; [reflexivity|reflexivity|]. rewrite N.mul_1_r. reflexivity.
Qed.
Lemma rinv_ok : forall a, rinv a = finv a.
Proof. intro a. unfold rinv, finv, powm. destruct (p25519 - 2)%N as [|e] eqn:E; [discriminate E|]. apply rpow_ok. Qed.

Definition phi (n : N) : fe := F (Z.of_N n).
Lemma phi_mul : forall a b, phi (rmul a b) = phi a * phi b.
Proof. intros. unfold phi. rewrite rmul_ok, F_mul. apply F_eq. rewrite fmul_z. apply Zmod_mod. Qed.
Lemma phi_add : forall a b, phi (radd a b) = phi a + phi b.
Proof. intros. unfold phi. rewrite radd_ok, F_add. apply F_eq. rewrite fadd_z. apply Zmod_mod. Qed.
Lemma phi_sub : forall a b, phi (rsub a b) = phi a - phi b.
Proof. intros. unfold phi. rewrite rsub_ok, F_sub. apply F_eq. rewrite fsub_z. apply Zmod_mod. Qed.
Definition fepow (a : fe) (n : N) : fe := F (fz a ^ Z.of_N n).
Lemma fepow_F : forall z n, fepow (F z) n = F (z ^ Z.of_N n).
Proof.
  intros z n. unfold fepow. induction n as [|n IH] using N.peano_ind; [reflexivity|]. rewrite N2Z.inj_succ, !Z.pow_succ_r by lia. rewrite <- !F_mul, IH. f_equal. apply F_fz.
Qed.
Lemma fepow_add : forall a m n, fepow a (m + n) = fepow a m * fepow a n.
Proof. intros. unfold fepow. rewrite F_mul, N2Z.inj_add, Z.pow_add_r by lia. reflexivity. Qed.
Lemma fepow_mul : forall a m n, fepow a (m * n) = fepow (fepow a m) n.
Proof. intros. change (fepow a m) with (F (fz a ^ Z.of_N m)). rewrite fepow_F. unfold fepow. rewrite N2Z.inj_mul, Z.pow_mul_r by lia. reflexivity. Qed.
Lemma fepow_1 : forall a, fepow a 1 = a.
Proof. intro a. unfold fepow. change (Z.of_N 1) with 1%Z. rewrite Z.pow_1_r. apply F_fz. Qed.
Lemma fepow_2 : forall a, fepow a 2 = a * a.
Proof. intro a. change 2%N with (1 + 1)%N. rewrite fepow_add, fepow_1. reflexivity. Qed.
Lemma fepow_mul_base : forall a b n, fepow (a * b) n = fepow a n * fepow b n.
Proof. intros a b n. unfold femul at 1. rewrite fepow_F, Z.pow_mul_l. unfold fepow. rewrite F_mul. reflexivity. Qed.
Lemma fepow_one : forall n, fepow 1 n = 1.
Proof. intro n. unfold fe1. rewrite fepow_F, Z.pow_1_l by lia. reflexivity. Qed.
Lemma fepow_fermat : forall a, a <> 0 -> fepow a (p25519 - 1) = 1.
Proof.
  intros a Ha. rewrite <- (F_fz a) in Ha. apply F_nz in Ha. unfold fepow. apply F_eq. rewrite N2Z.inj_sub by discriminate.
  rewrite fermat; [reflexivity|exact P_prime|exact Ha].
Qed.
Lemma phi_pow : forall a e, phi (rpow a e) = fepow (phi a) (Npos e).
Proof.
  intros a e. unfold phi at 1. rewrite rpow_ok, powm_pos_ok by reflexivity. unfold phi. rewrite fepow_F. apply F_eq. rewrite N2Z.inj_mod, N2Z.inj_pow by exact p_nz. apply Zmod_mod.
Qed.
Lemma phi_inv : forall a, phi (rinv a) = feinv (phi a).
Proof.
  intro a. unfold rinv. destruct (p25519 - 2)%N as [|e] eqn:E; [discriminate E|]. rewrite phi_pow, <- E. unfold fepow, feinv. change (Z.of_N (p25519 - 2)) with (P - 2)%Z. reflexivity.
Qed.
Lemma phi_1 : phi 1 = 1. Proof. reflexivity. Qed.
Lemma phi_0 : phi 0 = 0. Proof. reflexivity. Qed.
(** The canonical representative. *)
Definition rep_of (a : fe) : N := Z.to_N (fz a).
Lemma rep_phi : forall n, rep_of (phi n) = (n mod p25519)%N.
Proof. intro n. unfold rep_of, phi. cbn [F fz]. rewrite <- N2Z.inj_mod by exact p_nz. apply N2Z.id. Qed.
Lemma fz_range : forall a, (0 <= fz a < P)%Z.
Proof. intro a. rewrite <- (fe_small a). apply Z.mod_pos_bound. reflexivity. Qed.
Lemma phi_rep : forall a, phi (rep_of a) = a.
Proof. intro a. unfold phi, rep_of. rewrite Z2N.id by apply fz_range. apply F_fz. Qed.
Lemma rep_lt : forall a, (rep_of a < p25519)%N.
Proof. intro a. unfold rep_of. pose proof (fz_range a). lia. Qed.
Lemma rmul_lt : forall a b, (rmul a b < p25519)%N.
Proof. intros. rewrite rmul_ok. apply N.mod_lt. exact p_nz. Qed.
Lemma rsub_lt : forall a b, (rsub a b < p25519)%N.
Proof. intros. rewrite rsub_ok. apply N.mod_lt. exact p_nz. Qed.
Lemma canon : forall n, (n < p25519)%N -> n = rep_of (phi n).
Proof. intros n L. rewrite rep_phi. symmetry. apply N.mod_small. exact L. Qed.
Lemma phi_inj : forall a b, (a < p25519)%N -> (b < p25519)%N -> phi a = phi b -> a = b.
Proof. intros a b La Lb E. rewrite (canon a La), (canon b Lb), E. reflexivity. Qed.

(** *** The curve *)
Definition dd : fe := phi ed_d.
Definition ii : fe := phi sqrt_m1.
Lemma ii_ok : ii * ii = - (1).
Proof.
  unfold ii. rewrite <- phi_mul. transitivity (phi (rsub 0 1)); [apply (f_equal phi); vm_compute; reflexivity|]. rewrite phi_sub, phi_0, phi_1. ring.
Qed.
Lemma dd_ok : dd * phi 121666 = - phi 121665.
Proof.
  unfold dd. rewrite <- phi_mul. transitivity (phi (rsub 0 121665)); [apply (f_equal phi); vm_compute; reflexivity|]. rewrite phi_sub, phi_0. ring.
Qed.
Lemma euler_d : rpow ed_d 28948022309329048855892746252171976963317496166410141009864396001978282409974 = (p25519 - 1)%N.
Proof. vm_compute. reflexivity. Qed.
Lemma dd_nonsquare : forall r, r * r <> dd.
Proof.
  intros r E. apply (f_equal (fun x => fepow x 28948022309329048855892746252171976963317496166410141009864396001978282409974)) in E.
  rewrite <- fepow_2, <- fepow_mul in E. unfold dd in E. rewrite <- phi_pow, euler_d in E.
  change (2 * 28948022309329048855892746252171976963317496166410141009864396001978282409974)%N with (p25519 - 1)%N in E.
  assert (Q : phi (p25519 - 1) = - (1)).
  { transitivity (phi (rsub 0 1)); [apply (f_equal phi); vm_compute; reflexivity|]. rewrite phi_sub, phi_0, phi_1. ring. }
  rewrite Q in E. destruct (fe_eq_dec r 0) as [->|Nz].
  - assert (Z : fepow 0 (p25519 - 1) = 0) by (unfold fe0; rewrite fepow_F, Z.pow_0_l by (vm_compute; reflexivity); reflexivity).
    rewrite Z in E. apply fe_10. transitivity (- - (1)); [ring|]. rewrite <- E. ring.
  - rewrite fepow_fermat in E by exact Nz. apply fe_two. rewrite E at 1. ring.
Qed.
Notation "p ++ q" := (eadd dd p q).
Notation on := (on dd).
Notation emul := (emul dd).
Definition base : pt := (phi ed_bx, phi ed_by).
Lemma base_on : on base.
Proof.
  unfold P_Edwards.on, base, dd. cbn [fst snd]. rewrite <- phi_1, <- !phi_mul, <- phi_sub, <- phi_add. apply (f_equal phi). vm_compute. reflexivity.
Qed.

(** *** Extended coordinates *)
Definition repr (e : ext) (p : pt) : Prop :=
  phi (eZ e) <> 0 /\ phi (eX e) = fst p * phi (eZ e) /\ phi (eY e) = snd p * phi (eZ e) /\ phi (eT e) = fst p * snd p * phi (eZ e).
Lemma repr_zero : repr ext_zero ezero.
Proof. unfold repr, ext_zero, ezero. cbn [eX eY eZ eT fst snd]. rewrite phi_0, phi_1. split; [exact fe_10|]. split; [ring|split; ring]. Qed.
Lemma repr_base : repr ext_base base.
Proof. unfold repr, ext_base, base. cbn [eX eY eZ eT fst snd]. rewrite phi_mul, phi_1. split; [exact fe_10|]. split; [ring|split; ring]. Qed.
Lemma repr_neg : forall e p, repr e p -> repr (ext_neg e) (eneg p).
Proof.
  intros e [x y] (Z & X & Y & T). unfold repr, ext_neg, eneg. cbn [eX eY eZ eT fst snd] in *. rewrite !phi_sub, phi_0, X, Y, T. split; [exact Z|]. split; [ring|split; ring].
Qed.
Lemma repr_add : forall e p f q, on p -> on q -> repr e p -> repr f q -> repr (ext_add e f) (p ++ q).
Proof.
  intros e p f q O1 O2 (Z1 & X1 & Y1 & T1) (Z2 & X2 & Y2 & T2).
  pose proof (den_plus dd ii ii_ok dd_nonsquare p q O1 O2) as D1. pose proof (den_minus dd ii ii_ok dd_nonsquare p q O1 O2) as D2.
  destruct p as [x1 y1], q as [x2 y2]. unfold repr, ext_add, eadd. cbn [eX eY eZ eT fst snd] in *.
  rewrite !phi_mul, !phi_add, !phi_sub, !phi_mul, !phi_add, !phi_sub. fold dd. rewrite X1, Y1, T1, X2, Y2, T2.
  set (z1 := phi (eZ e)) in *. set (z2 := phi (eZ f)) in *. set (t := dd * x1 * x2 * y1 * y2) in *.
  assert (F4 : (1 + 1) * (1 + 1) <> 0) by (apply fe_mul_nz; exact fe_two).
  split.
  - replace (((z1 + z1) * z2 - x1 * y1 * z1 * (dd + dd) * (x2 * y2 * z2)) * ((z1 + z1) * z2 + x1 * y1 * z1 * (dd + dd) * (x2 * y2 * z2)))
      with ((1 + 1) * (1 + 1) * (z1 * z2) * (z1 * z2) * (1 - t) * (1 + t)) by (unfold t; ring).
    assert (Zz : z1 * z2 <> 0) by (apply fe_mul_nz; [exact Z1|exact Z2]).
    apply fe_mul_nz; [apply fe_mul_nz; [apply fe_mul_nz; [apply fe_mul_nz; [exact F4|exact Zz]|exact Zz]|exact D2]|exact D1].
  - split; [|split].
    + replace (((z1 + z1) * z2 - x1 * y1 * z1 * (dd + dd) * (x2 * y2 * z2))) with ((1 + 1) * (z1 * z2) * (1 - t)) by (unfold t; ring).
      replace (((z1 + z1) * z2 + x1 * y1 * z1 * (dd + dd) * (x2 * y2 * z2))) with ((1 + 1) * (z1 * z2) * (1 + t)) by (unfold t; ring).
      field. exact D1.
    + replace (((z1 + z1) * z2 - x1 * y1 * z1 * (dd + dd) * (x2 * y2 * z2))) with ((1 + 1) * (z1 * z2) * (1 - t)) by (unfold t; ring).
      replace (((z1 + z1) * z2 + x1 * y1 * z1 * (dd + dd) * (x2 * y2 * z2))) with ((1 + 1) * (z1 * z2) * (1 + t)) by (unfold t; ring).
      field. exact D2.
    + replace (((z1 + z1) * z2 - x1 * y1 * z1 * (dd + dd) * (x2 * y2 * z2))) with ((1 + 1) * (z1 * z2) * (1 - t)) by (unfold t; ring).
      replace (((z1 + z1) * z2 + x1 * y1 * z1 * (dd + dd) * (x2 * y2 * z2))) with ((1 + 1) * (z1 * z2) * (1 + t)) by (unfold t; ring).
      field. split; assumption.
Qed.
Lemma repr_pos : forall k e p, on p -> repr e p -> repr (ext_pos k e) (emul (Npos k) p).
Proof.
  intros k e p O R. pose proof (fun n => emul_on dd ii ii_ok dd_nonsquare n p O) as On. induction k as [k IH|k IH|].
  - replace (emul (N.pos k~1) p) with (p ++ (emul (Npos k) p ++ emul (Npos k) p)).
    + cbn [ext_pos]. apply repr_add; auto. apply (on_add dd ii ii_ok dd_nonsquare); auto. apply repr_add; auto.
    + rewrite <- (emul_add dd ii ii_ok dd_nonsquare), <- emul_succ by exact O. f_equal. lia.
  - replace (emul (N.pos k~0) p) with (emul (Npos k) p ++ emul (Npos k) p).
    + cbn [ext_pos]. apply repr_add; auto.
    + rewrite <- (emul_add dd ii ii_ok dd_nonsquare) by exact O. f_equal. lia.
  - cbn [ext_pos]. rewrite emul_1. exact R.
Qed.
Lemma repr_mul : forall k e p, on p -> repr e p -> repr (ext_mul k e) (emul k p).
Proof. intros [|k] e p O R; [exact repr_zero|apply repr_pos; auto]. Qed.
Lemma order_check : (let e := ext_mul ell ext_base in (eX e =? 0) && (eY e =? eZ e))%N%bool = true.
Proof. vm_compute. reflexivity. Qed.
Lemma base_order : emul ell base = ezero.
Proof.
  pose proof (repr_mul ell ext_base base base_on repr_base) as (Z & X & Y & _). pose proof order_check as Q. cbv zeta in Q.
  apply andb_prop in Q. destruct Q as [Q1 Q2]. apply N.eqb_eq in Q1, Q2. rewrite Q1, phi_0 in X. rewrite Q2 in Y.
  destruct (emul ell base) as [x y]. cbn [fst snd] in *. unfold ezero. apply f_equal2.
  - symmetry in X. apply fe_integral in X. destruct X as [X|X]; [exact X|destruct (Z X)].
  - apply (fe_cancel y 1 _ Z). rewrite <- Y. ring.
Qed.
