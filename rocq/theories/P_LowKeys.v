(** X25519 returns zero exactly for the five u coordinates of small order. *)
From Verif Require Import M_Base M_Crypto M_Aes M_Curve S_Crypto P_Base P_Prime P_PrimeEll P_PrimeTwist P_Curve P_Field P_Edwards R_Curve P_RealCurve P_RealEd P_Ladder P_Count P_Twist P_LowOrder.
From Coq Require Import ZArith Znumtheory Lia Field NsatzTactic ZifyBool ZifyNat ZifyN.
Local Open Scope fe_scope.

Definition n_r8 : N := 28684908821141429758912547916212233914183938327803420948194326298794999701186.
Definition n_y8 : N := 2707385501144840649318225287225658788936804267575313519463743609750303402022.
Definition u8a : N := 39382357235489614581723060781553021112529911719440698176882885853963445705823.
Definition u8b : N := 325606250916557431795983626356110631294008115727848805560023387167927233504.
Definition n_xt : N := 26863754924048200500278616365911433576034822014407595087078884958477093099375.
Definition y8 : fe := phi n_y8.
Lemma r8_ok : phi n_r8 * phi n_r8 = 1 + dd.
Proof. unfold dd. rewrite <- phi_1, <- phi_mul, <- phi_add. apply (f_equal phi). vm_compute. reflexivity. Qed.
Lemma y8_ok : dd * (y8 * y8) = - (1) - phi n_r8.
Proof.
  transitivity (phi (rsub (rsub 0 1) n_r8)); [|rewrite !phi_sub, phi_0, phi_1; ring].
  unfold dd, y8. rewrite <- !phi_mul. apply (f_equal phi). vm_compute. reflexivity.
Qed.
Lemma u8a_ok : phi u8a * (1 - y8) = 1 + y8.
Proof. unfold y8. rewrite <- phi_1, <- phi_sub, <- phi_add, <- phi_mul. apply (f_equal phi). vm_compute. reflexivity. Qed.
Lemma u8b_ok : phi u8b * (1 + y8) = 1 - y8.
Proof. unfold y8. rewrite <- phi_1, <- phi_sub, <- phi_add, <- phi_mul. apply (f_equal phi). vm_compute. reflexivity. Qed.
Lemma eighth_y8 : forall y, eighth dd y <-> y = y8 \/ y = - y8.
Proof.
  pose proof r8_ok as R. pose proof y8_ok as Y. pose proof dd_nonsquare as Ns. pose proof dd_nz as Nz. set (r := phi n_r8) in *. clearbody r. revert R Y Ns Nz. generalize dd, y8. intros d z R Y Ns Nz y. unfold eighth. split.
  - intro E. assert (S : (d * (y * y) + 1) * (d * (y * y) + 1) = r * r).
    { rewrite R. transitivity (d * (d * (y * y) * (y * y) + (1 + 1) * (y * y) - 1) + (1 + d)); [ring|]. rewrite E. ring. }
    apply fe_sq_cases in S. destruct S as [S|S].
    + exfalso. apply (Ns (ii * (d * y * z))). transitivity ((ii * ii) * (((d * (y * y) + 1) - 1) * (d * (z * z)))); [ring|]. rewrite ii_ok, S, Y.
      transitivity (r * r - 1); [ring|]. rewrite R. ring.
    + apply fe_sq_cases. apply (fe_cancel _ _ d Nz). transitivity ((d * (y * y) + 1) - 1); [ring|]. rewrite S. transitivity (d * (z * z)); [rewrite Y; ring|ring].
  - intro E. assert (S : d * (y * y) = - (1) - r) by (rewrite <- Y; destruct E as [->| ->]; ring).
    apply (fe_cancel _ _ d Nz). transitivity (((d * (y * y)) + 1) * ((d * (y * y)) + 1) - 1 - d); [ring|]. rewrite S.
    transitivity (r * r - 1 - d); [ring|]. rewrite R. ring.
Qed.
Lemma no_eighth_twist : forall y, ~ eighth dtw y.
Proof.
  intros y E. pose proof r8_ok as R. pose proof (den_y dtw ii ii_ok dtw_nonsquare y) as Dy. set (r := phi n_r8) in *. clearbody r. unfold eighth in E.
  apply (dd_nonsquare (r / (1 + dtw * y * y))). transitivity (r * r / ((1 + dtw * y * y) * (1 + dtw * y * y))); [field; exact Dy|]. rewrite R.
  apply fe_div_eq; [apply fe_mul_nz; exact Dy|].
  assert (Q : dd * dtw = 1) by (unfold dtw; field; exact dd_nz).
  revert E Q. generalize dd, dtw. intros d t E Q. transitivity (d * (1 + t)); [transitivity (d + d * t); [rewrite Q; ring|ring]|].
  transitivity (d * (1 + t + t * (t * (y * y) * (y * y) + (1 + 1) * (y * y) - 1))); [rewrite E; ring|ring].
Qed.
Definition T8 : pt := (ii * y8, y8).
Lemma T8_on : on T8.
Proof.
  pose proof (proj2 (eighth_y8 y8) (or_introl eq_refl)) as E. unfold P_Edwards.on, T8. cbn [fst snd]. unfold eighth in E.
  transitivity (y8 * y8 - (ii * ii) * (y8 * y8)); [ring|]. transitivity (1 + dd * (ii * ii) * (y8 * y8) * (y8 * y8)); [|ring]. rewrite ii_ok.
  transitivity ((dd * (y8 * y8) * (y8 * y8) + (1 + 1) * (y8 * y8) - 1) + 1 - dd * (y8 * y8) * (y8 * y8)); [ring|]. rewrite E. ring.
Qed.
Lemma T8_order : has_order dd 8 T8.
Proof. apply (order_eight dd ii ii_ok dd_nonsquare); [exact T8_on|]. apply eighth_y8. left. reflexivity. Qed.
Lemma T4t_order : has_order dtw 4 (ii, 0).
Proof.
  apply (order_four dtw ii ii_ok dtw_nonsquare); [|reflexivity]. unfold P_Edwards.on. cbn [fst snd]. transitivity (- (ii * ii)); [ring|]. rewrite ii_ok. ring.
Qed.
Lemma base_has_order : has_order dd ell base.
Proof. apply (order_prime dd ii ii_ok dd_nonsquare); [exact base_on|exact prime_ell|exact base_order|exact base_nz]. Qed.

(** *** A point of the twist *)
Definition Bt : pt := (phi n_xt, phi 3).
Lemma Bt_on : P_Edwards.on dtw Bt.
Proof.
  assert (E : dd * (phi 8 - phi n_xt * phi n_xt) = phi 9 * (phi n_xt * phi n_xt)).
  { unfold dd. rewrite <- !phi_mul, <- phi_sub, <- phi_mul. apply (f_equal phi). vm_compute. reflexivity. }
  assert (N9 : phi 9 = phi 3 * phi 3) by (rewrite <- phi_mul; reflexivity). assert (N8 : phi 8 = phi 3 * phi 3 - 1) by (rewrite <- N9, <- phi_1, <- phi_sub; reflexivity).
  rewrite N8, N9 in E. unfold P_Edwards.on, Bt, dtw. cbn [fst snd]. revert E. generalize (phi n_xt), (phi 3). intros x y E.
  apply (fe_cancel _ _ dd dd_nz). transitivity (dd * (y * y - 1 - x * x) + dd); [ring|]. rewrite E. field. exact dd_nz.
Qed.
Definition pos_of (n : N) : positive := match n with N0 => 1%positive | Npos q => q end.
Lemma twist_check : snd (fst (ladder 2 (pos_of ellt))) = 0%N.
Proof. vm_compute. reflexivity. Qed.
Lemma Bt_order : has_order dtw ellt Bt.
Proof.
  assert (Y1 : snd Bt <> 1) by (intro Q; apply (f_equal rep_of) in Q; rewrite <- phi_1 in Q; unfold Bt in Q; cbn [snd] in Q; rewrite !rep_phi in Q; discriminate Q).
  assert (Y2 : snd Bt <> - (1)).
  { intro Q. assert (Q' : phi 4 = 0) by (transitivity (phi 3 + 1); [rewrite <- phi_1, <- phi_add; reflexivity|]; unfold Bt in Q; cbn [snd] in Q; rewrite Q; ring).
    apply (f_equal rep_of) in Q'. rewrite rep_0, rep_phi in Q'. discriminate Q'. }
  assert (Ex : phi 2 * (1 - snd Bt) = - (1 + snd Bt)).
  { unfold Bt. cbn [snd]. rewrite <- phi_1. transitivity (phi (rmul 2 (rsub 1 3))); [rewrite phi_mul, phi_sub; reflexivity|]. transitivity (phi (rsub 0 (radd 1 3))); [apply (f_equal phi); vm_compute; reflexivity|].
    rewrite phi_sub, phi_add, phi_0. ring. }
  apply (order_prime dtw ii ii_ok dtw_nonsquare); [exact Bt_on|exact prime_ellt| |intro Q; apply Y1; exact (f_equal snd Q)].
  destruct (tw_ladder_ok dtw dtw_nonsquare dtw_ok 2 Bt Bt_on Y1 Y2 Ex (pos_of ellt)) as [[Nz E] _].
  rewrite twist_check, phi_0 in Nz, E. change (N.pos (pos_of ellt)) with ellt in E.
  destruct Nz as [Nz|Nz]; [|destruct (Nz eq_refl)]. pose proof (P_Edwards.emul_on dtw ii ii_ok dtw_nonsquare ellt Bt Bt_on) as O. revert O E.
  generalize (P_Edwards.emul dtw ellt Bt). revert Nz. generalize (phi (fst (fst (ladder 2 (pos_of ellt))))). intros x Nz q O E.
  assert (Z : 1 - snd q = 0) by (apply (fe_cancel _ _ _ Nz); transitivity (- (0 * (1 + snd q))); [rewrite <- E; ring|ring]).
  apply fe_sub_0 in Z. apply pt_eta; [|symmetry; exact Z]. apply (y_one dtw ii ii_ok dtw_nonsquare); [exact O|]. rewrite <- Z. ring.
Qed.
Lemma curve_small : forall D m, on D -> (0 < m < ell)%N -> emul (16 * m) D = ezero -> emul 8 D = ezero.
Proof.
  apply (small_order dd ii ii_ok dd_nonsquare ell base 8 T8 prime_ell base_has_order T8_order (or_intror eq_refl)); reflexivity.
Qed.
Lemma twist_small : forall D m, P_Edwards.on dtw D -> (0 < m < ellt)%N -> P_Edwards.emul dtw (16 * m) D = ezero -> P_Edwards.emul dtw 8 D = ezero.
Proof.
  apply (small_order dtw ii ii_ok dtw_nonsquare ellt Bt 4 (ii, 0) prime_ellt Bt_order T4t_order (or_introl eq_refl)); reflexivity.
Qed.

(** *** X25519 *)
Lemma clamp_8m : forall k, List.length k = 32%nat -> exists m, le2n (clamp k) = (8 * m)%N /\ (0 < m < 2 ^ 252)%N.
Proof.
  intros k H. destruct (split_key k H) as (x & m & y & Hk & Hm & ->).
  cbn [le2n]. rewrite le2n_app, Hm. cbn [le2n]. rewrite N.mul_0_r, N.add_0_r.
  change (256 ^ N.of_nat 30)%N with 1766847064778384329583297500742918515827483896875618958121606201292619776%N.
  pose proof (lo_clamp_val x) as Hx. pose proof (hi_clamp_val y) as Hy.
  pose proof (le2n_lt m) as Hl. rewrite Hm in Hl.
  change (256 ^ N.of_nat 30)%N with 1766847064778384329583297500742918515827483896875618958121606201292619776%N in Hl.
  assert (Hx' : exists j, b2n (lo_clamp x) = (8 * j)%N).
  { exists (b2n (lo_clamp x) / 8)%N. pose proof (N.div_mod (b2n (lo_clamp x)) 8 ltac:(discriminate)). lia. }
  destruct Hx' as [j Hj].
  apply andb_prop in Hy as [Hy1 Hy2]. apply N.leb_le in Hy1. apply N.ltb_lt in Hy2.
  pose proof (b2n_lt (lo_clamp x)) as Hb.
  exists (j + 32 * (le2n m + 1766847064778384329583297500742918515827483896875618958121606201292619776 * b2n (hi_clamp y)))%N.
  change (2 ^ 252)%N with 7237005577332262213973186563042994240829374041602535252466099000494570602496%N. lia.
Qed.
Lemma feinv_0 : feinv 0 = 0.
Proof. unfold feinv, fe0. apply F_eq. cbn [F fz]. rewrite (Z.mod_0_l P P_nz). rewrite Z.pow_0_l by reflexivity. reflexivity. Qed.
Lemma feinv_nz : forall a, a <> 0 -> feinv a <> 0.
Proof. intros a Na E. pose proof (fe_inv a Na) as Q. rewrite E in Q. apply fe_10. rewrite <- Q. ring. Qed.
Lemma quot_zero : forall X Z, phi (rmul X (rinv Z)) = 0 <-> phi X = 0 \/ phi Z = 0.
Proof.
  intros X Z. rewrite phi_mul, phi_inv. split.
  - intro E. apply fe_integral in E. destruct E as [E|E]; [left; exact E|right]. destruct (fe_eq_dec (phi Z) 0) as [Q|Q]; [exact Q|destruct (feinv_nz _ Q E)].
  - intros [->| ->]; [ring|rewrite feinv_0; ring].
Qed.
Lemma one_plus : forall y : fe, 1 + y = 0 <-> y = - (1).
Proof. intro y. split; [intro E; transitivity (1 + y - 1); [ring|rewrite E; ring]|intros ->; ring]. Qed.
Lemma one_minus : forall y : fe, 1 - y = 0 <-> y = 1.
Proof. intro y. split; [intro E; symmetry; apply fe_sub_0; exact E|intros ->; ring]. Qed.
Lemma mrep_zero : forall s q, mrep s q -> (phi (rmul (fst s) (rinv (snd s))) = 0 <-> snd q = 1 \/ snd q = - (1)).
Proof.
  intros s q [Nz E]. destruct (mrep_k _ _ _ Nz E) as (k & Nk & EX & EZ). rewrite quot_zero, EX, EZ. split.
  - intros [Q|Q]; apply fe_integral in Q; destruct Q as [Q|Q]; try (destruct (Nk Q)); [right; apply one_plus; exact Q|left; apply one_minus; exact Q].
  - intros [Q|Q]; rewrite Q; [right; ring|left; ring].
Qed.
Lemma trep_zero : forall s q, trep s q -> (phi (rmul (fst s) (rinv (snd s))) = 0 <-> snd q = 1 \/ snd q = - (1)).
Proof.
  intros s q [Nz E]. destruct (trep_k _ _ _ Nz E) as (k & Nk & EX & EZ). rewrite quot_zero, EX, EZ. split.
  - intros [Q|Q]; [apply fe_opp_0 in Q|]; apply fe_integral in Q; destruct Q as [Q|Q]; try (destruct (Nk Q)); [right; apply one_plus; exact Q|left; apply one_minus; exact Q].
  - intros [Q|Q]; rewrite Q; [right; ring|left; ring].
Qed.
Section Vanish.
Variable d : fe.
Hypothesis Hd : forall r, r * r <> d.
Lemma pm_double : forall q, P_Edwards.on d q -> (snd q = 1 \/ snd q = - (1)) -> eadd d q q = ezero.
Proof.
  intros q O H. assert (X : fst q = 0) by (apply (y_one d ii ii_ok Hd); [exact O|destruct H as [->| ->]; ring]).
  destruct H as [Y|Y]; rewrite (pt_eta _ _ _ X Y); [apply P_Edwards.add_0|apply dbl_minus].
Qed.
Lemma vanish_iff : forall D m, P_Edwards.on d D ->
  (P_Edwards.emul d (16 * m) D = ezero -> P_Edwards.emul d 8 D = ezero) ->
  ((snd (P_Edwards.emul d (8 * m) D) = 1 \/ snd (P_Edwards.emul d (8 * m) D) = - (1)) <-> P_Edwards.emul d 8 D = ezero).
Proof.
  intros D m O H. split.
  - intro Y. apply H. replace (16 * m)%N with (8 * m + 8 * m)%N by lia. rewrite (P_Edwards.emul_add d ii ii_ok Hd) by exact O.
    apply pm_double; [apply (P_Edwards.emul_on d ii ii_ok Hd), O|exact Y].
  - intro E. left. rewrite N.mul_comm, (P_Edwards.emul_mul d ii ii_ok Hd) by exact O. rewrite E, P_Edwards.emul_zero. reflexivity.
Qed.
End Vanish.

(** u = 0: one of the two coordinates is always zero. *)
Definition flat (s : N * N) : Prop := phi (fst s) = 0 \/ phi (snd s) = 0.
Lemma flat_double : forall s, flat s -> flat (lad_double (fst s) (snd s)).
Proof.
  intros s H. right. unfold lad_double. cbv zeta. cbn [fst snd]. phis. destruct H as [H|H]; rewrite H; ring.
Qed.
Lemma flat_add : forall x z x' z', flat (lad_add 0 x z x' z').
Proof. intros. right. unfold lad_add. cbv zeta. cbn [fst snd]. phis. rewrite phi_0. ring. Qed.
Lemma flat_ladder : forall k, flat (fst (ladder 0 k)) /\ flat (snd (ladder 0 k)).
Proof.
  assert (St : forall b s, flat (fst s) /\ flat (snd s) -> flat (fst (lad_step 0 b s)) /\ flat (snd (lad_step 0 b s))).
  { intros b [[x2 z2] [x3 z3]] [A B]. cbn [fst snd] in A, B. unfold lad_step. destruct b; cbn [fst snd].
    - split; [apply flat_add|apply (flat_double (x3, z3)), B].
    - split; [apply (flat_double (x2, z2)), A|apply flat_add]. }
  induction k as [k IH|k IH|]; cbn [ladder]; apply St; try exact IH. cbn [fst snd]. split; [right|left]; reflexivity.
Qed.

Definition small_n (u : N) : Prop := (u = 0 \/ u = 1 \/ u = u8b \/ u = u8a \/ u = p25519 - 1)%N.
Lemma y8_ne : y8 <> 1 /\ y8 <> - (1) /\ y8 <> 0.
Proof.
  pose proof (proj2 (eighth_y8 y8) (or_introl eq_refl)) as E. unfold eighth in E. split; [|split]; intro Q; rewrite Q in E.
  - apply (dd_nonsquare ii). rewrite ii_ok. apply fe_sub_0. transitivity (- (dd * (1 * 1) * (1 * 1) + (1 + 1) * (1 * 1) - 1)); [ring|rewrite E; ring].
  - apply (dd_nonsquare ii). rewrite ii_ok. apply fe_sub_0. transitivity (- (dd * (- (1) * - (1)) * (- (1) * - (1)) + (1 + 1) * (- (1) * - (1)) - 1)); [ring|rewrite E; ring].
  - apply fe_10. transitivity (- (dd * (0 * 0) * (0 * 0) + (1 + 1) * (0 * 0) - 1)); [ring|rewrite E; ring].
Qed.
Lemma phi_eq : forall a b, (a < p25519)%N -> (b < p25519)%N -> (phi a = phi b <-> a = b).
Proof. intros a b La Lb. split; [apply phi_inj; assumption|intros ->; reflexivity]. Qed.
Lemma phi_m1 : phi (p25519 - 1) = - (1).
Proof. transitivity (phi (rsub 0 1)); [apply (f_equal phi); vm_compute; reflexivity|]. rewrite phi_sub, phi_0, phi_1. ring. Qed.
Lemma u_of_y : forall a b y z : fe, a * (1 - y) = 1 + y -> b * (1 - z) = 1 + z -> y <> 1 -> z <> 1 -> (a = b <-> y = z).
Proof.
  intros a b y z Ea Eb Ny Nz. split.
  - intros ->. assert (Q : (y - z) * (b + 1) = 0) by (transitivity ((b * (1 - z) - z) - (b * (1 - y) - y)); [ring|rewrite Ea, Eb; ring]).
    apply fe_integral in Q. destruct Q as [Q|Q]; [apply fe_sub_0; exact Q|exfalso].
    assert (B : b = - (1)) by (transitivity (b + 1 - 1); [ring|rewrite Q; ring]). rewrite B in Ea. apply fe_two.
    transitivity ((1 + y) - (- (1) * (1 - y))); [ring|rewrite Ea; ring].
  - intros ->. apply (fe_cancel _ _ (1 - z)); [intro Q; apply Nz, one_minus; exact Q|]. rewrite Ea, Eb. reflexivity.
Qed.
Lemma not_both : forall u q D, on q -> P_Edwards.on dtw D -> snd q <> 1 -> snd q <> - (1) ->
  u * (1 - snd q) = 1 + snd q -> u * (1 - snd D) = - (1 + snd D) -> False.
Proof.
  intros u [xq y] [x Y] Oq Od N1 N2 Eq Ed. unfold P_Edwards.on in Oq, Od. cbn [fst snd] in *.
  assert (Nx : xq <> 0).
  { intro Q. rewrite Q in Oq. assert (Z : (y - 1) * (y + 1) = 0) by (transitivity ((y * y - 0 * 0) - 1); [ring|rewrite Oq; ring]).
    apply fe_integral in Z. destruct Z as [Z|Z]; [apply N1, fe_sub_0; exact Z|apply N2, one_plus; rewrite <- Z; ring]. }
  assert (T : dd * dtw = 1) by (unfold dtw; field; exact dd_nz).
  pose proof (den_y dd ii ii_ok dd_nonsquare y) as Dy. pose proof dd_nonsquare as Ns. revert Oq Od T Dy Ns. generalize dd, dtw. intros d t Oq Od T Dy Ns.
  assert (Py : y * Y = 1).
  { apply (fe_cancel _ _ (1 + 1) fe_two). assert (A : (1 + y) * (1 - Y) = - (1 + Y) * (1 - y)) by (rewrite <- Eq, <- Ed; ring).
    transitivity ((1 + 1) * (y * Y)); [ring|]. transitivity ((1 + 1) - ((1 + y) * (1 - Y) - - (1 + Y) * (1 - y))); [ring|]. rewrite A. ring. }
  assert (X : x * x = - (d * (xq * xq))).
  { apply (fe_cancel _ _ (1 + d * y * y) Dy).
    assert (A : xq * xq * (1 + d * y * y) = y * y - 1) by (transitivity ((1 + d * xq * xq * y * y) - 1 + xq * xq); [ring|rewrite <- Oq; ring]).
    assert (B : x * x * (1 + t * Y * Y) = Y * Y - 1) by (transitivity ((1 + t * x * x * Y * Y) - 1 + x * x); [ring|rewrite <- Od; ring]).
    transitivity (- d * (xq * xq * (1 + d * y * y))); [|ring]. rewrite A.
    transitivity (d * (y * y) * (x * x) + x * x * ((d * t) * ((y * Y) * (y * Y)))); [rewrite T, Py; ring|].
    transitivity (d * (y * y) * (x * x * (1 + t * Y * Y))); [ring|]. rewrite B. transitivity (d * ((y * Y) * (y * Y) - y * y)); [ring|]. rewrite Py. ring. }
  apply (Ns (ii * x / xq)). transitivity ((ii * ii) * (x * x) / (xq * xq)); [field; exact Nx|]. rewrite ii_ok, X. field. exact Nx.
Qed.
Lemma real_x_zero : forall k u, List.length k = 32%nat ->
  (phi (le2n (real_x25519 k u)) = 0 <-> small_n (fe_of_bytes u)).
Proof.
  intros k u L. destruct (clamp_8m k L) as (m & Em & Lm). assert (Le : (0 < m < ell)%N) by (split; [apply Lm|eapply N.lt_trans; [apply Lm|reflexivity]]).
  assert (Lt : (0 < m < ellt)%N) by (split; [apply Lm|eapply N.lt_trans; [apply Lm|reflexivity]]).
  assert (Lu : (fe_of_bytes u < p25519)%N) by (apply N.mod_lt; discriminate). set (n := fe_of_bytes u) in *.
  unfold real_x25519. rewrite Em. fold n. destruct (8 * m)%N as [|s] eqn:Es; [exfalso; clear - Es Lm; lia|]. rewrite <- Es in *. clearbody n.
  assert (Out : forall X Z, phi (le2n (fe_bytes (rmul X (rinv Z)))) = phi (rmul X (rinv Z))).
  { intros X Z. pose proof (rmul_lt X (rinv Z)) as R. unfold fe_bytes. rewrite (N.mod_small _ _ R). rewrite le2n_n2le; [reflexivity|]. eapply N.lt_trans; [exact R|reflexivity]. }
  destruct (N.eq_dec n 0) as [Z|Nz].
  { subst n. split; [intros _; left; reflexivity|intros _]. destruct (flat_ladder s) as [F _]. destruct (ladder 0 s) as [[x z] w]. rewrite Out. apply quot_zero. exact F. }
  assert (Np : phi n <> 0) by (intro Q; apply Nz; apply phi_inj; [exact Lu|reflexivity|rewrite Q, phi_0; reflexivity]).
  destruct (which (phi n) Np) as [(D & O & D1 & D2 & Ex)|(D & O & D1 & D2 & Ex)].
  - destruct (ladder_ok n D O D1 D2 Ex s) as [A _]. destruct (ladder n s) as [[x z] w]. cbn [fst snd] in A. rewrite Out, (mrep_zero _ _ A). rewrite <- Es.
    rewrite (vanish_iff dd dd_nonsquare D m O (curve_small D m O Le)). rewrite (eight dd ii ii_ok dd_nonsquare D O). rewrite eighth_y8.
    destruct y8_ne as (N1 & N2 & N3).
    assert (E0 : snd D = 0 <-> n = 1%N).
    { rewrite <- (phi_eq n 1 Lu eq_refl), phi_1. symmetry. apply (u_of_y _ _ _ _ Ex); [ring|exact D1|intro Q; apply fe_10; symmetry; exact Q]. }
    assert (E1 : snd D = y8 <-> n = u8a).
    { rewrite <- (phi_eq n u8a Lu eq_refl). symmetry. apply (u_of_y _ _ _ _ Ex u8a_ok D1 N1). }
    assert (E2 : snd D = - y8 <-> n = u8b).
    { rewrite <- (phi_eq n u8b Lu eq_refl). symmetry. apply (u_of_y _ _ _ _ Ex); [|exact D1|].
      - transitivity (phi u8b * (1 + y8)); [ring|]. rewrite u8b_ok. ring.
      - intro Q. apply N2. transitivity (- - y8); [ring|]. rewrite Q. reflexivity. }
    assert (E3 : n <> (p25519 - 1)%N).
    { intro Q. rewrite Q, phi_m1 in Ex. apply fe_two. transitivity ((1 + snd D) - (- (1) * (1 - snd D))); [ring|rewrite Ex; ring]. }
    unfold small_n. rewrite E0, E1, E2. clear - D1 D2 Nz E3. generalize dependent (snd D). intros y D1 D2. split; intuition congruence.
  - destruct (tw_ladder_ok dtw dtw_nonsquare dtw_ok n D O D1 D2 Ex s) as [A _]. destruct (ladder n s) as [[x z] w]. cbn [fst snd] in A. rewrite Out, (trep_zero _ _ A). rewrite <- Es.
    rewrite (vanish_iff dtw dtw_nonsquare D m O (twist_small D m O Lt)). rewrite (eight dtw ii ii_ok dtw_nonsquare D O).
    assert (Em1 : snd D = 0 <-> n = (p25519 - 1)%N).
    { rewrite <- (phi_eq n (p25519 - 1) Lu eq_refl), phi_m1. split.
      - intro Q. rewrite Q in Ex. transitivity (phi n * (1 - 0)); [ring|]. rewrite Ex. ring.
      - intro Q. rewrite Q in Ex. assert (Z : snd D * (1 + 1) = 0) by (transitivity ((- (1) * (1 - snd D)) - - (1 + snd D)); [ring|rewrite Ex; ring]).
        apply fe_integral in Z. destruct Z as [Z|Z]; [exact Z|destruct (fe_two Z)]. }
    pose proof (no_eighth_twist (snd D)) as Ne.
    destruct y8_ne as (N1 & N2 & N3). pose proof T8_on as O8.
    assert (X1 : n <> 1%N).
    { intro Q. apply (not_both (phi n) (ii, 0) D); [|exact O| | | |exact Ex]; cbn [snd].
      - unfold P_Edwards.on. cbn [fst snd]. transitivity (- (ii * ii)); [ring|]. rewrite ii_ok. ring.
      - intro Q'. apply fe_10. symmetry. exact Q'.
      - intro Q'. apply fe_10. transitivity (- - (1)); [ring|]. rewrite <- Q'. ring.
      - rewrite Q, phi_1. ring. }
    assert (X2 : n <> u8a) by (intro Q; apply (not_both (phi n) T8 D O8 O N1 N2); [rewrite Q; exact u8a_ok|exact Ex]).
    assert (X3 : n <> u8b).
    { intro Q. apply (not_both (phi n) (ii * y8, - y8) D); [|exact O| | | |exact Ex]; cbn [snd].
      - unfold P_Edwards.on, T8 in O8 |- *. cbn [fst snd] in O8 |- *. transitivity (y8 * y8 - ii * y8 * (ii * y8)); [ring|]. rewrite O8. ring.
      - intro Q'. apply N2. transitivity (- - y8); [ring|]. rewrite Q'. reflexivity.
      - intro Q'. apply N1. transitivity (- - y8); [ring|]. rewrite Q'. ring.
      - rewrite Q. transitivity (phi u8b * (1 + y8)); [ring|]. rewrite u8b_ok. ring. }
    unfold small_n. rewrite Em1. clear - D1 D2 Nz X1 X2 X3 Ne. generalize dependent (snd D). intros y D1 D2 Ne. split; intuition congruence.
Qed.
