(** The Montgomery ladder of R_Curve.v computes the u coordinate of the scalar multiple. *)
From Verif Require Import M_Base M_Crypto M_Aes M_Curve S_Crypto P_Base P_Prime P_PrimeEll P_Curve P_Field P_Edwards R_Curve P_RealCurve P_RealEd.
From Coq Require Import ZArith Znumtheory Lia Field NsatzTactic ZifyBool ZifyNat ZifyN.
Local Open Scope fe_scope.
Local Notation "p ++ q" := (eadd dd p q).

(** [X : Z] is the projective u coordinate of the point [p] : u = (1+y)/(1-y). *)
Definition mrep (s : N * N) (p : pt) : Prop :=
  (phi (fst s) <> 0 \/ phi (snd s) <> 0) /\ phi (fst s) * (1 - snd p) = phi (snd s) * (1 + snd p).
Lemma half_ok : 1 + 1 <> 0. Proof. exact fe_two. Qed.
Lemma mrep_k : forall X Z y : fe, (X <> 0 \/ Z <> 0) -> X * (1 - y) = Z * (1 + y) ->
  exists k, k <> 0 /\ X = k * (1 + y) /\ Z = k * (1 - y).
Proof.
  intros X Z y Nz E. exists ((X + Z) / (1 + 1)).
  assert (Q : y * (X + Z) = X - Z) by nsatz.
  assert (A : X = (X + Z) / (1 + 1) * (1 + y)).
  { transitivity ((X + Z + y * (X + Z)) / (1 + 1)); [rewrite Q; field; exact half_ok|field; exact half_ok]. }
  assert (B : Z = (X + Z) / (1 + 1) * (1 - y)).
  { transitivity ((X + Z - y * (X + Z)) / (1 + 1)); [rewrite Q; field; exact half_ok|field; exact half_ok]. }
  split; [|split; [exact A|exact B]]. intro Z0. destruct Nz as [Nz|Nz]; apply Nz; [rewrite A|rewrite B]; rewrite Z0; ring.
Qed.
Definition c16 : fe := (1 + 1) * (1 + 1) * ((1 + 1) * (1 + 1)).
Lemma c16_nz : c16 <> 0.
Proof. unfold c16. pose proof half_ok as H. assert (H4 : (1 + 1) * (1 + 1) <> 0) by (apply fe_mul_nz; exact H). apply fe_mul_nz; exact H4. Qed.
Lemma k121666 : phi 121666 = 1 + phi 121665.
Proof. rewrite <- phi_1, <- phi_add. reflexivity. Qed.
Lemma k121666_nz : phi 121666 <> 0.
Proof. intro E. apply (f_equal rep_of) in E. rewrite rep_0, rep_phi in E. discriminate E. Qed.
Lemma fe_pow4_nz : forall k : fe, k <> 0 -> c16 * (k * k * (k * k)) <> 0.
Proof. intros k Nz. assert (Kk : k * k <> 0) by (apply fe_mul_nz; exact Nz). apply fe_mul_nz; [exact c16_nz|apply fe_mul_nz; exact Kk]. Qed.

Ltac phis := repeat first [rewrite phi_mul | rewrite phi_add | rewrite phi_sub].

Lemma fe_sq_nz : forall a : fe, a <> 0 -> a * a <> 0.
Proof. intros a H. apply fe_mul_nz; exact H. Qed.
Lemma mrep_double : forall X Z p, on p -> mrep (X, Z) p -> mrep (lad_double X Z) (p ++ p).
Proof.
  intros X Z p O [Nz E]. cbn [fst snd] in *. destruct (mrep_k _ _ _ Nz E) as (k & Nk & EX & EZ).
  pose proof (fe_pow4_nz k Nk) as K4.
  assert (A : phi (fst (lad_double X Z)) = c16 * (k * k * (k * k)) * (snd p * snd p)).
  { unfold lad_double. cbv zeta. cbn [fst snd]. phis. rewrite EX, EZ. unfold c16. ring. }
  assert (B : phi (snd (lad_double X Z)) = c16 * (k * k * (k * k)) * ((1 - snd p * snd p) * (1 + phi 121665 * (1 - snd p * snd p)))).
  { unfold lad_double. cbv zeta. cbn [fst snd]. phis. rewrite EX, EZ. unfold c16. ring. }
  unfold mrep. rewrite A, B. split.
  - destruct (fe_eq_dec (snd p) 0) as [Y|Y].
    + right. apply fe_mul_nz; [exact K4|]. rewrite Y. replace ((1 - 0 * 0) * (1 + phi 121665 * (1 - 0 * 0))) with (phi 121666) by (rewrite k121666; ring). exact k121666_nz.
    + left. apply fe_mul_nz; [exact K4|]. apply fe_mul_nz; exact Y.
  - destruct p as [x y]. unfold P_Edwards.on in O. cbn [fst snd eadd] in *.
    pose proof (den_minus dd ii ii_ok dd_nonsquare (x, y) (x, y) O O) as D. cbn [fst snd] in D.
    pose proof dd_ok as Dk. rewrite k121666 in Dk. set (q := phi 121665) in *. clearbody q. set (w := c16 * (k * k * (k * k))). clearbody w.
    set (den := 1 - dd * x * x * y * y) in *. set (t := (y * y + x * x) / den).
    assert (T : t * den = y * y + x * x) by (unfold t; field; exact D). clearbody t.
    apply (fe_cancel _ _ den D).
    assert (Id : y * y * (den - (y * y + x * x)) = (1 - y * y) * (1 + q * (1 - y * y)) * (den + (y * y + x * x))).
    { unfold den. clear - O Dk. nsatz. }
    transitivity (w * (y * y * (den - t * den))); [ring|]. rewrite T, Id, <- T. ring.
Qed.

Lemma mrep_add : forall x1 p q D S T, on p -> on q -> on D -> q = p ++ D -> snd D <> 1 -> snd D <> - (1) -> phi x1 * (1 - snd D) = 1 + snd D ->
  mrep S p -> mrep T q -> mrep (lad_add x1 (fst S) (snd S) (fst T) (snd T)) (p ++ q).
Proof.
  intros x1 p q D S T Op Oq Od Eq D1 D2 Ex [Ns Es] [Nt Et].
  destruct (mrep_k _ _ _ Ns Es) as (k & Nk & EX & EZ). destruct (mrep_k _ _ _ Nt Et) as (k' & Nk' & EX' & EZ').
  set (w := c16 * ((k * k') * (k * k'))).
  assert (Nkk : k * k' <> 0) by (apply fe_mul_nz; [exact Nk|exact Nk']).
  assert (W : w <> 0) by (apply fe_mul_nz; [exact c16_nz|apply fe_mul_nz; exact Nkk]).
  set (r := lad_add x1 (fst S) (snd S) (fst T) (snd T)).
  assert (A : phi (fst r) = w * ((snd p + snd q) * (snd p + snd q))).
  { unfold r, lad_add. cbv zeta. cbn [fst snd]. phis. rewrite EX, EZ, EX', EZ'. unfold w, c16. ring. }
  assert (B : phi (snd r) = phi x1 * (w * ((snd p - snd q) * (snd p - snd q)))).
  { unfold r, lad_add. cbv zeta. cbn [fst snd]. phis. rewrite EX, EZ, EX', EZ'. unfold w, c16. ring. }
  clearbody r. clear Ns Es Nt Et EX EZ EX' EZ'.
  assert (Dq : D = eneg p ++ q).
  { rewrite Eq, <- add_assoc by (try exact Op; try exact Od; apply (on_neg dd ii ii_ok), Op). rewrite (add_comm dd (eneg p) p), add_neg by exact Op. symmetry. apply add_0. }
  destruct p as [xp yp], q as [xq yq], D as [xd yd]. unfold eadd, eneg in Dq. cbn [fst snd] in *. apply (f_equal snd) in Dq. cbn [snd] in Dq.
  pose proof (den_minus dd ii ii_ok dd_nonsquare (xp, yp) (xq, yq) Op Oq) as M. pose proof (den_plus dd ii ii_ok dd_nonsquare (xp, yp) (xq, yq) Op Oq) as Pl. cbn [fst snd] in M, Pl.
  unfold P_Edwards.on in Op, Oq, Od. cbn [fst snd] in Op, Oq, Od.
  replace (1 - dd * (- xp) * xq * yp * yq) with (1 + dd * xp * xq * yp * yq) in Dq by ring.
  assert (Yd : yd * (1 + dd * xp * xq * yp * yq) = yp * yq - xp * xq) by (rewrite Dq; field; exact Pl).
  assert (X1 : phi x1 <> 0).
  { intro Z. apply D2. rewrite Z in Ex. transitivity (1 + yd - 1); [ring|]. rewrite <- Ex. ring. }
  clear Eq. unfold mrep. rewrite A, B. split.
  - destruct (fe_eq_dec (yp + yq) 0) as [Y1|Y1].
    + right. apply fe_mul_nz; [exact X1|]. apply fe_mul_nz; [exact W|]. apply fe_sq_nz. intro Y2.
      assert (Yp : yp = 0) by (apply (fe_cancel yp 0 (1 + 1) half_ok); transitivity ((yp + yq) + (yp - yq)); [ring|rewrite Y1, Y2; ring]).
      assert (Yq : yq = 0) by (transitivity ((yp + yq) - yp); [ring|rewrite Y1, Yp; ring]).
      subst yp yq. assert (Sq : yd * yd = 1) by (clear - Op Oq Yd; nsatz).
      assert (S' : (yd - 1) * (yd + 1) = 0) by (transitivity (yd * yd - 1); [ring|rewrite Sq; ring]).
      apply fe_integral in S'. destruct S' as [S'|S']; [apply D1, fe_sub_0; exact S'|].
      apply D2. transitivity (yd + 1 - 1); [ring|rewrite S'; ring].
    + left. apply fe_mul_nz; [exact W|]. apply fe_sq_nz. exact Y1.
  - cbn [fst snd eadd]. set (den := 1 - dd * xp * xq * yp * yq) in *. set (t := (yp * yq + xp * xq) / den).
    assert (Tt : t * den = yp * yq + xp * xq) by (unfold t; field; exact M). clearbody t.
    assert (D1' : 1 - yd <> 0) by (intro Q; apply D1; symmetry; apply fe_sub_0; exact Q).
    apply (fe_cancel _ _ (1 - yd) D1').
    transitivity (w * ((yp + yq) * (yp + yq) * (1 - t) * (1 - yd))); [ring|].
    transitivity (w * ((yp - yq) * (yp - yq) * (1 + t) * (phi x1 * (1 - yd)))); [|ring]. rewrite Ex. apply (f_equal (femul w)).
    apply (fe_cancel _ _ den M). apply (fe_cancel _ _ _ Pl).
    transitivity ((yp + yq) * (yp + yq) * (den - t * den) * ((1 + dd * xp * xq * yp * yq) - yd * (1 + dd * xp * xq * yp * yq))); [ring|].
    transitivity ((yp - yq) * (yp - yq) * (den + t * den) * ((1 + dd * xp * xq * yp * yq) + yd * (1 + dd * xp * xq * yp * yq))); [|ring].
    rewrite Tt, Yd. unfold den. clear - Op Oq. nsatz.
Qed.

(** *** The ladder *)
Section Run.
Variables (x1 : N) (D : pt).
Hypotheses (Od : on D) (D1 : snd D <> 1) (D2 : snd D <> - (1)) (Ex : phi x1 * (1 - snd D) = 1 + snd D).
Definition lrep (s : (N * N) * (N * N)) (n : N) : Prop := mrep (fst s) (emul n D) /\ mrep (snd s) (emul (N.succ n) D).
Lemma lad_step_ok : forall b s n, lrep s n -> lrep (lad_step x1 b s) (if b then N.succ (2 * n) else (2 * n)%N).
Proof.
  intros b [[X2 Z2] [X3 Z3]] n [A B]. cbn [fst snd] in A, B. pose proof (fun m => emul_on m D Od) as On.
  assert (Eq : emul (N.succ n) D = emul n D ++ D) by (rewrite emul_succ; apply add_comm).
  pose proof (mrep_add x1 _ _ D _ _ (On n) (On (N.succ n)) Od Eq D1 D2 Ex A B) as Sum. cbn [fst snd] in Sum.
  rewrite <- emul_add in Sum by exact Od.
  unfold lrep, lad_step. destruct b; cbn [fst snd].
  - split.
    + replace (N.succ (2 * n)) with (n + N.succ n)%N by lia. exact Sum.
    + replace (N.succ (N.succ (2 * n))) with (N.succ n + N.succ n)%N by lia. rewrite emul_add by exact Od. apply mrep_double; [apply On|exact B].
  - split.
    + replace (2 * n)%N with (n + n)%N by lia. rewrite emul_add by exact Od. apply mrep_double; [apply On|exact A].
    + replace (N.succ (2 * n)) with (n + N.succ n)%N by lia. exact Sum.
Qed.
Lemma ladder_ok : forall k, lrep (ladder x1 k) (Npos k).
Proof.
  induction k as [k IH|k IH|].
  - change (ladder x1 k~1) with (lad_step x1 true (ladder x1 k)). replace (Npos k~1) with (N.succ (2 * Npos k)) by lia. exact (lad_step_ok true _ _ IH).
  - change (ladder x1 k~0) with (lad_step x1 false (ladder x1 k)). exact (lad_step_ok false _ _ IH).
  - change (ladder x1 1) with (lad_step x1 true ((1%N, 0%N), (x1, 1%N))). apply (lad_step_ok true _ 0%N). split; unfold mrep; cbn [fst snd].
    + rewrite phi_1, phi_0. split; [left; exact fe_10|]. unfold P_Edwards.emul, ezero. cbn [N.iter snd]. ring.
    + rewrite phi_1. split; [right; exact fe_10|]. change (N.succ 0) with 1%N. rewrite emul_1. rewrite Ex. ring.
Qed.
End Run.

(** *** X25519 on public keys *)
Definition ucoord (p : pt) : N := rep_of ((1 + snd p) / (1 - snd p)).
Lemma one_sub_nz : forall p : pt, snd p <> 1 -> 1 - snd p <> 0.
Proof. intros p H Q. apply H. symmetry. apply fe_sub_0. exact Q. Qed.
Lemma mrep_u : forall s p, snd p <> 1 -> mrep s p -> rmul (fst s) (rinv (snd s)) = ucoord p.
Proof.
  intros [X Z] p H [Nz E]. cbn [fst snd] in *. destruct (mrep_k _ _ _ Nz E) as (k & Nk & EX & EZ). apply rep_eq; [apply rmul_lt|].
  rewrite phi_mul, phi_inv, EX, EZ. pose proof (one_sub_nz p H) as Q. field. split; [exact Q|exact Nk].
Qed.
Lemma fe_bytes_back : forall n, fe_of_bytes (fe_bytes n) = (n mod p25519)%N.
Proof.
  intro n. unfold fe_of_bytes, fe_bytes. assert (L : (n mod p25519 < p25519)%N) by (apply N.mod_lt; discriminate). pose proof p_lt_two255 as L2.
  rewrite le2n_n2le.
  - rewrite (N.mod_small (n mod p25519) two255) by (eapply N.lt_trans; [exact L|exact L2]). apply N.mod_small, L.
  - eapply N.lt_trans; [exact L|reflexivity].
Qed.
Lemma mont_enc : forall p, snd p <> 1 -> ed_to_mont (enc p) = fe_bytes (ucoord p).
Proof.
  intros p H. unfold ed_to_mont. rewrite enc_fe. cbv zeta. apply (f_equal fe_bytes). rewrite <- radd_ok, <- rsub_ok, <- rinv_ok, <- rmul_ok.
  apply rep_eq; [apply rmul_lt|]. phis. rewrite phi_inv, phi_sub, phi_1, phi_rep. field. apply one_sub_nz, H.
Qed.
Lemma mult_y_m1 : forall s, (0 < s < ell)%N -> snd (emul s base) <> - (1).
Proof.
  intros s Ls E. pose proof (emul_on s base base_on) as O. pose proof (y_sq_one _ O) as X.
  assert (Q : emul (s + s) base = ezero).
  { rewrite emul_add by apply base_on. destruct (emul s base) as [x y]. cbn [fst snd] in *. subst y. rewrite X by ring. unfold eadd, ezero. cbn [fst snd].
    apply f_equal2; apply fe_div_eq; try ring; intro Q; apply fe_10; rewrite <- Q; ring. }
  pose proof (P_Edwards.emul_order dd ii ii_ok dd_nonsquare _ ell base base_on prime_ell base_order base_nz Q) as M.
  assert (Od : (ell mod 2 = 1)%N) by reflexivity. revert Ls M Od. generalize ell. clear. intros l Ls M Od.
  assert (C : (s + s < l \/ l <= s + s)%N) by lia. destruct C as [C|C].
  - rewrite N.mod_small in M by exact C. lia.
  - assert (Z : ((s + s) = 1 * l + (s + s) mod l)%N).
    { replace ((s + s) mod l)%N with (s + s - l)%N; [lia|]. symmetry. replace (s + s)%N with ((s + s - l) + 1 * l)%N at 1 by lia. rewrite N.mod_add by lia. apply N.mod_small. lia. }
    rewrite M in Z. assert (Zl : l = (s + s)%N) by lia. rewrite Zl in Od. replace (s + s)%N with (0 + s * 2)%N in Od by lia. rewrite N.mod_add in Od by lia. discriminate Od.
Qed.

Lemma x25519_ok : forall k D, on D -> snd D <> 1 -> snd D <> - (1) -> (le2n (clamp k) <> 0)%N -> snd (emul (le2n (clamp k)) D) <> 1 ->
  real_x25519 k (fe_bytes (ucoord D)) = fe_bytes (ucoord (emul (le2n (clamp k)) D)).
Proof.
  intros k D Od D1 D2 Nz Y. unfold real_x25519. destruct (le2n (clamp k)) as [|s]; [destruct (Nz eq_refl)|].
  rewrite fe_bytes_back. rewrite N.mod_small by apply rep_lt.
  assert (Ex : phi (ucoord D) * (1 - snd D) = 1 + snd D).
  { unfold ucoord. rewrite phi_rep. field. apply one_sub_nz, D1. }
  destruct (ladder_ok (ucoord D) D Od D1 D2 Ex s) as [A _]. destruct (ladder (ucoord D) s) as [[x z] u]. cbn [fst] in A.
  apply (f_equal fe_bytes). exact (mrep_u _ _ Y A).
Qed.
Definition dh_scalar (a b : bytes) : N := ((scalar_of a * scalar_of b) mod ell)%N.
Lemma dh_scalar_range : forall a b, List.length a = 32%nat -> List.length b = 32%nat -> (0 < dh_scalar a b < ell)%N.
Proof.
  intros a b La Lb. pose proof (scalar_range a La) as Ra. pose proof (scalar_range b Lb) as Rb. unfold dh_scalar.
  pose proof (N.mod_lt (scalar_of a * scalar_of b) ell ltac:(discriminate)) as Lt. split; [|exact Lt].
  assert (Nz : ((scalar_of a * scalar_of b) mod ell <> 0)%N); [|apply N.neq_0_lt_0; exact Nz]. intro Z. apply N.mod_divide in Z; [|discriminate].
  destruct Z as [q Z]. assert (Dv : (Z.of_N ell | Z.of_N (scalar_of a) * Z.of_N (scalar_of b))%Z) by (exists (Z.of_N q); rewrite <- !N2Z.inj_mul, Z; reflexivity).
  apply prime_mult in Dv; [|exact prime_ell]. destruct Dv as [Dv|Dv]; apply Z.divide_pos_le in Dv; revert Ra Rb Dv; generalize ell; intros; lia.
Qed.
Lemma real_mont : forall k, List.length k = 32%nat -> ed_to_mont (real_edbase (scalar_of k)) = fe_bytes (ucoord (emul (scalar_of k) base)).
Proof. intros k L. rewrite edbase_enc. apply mont_enc, mult_y1, scalar_range, L. Qed.
Lemma real_agree : forall a b, List.length a = 32%nat -> List.length b = 32%nat ->
  real_x25519 a (ed_to_mont (real_edbase (scalar_of b))) = fe_bytes (ucoord (emul (dh_scalar a b) base)).
Proof.
  intros a b La Lb. pose proof (scalar_range a La) as Ra. pose proof (scalar_range b Lb) as Rb. pose proof (dh_scalar_range a b La Lb) as Rd.
  rewrite (real_mont b Lb).
  assert (Em : emul (le2n (clamp a)) (emul (scalar_of b) base) = emul (dh_scalar a b) base).
  { rewrite <- emul_mul by apply base_on. rewrite (emul_mod _ ell base base_on base_order). unfold dh_scalar, scalar_of at 2. rewrite N.mul_mod_idemp_l by discriminate. reflexivity. }
  rewrite x25519_ok.
  - rewrite Em. reflexivity.
  - apply emul_on, base_on.
  - apply mult_y1, Rb.
  - apply mult_y_m1, Rb.
  - intro Z. unfold scalar_of in Ra. rewrite Z in Ra. destruct Ra as [Ra _]. discriminate Ra.
  - rewrite Em. apply mult_y1, Rd.
Qed.
Lemma real_dh : forall a b, List.length a = 32%nat -> List.length b = 32%nat ->
  real_x25519 a (ed_to_mont (real_edbase (scalar_of b))) = real_x25519 b (ed_to_mont (real_edbase (scalar_of a))).
Proof.
  intros a b La Lb. rewrite !real_agree by assumption. unfold dh_scalar. rewrite (N.mul_comm (scalar_of a)). reflexivity.
Qed.
Lemma all_zero_le2n : forall b, all_zero b = true -> le2n b = 0%N.
Proof. induction b as [|x b IH]; cbn [all_zero forallb le2n]; intro H; [reflexivity|]. apply andb_prop in H. destruct H as [H1 H2].
  apply Byte.byte_dec_bl in H1. subst x. rewrite (IH H2). reflexivity. Qed.
Lemma real_dh_nz : forall a b, List.length a = 32%nat -> List.length b = 32%nat ->
  all_zero (real_x25519 a (ed_to_mont (real_edbase (scalar_of b)))) = false.
Proof.
  intros a b La Lb. rewrite real_agree by assumption. pose proof (dh_scalar_range a b La Lb) as Rd. set (p := emul (dh_scalar a b) base).
  destruct (all_zero _) eqn:Z; [exfalso|reflexivity]. apply all_zero_le2n in Z. apply (f_equal (fun x => ((x mod two255) mod p25519)%N)) in Z.
  change (fe_of_bytes (fe_bytes (ucoord p)) = 0%N) in Z. rewrite fe_bytes_back, N.mod_small in Z by apply rep_lt.
  apply (mult_y_m1 _ Rd). fold p. pose proof (one_sub_nz p (mult_y1 _ Rd)) as Q.
  assert (E : (1 + snd p) / (1 - snd p) = 0) by (apply rep_inj; rewrite rep_0; exact Z).
  apply fe_div_eq in E; [|exact Q]. transitivity (1 + snd p - 1); [ring|]. rewrite E. ring.
Qed.
Lemma real_x_len : forall k u, List.length (real_x25519 k u) = 32%nat.
Proof.
  intros k u. unfold real_x25519. destruct (le2n (clamp k)) as [|s]; [reflexivity|]. destruct (ladder _ s) as [[x z] w]. apply n2le_length.
Qed.
Lemma real_x_clamp : forall k u, List.length k = 32%nat -> real_x25519 (clamp k) u = real_x25519 k u.
Proof. intros k u L. unfold real_x25519. rewrite (clamp_idem k L). reflexivity. Qed.
