(** The same ladder on the twist of curve25519: the u coordinates of the curve
    -x^2 + y^2 = 1 + x^2 y^2 / d, negated. Every u belongs to one curve or to the other. *)
From Verif Require Import M_Base M_Crypto M_Aes M_Curve S_Crypto P_Base P_Prime P_PrimeEll P_Curve P_Field P_Edwards R_Curve P_RealCurve P_RealEd P_Ladder.
From Coq Require Import ZArith Znumtheory Lia Field NsatzTactic ZifyBool ZifyNat ZifyN.
Local Open Scope fe_scope.

Lemma dd_nz : dd <> 0.
Proof. intro E. apply (dd_nonsquare 0). rewrite E. ring. Qed.
Definition dtw : fe := 1 / dd.
Lemma dtw_nonsquare : forall r, r * r <> dtw.
Proof.
  intros r E. assert (Nr : r <> 0) by (intro Z; subst r; apply fe_10; transitivity (dtw * dd); [unfold dtw; field; exact dd_nz|rewrite <- E; ring]).
  apply (dd_nonsquare (1 / r)). transitivity (1 / (r * r)); [field; exact Nr|]. rewrite E. unfold dtw. field. split; [exact dd_nz|exact fe_10].
Qed.
Lemma dtw_ok : dtw * phi 121665 = - phi 121666.
Proof.
  unfold dtw. transitivity (- ((- phi 121665) / dd)); [field; exact dd_nz|]. rewrite <- dd_ok. field. exact dd_nz.
Qed.
Lemma k121665_nz : phi 121665 <> 0.
Proof. intro E. apply (f_equal rep_of) in E. rewrite rep_0, rep_phi in E. discriminate E. Qed.
Section Twist.
Variable dt : fe.
Hypothesis dt_nonsquare : forall r, r * r <> dt.
Hypothesis dt_ok : dt * phi 121665 = - phi 121666.
Local Notation "p ++ q" := (eadd dt p q).
Local Notation on := (P_Edwards.on dt).
Local Notation emul := (P_Edwards.emul dt).
Local Notation add_assoc := (P_Edwards.add_assoc dt ii ii_ok dt_nonsquare).
Local Notation emul_on := (P_Edwards.emul_on dt ii ii_ok dt_nonsquare).
Local Notation emul_add := (P_Edwards.emul_add dt ii ii_ok dt_nonsquare).
Local Notation add_neg := (P_Edwards.add_neg dt ii ii_ok dt_nonsquare).

(** [X : Z] is the projective u coordinate of the point [p] of the twist: u = -(1+y)/(1-y). *)
Definition trep (s : N * N) (p : pt) : Prop :=
  (phi (fst s) <> 0 \/ phi (snd s) <> 0) /\ phi (fst s) * (1 - snd p) = - (phi (snd s) * (1 + snd p)).
Lemma trep_k : forall X Z y : fe, (X <> 0 \/ Z <> 0) -> X * (1 - y) = - (Z * (1 + y)) ->
  exists k, k <> 0 /\ X = - (k * (1 + y)) /\ Z = k * (1 - y).
Proof.
  intros X Z y Nz E. destruct (mrep_k (- X) Z y) as (k & Nk & EX & EZ).
  - destruct Nz as [Nz|Nz]; [left; intro Q; apply Nz; transitivity (- - X); [ring|rewrite Q; ring]|right; exact Nz].
  - transitivity (- (X * (1 - y))); [ring|rewrite E; ring].
  - exists k. split; [exact Nk|split; [rewrite <- EX; ring|exact EZ]].
Qed.
Lemma trep_double : forall X Z p, on p -> trep (X, Z) p -> trep (lad_double X Z) (p ++ p).
Proof.
  intros X Z p O [Nz E]. cbn [fst snd] in *. destruct (trep_k _ _ _ Nz E) as (k & Nk & EX & EZ).
  pose proof (fe_pow4_nz k Nk) as K4.
  assert (A : phi (fst (lad_double X Z)) = c16 * (k * k * (k * k)) * (snd p * snd p)).
  { unfold lad_double. cbv zeta. cbn [fst snd]. phis. rewrite EX, EZ. unfold c16. ring. }
  assert (B : phi (snd (lad_double X Z)) = c16 * (k * k * (k * k)) * (- ((1 - snd p * snd p) * (snd p * snd p - phi 121665 * (1 - snd p * snd p))))).
  { unfold lad_double. cbv zeta. cbn [fst snd]. phis. rewrite EX, EZ. unfold c16. ring. }
  unfold trep. rewrite A, B. split.
  - destruct (fe_eq_dec (snd p) 0) as [Y|Y].
    + right. apply fe_mul_nz; [exact K4|]. rewrite Y. assert (R : forall q : fe, - ((1 - 0 * 0) * (0 * 0 - q * (1 - 0 * 0))) = q) by (intro; ring). rewrite R. exact k121665_nz.
    + left. apply fe_mul_nz; [exact K4|]. apply fe_mul_nz; exact Y.
  - destruct p as [x y]. unfold P_Edwards.on in O. cbn [fst snd eadd] in *.
    pose proof (den_minus dt ii ii_ok dt_nonsquare (x, y) (x, y) O O) as D. cbn [fst snd] in D.
    pose proof dt_ok as Dk. rewrite k121666 in Dk. set (q := phi 121665) in *. clearbody q. set (w := c16 * (k * k * (k * k))). clearbody w.
    set (den := 1 - dt * x * x * y * y) in *. set (t := (y * y + x * x) / den).
    assert (T : t * den = y * y + x * x) by (unfold t; field; exact D). clearbody t.
    apply (fe_cancel _ _ den D).
    assert (Id : y * y * (den - (y * y + x * x)) = (1 - y * y) * (y * y - q * (1 - y * y)) * (den + (y * y + x * x))).
    { unfold den. clear - O Dk. revert O Dk. generalize dt. intros d O Dk. nsatz. }
    transitivity (w * (y * y * (den - t * den))); [ring|]. rewrite T, Id, <- T. ring.
Qed.

Lemma trep_add : forall x1 p q D S T, on p -> on q -> on D -> q = p ++ D -> snd D <> 1 -> snd D <> - (1) -> phi x1 * (1 - snd D) = - (1 + snd D) ->
  trep S p -> trep T q -> trep (lad_add x1 (fst S) (snd S) (fst T) (snd T)) (p ++ q).
Proof.
  intros x1 p q D S T Op Oq Od Eq D1 D2 Ex [Ns Es] [Nt Et].
  destruct (trep_k _ _ _ Ns Es) as (k & Nk & EX & EZ). destruct (trep_k _ _ _ Nt Et) as (k' & Nk' & EX' & EZ').
  set (w := c16 * ((k * k') * (k * k'))).
  assert (Nkk : k * k' <> 0) by (apply fe_mul_nz; [exact Nk|exact Nk']).
  assert (W : w <> 0) by (apply fe_mul_nz; [exact c16_nz|apply fe_mul_nz; exact Nkk]).
  set (r := lad_add x1 (fst S) (snd S) (fst T) (snd T)).
  assert (A : phi (fst r) = w * ((snd p + snd q) * (snd p + snd q))).
  { unfold r, lad_add. cbv zeta. cbn [fst snd]. phis. rewrite EX, EZ, EX', EZ'. unfold w, c16. ring. }
  assert (B : phi (snd r) = phi x1 * (w * ((snd p - snd q) * (snd p - snd q)))).
  { unfold r, lad_add. cbv zeta. cbn [fst snd]. phis. rewrite EX, EZ, EX', EZ'. unfold w, c16. ring. }
  clearbody r. clear Ns Es Nt Et EX EZ EX' EZ'.
  assert (Dq : D = eneg p ++ q).
  { rewrite Eq, <- add_assoc by (try exact Op; try exact Od; apply (on_neg dt ii ii_ok), Op). rewrite (add_comm dt (eneg p) p), add_neg by exact Op. symmetry. apply add_0. }
  destruct p as [xp yp], q as [xq yq], D as [xd yd]. unfold eadd, eneg in Dq. cbn [fst snd] in *. apply (f_equal snd) in Dq. cbn [snd] in Dq.
  pose proof (den_minus dt ii ii_ok dt_nonsquare (xp, yp) (xq, yq) Op Oq) as M. pose proof (den_plus dt ii ii_ok dt_nonsquare (xp, yp) (xq, yq) Op Oq) as Pl. cbn [fst snd] in M, Pl.
  unfold P_Edwards.on in Op, Oq, Od. cbn [fst snd] in Op, Oq, Od.
  replace (1 - dt * (- xp) * xq * yp * yq) with (1 + dt * xp * xq * yp * yq) in Dq by ring.
  assert (Yd : yd * (1 + dt * xp * xq * yp * yq) = yp * yq - xp * xq) by (rewrite Dq; field; exact Pl).
  assert (X1 : phi x1 <> 0).
  { intro Z. apply D2. rewrite Z in Ex. transitivity (- (- (1 + yd)) - 1); [ring|]. rewrite <- Ex. ring. }
  clear Eq. unfold trep. rewrite A, B. split.
  - destruct (fe_eq_dec (yp + yq) 0) as [Y1|Y1].
    + right. apply fe_mul_nz; [exact X1|]. apply fe_mul_nz; [exact W|]. apply fe_sq_nz. intro Y2.
      assert (Yp : yp = 0) by (apply (fe_cancel yp 0 (1 + 1) half_ok); transitivity ((yp + yq) + (yp - yq)); [ring|rewrite Y1, Y2; ring]).
      assert (Yq : yq = 0) by (transitivity ((yp + yq) - yp); [ring|rewrite Y1, Yp; ring]).
      subst yp yq. assert (Sq : yd * yd = 1) by (clear - Op Oq Yd; revert Op Oq Yd; generalize dt; intros d Op Oq Yd; nsatz).
      assert (S' : (yd - 1) * (yd + 1) = 0) by (transitivity (yd * yd - 1); [ring|rewrite Sq; ring]).
      apply fe_integral in S'. destruct S' as [S'|S']; [apply D1, fe_sub_0; exact S'|].
      apply D2. transitivity (yd + 1 - 1); [ring|rewrite S'; ring].
    + left. apply fe_mul_nz; [exact W|]. apply fe_sq_nz. exact Y1.
  - cbn [fst snd eadd]. set (den := 1 - dt * xp * xq * yp * yq) in *. set (t := (yp * yq + xp * xq) / den).
    assert (Tt : t * den = yp * yq + xp * xq) by (unfold t; field; exact M). clearbody t.
    assert (D1' : 1 - yd <> 0) by (intro Q; apply D1; symmetry; apply fe_sub_0; exact Q).
    apply (fe_cancel _ _ (1 - yd) D1').
    transitivity (w * ((yp + yq) * (yp + yq) * (1 - t) * (1 - yd))); [ring|].
    transitivity (w * ((yp - yq) * (yp - yq) * (1 + t) * - (phi x1 * (1 - yd)))); [|ring]. rewrite Ex. replace (- - (1 + yd)) with (1 + yd) by ring. apply (f_equal (femul w)).
    apply (fe_cancel _ _ den M). apply (fe_cancel _ _ _ Pl).
    transitivity ((yp + yq) * (yp + yq) * (den - t * den) * ((1 + dt * xp * xq * yp * yq) - yd * (1 + dt * xp * xq * yp * yq))); [ring|].
    transitivity ((yp - yq) * (yp - yq) * (den + t * den) * ((1 + dt * xp * xq * yp * yq) + yd * (1 + dt * xp * xq * yp * yq))); [|ring].
    rewrite Tt, Yd. unfold den. clear - Op Oq. revert Op Oq. generalize dt. intros d Op Oq. nsatz.
Qed.

(** *** The ladder *)
Section Run.
Variables (x1 : N) (D : pt).
Hypotheses (Od : on D) (D1 : snd D <> 1) (D2 : snd D <> - (1)) (Ex : phi x1 * (1 - snd D) = - (1 + snd D)).
Definition tlrep (s : (N * N) * (N * N)) (n : N) : Prop := trep (fst s) (emul n D) /\ trep (snd s) (emul (N.succ n) D).
Lemma tw_step_ok : forall b s n, tlrep s n -> tlrep (lad_step x1 b s) (if b then N.succ (2 * n) else (2 * n)%N).
Proof.
  intros b [[X2 Z2] [X3 Z3]] n [A B]. cbn [fst snd] in A, B. pose proof (fun m => emul_on m D Od) as On.
  assert (Eq : emul (N.succ n) D = emul n D ++ D) by (rewrite emul_succ; apply add_comm).
  pose proof (trep_add x1 _ _ D _ _ (On n) (On (N.succ n)) Od Eq D1 D2 Ex A B) as Sum. cbn [fst snd] in Sum.
  rewrite <- emul_add in Sum by exact Od.
  unfold tlrep, lad_step. destruct b; cbn [fst snd].
  - split.
    + replace (N.succ (2 * n)) with (n + N.succ n)%N by lia. exact Sum.
    + replace (N.succ (N.succ (2 * n))) with (N.succ n + N.succ n)%N by lia. rewrite emul_add by exact Od. apply trep_double; [apply On|exact B].
  - split.
    + replace (2 * n)%N with (n + n)%N by lia. rewrite emul_add by exact Od. apply trep_double; [apply On|exact A].
    + replace (N.succ (2 * n)) with (n + N.succ n)%N by lia. exact Sum.
Qed.
Lemma tw_ladder_ok : forall k, tlrep (ladder x1 k) (Npos k).
Proof.
  induction k as [k IH|k IH|].
  - change (ladder x1 k~1) with (lad_step x1 true (ladder x1 k)). replace (Npos k~1) with (N.succ (2 * Npos k)) by lia. exact (tw_step_ok true _ _ IH).
  - change (ladder x1 k~0) with (lad_step x1 false (ladder x1 k)). exact (tw_step_ok false _ _ IH).
  - change (ladder x1 1) with (lad_step x1 true ((1%N, 0%N), (x1, 1%N))). apply (tw_step_ok true _ 0%N). split; unfold trep; cbn [fst snd].
    + rewrite phi_1, phi_0. split; [left; exact fe_10|]. unfold P_Edwards.emul, ezero. cbn [N.iter snd]. ring.
    + rewrite phi_1. split; [right; exact fe_10|]. change (N.succ 0) with 1%N. rewrite emul_1. rewrite Ex. ring.
Qed.
End Run.

End Twist.
