(** Edwards encodings, signatures and the Montgomery ladder of R_Curve.v. *)
From Verif Require Import M_Base M_Crypto M_Aes M_Curve S_Crypto P_Base P_Prime P_PrimeEll P_Curve P_Field P_Edwards R_Curve P_RealCurve.
From Coq Require Import ZArith Znumtheory Lia Field NsatzTactic ZifyBool ZifyNat ZifyN.
Local Open Scope fe_scope.
Local Notation "p ++ q" := (eadd dd p q).

Notation add_assoc := (add_assoc dd ii ii_ok dd_nonsquare).
Notation on_add := (on_add dd ii ii_ok dd_nonsquare).
Notation emul_on := (emul_on dd ii ii_ok dd_nonsquare).
Notation emul_add := (emul_add dd ii ii_ok dd_nonsquare).
Notation emul_mul := (emul_mul dd ii ii_ok dd_nonsquare).
Notation add_neg := (add_neg dd ii ii_ok dd_nonsquare).
Notation emul_mod := (emul_mod dd ii ii_ok dd_nonsquare).

Lemma fe_opp_0 : forall a : fe, - a = 0 -> a = 0.
Proof. intros a E. transitivity (- - a); [ring|rewrite E; ring]. Qed.
Lemma fe_sq_cases : forall a b : fe, a * a = b * b -> a = b \/ a = - b.
Proof.
  intros a b E. assert (X : (a - b) * (a + b) = 0) by (transitivity (a * a - b * b); [ring|rewrite E; ring]). apply fe_integral in X.
  destruct X as [X|X]; [left; apply fe_sub_0; exact X|right]. transitivity ((a + b) - b); [ring|rewrite X; ring].
Qed.
Lemma fe_sq_0 : forall a : fe, a * a = 0 -> a = 0.
Proof. intros a E. apply fe_integral in E. destruct E as [E|E]; exact E. Qed.
Lemma fe_one_m1 : - (1) <> 1.
Proof. intro E. apply fe_two. rewrite <- E at 1. ring. Qed.

(** *** Points with y = 1 or -1 *)
Lemma dd_m1 : dd <> - (1).
Proof. intro E. apply (dd_nonsquare ii). rewrite ii_ok, E. reflexivity. Qed.
Lemma den_y : forall y, 1 + dd * y * y <> 0.
Proof.
  intros y E. destruct (fe_eq_dec y 0) as [->|Nz]; [apply fe_10; rewrite <- E; ring|].
  apply (dd_nonsquare (ii / y)). transitivity ((ii * ii) / (y * y)); [field; exact Nz|]. rewrite ii_ok.
  transitivity ((dd * y * y) / (y * y)); [|field; exact Nz]. apply (f_equal (fun x => x / (y * y))). nsatz.
Qed.
Lemma x_of_y : forall p, on p -> fst p * fst p = (snd p * snd p - 1) / (1 + dd * snd p * snd p).
Proof.
  intros [x y] O. unfold P_Edwards.on in O. cbn [fst snd] in *. symmetry. apply fe_div_eq; [apply den_y|]. nsatz.
Qed.
Lemma y_sq_one : forall p, on p -> snd p * snd p = 1 -> fst p = 0.
Proof.
  intros p O E. apply fe_sq_0. rewrite (x_of_y p O), E. apply fe_div_eq; [apply den_y|ring].
Qed.

(** *** Numbers of field elements *)
Lemma p_odd : (p25519 mod 2 = 1)%N. Proof. reflexivity. Qed.
Lemma p_lt_two255 : (p25519 < two255)%N. Proof. reflexivity. Qed.
Lemma rep_0 : rep_of 0 = 0%N.
Proof. rewrite <- phi_0, rep_phi. reflexivity. Qed.
Lemma rep_1 : rep_of 1 = 1%N.
Proof. rewrite <- phi_1, rep_phi. reflexivity. Qed.
Lemma rep_inj : forall a b, rep_of a = rep_of b -> a = b.
Proof. intros a b E. rewrite <- (phi_rep a), E. apply phi_rep. Qed.
Lemma rep_phi_lt : forall n, (n < p25519)%N -> rep_of (phi n) = n.
Proof. intros n L. rewrite rep_phi. apply N.mod_small, L. Qed.
Lemma rep_eq : forall n a, (n < p25519)%N -> phi n = a -> n = rep_of a.
Proof. intros n a L E. rewrite <- E. symmetry. apply rep_phi_lt, L. Qed.
Lemma rep_opp : forall a, a <> 0 -> rep_of (- a) = (p25519 - rep_of a)%N.
Proof.
  intros a Nz. pose proof (rep_lt a) as L. assert (Z : rep_of a <> 0%N) by (intro Z; apply Nz, rep_inj; rewrite Z; symmetry; apply rep_0).
  symmetry. apply rep_eq.
  - clear - L Z. generalize dependent (rep_of a). generalize p25519. intros; lia.
  - assert (X : phi (p25519 - rep_of a) + a = 0); [|transitivity (phi (p25519 - rep_of a) + a - a); [ring|rewrite X; ring]].
    rewrite <- (phi_rep a) at 2. rewrite <- phi_add. assert (Q : radd (p25519 - rep_of a) (rep_of a) = 0%N); [|rewrite Q; apply phi_0].
    rewrite radd_ok. unfold fadd. replace (p25519 - rep_of a + rep_of a)%N with p25519 by (clear - L; generalize dependent (rep_of a); generalize p25519; intros; lia). reflexivity.
Qed.
Lemma parity_opp : forall a, a <> 0 -> (rep_of (- a) mod 2 = 1 - rep_of a mod 2)%N.
Proof.
  intros a Nz. rewrite (rep_opp a Nz). pose proof (rep_lt a) as L. pose proof p_odd as O. revert L O. generalize (rep_of a), p25519. intros x p L O.
  pose proof (N.div_mod p 2 ltac:(lia)). pose proof (N.div_mod x 2 ltac:(lia)). pose proof (N.mod_lt x 2 ltac:(lia)).
  assert (C : (x mod 2 = 0 \/ x mod 2 = 1)%N) by lia. destruct C as [C|C]; rewrite C in *.
  - replace (p - x)%N with (1 + (p / 2 - x / 2) * 2)%N by lia. rewrite N.mod_add by lia. reflexivity.
  - replace (p - x)%N with (0 + (p / 2 - x / 2) * 2)%N by lia. rewrite N.mod_add by lia. reflexivity.
Qed.

(** *** Encoding *)
Definition enc (p : pt) : bytes := n2le 32 (rep_of (snd p) + (rep_of (fst p) mod 2) * two255).
Lemma repr_z : forall e p, repr e p -> phi (rmul (eY e) (rinv (eZ e))) = snd p /\ phi (rmul (eX e) (rinv (eZ e))) = fst p.
Proof.
  intros e p (Z & X & Y & _). rewrite !phi_mul, !phi_inv, X, Y. split; field; exact Z.
Qed.
Lemma enc_ok : forall e p, repr e p -> ext_bytes e = enc p.
Proof.
  intros e p R. destruct (repr_z e p R) as [Y X]. unfold ext_bytes, enc. cbv zeta. rewrite (rep_eq _ _ (rmul_lt _ _) Y), (rep_eq _ _ (rmul_lt _ _) X). reflexivity.
Qed.
Lemma enc_len : forall p, List.length (enc p) = 32%nat.
Proof. intro p. apply n2le_length. Qed.
Lemma enc_num : forall p, le2n (enc p) = (rep_of (snd p) + (rep_of (fst p) mod 2) * two255)%N.
Proof.
  intro p. unfold enc. apply le2n_n2le. pose proof (rep_lt (snd p)) as L. pose proof p_lt_two255 as L2.
  pose proof (N.mod_lt (rep_of (fst p)) 2 ltac:(discriminate)) as L3. replace (256 ^ N.of_nat 32)%N with (2 * two255)%N by reflexivity.
  revert L L2 L3. generalize (rep_of (snd p)), (rep_of (fst p) mod 2)%N, p25519, two255. intros; nia.
Qed.
Lemma enc_low : forall p, (le2n (enc p) mod two255 = rep_of (snd p))%N.
Proof.
  intro p. rewrite enc_num, N.mod_add by discriminate. apply N.mod_small. eapply N.lt_trans; [apply rep_lt|apply p_lt_two255].
Qed.
Lemma enc_high : forall p, ((le2n (enc p) / two255) mod 2 = rep_of (fst p) mod 2)%N.
Proof.
  intro p. rewrite enc_num, N.div_add by discriminate. rewrite N.div_small by (eapply N.lt_trans; [apply rep_lt|apply p_lt_two255]).
  rewrite N.add_0_l. apply N.mod_mod. discriminate.
Qed.
Lemma enc_fe : forall p, fe_of_bytes (enc p) = rep_of (snd p).
Proof. intro p. unfold fe_of_bytes. rewrite enc_low. apply N.mod_small, rep_lt. Qed.

(** *** Decoding *)
Lemma half_p : ((p25519 + 3) / 8 * 4 = (p25519 - 1) / 2 + 2)%N. Proof. reflexivity. Qed.
Lemma half_p2 : ((p25519 - 1) / 2 * 2 = p25519 - 1)%N. Proof. reflexivity. Qed.
Lemma rpow_lt : forall a e, (rpow a e < p25519)%N.
Proof. intros a [e|e|]; apply rmul_lt. Qed.
Lemma root_ok : forall x w, (w < p25519)%N -> phi w = x * x -> exists r, ed_root w = Some r /\ (r < p25519)%N /\ phi r * phi r = x * x.
Proof.
  intros x w Lw W. unfold ed_root. destruct ((p25519 + 3) / 8)%N as [|e] eqn:Ee; [discriminate Ee|].
  cbv zeta. set (r := rpow w e).
  assert (R4 : phi r * phi r = x * x \/ phi r * phi r = - (x * x)).
  { unfold r. rewrite phi_pow, W, <- Ee. apply fe_sq_cases. generalize (fepow_2 x). intro X2. rewrite <- X2. clear X2.
    rewrite <- !fepow_mul, <- !fepow_add.
    replace (2 * ((p25519 + 3) / 8) + 2 * ((p25519 + 3) / 8) + (2 * ((p25519 + 3) / 8) + 2 * ((p25519 + 3) / 8)))%N with ((p25519 - 1) + (2 + 2))%N by reflexivity.
    rewrite (fepow_add x (p25519 - 1)).
    destruct (fe_eq_dec x 0) as [->|Nz].
    - rewrite (fepow_add 0 2 2), (fepow_2 0). ring.
    - rewrite (fepow_fermat x Nz). ring. }
  destruct (rmul r r =? w)%N eqn:E1.
  - apply N.eqb_eq in E1. exists r. split; [reflexivity|]. split; [apply rpow_lt|]. rewrite <- phi_mul, E1. exact W.
  - destruct R4 as [R4|R4].
    { exfalso. apply N.eqb_neq in E1. apply E1, phi_inj; [apply rmul_lt|exact Lw|]. rewrite phi_mul, R4. symmetry. exact W. }
    assert (E2 : (rmul r r =? rsub 0 w)%N = true).
    { apply N.eqb_eq. apply phi_inj; [apply rmul_lt|apply rsub_lt|]. rewrite phi_mul, phi_sub, R4, W, phi_0. ring. }
    rewrite E2. exists (rmul r sqrt_m1). split; [reflexivity|]. split; [apply rmul_lt|]. rewrite phi_mul.
    change (phi sqrt_m1) with ii. transitivity ((phi r * phi r) * (ii * ii)); [ring|]. rewrite R4, ii_ok. ring.
Qed.
Lemma dec_ok : forall p, on p -> exists e, ext_of_bytes (enc p) = Some e /\ repr e p.
Proof.
  intros p O. unfold ext_of_bytes. rewrite enc_fe, enc_high. cbv zeta. set (y := rep_of (snd p)).
  assert (W : phi (rmul (rsub (rmul y y) 1) (rinv (radd (rmul ed_d (rmul y y)) 1))) = fst p * fst p).
  { rewrite phi_mul, phi_inv, phi_sub, phi_add, !phi_mul, phi_1. unfold y. rewrite phi_rep. change (phi ed_d) with dd. rewrite (x_of_y p O).
    pose proof (den_y (snd p)) as D. replace (dd * (snd p * snd p) + 1) with (1 + dd * snd p * snd p) by ring. reflexivity. }
  destruct (root_ok (fst p) _ (rmul_lt _ _) W) as (r & -> & Lr & Rr). apply fe_sq_cases in Rr.
  set (x := if ((r mod 2 =? rep_of (fst p) mod 2)%N) then r else rsub 0 r).
  assert (X : phi x = fst p).
  { unfold x. clear x. destruct (fe_eq_dec (fst p) 0) as [Z|Nz].
    - rewrite Z in *. assert (R0 : phi r = 0) by (destruct Rr as [Rr|Rr]; rewrite Rr; [reflexivity|ring]).
      destruct (_ =? _)%N; [exact R0|]. rewrite phi_sub, R0, phi_0. ring.
    - destruct Rr as [Rr|Rr].
      + rewrite (rep_eq r _ Lr Rr). rewrite N.eqb_refl. apply phi_rep.
      + rewrite (rep_eq r _ Lr Rr), (parity_opp _ Nz). pose proof (N.mod_lt (rep_of (fst p)) 2 ltac:(discriminate)) as Lm.
        assert (C : (rep_of (fst p) mod 2 = 0 \/ rep_of (fst p) mod 2 = 1)%N) by (revert Lm; generalize (rep_of (fst p) mod 2)%N; intros; lia).
        assert (Q : (1 - rep_of (fst p) mod 2 =? rep_of (fst p) mod 2)%N = false) by (destruct C as [C|C]; rewrite C; reflexivity).
        rewrite Q, phi_sub, phi_rep, phi_0. ring. }
  eexists. split; [reflexivity|]. unfold repr. cbn [eX eY eZ eT]. rewrite phi_1, phi_mul, X. unfold y. rewrite phi_rep.
  split; [exact fe_10|split; [ring|split; ring]].
Qed.

(** *** Signatures *)
Lemma neg_add : forall p q, on p -> on q -> eneg (p ++ q) = eneg p ++ eneg q.
Proof.
  intros [x1 y1] [x2 y2] _ _. unfold eneg, eadd. cbn [fst snd]. apply f_equal2.
  - replace (1 + dd * (- x1) * (- x2) * y1 * y2) with (1 + dd * x1 * x2 * y1 * y2) by ring.
    unfold fediv. ring.
  - replace (1 - dd * (- x1) * (- x2) * y1 * y2) with (1 - dd * x1 * x2 * y1 * y2) by ring. unfold fediv. ring.
Qed.
Lemma emul_neg : forall n p, on p -> emul n (eneg p) = eneg (emul n p).
Proof.
  intros n p O. induction n as [|n IH] using N.peano_ind.
  - unfold emul, P_Edwards.emul, ezero, eneg. cbn [N.iter fst snd]. apply f_equal2; ring.
  - rewrite !emul_succ, IH. symmetry. apply neg_add; [exact O|apply emul_on, O].
Qed.
Lemma base_nz : base <> ezero.
Proof.
  intro E. apply (f_equal snd) in E. unfold base, ezero in E. cbn [snd] in E. apply (f_equal rep_of) in E. rewrite rep_1, rep_phi in E. discriminate E.
Qed.
Lemma edbase_enc : forall s, real_edbase s = enc (emul s base).
Proof. intro s. apply enc_ok, repr_mul; [apply base_on|apply repr_base]. Qed.
Lemma real_ed_len : forall s, List.length (real_edbase s) = 32%nat.
Proof. intro s. rewrite edbase_enc. apply enc_len. Qed.
Lemma mult_nz : forall s, (0 < s < ell)%N -> emul s base <> ezero.
Proof.
  intros s Ls E. pose proof (P_Edwards.emul_order dd ii ii_ok dd_nonsquare s ell base base_on prime_ell base_order base_nz E) as Q.
  rewrite N.mod_small in Q by lia. lia.
Qed.
Lemma mult_y1 : forall s, (0 < s < ell)%N -> snd (emul s base) <> 1.
Proof.
  intros s Ls E. apply (mult_nz s Ls). pose proof (y_sq_one (emul s base) (emul_on s base base_on)) as Q.
  destruct (emul s base) as [x y]. cbn [fst snd] in *. unfold ezero. apply f_equal2; [apply Q; rewrite E; ring|exact E].
Qed.
Lemma real_ed_canon : forall s, (0 < s < ell)%N ->
  (le2n (real_edbase s) mod two255 < p25519)%N /\ (le2n (real_edbase s) mod two255 <> 1)%N.
Proof.
  intros s Ls. rewrite edbase_enc, enc_low. split; [apply rep_lt|]. intro E. apply (mult_y1 s Ls), rep_inj. rewrite E. symmetry. apply rep_1.
Qed.
Lemma sign_eq : forall a r h, emul h (eneg (emul a base)) ++ emul ((a * h + r) mod ell) base = emul r base.
Proof.
  intros a r h. pose proof (fun n => emul_on n base base_on) as On.
  rewrite <- (emul_mod (a * h + r) ell base base_on base_order), emul_add, N.mul_comm, emul_mul by apply base_on.
  rewrite emul_neg by apply On. set (Q := emul h (emul a base)).
  assert (Oq : on Q) by (apply emul_on; exact (On a)). assert (Onq : on (eneg Q)) by (apply (on_neg dd ii ii_ok), Oq).
  rewrite <- (add_assoc (eneg Q) Q (emul r base)) by (try exact Oq; try exact Onq; apply On).
  rewrite (add_comm dd (eneg Q) Q), add_neg by exact Oq. apply add_0.
Qed.
Lemma real_ed_verify : forall sha a r m, (r < ell)%N ->
  let A := real_edbase a in let R := real_edbase r in
  real_edverify sha A m (R ++ n2le 32 ((a * (le2n (sha (R ++ A ++ m)%list) mod ell) + r) mod ell))%list = true.
Proof.
  intros sha a r m Lr A R. unfold real_edverify.
  assert (LR : List.length R = 32%nat) by apply real_ed_len.
  rewrite app_length, n2le_length, LR. rewrite skipn_app, skipn_all2, LR by (rewrite LR; apply le_n). change (32 - 32)%nat with 0%nat. cbn [skipn List.app].
  rewrite firstn_app, LR. change (32 - 32)%nat with 0%nat. rewrite firstn_O, app_nil_r, firstn_all2 by (rewrite LR; apply le_n).
  set (h := (le2n (sha (R ++ A ++ m)%list) mod ell)%N). rewrite le2n_n2le.
  2:{ eapply N.lt_trans; [apply N.mod_lt; discriminate|reflexivity]. }
  assert (Ls : ((a * h + r) mod ell <? ell)%N = true) by (apply N.ltb_lt, N.mod_lt; discriminate).
  rewrite Ls. cbn [negb orb Nat.eqb Nat.add]. cbv zeta. pose proof (fun n => emul_on n base base_on) as On.
  unfold A at 1. rewrite edbase_enc. destruct (dec_ok (emul a base) (On a)) as (e & -> & Re).
  rewrite (enc_ok _ (emul r base)).
  - unfold R. rewrite edbase_enc. apply bytes_eqb_refl.
  - rewrite <- (sign_eq a r h). assert (O1 : on (eneg (emul a base))) by (apply (on_neg dd ii ii_ok), On). apply repr_add.
    + apply emul_on, O1.
    + apply On.
    + apply repr_mul; [exact O1|]. apply repr_neg, Re.
    + apply repr_mul; [apply base_on|apply repr_base].
Qed.
