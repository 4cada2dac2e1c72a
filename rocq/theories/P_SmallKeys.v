(** Key agreement and keys of small order (C82). *)
From Verif Require Import M_Base M_Crypto M_Aes M_Curve S_Crypto S_Edwards P_Base P_Prime P_PrimeEll P_PrimeTwist P_Curve P_Field P_Edwards R_Curve R_Real P_RealCurve P_RealEd P_Ladder P_CurveSpec P_Count P_Twist P_LowOrder P_LowKeys
  M_Proto M_Message M_Ratchet M_State M_Store M_Session S_State S_Session S_SmallKeys P_Real.
From Coq Require Import ZArith Znumtheory Lia Field NsatzTactic ZifyBool ZifyNat ZifyN.
Local Open Scope fe_scope.

Lemma small_n_u : forall n, small_n n <-> small_u (Z.of_N n).
Proof.
  intro n. unfold small_n, small_u. cbn [In].
  assert (E : forall c z, Z.of_N c = z -> (n = c <-> z = Z.of_N n)).
  { intros c z <-. split; [intros ->; reflexivity|intro Q; apply N2Z.inj in Q; symmetry; exact Q]. }
  rewrite (E 0%N 0%Z eq_refl), (E 1%N 1%Z eq_refl), (E u8b _ eq_refl), (E u8a _ eq_refl), (E (p25519 - 1)%N (fieldp - 1)%Z eq_refl).
  change (Z.of_N u8b) with 325606250916557431795983626356110631294008115727848805560023387167927233504%Z.
  change (Z.of_N u8a) with 39382357235489614581723060781553021112529911719440698176882885853963445705823%Z.
  split.
  - intros [H|[H|[H|[H|H]]]]; auto 6.
  - intros [H|[H|[H|[H|[H|[]]]]]]; auto 6.
Qed.
Lemma small_key_n : forall k, small_key k <-> small_n (fe_of_bytes k).
Proof.
  intro k. rewrite small_n_u. unfold small_key, fe_of_bytes. rewrite !N2Z.inj_mod. change (Z.of_N two255) with (2 ^ 255)%Z. change (Z.of_N p25519) with fieldp. reflexivity.
Qed.
Lemma le2n_all_zero : forall b, le2n b = 0%N -> all_zero b = true.
Proof.
  induction b as [|x b IH]; cbn [all_zero forallb le2n]; intro H; [reflexivity|].
  assert (B : b2n x = 0%N /\ le2n b = 0%N) by lia. destruct B as [B1 B2]. apply IH in B2. unfold all_zero in B2. rewrite B2, Bool.andb_true_r.
  apply byte_eqb_eq. revert B1. destruct x; cbn; intro Q; solve [reflexivity|discriminate Q].
Qed.
Lemma real_zero : forall k u, List.length k = 32%nat -> (all_zero (real_x25519 k u) = true <-> small_key u).
Proof.
  intros k u L. rewrite small_key_n, <- (real_x_zero k u L). split; intro H.
  - apply all_zero_le2n in H. rewrite H. apply phi_0.
  - apply le2n_all_zero. rewrite <- phi_0 in H. apply phi_inj; [|reflexivity|exact H].
    unfold real_x25519. destruct (le2n (clamp k)) as [|s]; [reflexivity|]. destruct (ladder (fe_of_bytes u) s) as [[x z] w].
    unfold fe_bytes. rewrite (N.mod_small _ _ (rmul_lt x (rinv z))). pose proof (rmul_lt x (rinv z)) as R. rewrite le2n_n2le; [exact R|]. eapply N.lt_trans; [exact R|reflexivity].
Qed.

Lemma point_small : forall (D : pt) n, P_Edwards.on dd D -> snd D <> 1 -> (n < p25519)%N -> phi n * (1 - snd D) = 1 + snd D ->
  (small_n n <-> P_Edwards.emul dd 8 D = ezero).
Proof.
  intros D n O D1 Lu Ex. rewrite (eight dd ii ii_ok dd_nonsquare D O), eighth_y8. destruct y8_ne as (N1 & N2 & N3).
  assert (Em : snd D = - (1) <-> n = 0%N).
  { rewrite <- (phi_eq n 0 Lu eq_refl), phi_0. symmetry. apply (u_of_y _ _ _ _ Ex); [ring|exact D1|]. intro Q. apply fe_two. transitivity (1 - - (1)); [ring|rewrite Q; ring]. }
  assert (E0 : snd D = 0 <-> n = 1%N).
  { rewrite <- (phi_eq n 1 Lu eq_refl), phi_1. symmetry. apply (u_of_y _ _ _ _ Ex); [ring|exact D1|intro Q; apply fe_10; symmetry; exact Q]. }
  assert (E1 : snd D = y8 <-> n = u8a).
  { rewrite <- (phi_eq n u8a Lu eq_refl). symmetry. apply (u_of_y _ _ _ _ Ex u8a_ok D1 N1). }
  assert (E2 : snd D = - y8 <-> n = u8b).
  { rewrite <- (phi_eq n u8b Lu eq_refl). symmetry. apply (u_of_y _ _ _ _ Ex); [|exact D1|].
    - transitivity (phi u8b * (1 + y8)); [ring|]. rewrite u8b_ok. ring.
    - intro Q. apply N2. transitivity (- - y8); [ring|]. rewrite Q. reflexivity. }
  assert (E3 : n <> (p25519 - 1)%N).
  { intro Q. rewrite Q, phi_m1 in Ex. apply fe_two. transitivity ((1 + snd D) - (- (1) * (1 - snd D))); [ring|rewrite Ex; ring]. }
  unfold small_n. rewrite Em, E0, E1, E2. clear - D1 E3. generalize dependent (snd D). intros y D1. split; intuition congruence.
Qed.
Lemma small_points : forall d u P, is_d d -> on_curve d P -> snd P <> 1%Z -> (0 <= u < fieldp)%Z -> is_u u P ->
  (small_u u <-> is_mul d P 8 neutral).
Proof.
  intros d u P Hd O N1 Ru Hu. pose proof (on_ok d Hd P O) as Oc.
  assert (Eu : Z.of_N (Z.to_N u) = u) by (apply Z2N.id, Ru).
  assert (Y1 : snd (toP P) <> 1).
  { unfold toP. cbn [snd]. intro Q. apply N1. destruct P as [x y]. destruct O as (_ & Ry & _). cbn [snd] in *.
    apply F_range; [exact Ry|split; [discriminate|reflexivity]|exact Q]. }
  rewrite <- Eu, <- small_n_u. rewrite (point_small (toP P) (Z.to_N u) Oc Y1).
  - split.
    + intro E. pose proof (mul_exists d Hd P 8 O) as M. rewrite E in M. rewrite <- neutral_P, (ofP_toP d Hd neutral (neutral_on d)) in M. exact M.
    + intro M. destruct (mul_ok d Hd P 8 neutral O M) as [_ E]. rewrite <- E. apply neutral_P.
  - apply N2Z.inj_lt. rewrite Eu. apply Ru.
  - unfold phi. rewrite Eu. apply cong_F in Hu. rewrite <- F_mul, <- F_sub, <- F_add in Hu. exact Hu.
Qed.
