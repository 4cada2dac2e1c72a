(** Exactly which signatures VerifySignature accepts. *)
From Verif Require Import M_Base M_Crypto M_Aes M_Curve S_Crypto S_Curve P_Base P_Prime P_Curve.
From Coq Require Import ZArith Znumtheory ZifyBool ZifyNat ZifyN.

Lemma two255_pow : (2 ^ 255 = two255)%N. Proof. vm_compute; reflexivity. Qed.

Lemma xor_sign : forall t (pos : bool), (b2n t < 128)%N ->
  low7 (bxor t (if pos then Byte.x00 else Byte.x80)) = t /\
  ((128 <= b2n (bxor t (if pos then Byte.x00 else Byte.x80)))%N <-> pos = false).
Proof. intros t pos H. destruct t, pos; vm_compute in H |- *; try discriminate H; (split; [reflexivity|]); split; intro X; try reflexivity; try discriminate; exfalso; apply X; reflexivity. Qed.
Lemma low7_sign : forall t (pos : bool), ((128 <= b2n t)%N <-> pos = false) ->
  bxor (low7 t) (if pos then Byte.x00 else Byte.x80) = t.
Proof.
  intros t pos H. rewrite <- (restore_sign t) at 2. f_equal.
  assert (E : high_bit t = if (128 <=? b2n t)%N then 128%N else 0%N) by (destruct t; reflexivity).
  rewrite E. destruct (N.leb_spec 128 (b2n t)) as [L|L]; destruct pos; try reflexivity.
  - apply H in L. discriminate.
  - assert (Q : (128 <= b2n t)%N) by (apply H; reflexivity). lia.
Qed.

Lemma low_of : forall b, Z.of_N (le2n b mod 2 ^ 255) = Z.of_N (le2n b mod two255).
Proof. intro b. rewrite two255_pow. reflexivity. Qed.
Lemma P_pow : (2 ^ 255 - 19 = P)%Z. Proof. symmetry. apply P_val. Qed.

Lemma fe_low : forall u, exists k, (Z.of_N (le2n u mod two255) = Z.of_N (fe_of_bytes u) + P * k)%Z.
Proof.
  intro u. unfold fe_of_bytes. set (n := (le2n u mod two255)%N).
  exists (Z.of_N (n / p25519)). replace P with (Z.of_N p25519) by (vm_compute; reflexivity). rewrite <- N2Z.inj_mul, <- N2Z.inj_add. f_equal.
  pose proof (N.div_mod n p25519 ltac:(vm_compute; discriminate)). lia.
Qed.
Lemma fe_lt : forall u, (fe_of_bytes u < p25519)%N.
Proof. intro u. apply N.mod_lt. vm_compute; discriminate. Qed.

Lemma cong_low : forall u Y, ((Z.of_N (le2n u mod two255) + 1) * Y mod P = (Z.of_N (le2n u mod two255) - 1) mod P)%Z <->
  ((Z.of_N (fe_of_bytes u) + 1) * Y mod P = (Z.of_N (fe_of_bytes u) - 1) mod P)%Z.
Proof.
  intros u Y. destruct (fe_low u) as [k ->]. set (x := Z.of_N (fe_of_bytes u)).
  replace ((x + P * k + 1) * Y)%Z with ((x + 1) * Y + (k * Y) * P)%Z by ring.
  replace (x + P * k - 1)%Z with ((x - 1) + k * P)%Z by ring.
  rewrite !Z_mod_plus_full. reflexivity.
Qed.

Lemma P_facts : (P > 2)%Z /\ (0 < P)%Z /\ P = Z.of_N p25519.
Proof. repeat split; vm_compute; reflexivity. Qed.

(** The ordinate is determined. *)
Lemma ordinate : forall x Y, (x < p25519)%N -> (Y < p25519)%N ->
  ((Z.of_N x + 1) * Z.of_N Y mod P = (Z.of_N x - 1) mod P)%Z <->
  (x <> p25519 - 1 /\ Y = fmul (fsub x 1) (finv (fadd x 1)))%N.
Proof.
  intros x Y Hx HY. destruct P_facts as (P2 & P0 & Pe).
  assert (Fa : (Z.of_N (fadd x 1) mod P = (Z.of_N x + 1) mod P)%Z).
  { rewrite fadd_z. change (Z.of_N 1) with 1%Z. apply cong_mod. }
  assert (Fs : (Z.of_N (fsub x 1) mod P = (Z.of_N x - 1) mod P)%Z).
  { rewrite fsub_z. change (Z.of_N 1) with 1%Z. apply cong_mod. }
  destruct (N.eq_dec x (p25519 - 1)) as [E|E].
  - split; [|intros [A _]; contradiction]. intro Q. exfalso.
    assert (X1 : (Z.of_N x + 1 = 1 * P)%Z) by (rewrite E; vm_compute; reflexivity).
    assert (X2 : (Z.of_N x - 1 = (P - 2) + 0 * P)%Z) by lia.
    rewrite X1 in Q. replace (1 * P * Z.of_N Y)%Z with (Z.of_N Y * P)%Z in Q by ring.
    rewrite Z_mod_mult, X2, Z_mod_plus_full, Z.mod_small in Q by lia. lia.
  - assert (Nz : (fadd x 1 mod p25519 <> 0)%N).
    { apply nonzero_mod. intro Q. rewrite Fa in Q. rewrite Zmod_0_l in Q.
      rewrite Z.mod_small in Q; [lia|]. lia. }
    pose proof (finv_ok _ Nz) as I. set (i := finv (fadd x 1)) in *.
    assert (I' : ((Z.of_N x + 1) * Z.of_N i mod P = 1 mod P)%Z).
    { rewrite <- I. apply cong_mul; [symmetry; exact Fa|reflexivity]. }
    split.
    + intro Q. split; [auto|]. apply N2Z.inj. rewrite fmul_z.
      assert (R : (Z.of_N Y mod P = (Z.of_N (fsub x 1) * Z.of_N i) mod P)%Z).
      { transitivity ((Z.of_N x + 1) * Z.of_N i * Z.of_N Y mod P)%Z.
        - rewrite <- (Z.mul_1_l (Z.of_N Y)) at 1. symmetry. apply cong_mul; [exact I'|reflexivity].
        - rewrite <- Z.mul_assoc, (Z.mul_comm (Z.of_N i)), Z.mul_assoc.
          apply cong_mul; [|reflexivity]. rewrite Q. symmetry. exact Fs. }
      rewrite <- R. symmetry. apply Z.mod_small. lia.
    + intros [_ ->]. rewrite fmul_z.
      transitivity ((Z.of_N x + 1) * (Z.of_N (fsub x 1) * Z.of_N i) mod P)%Z.
      { apply cong_mul; [reflexivity|apply cong_mod]. }
      rewrite (Z.mul_comm (Z.of_N (fsub x 1))), Z.mul_assoc, <- (Z.mul_1_l (Z.of_N x - 1)).
      apply cong_mul; [exact I'|exact Fs].
Qed.

Lemma utoy_iff : forall u pos y, utoy u pos = Ok y <-> edwards_of u (negb pos) y.
Proof.
  intros u pos y. unfold edwards_of. cbv zeta. rewrite P_pow, !low_of, cong_low. split.
  - intro E. unfold utoy in E. destruct (Nat.eqb_spec (List.length u) 32) as [L|]; [|discriminate]. cbn [negb] in E.
    destruct (N.eqb_spec (fe_of_bytes u) (p25519 - 1)) as [|Ne]; [discriminate|].
    set (Y := fmul (fsub (fe_of_bytes u) 1) (finv (fadd (fe_of_bytes u) 1))) in *.
    assert (HY : (Y < p25519)%N) by (apply N.mod_lt; vm_compute; discriminate).
    assert (H255 : (Y < two255)%N) by (apply N.lt_trans with p25519; [auto|vm_compute; reflexivity]).
    apply (f_equal (fun r => match r with Ok a => a | _ => y end)) in E. cbv beta iota in E.
    unfold fe_bytes in E. rewrite (N.mod_small Y) in E by auto.
    destruct (n2le_last Y H255) as (l & t & El & Ll & Ht). rewrite El in E. rewrite upd_nth_app in E by auto.
    destruct (xor_sign t pos Ht) as [X1 X2].
    assert (V : (le2n y mod two255)%N = Y).
    { rewrite <- E, le2n_mod255, X1 by auto. rewrite <- El. apply le2n_n2le. rewrite pow256_32. lia. }
    rewrite V. split; [auto|]. split; [rewrite <- E, app_length; cbn; lia|].
    split; [apply N2Z.inj_lt; exact HY|].
    split; [apply ordinate; [apply fe_lt|auto|split; auto]|].
    rewrite <- E, app_nth2, Ll by lia. cbn [nth Nat.sub]. rewrite X2. destruct pos; cbn; split; auto; discriminate.
  - intros (L & Ly & Hy & Q & S). assert (Hy' : (le2n y mod two255 < p25519)%N) by (apply N2Z.inj_lt; exact Hy).
    apply ordinate in Q; [|apply fe_lt|auto]. destruct Q as [Ne Q].
    unfold utoy. rewrite L. cbn [Nat.eqb negb]. destruct (N.eqb_spec (fe_of_bytes u) (p25519 - 1)); [contradiction|].
    rewrite <- Q. unfold fe_bytes. rewrite (N.mod_small (le2n y mod two255) p25519) by auto. f_equal.
    destruct (split_last y 31 Ly) as (l & t & -> & Ll). rewrite n2le_mod255, upd_nth_app by auto.
    rewrite app_nth2, Ll in S by lia. cbn [nth Nat.sub] in S. rewrite low7_sign; [reflexivity|].
    rewrite <- S. destruct pos; cbn; split; auto; discriminate.
Qed.

Lemma verify_exact : forall C pub sig parts,
  verify_signature C pub sig parts = Ok true <->
  exists r t y, sig = r ++ [t] /\ List.length sig = 64%nat /\
    edwards_of pub (128 <=? b2n t)%N y /\
    c_edverify C y (List.concat parts) (r ++ [n2b (b2n t mod 128)]) = true.
Proof.
  intros C pub sig parts. unfold verify_signature, verify25519. split.
  - destruct (Nat.eqb_spec (List.length sig) 64) as [L|]; [|discriminate]. cbn [negb]. rewrite L. cbn [Nat.ltb Nat.leb].
    destruct (split_last sig 63 L) as (r & t & -> & Lr). rewrite app_nth2, Lr by lia. cbn [nth Nat.sub].
    destruct (utoy pub (N.eqb (N.land (b2n t) 128) 0)) as [y| |] eqn:U; cbn [bind]; [|discriminate..].
    rewrite firstn_all2 by lia. rewrite upd_nth_app by auto. intro E. exists r, t, y.
    split; [reflexivity|]. split; [auto|]. apply utoy_iff in U. split.
    + replace (128 <=? b2n t)%N with (negb (N.land (b2n t) 128 =? 0)%N) by (destruct t; reflexivity). exact U.
    + injection E as E. rewrite <- E. do 4 f_equal. destruct t; reflexivity.
  - intros (r & t & y & E & L & U & V). rewrite L. cbn [Nat.eqb negb Nat.ltb Nat.leb].
    assert (Lr : List.length r = 63%nat) by (rewrite E, app_length in L; cbn in L; lia).
    rewrite firstn_all2 by lia. rewrite E. rewrite app_nth2, Lr by lia. cbn [nth Nat.sub]. rewrite upd_nth_app by auto.
    assert (U' : utoy pub (N.land (b2n t) 128 =? 0)%N = Ok y).
    { apply utoy_iff. replace (negb (N.land (b2n t) 128 =? 0)%N) with (128 <=? b2n t)%N by (destruct t; reflexivity). exact U. }
    rewrite U'. cbn [bind]. rewrite <- V. do 4 f_equal. destruct t; reflexivity.
Qed.

Lemma verify_no_panic : forall C pub sig parts, verify_signature C pub sig parts <> Panic.
Proof.
  intros C pub sig parts. unfold verify_signature, verify25519.
  destruct (Nat.eqb_spec (List.length sig) 64) as [L|]; [|discriminate]. cbn [negb]. rewrite L. cbn [Nat.ltb Nat.leb].
  unfold utoy. destruct (negb _); [discriminate|]. destruct (N.eqb _ _); discriminate.
Qed.
