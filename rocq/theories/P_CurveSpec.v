(** R_Curve.v against S_Edwards.v. *)
From Verif Require Import M_Base M_Crypto M_Aes M_Curve S_Crypto S_Edwards P_Base P_Prime P_PrimeEll P_Curve P_Field P_Edwards R_Curve P_RealCurve P_RealEd P_Ladder.
From Coq Require Import ZArith Znumtheory Lia Field NsatzTactic ZifyBool ZifyNat ZifyN.
Local Open Scope fe_scope.
Local Notation "p ++ q" := (eadd dd p q).

Lemma fieldp_P : fieldp = P. Proof. reflexivity. Qed.
Lemma cong_F : forall a b, cong a b <-> F a = F b.
Proof. intros a b. unfold cong. rewrite fieldp_P. split; [apply F_eq|apply F_inj]. Qed.
Lemma F_range : forall a b, (0 <= a < fieldp)%Z -> (0 <= b < fieldp)%Z -> F a = F b -> a = b.
Proof. intros a b Ra Rb E. apply F_inj in E. rewrite <- fieldp_P in E. rewrite !Z.mod_small in E by assumption. exact E. Qed.
Lemma fz_range : forall a, (0 <= fz a < fieldp)%Z.
Proof. intro a. rewrite fieldp_P, <- fe_small. apply Z.mod_pos_bound. pose proof P_pos as H. revert H. generalize P. intros; lia. Qed.
Definition toP (p : point) : pt := (F (fst p), F (snd p)).
Definition ofP (p : pt) : point := (fz (fst p), fz (snd p)).
Lemma toP_ofP : forall p, toP (ofP p) = p.
Proof. intros [x y]. unfold toP, ofP. cbn [fst snd]. rewrite !F_fz. reflexivity. Qed.
Lemma d_ok : forall d, is_d d -> F d = dd.
Proof.
  intros d H. apply cong_F in H. change (-121665)%Z with (Z.opp 121665) in H. rewrite <- F_mul, <- F_opp in H.
  apply (fe_cancel _ _ (phi 121666) k121666_nz). rewrite dd_ok. transitivity (F 121666 * F d); [|exact H]. change (phi 121666) with (F 121666). ring.
Qed.
Section D.
Variables (d : Z) (Hd : is_d d).
Lemma on_ok : forall p, on_curve d p -> on (toP p).
Proof.
  intros [x y] (_ & _ & E). apply cong_F in E. unfold P_Edwards.on, toP. cbn [fst snd]. rewrite <- (d_ok d Hd). unfold fe1. rewrite !F_mul, F_sub, F_add. exact E.
Qed.
Lemma on_back : forall p, on p -> on_curve d (ofP p).
Proof.
  intros [x y] O. unfold on_curve, ofP. cbn [fst snd]. split; [apply fz_range|split; [apply fz_range|]]. apply cong_F.
  unfold P_Edwards.on in O. cbn [fst snd] in O. rewrite <- (d_ok d Hd) in O. rewrite <- F_sub, <- F_add, <- !F_mul, !F_fz. exact O.
Qed.
Lemma toP_inj : forall p q, on_curve d p -> on_curve d q -> toP p = toP q -> p = q.
Proof.
  intros [x y] [x' y'] (A & B & _) (A' & B' & _) E. unfold toP in E. cbn [fst snd] in E.
  pose proof (f_equal fst E) as E1. pose proof (f_equal snd E) as E2. cbn [fst snd] in E1, E2. apply f_equal2; apply F_range; assumption.
Qed.
Lemma ofP_toP : forall p, on_curve d p -> ofP (toP p) = p.
Proof. intros p O. apply toP_inj; [apply on_back, on_ok, O|exact O|apply toP_ofP]. Qed.
Lemma sum_ok : forall p q r, on_curve d p -> on_curve d q -> (is_sum d p q r <-> on_curve d r /\ toP r = toP p ++ toP q).
Proof.
  intros [x1 y1] [x2 y2] [x y] Op Oq. apply on_ok in Op, Oq. pose proof (den_plus dd ii ii_ok dd_nonsquare _ _ Op Oq) as A. pose proof (den_minus dd ii ii_ok dd_nonsquare _ _ Op Oq) as B.
  unfold is_sum, toP, eadd in *. cbn [fst snd] in *. rewrite !cong_F. rewrite <- !F_mul, <- !F_add, <- !F_sub, <- !F_mul, (d_ok d Hd). change (F 1) with fe1.
  set (m := dd * F x1 * F x2 * F y1 * F y2) in *. split.
  - intros (O & E1 & E2). split; [exact O|]. apply f_equal2; symmetry; (apply fe_div_eq; [assumption|]); symmetry; assumption.
  - intros (O & E). split; [exact O|]. pose proof (f_equal fst E) as E1. pose proof (f_equal snd E) as E2. cbn [fst snd] in E1, E2. rewrite E1, E2. split; field; assumption.
Qed.
Lemma neutral_P : toP neutral = ezero. Proof. reflexivity. Qed.
Lemma neutral_on : on_curve d neutral.
Proof. cbn [on_curve neutral]. split; [split; [discriminate|reflexivity]|split; [split; [discriminate|reflexivity]|]]. apply cong_F. apply f_equal. ring. Qed.
Lemma sum_exists : forall p q, on_curve d p -> on_curve d q -> exists r, is_sum d p q r /\ forall r', is_sum d p q r' -> r' = r.
Proof.
  intros p q Op Oq. exists (ofP (toP p ++ toP q)). assert (O : on (toP p ++ toP q)) by (apply on_add; apply on_ok; assumption). split.
  - apply sum_ok; [exact Op|exact Oq|]. split; [apply on_back, O|apply toP_ofP].
  - intros r' S. apply (sum_ok p q r' Op Oq) in S. destruct S as [Or E]. apply toP_inj; [exact Or|apply on_back, O|]. rewrite toP_ofP. exact E.
Qed.
Lemma mul_ok : forall p n r, on_curve d p -> is_mul d p n r -> on_curve d r /\ toP r = emul n (toP p).
Proof.
  intros p n r Op M. induction M as [|n Q R M [IHo IHe] S]; [split; [exact neutral_on|reflexivity]|].
  apply (sum_ok p Q R Op IHo) in S. destruct S as [Or E]. split; [exact Or|]. rewrite E, IHe, emul_succ. reflexivity.
Qed.
Lemma mul_exists : forall p n, on_curve d p -> is_mul d p n (ofP (emul n (toP p))).
Proof.
  intros p n Op. pose proof (on_ok p Op) as O. induction n as [|n IH] using N.peano_ind.
  - replace (ofP (emul 0 (toP p))) with neutral; [constructor|]. symmetry. rewrite <- (ofP_toP neutral neutral_on). reflexivity.
  - econstructor; [exact IH|]. apply sum_ok; [exact Op|apply on_back, emul_on, O|]. split; [apply on_back, emul_on, O|].
    rewrite !toP_ofP, emul_succ. reflexivity.
Qed.
Lemma neg_ok : forall p q, on_curve d p -> negated p q -> on_curve d q /\ toP q = eneg (toP p).
Proof.
  intros [x y] [x' y'] O (E & R & Y). cbn [fst snd] in *. subst y'. destruct O as (Rx & Ry & O). apply cong_F in E. rewrite <- F_opp in E. split.
  - split; [exact R|split; [exact Ry|]]. apply cong_F. apply cong_F in O. rewrite <- F_sub, <- F_add, <- !F_mul in O |- *. rewrite E. transitivity (F y * F y - F x * F x); [ring|]. rewrite O. ring.
  - unfold toP, eneg. cbn [fst snd]. apply f_equal2; [exact E|reflexivity].
Qed.
Lemma base_P : forall B, is_base d B -> toP B = base.
Proof.
  intros [x y] (O & Y & Ev). pose proof (on_ok _ O) as Ob. destruct O as (Rx & Ry & _). cbn [fst snd] in *. apply cong_F in Y.
  assert (N5 : F 5 <> 0) by (intro Q; apply (f_equal fz) in Q; vm_compute in Q; discriminate Q).
  assert (Yb : F y = phi ed_by).
  { apply (fe_cancel _ _ (F 5) N5). transitivity (F 4); [rewrite <- Y, <- F_mul; ring|]. change (F 5) with (phi 5). change (F 4) with (phi 4). rewrite <- phi_mul. apply (f_equal phi). vm_compute. reflexivity. }
  unfold toP, base. cbn [fst snd]. apply f_equal2; [|exact Yb].
  assert (X : F x * F x = phi ed_bx * phi ed_bx).
  { pose proof (x_of_y _ Ob) as A. pose proof (x_of_y _ base_on) as B. unfold toP, base in A, B. cbn [fst snd] in A, B. rewrite A, B, Yb. reflexivity. }
  apply fe_sq_cases in X. destruct X as [X|X]; [exact X|exfalso].
  assert (E : x = (Z.of_N (p25519 - ed_bx))).
  { apply F_range; [exact Rx|split; [discriminate|reflexivity]|]. rewrite X. fold (phi (p25519 - ed_bx)). transitivity (phi (rsub 0 ed_bx)); [rewrite phi_sub, phi_0; ring|]. apply (f_equal phi). vm_compute. reflexivity. }
  rewrite E in Ev. vm_compute in Ev. discriminate Ev.
Qed.
Lemma base_exists : is_base d (ofP base).
Proof.
  split; [apply on_back, base_on|]. split.
  - apply cong_F. unfold ofP, base. cbn [fst snd]. rewrite <- F_mul, F_fz. change (F 5) with (phi 5). change (F 4) with (phi 4). rewrite <- phi_mul. apply (f_equal phi). vm_compute. reflexivity.
  - vm_compute. reflexivity.
Qed.

(** *** Encodings *)
Lemma rep_Z : forall a, Z.of_N (rep_of a) = fz a.
Proof. intro a. unfold rep_of. apply Z2N.id. apply fz_range. Qed.
Lemma two255_Z : Z.of_N two255 = (2 ^ 255)%Z. Proof. reflexivity. Qed.
Lemma enc_encodes : forall p, encodes (enc p) (ofP p).
Proof.
  intro p. split; [apply enc_len|]. rewrite enc_num, N2Z.inj_add, N2Z.inj_mul, N2Z.inj_mod, !rep_Z, two255_Z. unfold ofP. cbn [fst snd]. rewrite (Z.mul_comm (2 ^ 255)). reflexivity.
Qed.
Lemma encodes_enc : forall b p, on_curve d p -> encodes b p -> b = enc (toP p).
Proof.
  intros b p O [L E]. rewrite <- (n2le_le2n b), L. pose proof (enc_encodes (toP p)) as [_ E']. rewrite (ofP_toP p O) in E'. rewrite <- E in E'.
  apply N2Z.inj in E'. rewrite <- E'. rewrite <- (enc_len (toP p)) at 1. symmetry. rewrite <- (n2le_le2n (enc (toP p))) at 1. reflexivity.
Qed.
Lemma real_edbase_spec : forall B s R, is_base d B -> is_mul d B s R -> encodes (real_edbase s) R.
Proof.
  intros B s R HB M. pose proof (proj1 HB) as Ob. destruct (mul_ok B s R Ob M) as [Or E]. rewrite (base_P B HB) in E. rewrite edbase_enc, <- E.
  rewrite <- (ofP_toP R Or) at 2. apply enc_encodes.
Qed.

(** *** Decoding and verification *)
Lemma root_sound : forall w r, ed_root w = Some r -> (r < p25519)%N /\ phi r * phi r = phi w.
Proof.
  intros w r. unfold ed_root. destruct ((p25519 + 3) / 8)%N as [|e] eqn:Ee; [discriminate Ee|]. cbv zeta. set (q := rpow w e).
  destruct (rmul q q =? w)%N eqn:E1; [|destruct (rmul q q =? rsub 0 w)%N eqn:E2; [|discriminate]]; intro H; apply (f_equal (fun o => match o with Some x => x | None => r end)) in H; subst r.
  - apply N.eqb_eq in E1. split; [apply rpow_lt|]. rewrite <- phi_mul, E1. reflexivity.
  - apply N.eqb_eq in E2. split; [apply rmul_lt|]. rewrite phi_mul. change (phi sqrt_m1) with ii. transitivity ((phi q * phi q) * (ii * ii)); [ring|].
    rewrite <- phi_mul, E2, phi_sub, phi_0, ii_ok. ring.
Qed.
Definition dec_rel (b : bytes) (p : pt) : Prop :=
  on p /\ rep_of (snd p) = fe_of_bytes b /\ (fst p = 0 \/ (rep_of (fst p) mod 2 = (le2n b / two255) mod 2)%N).
Lemma w_of : forall y p, on p -> rep_of (snd p) = y -> phi (rmul (rsub (rmul y y) 1) (rinv (radd (rmul ed_d (rmul y y)) 1))) = fst p * fst p.
Proof.
  intros y p O <-. rewrite phi_mul, phi_inv, phi_sub, phi_add, !phi_mul, phi_1. rewrite phi_rep. change (phi ed_d) with dd. rewrite (x_of_y p O).
  replace (dd * (snd p * snd p) + 1) with (1 + dd * snd p * snd p) by ring. reflexivity.
Qed.
Lemma dec_unique : forall b p q, dec_rel b p -> dec_rel b q -> p = q.
Proof.
  intros b p q (Op & Yp & Sp) (Oq & Yq & Sq). assert (Y : snd p = snd q) by (apply rep_inj; rewrite Yp, Yq; reflexivity).
  assert (X2 : fst p * fst p = fst q * fst q) by (rewrite (x_of_y p Op), (x_of_y q Oq), Y; reflexivity).
  destruct p as [x y], q as [x' y']. cbn [fst snd] in *. apply f_equal2; [|exact Y]. apply fe_sq_cases in X2. destruct X2 as [X|X]; [exact X|].
  destruct (fe_eq_dec x' 0) as [Z|Nz]; [rewrite X, Z; ring|].
  destruct Sq as [Sq|Sq]; [destruct (Nz Sq)|]. destruct Sp as [Sp|Sp].
  { exfalso. apply Nz. rewrite Sp in X. apply fe_opp_0. symmetry. exact X. }
  exfalso. rewrite X, (parity_opp _ Nz), <- Sq in Sp. pose proof (N.mod_lt (rep_of x') 2 ltac:(discriminate)) as Lm. revert Sp Lm. generalize (rep_of x' mod 2)%N. intros; lia.
Qed.
Lemma dec_sound : forall b e, ext_of_bytes b = Some e -> exists p, dec_rel b p /\ repr e p.
Proof.
  intros b e. unfold ext_of_bytes. cbv zeta. set (y := fe_of_bytes b). set (w := rmul (rsub (rmul y y) 1) (rinv (radd (rmul ed_d (rmul y y)) 1))).
  destruct (ed_root w) as [r|] eqn:Er; [|discriminate]. intro H. apply root_sound in Er. destruct Er as [Lr Rr].
  set (x := if (r mod 2 =? (le2n b / two255) mod 2)%N then r else rsub 0 r) in H. exists (phi x, phi y).
  assert (Ly : (y < p25519)%N) by (apply N.mod_lt; discriminate).
  assert (X2 : phi x * phi x = phi w) by (rewrite <- Rr; unfold x; clear; destruct (_ =? _)%N; [reflexivity|]; rewrite phi_sub, phi_0; ring).
  assert (O : on (phi x, phi y)).
  { unfold P_Edwards.on. cbn [fst snd]. assert (W : phi w * (1 + dd * phi y * phi y) = phi y * phi y - 1).
    { unfold w. rewrite phi_mul, phi_inv, phi_sub, phi_add, !phi_mul, phi_1. change (phi ed_d) with dd. pose proof (den_y (phi y)) as D.
      replace (dd * (phi y * phi y) + 1) with (1 + dd * phi y * phi y) by ring. field. exact D. }
    rewrite <- X2 in W. clear - W. nsatz. }
  split.
  - split; [exact O|]. split; [apply rep_phi_lt, Ly|]. destruct (fe_eq_dec (phi x) 0) as [Z|Nz]; [left; exact Z|right]. cbn [fst]. unfold x in Nz |- *. clear x H X2 O.
    destruct (r mod 2 =? (le2n b / two255) mod 2)%N eqn:Ep.
    + apply N.eqb_eq in Ep. rewrite rep_phi_lt by exact Lr. exact Ep.
    + apply N.eqb_neq in Ep. assert (Nr : phi r <> 0) by (intro Q; apply Nz; rewrite phi_sub, Q, phi_0; ring).
      replace (phi (rsub 0 r)) with (- phi r) by (rewrite phi_sub, phi_0; ring). rewrite (parity_opp _ Nr), (rep_phi_lt r Lr).
      pose proof (N.mod_lt r 2 ltac:(discriminate)) as L1. pose proof (N.mod_lt (le2n b / two255) 2 ltac:(discriminate)) as L2.
      revert Ep L1 L2. generalize (r mod 2)%N, ((le2n b / two255) mod 2)%N. intros; lia.
  - apply (f_equal (fun o => match o with Some v => v | None => e end)) in H. subst e. unfold repr. cbn [eX eY eZ eT fst snd]. rewrite phi_1, phi_mul.
    split; [exact fe_10|split; [ring|split; ring]].
Qed.
Lemma dec_complete : forall b p, dec_rel b p -> exists e, ext_of_bytes b = Some e.
Proof.
  intros b p (O & Y & _). unfold ext_of_bytes. cbv zeta. destruct (root_ok (fst p) _ (rmul_lt _ _) (w_of _ p O Y)) as (r & E & _). rewrite E. eexists. reflexivity.
Qed.
Lemma dec_rel_spec : forall b p, on_curve d p -> (decodes b p <-> dec_rel b (toP p)).
Proof.
  intros b p Op. pose proof (on_ok p Op) as O. destruct p as [x y]. destruct Op as (Rx & Ry & _). unfold decodes, dec_rel, toP. cbn [fst snd].
  assert (Zx : fz (F x) = x) by (apply F_range; [apply fz_range|exact Rx|apply F_fz]).
  assert (Zy : fz (F y) = y) by (apply F_range; [apply fz_range|exact Ry|apply F_fz]).
  assert (A : cong (Z.of_N (le2n b) mod 2 ^ 255) y <-> rep_of (F y) = fe_of_bytes b).
  { unfold cong, fe_of_bytes. rewrite (Z.mod_small y) by exact Ry. rewrite <- two255_Z. change fieldp with (Z.of_N p25519). rewrite <- !N2Z.inj_mod.
    rewrite <- Zy at 1. rewrite <- rep_Z. split; [intro H; symmetry; apply N2Z.inj; exact H|intro H; rewrite H; reflexivity]. }
  assert (B : x = 0%Z <-> F x = 0).
  { split; [intros ->; reflexivity|]. intro H. rewrite <- Zx, H. reflexivity. }
  assert (C : (x mod 2 = (Z.of_N (le2n b) / 2 ^ 255) mod 2)%Z <-> (rep_of (F x) mod 2 = (le2n b / two255) mod 2)%N).
  { rewrite <- two255_Z, <- N2Z.inj_div. change 2%Z with (Z.of_N 2). rewrite <- Zx at 1. rewrite <- rep_Z, <- !N2Z.inj_mod.
    split; [intro H; apply N2Z.inj; exact H|intro H; rewrite H; reflexivity]. }
  rewrite A, B, C. split; [intros [H1 H2]; split; [exact O|split; assumption]|intros (_ & H1 & H2); split; assumption].
Qed.
Lemma verify_spec : forall sha pk m sig, real_edverify sha pk m sig = true <-> accepts d sha pk m sig.
Proof.
  intros sha pk m sig. unfold real_edverify, accepts. cbv zeta. set (s := le2n (skipn 32 sig)). set (h := (le2n (sha (firstn 32 sig ++ pk ++ m)%list) mod ell)%N).
  destruct (Nat.eqb (List.length sig) 64) eqn:El; cbn [negb orb].
  2:{ apply Nat.eqb_neq in El. split; [discriminate|]. intros [Q _]. destruct (El Q). }
  apply Nat.eqb_eq in El. destruct (s <? ell)%N eqn:Es; cbn [negb].
  2:{ apply N.ltb_ge in Es. split; [discriminate|]. intros (_ & Q & _). exfalso. revert Es Q. generalize ell. intros; lia. }
  apply N.ltb_lt in Es. pose proof base_exists as HB. pose proof (proj1 HB) as OB. split.
  - destruct (ext_of_bytes pk) as [e|] eqn:Ee; [|discriminate]. intro V. split; [exact El|]. split; [exact Es|].
    destruct (dec_sound pk e Ee) as (p & Dp & Rp). pose proof (proj1 Dp) as Op. assert (Opn : on (eneg p)) by (apply (on_neg dd ii ii_ok), Op).
    pose proof (on_back p Op) as OA. pose proof (on_back _ Opn) as OA'.
    exists (ofP base), (ofP p), (ofP (eneg p)), (ofP (emul h (toP (ofP (eneg p))))), (ofP (emul s (toP (ofP base)))), (ofP (emul h (eneg p) ++ emul s base)).
    rewrite !toP_ofP. assert (O1 : on (emul h (eneg p))) by (apply emul_on, Opn). assert (O2 : on (emul s base)) by (apply emul_on, base_on).
    split; [exact HB|]. split; [exact OA|]. split; [apply dec_rel_spec; [exact OA|rewrite toP_ofP; exact Dp]|].
    split.
    { split; [|split]; unfold ofP, eneg; cbn [fst snd]; [apply cong_F; rewrite <- F_opp, !F_fz; reflexivity|apply fz_range|reflexivity]. }
    split; [pose proof (mul_exists _ h OA') as Q; rewrite toP_ofP in Q; exact Q|].
    split; [pose proof (mul_exists _ s OB) as Q; rewrite toP_ofP in Q; exact Q|].
    split; [apply sum_ok; [apply on_back, O1|apply on_back, O2|]; rewrite !toP_ofP; split; [apply on_back, on_add; assumption|reflexivity]|].
    apply bytes_eqb_eq in V. rewrite V. erewrite enc_ok; [apply enc_encodes|]. apply repr_add; [exact O1|exact O2| |].
    + apply repr_mul; [exact Opn|apply repr_neg, Rp].
    + apply repr_mul; [apply base_on|apply repr_base].
  - intros (_ & _ & B & A & A' & hA & sB & R & HB' & OA & DA & NA & M1 & M2 & SR & EnR).
    pose proof (proj1 (dec_rel_spec pk A OA) DA) as Dr. destruct (dec_complete pk _ Dr) as (e & Ee). rewrite Ee.
    destruct (dec_sound pk e Ee) as (p & Dp & Rp). pose proof (dec_unique pk p (toP A) Dp Dr) as Ep. subst p.
    pose proof (on_ok A OA) as Oa. destruct (neg_ok A A' OA NA) as [OA' EA']. assert (On' : on (eneg (toP A))) by (apply (on_neg dd ii ii_ok), Oa).
    destruct (mul_ok A' h hA OA' M1) as [Oh Eh]. destruct (mul_ok B s sB (proj1 HB') M2) as [Ob Eb]. rewrite (base_P B HB') in Eb. rewrite EA' in Eh.
    apply (sum_ok hA sB R Oh Ob) in SR. destruct SR as [OR ER].
    apply bytes_eqb_eq. rewrite (encodes_enc _ R OR EnR). symmetry. apply enc_ok. rewrite ER, Eh, Eb. apply repr_add.
    + apply emul_on, On'.
    + apply emul_on, base_on.
    + apply repr_mul; [exact On'|apply repr_neg, Rp].
    + apply repr_mul; [apply base_on|apply repr_base].
Qed.

(** *** X25519 *)
Lemma ne_1 : forall p, on_curve d p -> snd p <> 1%Z -> snd (toP p) <> 1.
Proof. intros [x y] (_ & R & _) H E. cbn [fst snd toP] in *. apply H. apply F_range; [exact R|split; [discriminate|reflexivity]|exact E]. Qed.
Lemma ne_m1 : forall p, on_curve d p -> snd p <> (fieldp - 1)%Z -> snd (toP p) <> - (1).
Proof.
  intros [x y] (_ & R & _) H E. cbn [fst snd toP] in *. apply H. apply F_range; [exact R|split; [discriminate|reflexivity]|]. rewrite E. unfold fe1. rewrite F_opp.
  apply F_eq. vm_compute. reflexivity.
Qed.
Lemma fe_bytes_num : forall n, le2n (fe_bytes n) = (n mod p25519)%N.
Proof. intro n. unfold fe_bytes. apply le2n_n2le. eapply N.lt_trans; [apply N.mod_lt; discriminate|reflexivity]. Qed.
Lemma x25519_spec : forall k u p r, List.length k = 32%nat -> on_curve d p -> snd p <> 1%Z -> snd p <> (fieldp - 1)%Z ->
  is_u (Z.of_N (le2n u) mod 2 ^ 255) p -> is_mul d p (le2n (clamp k)) r ->
  let v := Z.of_N (le2n (real_x25519 k u)) in
  (0 <= v < fieldp)%Z /\ (snd r <> 1%Z -> is_u v r) /\ (snd r = 1%Z -> v = 0%Z).
Proof.
  intros k u p r Lk Op N1 Nm U M. destruct (mul_ok p _ r Op M) as [Or Er]. pose proof (on_ok p Op) as O.
  pose proof (ne_1 p Op N1) as P1. pose proof (ne_m1 p Op Nm) as Pm.
  assert (Ex : phi (fe_of_bytes u) * (1 - snd (toP p)) = 1 + snd (toP p)).
  { apply cong_F in U. rewrite <- F_mul, <- F_sub, <- F_add in U. unfold toP. cbn [snd]. change (F 1) with fe1 in U. rewrite <- U. apply (f_equal (fun a => a * _)).
    unfold fe_of_bytes, phi. apply F_eq. rewrite N2Z.inj_mod. change (Z.of_N p25519) with P. rewrite Zmod_mod, N2Z.inj_mod, two255_Z. reflexivity. }
  assert (Nz : (le2n (clamp k) <> 0)%N).
  { pose proof (scalar_range k Lk) as [Ra _]. intro Z. unfold scalar_of in Ra. rewrite Z in Ra. discriminate Ra. }
  unfold real_x25519. destruct (le2n (clamp k)) as [|s]; [destruct (Nz eq_refl)|].
  destruct (ladder_ok (fe_of_bytes u) (toP p) O P1 Pm Ex s) as [A _]. destruct (ladder (fe_of_bytes u) s) as [[x z] w]. cbn [fst] in A. cbv zeta.
  rewrite fe_bytes_num, N.mod_small by apply rmul_lt. rewrite <- Er in A. split; [|split].
  - pose proof (rmul_lt x (rinv z)) as L. change fieldp with (Z.of_N p25519). split; [apply N2Z.is_nonneg|apply N2Z.inj_lt; exact L].
  - intro H. pose proof (ne_1 r Or H) as R1. rewrite (mrep_u (x, z) (toP r) R1 A : rmul x (rinv z) = _). unfold ucoord. rewrite rep_Z. apply cong_F.
    rewrite <- F_mul, <- F_sub, <- F_add, F_fz. change (F 1) with fe1. change (F (snd r)) with (snd (toP r)). field. apply one_sub_nz, R1.
  - intro H. destruct A as [_ A]. cbn [fst snd] in A. assert (Y : snd (toP r) = 1) by (unfold toP; cbn [snd]; rewrite H; reflexivity). rewrite Y in A.
    assert (Z : phi z = 0).
    { apply (fe_cancel _ _ (1 + 1) half_ok). transitivity (phi x * (1 - 1)); [symmetry; exact A|ring]. }
    assert (Q : phi (rmul x (rinv z)) = 0).
    { rewrite phi_mul, phi_inv, Z. assert (I0 : feinv 0 = 0) by (rewrite <- phi_0, <- phi_inv; apply (f_equal phi); vm_compute; reflexivity). rewrite I0. ring. }
    rewrite (rep_eq _ _ (rmul_lt _ _) Q), rep_0. reflexivity.
Qed.

(** *** The group *)
Lemma sum_comm : forall p q r, on_curve d p -> on_curve d q -> is_sum d p q r -> is_sum d q p r.
Proof. intros p q r Op Oq S. apply (sum_ok p q r Op Oq) in S. apply sum_ok; [exact Oq|exact Op|]. rewrite add_comm. exact S. Qed.
Lemma sum_neutral : forall p, on_curve d p -> is_sum d neutral p p.
Proof. intros p Op. apply sum_ok; [exact neutral_on|exact Op|]. split; [exact Op|]. rewrite neutral_P. symmetry. apply add_0. Qed.
Lemma sum_negated : forall p q, on_curve d p -> negated p q -> is_sum d p q neutral.
Proof.
  intros p q Op Hn. destruct (neg_ok p q Op Hn) as [Oq E]. apply sum_ok; [exact Op|exact Oq|]. split; [exact neutral_on|]. rewrite neutral_P, E. symmetry. apply add_neg, on_ok, Op.
Qed.
Lemma sum_assoc : forall p q r pq qr t, on_curve d p -> on_curve d q -> on_curve d r -> is_sum d p q pq -> is_sum d pq r t -> is_sum d q r qr -> is_sum d p qr t.
Proof.
  intros p q r pq qr t Op Oq Or S1 S2 S3. apply (sum_ok p q pq Op Oq) in S1. destruct S1 as [O1 E1]. apply (sum_ok pq r t O1 Or) in S2. destruct S2 as [O2 E2].
  apply (sum_ok q r qr Oq Or) in S3. destruct S3 as [O3 E3]. apply sum_ok; [exact Op|exact O3|]. split; [exact O2|]. rewrite E2, E1, E3. apply add_assoc; apply on_ok; assumption.
Qed.
Lemma base_order_spec : forall B n, is_base d B -> (is_mul d B n neutral <-> (n mod ell = 0)%N).
Proof.
  intros B n HB. pose proof (proj1 HB) as Ob. pose proof (base_P B HB) as E. split.
  - intro M. destruct (mul_ok B n neutral Ob M) as [_ Q]. rewrite E in Q. exact (P_Edwards.emul_order dd ii ii_ok dd_nonsquare n ell base base_on prime_ell base_order base_nz (eq_sym Q)).
  - intro M. pose proof (mul_exists B n Ob) as Q. rewrite E, (emul_mod n ell base base_on base_order), M in Q.
    replace (ofP (emul 0 base)) with neutral in Q; [exact Q|]. symmetry. rewrite <- (ofP_toP neutral neutral_on). reflexivity.
Qed.
End D.

(** *** Public keys *)
Lemma d_exists : is_d (Z.of_N ed_d).
Proof. unfold is_d, cong. vm_compute. reflexivity. Qed.
Lemma emul_base_inj : forall s t, (s < ell)%N -> (t < ell)%N -> emul s base = emul t base -> s = t.
Proof.
  assert (W : forall s t, (s <= t)%N -> (t < ell)%N -> emul s base = emul t base -> s = t).
  { intros s t Le Lt E. pose proof (emul_on s base base_on) as Os. pose proof (emul_on (t - s) base base_on) as Ot.
    assert (Z : emul (t - s) base = ezero).
    { apply (P_Edwards.add_cancel dd ii ii_ok dd_nonsquare _ (emul s base) Ot Os). rewrite <- emul_add by apply base_on. rewrite E. apply (f_equal (fun n => emul n base)). lia. }
    pose proof (P_Edwards.emul_order dd ii ii_ok dd_nonsquare _ ell base base_on prime_ell base_order base_nz Z) as M.
    rewrite N.mod_small in M by (revert Lt; generalize ell; intros; lia). lia. }
  intros s t Ls Lt E. destruct (N.le_ge_cases s t) as [L|L]; [apply W; assumption|symmetry; apply W; [exact L|exact Ls|symmetry; exact E]].
Qed.
Lemma enc_inj : forall p q, enc p = enc q -> on p -> on q -> p = q.
Proof.
  intros p q E Op Oq. pose proof (f_equal fe_of_bytes E) as Y. rewrite !enc_fe in Y. pose proof (f_equal (fun b => ((le2n b / two255) mod 2)%N) E) as X. cbv beta in X. rewrite !enc_high in X.
  apply (dec_unique (enc p)); (split; [assumption|]); split.
  - symmetry. apply enc_fe.
  - right. symmetry. apply enc_high.
  - rewrite <- Y. symmetry. apply enc_fe.
  - right. rewrite <- X. symmetry. apply enc_high.
Qed.
Lemma edbase_inj : forall s t, (s < ell)%N -> (t < ell)%N -> real_edbase s = real_edbase t -> s = t.
Proof. intros s t Ls Lt E. rewrite !edbase_enc in E. apply emul_base_inj; [exact Ls|exact Lt|]. apply enc_inj; [exact E|apply emul_on, base_on|apply emul_on, base_on]. Qed.
Lemma ucoord_inj : forall p q, snd p <> 1 -> snd q <> 1 -> ucoord p = ucoord q -> snd p = snd q.
Proof.
  intros p q Hp Hq E. unfold ucoord in E. apply rep_inj in E. pose proof (one_sub_nz p Hp) as Np. pose proof (one_sub_nz q Hq) as Nq.
  assert (C : (1 + snd p) * (1 - snd q) = (1 + snd q) * (1 - snd p)).
  { transitivity ((1 + snd p) / (1 - snd p) * (1 - snd p) * (1 - snd q)); [field; exact Np|]. rewrite E. field. exact Nq. }
  apply (fe_cancel _ _ (1 + 1) fe_two). clear - C. nsatz.
Qed.
Lemma mont_inj : forall a b, List.length a = 32%nat -> List.length b = 32%nat ->
  ed_to_mont (real_edbase (scalar_of a)) = ed_to_mont (real_edbase (scalar_of b)) -> scalar_of a = scalar_of b \/ (scalar_of a + scalar_of b = ell)%N.
Proof.
  intros a b La Lb E. pose proof (scalar_range a La) as Ra. pose proof (scalar_range b Lb) as Rb. rewrite !real_mont in E by assumption.
  apply (f_equal le2n) in E. rewrite !fe_bytes_num, !N.mod_small in E by apply rep_lt. apply ucoord_inj in E; [|apply mult_y1, Ra|apply mult_y1, Rb].
  set (s := scalar_of a) in *. set (t := scalar_of b) in *. pose proof (emul_on s base base_on) as Os. pose proof (emul_on t base base_on) as Ot.
  assert (X2 : fst (emul s base) * fst (emul s base) = fst (emul t base) * fst (emul t base)) by (rewrite (x_of_y _ Os), (x_of_y _ Ot), E; reflexivity).
  apply fe_sq_cases in X2. destruct X2 as [X|X].
  - left. apply emul_base_inj; [apply Ra|apply Rb|]. destruct (emul s base), (emul t base). cbn [fst snd] in *. apply f_equal2; assumption.
  - right. assert (Q : emul s base = eneg (emul t base)) by (destruct (emul s base), (emul t base); cbn [fst snd eneg] in *; apply f_equal2; assumption).
    assert (Z : emul (s + t) base = ezero) by (rewrite emul_add, Q, add_comm by apply base_on; apply add_neg; exact Ot).
    pose proof (P_Edwards.emul_order dd ii ii_ok dd_nonsquare _ ell base base_on prime_ell base_order base_nz Z) as M. clear - Ra Rb M. revert Ra Rb M. generalize ell. intros l Ra Rb M.
    apply N.mod_divide in M; [|lia]. destruct M as [q M]. assert (C : (q = 0 \/ q = 1 \/ 2 <= q)%N) by lia. destruct C as [->|[->|C]]; nia.
Qed.

Lemma mont_iff : forall a b, List.length a = 32%nat -> List.length b = 32%nat ->
  (ed_to_mont (real_edbase (scalar_of a)) = ed_to_mont (real_edbase (scalar_of b)) <-> scalar_of a = scalar_of b \/ (scalar_of a + scalar_of b = ell)%N).
Proof.
  intros a b La Lb. split; [apply mont_inj; assumption|]. intros [H|H]; [rewrite H; reflexivity|]. rewrite !real_mont by assumption. apply (f_equal fe_bytes).
  pose proof (emul_on (scalar_of b) base base_on) as Ob. pose proof (emul_on (scalar_of a) base base_on) as Oa.
  assert (Z : emul (scalar_of a) base = eneg (emul (scalar_of b) base)).
  { assert (Q : emul (scalar_of a) base ++ emul (scalar_of b) base = ezero) by (rewrite <- emul_add, H by apply base_on; exact base_order).
    assert (On : on (eneg (emul (scalar_of b) base))) by (apply (on_neg dd ii ii_ok), Ob).
    transitivity (emul (scalar_of a) base ++ (emul (scalar_of b) base ++ eneg (emul (scalar_of b) base))).
    - rewrite add_neg by exact Ob. rewrite add_comm. symmetry. apply add_0.
    - rewrite <- add_assoc by assumption. rewrite Q. apply add_0. }
  rewrite Z. reflexivity.
Qed.
