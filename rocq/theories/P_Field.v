(** The field of 2^255-19 elements, for the proofs about the real curve. *)
From Verif Require Import M_Base M_Crypto M_Aes M_Curve P_Prime P_Curve.
From Coq Require Import ZArith Znumtheory Lia Eqdep_dec Field NsatzTactic Ncring Cring Integral_domain Setoid Morphisms.
Local Open Scope Z_scope.

Record fe := mkfe { fz : Z; fz_ok : Z.eqb (fz mod P) fz = true }.
Lemma fe_eq : forall a b, fz a = fz b -> a = b.
Proof. intros [a Ha] [b Hb] E. cbn [fz] in E. subst b. f_equal. apply UIP_dec. apply Bool.bool_dec. Qed.
Lemma fe_small : forall a, fz a mod P = fz a.
Proof. intros [a Ha]. apply Z.eqb_eq. exact Ha. Qed.
Lemma mk_ok : forall z, Z.eqb ((z mod P) mod P) (z mod P) = true.
Proof. intro z. apply Z.eqb_eq. apply Zmod_mod. Qed.
Definition F (z : Z) : fe := mkfe (z mod P) (mk_ok z).
Definition fe0 := F 0. Definition fe1 := F 1.
Definition feadd (a b : fe) := F (fz a + fz b).
Definition femul (a b : fe) := F (fz a * fz b).
Definition feopp (a : fe) := F (- fz a).
Definition fesub (a b : fe) := F (fz a - fz b).
Definition feinv (a : fe) := F (fz a ^ (P - 2)).
Definition fediv (a b : fe) := femul a (feinv b).
Lemma P_nz : P <> 0. Proof. pose proof P_pos. lia. Qed.
Lemma F_fz : forall a, F (fz a) = a.
Proof. intro a. apply fe_eq. cbn [F fz]. apply fe_small. Qed.
Lemma F_eq : forall a b, a mod P = b mod P -> F a = F b.
Proof. intros a b E. apply fe_eq. cbn [F fz]. exact E. Qed.
Lemma F_inj : forall a b, F a = F b -> a mod P = b mod P.
Proof. intros a b E. exact (f_equal fz E). Qed.
Lemma F_add : forall a b, feadd (F a) (F b) = F (a + b).
Proof. intros. apply F_eq. cbn [F fz]. symmetry. apply Zplus_mod. Qed.
Lemma F_mul : forall a b, femul (F a) (F b) = F (a * b).
Proof. intros. apply F_eq. cbn [F fz]. symmetry. apply Zmult_mod. Qed.
Lemma F_sub : forall a b, fesub (F a) (F b) = F (a - b).
Proof. intros. apply F_eq. cbn [F fz]. symmetry. apply Zminus_mod. Qed.
Lemma F_opp : forall a, feopp (F a) = F (- a).
Proof. intros. apply F_eq. cbn [F fz]. change (- (a mod P)) with (0 - a mod P). rewrite Zminus_mod_idemp_r. reflexivity. Qed.
Lemma fe_ind : forall Q : fe -> Prop, (forall z, Q (F z)) -> forall a, Q a.
Proof. intros Q HQ a. rewrite <- (F_fz a). apply HQ. Qed.
Ltac fe_all := repeat match goal with |- forall a : fe, _ => refine (fe_ind _ _); intro end.
Lemma fe_ring : ring_theory fe0 fe1 feadd femul fesub feopp eq.
Proof.
  constructor; unfold fe0, fe1; fe_all; rewrite ?F_opp, ?F_add, ?F_mul, ?F_add, ?F_mul, ?F_sub; f_equal; ring.
Qed.
Lemma F_nz : forall a, F a <> fe0 <-> ~ (P | a).
Proof.
  intro a. split; intros Hn D; apply Hn.
  - apply F_eq. apply Z.mod_divide in D; [|exact P_nz]. rewrite D. reflexivity.
  - apply F_inj in D. rewrite Z.mod_0_l in D by exact P_nz. apply Z.mod_divide in D; [exact D|exact P_nz].
Qed.
Lemma fe_inv : forall a, a <> fe0 -> femul (feinv a) a = fe1.
Proof.
  intros a Ha. rewrite <- (F_fz a) in Ha. apply F_nz in Ha. unfold feinv. rewrite <- (F_fz a) at 2. rewrite F_mul. apply F_eq.
  replace (fz a ^ (P - 2) * fz a) with (fz a ^ (P - 1)).
  - rewrite fermat; [reflexivity|exact P_prime|exact Ha].
  - pose proof P_pos. replace (P - 1) with (Z.succ (P - 2)) by lia. rewrite Z.pow_succ_r by lia. ring.
Qed.
Lemma fe_10 : fe1 <> fe0.
Proof. apply F_nz. intro D. apply Z.divide_pos_le in D; [pose proof P_pos; lia|lia]. Qed.
Lemma fe_field : field_theory fe0 fe1 feadd femul fesub feopp fediv feinv eq.
Proof. constructor; [exact fe_ring|exact fe_10|reflexivity|exact fe_inv]. Qed.
Declare Scope fe_scope.
Delimit Scope fe_scope with fe.
Infix "+" := feadd : fe_scope. Infix "*" := femul : fe_scope. Infix "-" := fesub : fe_scope. Notation "- a" := (feopp a) : fe_scope. Infix "/" := fediv : fe_scope.
Notation "0" := fe0 : fe_scope. Notation "1" := fe1 : fe_scope.
Lemma fe_integral : forall a b : fe, femul a b = fe0 -> a = fe0 \/ b = fe0.
Proof.
  fe_all. intros E. rewrite F_mul in E. apply F_inj in E. rewrite Z.mod_0_l in E by exact P_nz. apply Z.mod_divide in E; [|exact P_nz].
  apply prime_mult in E; [|exact P_prime]. destruct E as [E|E]; [left|right]; apply F_eq; apply Z.mod_divide in E; try exact P_nz; rewrite E; reflexivity.
Qed.
Lemma fe_eq_dec : forall a b : fe, {a = b} + {a <> b}.
Proof. intros a b. destruct (Z.eq_dec (fz a) (fz b)) as [E|E]; [left; apply fe_eq; exact E|right; intro X; apply E; rewrite X; reflexivity]. Qed.
Add Field fe_field_inst : fe_field.

(** For [nsatz]. *)
#[global] Instance fe_ops : @Ring_ops fe fe0 fe1 feadd femul fesub feopp (@eq fe) := {}.
#[global] Instance fe_ring_i : Ring (Ro := fe_ops).
Proof.
  constructor.
  - exact eq_equivalence.
  - intros a b E c d E'. change (feadd a c = feadd b d). f_equal; [exact E|exact E'].
  - intros a b E c d E'. change (femul a c = femul b d). f_equal; [exact E|exact E'].
  - intros a b E c d E'. change (fesub a c = fesub b d). f_equal; [exact E|exact E'].
  - intros a b E. change (feopp a = feopp b). f_equal. exact E.
  - intro x. change (feadd fe0 x = x). ring.
  - intros x y. change (feadd x y = feadd y x). ring.
  - intros x y z. change (feadd x (feadd y z) = feadd (feadd x y) z). ring.
  - intro x. change (femul fe1 x = x). ring.
  - intro x. change (femul x fe1 = x). ring.
  - intros x y z. change (femul x (femul y z) = femul (femul x y) z). ring.
  - intros x y z. change (femul (feadd x y) z = feadd (femul x z) (femul y z)). ring.
  - intros x y z. change (femul z (feadd x y) = feadd (femul z x) (femul z y)). ring.
  - intros x y. change (fesub x y = feadd x (feopp y)). ring.
  - intro x. change (feadd x (feopp x) = fe0). ring.
Qed.
#[global] Instance fe_cring : Cring (Rr := fe_ring_i).
Proof. intros x y. change (femul x y = femul y x). ring. Qed.
#[global] Instance fe_dom : Integral_domain (Rcr := fe_cring).
Proof. constructor; [exact fe_integral|exact fe_10]. Qed.
