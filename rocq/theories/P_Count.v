(** Orders of points, and how many points a curve -x^2 + y^2 = 1 + d x^2 y^2 can have. *)
From Verif Require Import M_Base M_Crypto M_Aes M_Curve P_Field P_Edwards P_RealCurve P_RealEd.
From Coq Require Import List NArith ZArith Znumtheory Lia Field NsatzTactic ZifyBool ZifyNat ZifyN.
Local Open Scope fe_scope.

Lemma nodup_map_in : forall (A B : Type) (f : A -> B) l, NoDup l -> (forall a b, In a l -> In b l -> f a = f b -> a = b) -> NoDup (map f l).
Proof.
  intros A B f l Nd. induction Nd as [|x l Ni Nd IH]; intro Inj; [constructor|]. cbn [map]. constructor.
  - intro Im. apply in_map_iff in Im. destruct Im as (y & E & Iy). apply Ni. replace x with y; [exact Iy|]. apply Inj; [right; exact Iy|left; reflexivity|exact E].
  - apply IH. intros a b Ia Ib. apply Inj; right; assumption.
Qed.
Section Curve.
Variables d i : fe.
Hypothesis Hi : i * i = - (1).
Hypothesis Hd : forall r, r * r <> d.
Local Notation "p ++ q" := (eadd d p q).
Local Notation onc := (P_Edwards.on d).
Local Notation mul := (P_Edwards.emul d).
Local Notation "a | b" := (N.divide a b) (at level 65).

Lemma pt_dec : forall p q : pt, {p = q} + {p <> q}.
Proof.
  intros [x y] [x' y']. destruct (fe_eq_dec x x') as [->|E]; [|right; intro Q; apply E; exact (f_equal fst Q)].
  destruct (fe_eq_dec y y') as [->|E]; [left; reflexivity|right; intro Q; apply E; exact (f_equal snd Q)].
Qed.
Definition has_order (n : N) (p : pt) : Prop := onc p /\ (0 < n)%N /\ forall j, mul j p = ezero <-> (n | j).

Lemma least : forall (p : pt) n, (exists j, (0 < j <= n)%N /\ mul j p = ezero) ->
  exists m, (0 < m)%N /\ mul m p = ezero /\ forall j, (0 < j < m)%N -> mul j p <> ezero.
Proof.
  intros p n. induction n as [|n IH] using N.peano_ind; intros (j & Lj & E); [lia|].
  assert (Dc : (exists k, (0 < k <= n)%N /\ mul k p = ezero) \/ forall k, (0 < k <= n)%N -> mul k p <> ezero).
  { clear. induction n as [|n IH] using N.peano_ind; [right; intros k L; lia|]. destruct IH as [(k & L & E)|IH]; [left; exists k; split; [lia|exact E]|].
    destruct (pt_dec (mul (N.succ n) p) ezero) as [E|E]; [left; exists (N.succ n); split; [lia|exact E]|right]. intros k L.
    destruct (N.eq_dec k (N.succ n)) as [->|Ne]; [exact E|apply IH; lia]. }
  destruct Dc as [Dc|Dc]; [exact (IH Dc)|]. exists j. split; [lia|split; [exact E|]]. intros k L. apply Dc. lia.
Qed.
Lemma order_exists : forall p n, onc p -> (0 < n)%N -> mul n p = ezero -> exists m, has_order m p /\ (m | n).
Proof.
  intros p n O L E. destruct (least p n) as (m & Lm & Em & Min); [exists n; split; [lia|exact E]|].
  assert (H : forall j, mul j p = ezero <-> (m | j)).
  { intro j. split.
    - intro Ej. apply N.mod_divide; [lia|]. destruct (N.eq_dec (j mod m)%N 0%N) as [Z|Nz]; [exact Z|exfalso]. apply (Min (j mod m)%N).
      + pose proof (N.mod_lt j m ltac:(lia)). lia.
      + rewrite <- (P_Edwards.emul_mod d i Hi Hd j m p O Em). exact Ej.
    - intros [q ->]. rewrite (P_Edwards.emul_mul d i Hi Hd) by exact O. rewrite Em. apply P_Edwards.emul_zero. }
  exists m. split; [split; [exact O|split; [exact Lm|exact H]]|apply H; exact E].
Qed.
Lemma order_prime : forall p l, onc p -> prime (Z.of_N l) -> mul l p = ezero -> p <> ezero -> has_order l p.
Proof.
  intros p l O Pl E Ne. pose proof (prime_ge_2 _ Pl) as L2. split; [exact O|split; [lia|]]. intro j. split.
  - intro Ej. apply N.mod_divide; [lia|]. exact (P_Edwards.emul_order d i Hi Hd j l p O Pl E Ne Ej).
  - intros [q ->]. rewrite (P_Edwards.emul_mul d i Hi Hd) by exact O. rewrite E. apply P_Edwards.emul_zero.
Qed.
Lemma order_multiple : forall p g h, (0 < g)%N -> has_order (g * h) p -> has_order h (mul g p).
Proof.
  intros p g h Lg (O & L & H). split; [apply (P_Edwards.emul_on d i Hi Hd), O|split; [nia|]]. intro j. rewrite <- (P_Edwards.emul_mul d i Hi Hd) by exact O. rewrite H. split.
  - intros [q E]. exists q. apply (N.mul_cancel_l _ _ g); [lia|]. transitivity (j * g)%N; [lia|]. rewrite E. lia.
  - intros [q ->]. exists q. lia.
Qed.
Lemma mul_add_pt : forall n p q, onc p -> onc q -> mul n (p ++ q) = mul n p ++ mul n q.
Proof.
  intros n p q O1 O2. induction n as [|n IH] using N.peano_ind; [symmetry; apply P_Edwards.add_0|]. rewrite !P_Edwards.emul_succ, IH.
  pose proof (P_Edwards.emul_on d i Hi Hd n p O1) as A. pose proof (P_Edwards.emul_on d i Hi Hd n q O2) as B.
  rewrite (P_Edwards.add_assoc d i Hi Hd p q) by auto using (P_Edwards.on_add d i Hi Hd). rewrite (P_Edwards.add_assoc d i Hi Hd p (mul n p)) by auto using (P_Edwards.on_add d i Hi Hd). apply (f_equal (eadd d p)).
  rewrite <- (P_Edwards.add_assoc d i Hi Hd q), (P_Edwards.add_comm d q), (P_Edwards.add_assoc d i Hi Hd) by assumption. reflexivity.
Qed.
Lemma order_sum : forall p q a b, has_order a p -> has_order b q -> N.gcd a b = 1%N -> has_order (a * b) (p ++ q).
Proof.
  intros p q a b (O1 & L1 & H1) (O2 & L2 & H2) G. split; [apply (P_Edwards.on_add d i Hi Hd); assumption|split; [nia|]]. intro j. rewrite mul_add_pt by assumption. split.
  - intro E.
    assert (A : (b | a * j)).
    { apply H2. assert (E' : mul a (mul j p ++ mul j q) = ezero) by (rewrite E; apply P_Edwards.emul_zero).
      rewrite mul_add_pt in E' by (apply (P_Edwards.emul_on d i Hi Hd); assumption). rewrite <- !(P_Edwards.emul_mul d i Hi Hd) in E' by assumption.
      replace (mul (a * j) p) with ezero in E' by (symmetry; apply H1; exists j; lia). rewrite P_Edwards.add_0 in E'. exact E'. }
    assert (B : (a | b * j)).
    { apply H1. assert (E' : mul b (mul j p ++ mul j q) = ezero) by (rewrite E; apply P_Edwards.emul_zero).
      rewrite mul_add_pt in E' by (apply (P_Edwards.emul_on d i Hi Hd); assumption). rewrite <- !(P_Edwards.emul_mul d i Hi Hd) in E' by assumption.
      replace (mul (b * j) q) with ezero in E' by (symmetry; apply H2; exists j; lia). rewrite P_Edwards.add_comm, P_Edwards.add_0 in E'. exact E'. }
    apply N.gauss in A; [|rewrite N.gcd_comm; exact G]. apply N.gauss in B; [|exact G].
    destruct B as [k ->]. rewrite N.mul_comm in A. apply N.gauss in A; [|rewrite N.gcd_comm; exact G]. destruct A as [m ->]. exists m. lia.
  - intros [k ->]. replace (mul (k * (a * b)) p) with ezero by (symmetry; apply H1; exists (k * b)%N; lia).
    rewrite P_Edwards.add_0. apply H2. exists (k * a)%N. lia.
Qed.

(** *** At most 2p points: y and the parity of x determine a point. *)
Lemma den_y : forall y : fe, 1 + d * y * y <> 0.
Proof.
  intros y E. destruct (fe_eq_dec y 0) as [->|Ny]; [apply fe_10; rewrite <- E; ring|]. apply (Hd (i / y)).
  transitivity (i * i / (y * y)); [field; exact Ny|]. rewrite Hi. apply fe_div_eq; [apply fe_mul_nz; exact Ny|].
  transitivity (d * y * y - (1 + d * y * y)); [ring|]. rewrite E. ring.
Qed.
Definition index (p : pt) : N := (2 * rep_of (snd p) + rep_of (fst p) mod 2)%N.
Lemma index_lt : forall p, (index p < 2 * p25519)%N.
Proof.
  intro p. unfold index. pose proof (rep_lt (snd p)) as L. pose proof (N.mod_lt (rep_of (fst p)) 2 ltac:(discriminate)) as M.
  revert L M. generalize (rep_of (snd p)), (rep_of (fst p) mod 2)%N, p25519. intros; lia.
Qed.
Lemma index_inj : forall p q, onc p -> onc q -> index p = index q -> p = q.
Proof.
  intros [x y] [x' y'] O1 O2 E. unfold index in E. cbn [fst snd] in E.
  pose proof (N.mod_lt (rep_of x) 2 ltac:(discriminate)) as M. pose proof (N.mod_lt (rep_of x') 2 ltac:(discriminate)) as M'.
  assert (Ey : rep_of y = rep_of y' /\ (rep_of x mod 2 = rep_of x' mod 2)%N).
  { revert E M M'. generalize (rep_of y), (rep_of y'), (rep_of x mod 2)%N, (rep_of x' mod 2)%N. intros; lia. }
  destruct Ey as [Ey Px]. assert (Y : y = y') by (rewrite <- (phi_rep y), <- (phi_rep y'), Ey; reflexivity). subst y'. clear E Ey M M'.
  unfold P_Edwards.on in O1, O2. cbn [fst snd] in O1, O2.
  assert (X : x * x = x' * x').
  { apply (fe_cancel _ _ (1 + d * y * y) (den_y y)). transitivity (y * y - 1).
    - transitivity (1 + d * x * x * y * y - 1 + x * x); [ring|]. rewrite <- O1. ring.
    - transitivity (1 + d * x' * x' * y * y - 1 + x' * x'); [|ring]. rewrite <- O2. ring. }
  apply fe_sq_cases in X. destruct X as [->|X]; [reflexivity|]. destruct (fe_eq_dec x' 0) as [Z|Nz].
  - subst x'. assert (Q : x = 0) by (rewrite X; ring). rewrite Q. reflexivity.
  - exfalso. rewrite X in Px. rewrite (parity_opp x' Nz) in Px. pose proof (N.mod_lt (rep_of x') 2 ltac:(discriminate)) as M.
    revert Px M. generalize (rep_of x' mod 2)%N. intros; lia.
Qed.
Lemma order_bound : forall n p, has_order n p -> (n <= 2 * p25519)%N.
Proof.
  intros n p (O & L & H). pose proof (fun j => P_Edwards.emul_on d i Hi Hd j p O) as On.
  assert (Inj : forall j k, (j < k)%N -> (k < n)%N -> index (mul j p) <> index (mul k p)).
  { intros j k Ljk Lk E. apply index_inj in E; [|apply On|apply On].
    assert (Z : mul (k - j) p = ezero).
    { apply (P_Edwards.add_cancel d i Hi Hd) with (q := mul j p); [apply On|apply On|]. rewrite <- (P_Edwards.emul_add d i Hi Hd) by exact O.
      replace (k - j + j)%N with k by lia. symmetry. exact E. }
    apply H in Z. apply N.divide_pos_le in Z; lia. }
  set (f := fun j : nat => N.to_nat (index (mul (N.of_nat j) p))).
  assert (Nd : NoDup (map f (seq 0 (N.to_nat n)))).
  { apply nodup_map_in; [apply seq_NoDup|]. intros a b Ia Ib E. apply in_seq in Ia, Ib. unfold f in E. apply N2Nat.inj in E.
    destruct (Nat.lt_trichotomy a b) as [C|[C|C]]; [exfalso|exact C|exfalso].
    - apply (Inj (N.of_nat a) (N.of_nat b)); [lia|lia|exact E].
    - apply (Inj (N.of_nat b) (N.of_nat a)); [lia|lia|symmetry; exact E]. }
  assert (Inc : incl (map f (seq 0 (N.to_nat n))) (seq 0 (N.to_nat (2 * p25519)%N))).
  { intros x Ix. apply in_map_iff in Ix. destruct Ix as (j & <- & _). unfold f. pose proof (index_lt (mul (N.of_nat j) p)) as Lt. apply in_seq.
    revert Lt. generalize (2 * p25519)%N, (index (mul (N.of_nat j) p)). intros; lia. }
  pose proof (NoDup_incl_length Nd Inc) as Q. rewrite map_length, !seq_length in Q. revert Q. generalize (2 * p25519)%N. intros; lia.
Qed.

(** *** Points whose multiples vanish too early *)
Lemma prime_gcd : forall l k, prime (Z.of_N l) -> ~ (l | k) -> N.gcd l k = 1%N.
Proof.
  intros l k Pl Nd. pose proof (N.gcd_divide_l l k) as [a Ea]. pose proof (N.gcd_divide_r l k) as [b Eb]. set (g := N.gcd l k) in *.
  pose proof (prime_ge_2 _ Pl) as L2.
  assert (Dg : Z.divide (Z.of_N g) (Z.of_N l)) by (exists (Z.of_N a); rewrite <- N2Z.inj_mul, <- Ea; reflexivity).
  apply (prime_divisors _ Pl) in Dg. destruct Dg as [Q|[Q|[Q|Q]]]; try lia.
  exfalso. apply Nd. exists b. replace l with g by lia. exact Eb.
Qed.
Lemma small_order : forall l B c T, prime (Z.of_N l) -> has_order l B -> has_order c T -> (c = 4 \/ c = 8)%N -> (128 < l)%N ->
  (2 * p25519 < 16 * l)%N -> (2 * p25519 < 3 * c * l)%N ->
  forall D m, onc D -> (0 < m < l)%N -> mul (16 * m) D = ezero -> mul 8 D = ezero.
Proof.
  intros l B c T Pl HB HT Hc Ll B1 B2 D m O Lm E. revert B1 B2. generalize (order_bound). generalize (2 * p25519)%N. intros P2 Bound B1 B2.
  destruct (order_exists D (16 * m) O ltac:(lia) E) as (n & Hn & Dn).
  assert (Nd : ~ (l | n)).
  { intro Q. assert (Q' : (l | 16 * m)) by (etransitivity; eassumption). apply N.gauss in Q'.
    - apply N.divide_pos_le in Q'; lia.
    - apply prime_gcd; [exact Pl|]. intro X. apply N.divide_pos_le in X; lia. }
  pose proof (Bound _ _ (order_sum _ _ _ _ HB Hn (prime_gcd _ _ Pl Nd))) as L1.
  assert (Ln : (n < 16)%N) by nia.
  assert (G : forall g b, n = (g * b)%N -> (0 < g)%N -> (3 <= b < 16)%N -> N.gcd c b = 1%N -> False).
  { intros g b En Lg Lb Gc. subst n. pose proof (order_multiple _ _ _ Lg Hn) as Hb. pose proof (order_sum _ _ _ _ HT Hb Gc) as Hs.
    assert (Nd' : ~ (l | c * b)) by (intro Q; apply N.divide_pos_le in Q; clear - Q Hc Ll Lb; destruct Hc; subst c; lia).
    pose proof (Bound _ _ (order_sum _ _ _ _ HB Hs (prime_gcd _ _ Pl Nd'))) as L3. clear - L3 B2 Lb. nia. }
  apply Hn. destruct Hn as (_ & L0 & _).
  assert (C : (n = 1 \/ n = 2 \/ n = 4 \/ n = 8 \/ n = 3 \/ n = 5 \/ n = 6 \/ n = 7 \/ n = 9 \/ n = 10 \/ n = 11 \/ n = 12 \/ n = 13 \/ n = 14 \/ n = 15)%N) by lia.
  destruct C as [C|[C|[C|[C|C]]]]; [exists 8%N; lia|exists 4%N; lia|exists 2%N; lia|exists 1%N; lia|exfalso].
  assert (G' : (exists g b, n = g * b /\ 0 < g /\ 3 <= b < 16 /\ N.gcd 4 b = 1 /\ N.gcd 8 b = 1)%N).
  { destruct C as [->|[->|[->|[->|[->|[->|[->|[->|[->|[->| ->]]]]]]]]]].
    - exists 1%N, 3%N. split; [reflexivity|split; [reflexivity|split; [split; [discriminate|reflexivity]|split; reflexivity]]].
    - exists 1%N, 5%N. split; [reflexivity|split; [reflexivity|split; [split; [discriminate|reflexivity]|split; reflexivity]]].
    - exists 2%N, 3%N. split; [reflexivity|split; [reflexivity|split; [split; [discriminate|reflexivity]|split; reflexivity]]].
    - exists 1%N, 7%N. split; [reflexivity|split; [reflexivity|split; [split; [discriminate|reflexivity]|split; reflexivity]]].
    - exists 1%N, 9%N. split; [reflexivity|split; [reflexivity|split; [split; [discriminate|reflexivity]|split; reflexivity]]].
    - exists 2%N, 5%N. split; [reflexivity|split; [reflexivity|split; [split; [discriminate|reflexivity]|split; reflexivity]]].
    - exists 1%N, 11%N. split; [reflexivity|split; [reflexivity|split; [split; [discriminate|reflexivity]|split; reflexivity]]].
    - exists 4%N, 3%N. split; [reflexivity|split; [reflexivity|split; [split; [discriminate|reflexivity]|split; reflexivity]]].
    - exists 1%N, 13%N. split; [reflexivity|split; [reflexivity|split; [split; [discriminate|reflexivity]|split; reflexivity]]].
    - exists 2%N, 7%N. split; [reflexivity|split; [reflexivity|split; [split; [discriminate|reflexivity]|split; reflexivity]]].
    - exists 1%N, 15%N. split; [reflexivity|split; [reflexivity|split; [split; [discriminate|reflexivity]|split; reflexivity]]]. }
  destruct G' as (g & b & En & Lg & Lb & G4 & G8). apply (G g b En Lg Lb). destruct Hc as [->| ->]; assumption.
Qed.
End Curve.
