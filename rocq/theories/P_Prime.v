(** Fermat's little theorem, Pocklington's criterion, and the primality of 2^255 - 19. *)
From Coq Require Import ZArith Znumtheory Lia List Permutation Zpow_facts.
Import ListNotations.
Local Open Scope Z_scope.

Fixpoint zprod (l : list Z) : Z := match l with [] => 1 | x :: r => x * zprod r end.

Lemma zprod_perm : forall l l', Permutation l l' -> zprod l = zprod l'.
Proof. induction 1; simpl; lia. Qed.

Definition range1 (q : Z) : list Z := map Z.of_nat (seq 1 (Z.to_nat q - 1)).

Lemma in_range1 : forall q x, In x (range1 q) <-> 1 <= x < q.
Proof.
  intros q x. unfold range1. rewrite in_map_iff. split.
  - intros (n & <- & Hn). apply in_seq in Hn. lia.
  - intro H. exists (Z.to_nat x). split; [lia|]. apply in_seq. lia.
Qed.
Lemma nodup_range1 : forall q, NoDup (range1 q).
Proof. intro q. unfold range1. apply FinFun.Injective_map_NoDup; [intros a b; lia|apply seq_NoDup]. Qed.
Lemma length_range1 : forall q, length (range1 q) = (Z.to_nat q - 1)%nat.
Proof. intro q. unfold range1. rewrite map_length, seq_length. reflexivity. Qed.

Lemma zprod_map_mul : forall q a l, 0 < q ->
  zprod (map (fun x => (a * x) mod q) l) mod q = (a ^ Z.of_nat (length l) * zprod l) mod q.
Proof.
  intros q a l Hq. induction l as [|x l IH]; [reflexivity|].
  cbn [map zprod length]. rewrite Nat2Z.inj_succ, Z.pow_succ_r by lia.
  rewrite Z.mul_mod, IH, Z.mod_mod, <- Z.mul_mod by lia. f_equal. ring.
Qed.

Lemma rel_prime_zprod : forall q l, (forall x, In x l -> rel_prime q x) -> rel_prime q (zprod l).
Proof.
  induction l as [|x l IH]; intro H; cbn [zprod].
  - apply rel_prime_sym, rel_prime_1.
  - apply rel_prime_mult; [apply H; left; auto|apply IH; intros; apply H; right; auto].
Qed.

Lemma mod_eq_divide : forall q a b, 0 < q -> a mod q = b mod q -> (q | a - b).
Proof.
  intros q a b Hq H. apply Zmod_divide; [lia|].
  rewrite Zminus_mod, H, Z.sub_diag. apply Z.mod_0_l. lia.
Qed.

Lemma mod_cancel : forall q c a b, 0 < q -> rel_prime q c ->
  (a * c) mod q = (b * c) mod q -> a mod q = b mod q.
Proof.
  intros q c a b Hq Hr H. apply mod_eq_divide in H; [|auto].
  replace (a * c - b * c) with (c * (a - b)) in H by ring.
  apply Gauss in H; [|auto]. destruct H as [k Hk].
  replace a with (b + k * q) by lia. apply Z.mod_add; lia.
Qed.

Theorem fermat : forall q a, prime q -> ~ (q | a) -> a ^ (q - 1) mod q = 1.
Proof.
  intros q a Hp Hd. pose proof (prime_ge_2 q Hp) as Hq.
  assert (Hra : rel_prime q a) by (apply prime_rel_prime; auto).
  set (f := fun x => (a * x) mod q).
  assert (Hperm : Permutation (map f (range1 q)) (range1 q)).
  { apply NoDup_Permutation_bis.
    - assert (G : forall l, NoDup l -> (forall x, In x l -> 1 <= x < q) -> NoDup (map f l)).
      { induction l as [|x l IH]; intros Hn Hi; cbn [map]; constructor.
        - rewrite in_map_iff. intros (y & Hy & Hin).
          inversion Hn; subst. apply H1.
          assert (E : y mod q = x mod q).
          { apply (mod_cancel q a); [lia|auto|]. unfold f in Hy.
            rewrite (Z.mul_comm y), (Z.mul_comm x). exact Hy. }
          pose proof (Hi x (or_introl eq_refl)). pose proof (Hi y (or_intror Hin)).
          rewrite !Z.mod_small in E by lia. subst; auto.
        - inversion Hn; apply IH; auto. intros; apply Hi; right; auto. }
      apply G; [apply nodup_range1|intros x Hx; apply in_range1; auto].
    - rewrite map_length. lia.
    - intros y Hy. apply in_map_iff in Hy as (x & <- & Hx). apply in_range1 in Hx.
      apply in_range1. unfold f. pose proof (Z.mod_pos_bound (a * x) q).
      assert ((a * x) mod q <> 0); [|lia].
      intro E. apply Zmod_divide in E; [|lia]. apply Gauss in E; auto.
      apply Z.divide_pos_le in E; lia. }
  apply zprod_perm in Hperm.
  assert (E := zprod_map_mul q a (range1 q) ltac:(lia)).
  fold f in E. rewrite Hperm, length_range1 in E.
  replace (Z.of_nat (Z.to_nat q - 1)) with (q - 1) in E by lia.
  assert (R : rel_prime q (zprod (range1 q))).
  { apply rel_prime_zprod. intros x Hx. apply in_range1 in Hx. apply prime_rel_prime; auto.
    intro D. apply Z.divide_pos_le in D; lia. }
  rewrite <- (Z.mul_1_l (zprod (range1 q))) in E at 1.
  apply mod_cancel in E; [|lia|auto].
  rewrite <- E. apply Z.mod_small. lia.
Qed.

Lemma pow_mod_1 : forall q b e, 1 < q -> b mod q = 1 -> 0 <= e -> b ^ e mod q = 1.
Proof.
  intros q b e Hq Hb He. rewrite Zpower_mod, Hb, Z.pow_1_l by lia. apply Z.mod_small. lia.
Qed.

(** The order of [b] divides [m] when it is the prime [r]. *)
Lemma order_prime : forall q b r m, 1 < q -> prime r -> 0 <= m ->
  b ^ r mod q = 1 -> b ^ m mod q = 1 -> b mod q <> 1 -> (r | m).
Proof.
  intros q b r m Hq Hr Hm H1 H2 H3.
  pose proof (prime_ge_2 r Hr).
  destruct (Zdivide_dec r m) as [D|D]; auto. exfalso. apply H3.
  assert (R : rel_prime r m) by (apply prime_rel_prime; auto).
  apply rel_prime_bezout in R. destruct R as [u v Huv].
  set (x := v mod r). pose proof (Z.mod_pos_bound v r ltac:(lia)) as Hx. fold x in Hx.
  assert (E : (x * m) mod r = 1).
  { unfold x. rewrite Z.mul_mod_idemp_l by lia.
    replace (v * m) with (1 + (- u) * r) by lia. rewrite Z.mod_add by lia.
    apply Z.mod_small; lia. }
  pose proof (Z.div_mod (x * m) r ltac:(lia)) as Dm. rewrite E in Dm.
  set (y := x * m / r) in *.
  assert (0 <= y) by (apply Z.div_pos; nia).
  assert (P1 : b ^ (m * x) mod q = 1).
  { rewrite Z.pow_mul_r by lia. apply pow_mod_1; auto; lia. }
  replace (m * x) with (r * y + 1) in P1 by lia.
  rewrite Z.pow_add_r, Z.pow_mul_r, Z.pow_1_r in P1 by lia.
  rewrite Z.mul_mod, (pow_mod_1 q (b ^ r) y), Z.mul_1_l, Z.mod_mod in P1 by lia.
  exact P1.
Qed.

Lemma mod_divide_mod : forall n q a, 0 < q -> 0 < n -> (q | n) -> (a mod n) mod q = a mod q.
Proof.
  intros n q a Hq Hn [k Hk]. subst n.
  rewrite (Z.mul_comm k q). rewrite Z.rem_mul_r by nia.
  rewrite (Z.mul_comm q), Z.mod_add, Z.mod_mod by lia. reflexivity.
Qed.

(** One Pocklington step: [r] divides [q - 1] for every prime divisor [q] of [n]. *)
Lemma pock_step : forall n r a q, 1 < n -> prime r -> (r | n - 1) ->
  a ^ (n - 1) mod n = 1 -> Z.gcd (a ^ ((n - 1) / r) mod n - 1) n = 1 ->
  prime q -> (q | n) -> (r | q - 1).
Proof.
  intros n r a q Hn Hr [k Hk] Ha Hg Hp Hd.
  pose proof (prime_ge_2 r Hr) as R2. pose proof (prime_ge_2 q Hp) as Q2.
  assert (Ek : (n - 1) / r = k) by (rewrite Hk; apply Z.div_mul; lia). rewrite Ek in Hg.
  assert (Hk0 : 0 <= k) by nia.
  apply (order_prime q (a ^ k) r (q - 1)); try lia; auto.
  - rewrite <- Z.pow_mul_r by lia. rewrite <- Hk.
    rewrite <- (mod_divide_mod n q) by (auto; lia). rewrite Ha. apply Z.mod_small; lia.
  - apply fermat; auto. intro D.
    assert (D' : (q | a ^ (n - 1))).
    { replace (n - 1) with (k * r) by lia. rewrite Z.pow_mul_r by lia.
      replace r with (Z.succ (r - 1)) by lia. rewrite Z.pow_succ_r by lia.
      apply Z.divide_mul_l; auto. }
    assert (Z0 : a ^ (n - 1) mod q = 0) by (apply Z.mod_divide; auto; lia).
    rewrite <- (mod_divide_mod n q), Ha, Z.mod_small in Z0 by (auto; lia). lia.
  - intro E.
    assert (D : (q | a ^ k mod n - 1)).
    { apply Zmod_divide; [lia|]. rewrite Zminus_mod, (mod_divide_mod n q), E by (auto; lia).
      rewrite (Z.mod_small 1) by lia. rewrite Z.sub_diag. apply Z.mod_0_l; lia. }
    assert (D1 : (q | 1)) by (rewrite <- Hg; apply Z.gcd_greatest; auto).
    apply Z.divide_pos_le in D1; lia.
Qed.

Lemma no_small_prime : forall n, 1 < n ->
  (forall q, prime q -> (q | n) -> n < q * q) -> prime n.
Proof.
  intros n Hn H. destruct (prime_dec n) as [P|NP]; auto. exfalso.
  apply not_prime_divide in NP; [|lia]. destruct NP as (d & Hd & [k Hk]).
  assert (G : forall m, 1 < m -> m <= Z.of_nat (Z.to_nat m) -> exists q, prime q /\ (q | m)).
  { intros m Hm _. remember (Z.to_nat m) as t. revert m Hm Heqt.
    induction t as [t IH] using lt_wf_ind; intros m Hm Ht.
    destruct (prime_dec m) as [P|NP']; [exists m; split; auto; apply Z.divide_refl|].
    apply not_prime_divide in NP'; [|lia]. destruct NP' as (e & He & De).
    destruct (IH (Z.to_nat e) ltac:(lia) e ltac:(lia) eq_refl) as (q & Pq & Dq).
    exists q; split; auto. eapply Z.divide_trans; eauto. }
  assert (Hk1 : 1 < k) by nia.
  destruct (G d ltac:(lia) ltac:(lia)) as (q1 & P1 & D1).
  destruct (G k ltac:(lia) ltac:(lia)) as (q2 & P2 & D2).
  assert (n < q1 * q1) by (apply H; auto; rewrite Hk; apply Z.divide_mul_r; auto).
  assert (n < q2 * q2) by (apply H; auto; rewrite Hk; apply Z.divide_mul_l; auto).
  pose proof (prime_ge_2 _ P1). pose proof (prime_ge_2 _ P2).
  apply Z.divide_pos_le in D1; [|lia]. apply Z.divide_pos_le in D2; [|lia].
  assert (q1 * q2 <= n) by nia. nia.
Qed.

Lemma pock1 : forall n r a, 1 < n -> prime r -> (r | n - 1) ->
  a ^ (n - 1) mod n = 1 -> Z.gcd (a ^ ((n - 1) / r) mod n - 1) n = 1 ->
  n < r * r -> prime n.
Proof.
  intros n r a Hn Hr Hd Ha Hg Hs. apply no_small_prime; auto. intros q Pq Dq.
  assert (D : (r | q - 1)) by (eapply pock_step; eauto).
  pose proof (prime_ge_2 _ Pq). pose proof (prime_ge_2 _ Hr).
  apply Z.divide_pos_le in D; [|lia]. nia.
Qed.

Lemma pock2 : forall n r s a b, 1 < n -> prime r -> prime s -> r <> s ->
  (r | n - 1) -> (s | n - 1) ->
  a ^ (n - 1) mod n = 1 -> Z.gcd (a ^ ((n - 1) / r) mod n - 1) n = 1 ->
  b ^ (n - 1) mod n = 1 -> Z.gcd (b ^ ((n - 1) / s) mod n - 1) n = 1 ->
  n < (r * s) * (r * s) -> prime n.
Proof.
  intros n r s a b Hn Hr Hs Hne Hdr Hds Ha Hg Hb Hgb Hsz. apply no_small_prime; auto. intros q Pq Dq.
  assert (D1 : (r | q - 1)) by (eapply (pock_step n r a); eauto).
  assert (D2 : (s | q - 1)) by (eapply (pock_step n s b); eauto).
  pose proof (prime_ge_2 _ Pq). pose proof (prime_ge_2 _ Hr). pose proof (prime_ge_2 _ Hs).
  assert (RP : rel_prime r s).
  { apply prime_rel_prime; auto. intro D. apply prime_div_prime in D; auto. }
  assert (D : (r * s | q - 1)).
  { destruct D1 as [k Hk]. rewrite Hk in D2. rewrite Z.mul_comm in D2.
    apply Gauss in D2; [|apply rel_prime_sym; auto]. destruct D2 as [j Hj].
    exists j. rewrite Hk, Hj. ring. }
  apply Z.divide_pos_le in D; [|lia]. nia.
Qed.

(** Executable checks. *)
Fixpoint zpowm_pos (m b : Z) (e : positive) : Z :=
  match e with
  | xH => b mod m
  | xO e' => let r := zpowm_pos m b e' in (r * r) mod m
  | xI e' => let r := zpowm_pos m b e' in (((r * r) mod m) * b) mod m
  end.
Lemma zpowm_pos_ok : forall m b e, 0 < m -> zpowm_pos m b e = b ^ (Z.pos e) mod m.
Proof.
  intros m b e Hm. induction e as [e IH|e IH|]; cbn [zpowm_pos].
  - rewrite IH. rewrite Pos2Z.inj_xI. replace (2 * Z.pos e + 1) with (Z.pos e + Z.pos e + 1) by lia.
    rewrite !Z.pow_add_r, Z.pow_1_r by lia.
    rewrite <- Z.mul_mod, Z.mul_mod_idemp_l by lia. reflexivity.
  - rewrite IH. rewrite Pos2Z.inj_xO. replace (2 * Z.pos e) with (Z.pos e + Z.pos e) by lia.
    rewrite Z.pow_add_r by lia. rewrite <- Z.mul_mod by lia. reflexivity.
  - rewrite Z.pow_1_r. reflexivity.
Qed.
Definition zpowm (m b e : Z) : Z :=
  match e with Z.pos q => zpowm_pos m b q | Z0 => 1 mod m | Z.neg _ => 0 end.
Lemma zpowm_ok : forall m b e, 0 < m -> 0 <= e -> zpowm m b e = b ^ e mod m.
Proof. intros m b e Hm He. destruct e; cbn [zpowm]; [reflexivity|apply zpowm_pos_ok; auto|lia]. Qed.

Fixpoint no_div (n : Z) (d : Z) (fuel : nat) : bool :=
  match fuel with
  | O => true
  | S f => negb (n mod d =? 0) && no_div n (d + 1) f
  end.
Lemma no_div_ok : forall n f d, 0 < d -> no_div n d f = true ->
  forall x, d <= x < d + Z.of_nat f -> ~ (x | n).
Proof.
  intros n. induction f as [|f IH]; intros d Hd H x Hx; [lia|].
  cbn [no_div] in H. apply andb_prop in H as [H1 H2].
  destruct (Z.eq_dec x d) as [->|Ne].
  - intro D. apply Z.mod_divide in D; [|lia]. rewrite D in H1. discriminate.
  - apply (IH (d + 1)); auto; lia.
Qed.
Definition small_prime_b (n : Z) : bool := (1 <? n) && no_div n 2 (Z.to_nat (n - 2)).
Lemma small_prime_ok : forall n, small_prime_b n = true -> prime n.
Proof.
  intros n H. apply andb_prop in H as [H1 H2]. apply Z.ltb_lt in H1.
  destruct (prime_dec n) as [P|NP]; auto. exfalso.
  apply not_prime_divide in NP; auto. destruct NP as (d & Hd & D).
  apply (no_div_ok n (Z.to_nat (n - 2)) 2) in D; auto; lia.
Qed.

Definition pock1_b (n r a : Z) : bool :=
  (1 <? n) && (0 <? r) && ((n - 1) mod r =? 0) && (zpowm n a (n - 1) =? 1)
  && (Z.gcd (zpowm n a ((n - 1) / r) - 1) n =? 1) && (n <? r * r).
Lemma pock1_b_ok : forall n r a, pock1_b n r a = true -> prime r -> prime n.
Proof.
  intros n r a H Hr. unfold pock1_b in H.
  repeat (apply andb_prop in H as [H ?]).
  apply Z.ltb_lt in H. apply Z.ltb_lt in H0, H4. apply Z.eqb_eq in H1, H2, H3.
  assert (0 <= (n - 1) / r) by (apply Z.div_pos; lia).
  rewrite zpowm_ok in H1, H2 by lia.
  apply (pock1 n r a); auto. apply Z.mod_divide; auto; lia.
Qed.
Definition pock2_b (n r s a b : Z) : bool :=
  (1 <? n) && (0 <? r) && (0 <? s) && ((n - 1) mod r =? 0) && ((n - 1) mod s =? 0) && negb (r =? s)
  && (zpowm n a (n - 1) =? 1) && (zpowm n b (n - 1) =? 1)
  && (Z.gcd (zpowm n a ((n - 1) / r) - 1) n =? 1) && (Z.gcd (zpowm n b ((n - 1) / s) - 1) n =? 1)
  && (n <? (r * s) * (r * s)).
Lemma pock2_b_ok : forall n r s a b, pock2_b n r s a b = true -> prime r -> prime s -> prime n.
Proof.
  intros n r s a b H Hr Hs. unfold pock2_b in H.
  repeat (apply andb_prop in H as [H ?]).
  apply Z.ltb_lt in H. apply Z.ltb_lt in H0, H8, H9. apply Z.eqb_eq in H1, H2, H3, H4, H6, H7.
  apply Bool.negb_true_iff, Z.eqb_neq in H5.
  assert (0 <= (n - 1) / r) by (apply Z.div_pos; lia).
  assert (0 <= (n - 1) / s) by (apply Z.div_pos; lia).
  rewrite zpowm_ok in H1, H2, H3, H4 by lia.
  apply (pock2 n r s a b); auto; apply Z.mod_divide; auto; lia.
Qed.

Ltac small := apply small_prime_ok; vm_compute; reflexivity.
Ltac by1 r a := apply (pock1_b_ok _ r a); [vm_compute; reflexivity|].
Ltac by2 r s a b := apply (pock2_b_ok _ r s a b); [vm_compute; reflexivity| |].

Lemma prime_8574133 : prime 8574133. Proof. by2 991 103 2 2; small. Qed.
Lemma prime_q1 : prime 1919519569386763. Proof. by2 8574133 127 2 2; [apply prime_8574133|small]. Qed.
Lemma prime_569003 : prime 569003. Proof. by2 419 97 2 2; small. Qed.
Lemma prime_2773320623 : prime 2773320623. Proof. by1 569003 2. apply prime_569003. Qed.
Lemma prime_q2 : prime 72106336199. Proof. by1 2773320623 2. apply prime_2773320623. Qed.
Lemma prime_q3 : prime 75445702479781427272750846543864801.
Proof. by2 1919519569386763 72106336199 2 2; [apply prime_q1|apply prime_q2]. Qed.
Lemma prime_430751 : prime 430751. Proof. by1 1723 2. small. Qed.
Lemma prime_4153 : prime 4153. Proof. by1 173 2. small. Qed.
Lemma prime_q4 : prime 31757755568855353.
Proof. by2 430751 4153 2 2; [apply prime_430751|apply prime_4153]. Qed.
Lemma prime_q5 : prime 74058212732561358302231226437062788676166966415465897661863160754340907.
Proof.
  by2 75445702479781427272750846543864801 31757755568855353 2 2; [apply prime_q3|apply prime_q4].
Qed.
Theorem prime_25519 : prime (2 ^ 255 - 19).
Proof.
  replace (2 ^ 255 - 19)
    with 57896044618658097711785492504343953926634992332820282019728792003956564819949
    by (vm_compute; reflexivity).
  by1 74058212732561358302231226437062788676166966415465897661863160754340907 2. apply prime_q5.
Qed.
