From Verif Require Import M_Base M_Crypto M_Aes M_Curve S_Crypto P_Base P_Prime.
From Coq Require Import Znumtheory ZifyBool ZifyNat ZifyN Setoid Morphisms.
Local Open Scope nat_scope.
Ltac Zify.zify_post_hook ::= Z.div_mod_to_equations.

(** ** Field arithmetic *)
Lemma powm_pos_ok : forall m b e, (0 < m)%N -> powm_pos m b e = (b ^ (Npos e) mod m)%N.
Proof.
  intros m b e Hm. induction e as [e IH|e IH|]; cbn [powm_pos].
  - rewrite IH. replace (N.pos e~1) with (N.pos e + N.pos e + 1)%N by lia.
    rewrite !N.pow_add_r, N.pow_1_r.
    rewrite <- N.mul_mod, N.mul_mod_idemp_l by lia. reflexivity.
  - rewrite IH. replace (N.pos e~0) with (N.pos e + N.pos e)%N by lia.
    rewrite N.pow_add_r. rewrite <- N.mul_mod by lia. reflexivity.
  - rewrite N.pow_1_r. reflexivity.
Qed.
Lemma powm_ok : forall m b e, (0 < m)%N -> powm m b e = (b ^ e mod m)%N.
Proof. intros m b e Hm. destruct e; cbn [powm]; [reflexivity|apply powm_pos_ok; auto]. Qed.

Notation P := (Z.of_N p25519).
Lemma P_val : P = (2 ^ 255 - 19)%Z. Proof. vm_compute; reflexivity. Qed.
Lemma P_prime : prime P. Proof. rewrite P_val. exact prime_25519. Qed.
Lemma P_pos : (P > 1)%Z. Proof. vm_compute; reflexivity. Qed.

Notation "a == b" := (a mod P = b mod P)%Z (at level 70).

Lemma finv_ok : forall a, (a mod p25519 <> 0)%N -> (Z.of_N a * Z.of_N (finv a) == 1)%Z.
Proof.
  intros a Ha. unfold finv. rewrite powm_ok by (vm_compute; reflexivity).
  rewrite N2Z.inj_mod by (vm_compute; discriminate).
  rewrite Z.mul_mod_idemp_r by (vm_compute; discriminate).
  rewrite N2Z.inj_pow. rewrite <- Z.pow_succ_r by (apply N2Z.is_nonneg).
  replace (Z.succ (Z.of_N (p25519 - 2))) with (P - 1)%Z by (vm_compute; reflexivity).
  rewrite fermat; [reflexivity|exact P_prime|].
  intro D. apply Ha. apply N2Z.inj. rewrite N2Z.inj_mod by (vm_compute; discriminate).
  apply Z.mod_divide in D; [exact D|vm_compute; discriminate].
Qed.

Lemma fmul_z : forall a b, (Z.of_N (fmul a b) = (Z.of_N a * Z.of_N b) mod P)%Z.
Proof. intros. unfold fmul. rewrite N2Z.inj_mod, N2Z.inj_mul by (vm_compute; discriminate). reflexivity. Qed.
Lemma fadd_z : forall a b, (Z.of_N (fadd a b) = (Z.of_N a + Z.of_N b) mod P)%Z.
Proof. intros. unfold fadd. rewrite N2Z.inj_mod, N2Z.inj_add by (vm_compute; discriminate). reflexivity. Qed.
Lemma fsub_z : forall a b, (Z.of_N (fsub a b) = (Z.of_N a - Z.of_N b) mod P)%Z.
Proof.
  intros. unfold fsub. rewrite N2Z.inj_mod by (vm_compute; discriminate).
  assert (b mod p25519 < p25519)%N by (apply N.mod_lt; vm_compute; discriminate).
  rewrite N2Z.inj_add, N2Z.inj_sub by lia. rewrite N2Z.inj_mod by (vm_compute; discriminate).
  pose proof P_pos.
  replace (Z.of_N a + (P - Z.of_N b mod P))%Z with (Z.of_N a - Z.of_N b mod P + 1 * P)%Z by ring.
  rewrite Z.mod_add by lia. rewrite Zminus_mod_idemp_r. reflexivity.
Qed.

Lemma cong_add : forall a b c d, (a == b -> c == d -> a + c == b + d)%Z.
Proof. intros a b c d H1 H2. rewrite Zplus_mod, H1, H2, <- Zplus_mod. reflexivity. Qed.
Lemma cong_sub : forall a b c d, (a == b -> c == d -> a - c == b - d)%Z.
Proof. intros a b c d H1 H2. rewrite Zminus_mod, H1, H2, <- Zminus_mod. reflexivity. Qed.
Lemma cong_mul : forall a b c d, (a == b -> c == d -> a * c == b * d)%Z.
Proof. intros a b c d H1 H2. rewrite Zmult_mod, H1, H2, <- Zmult_mod. reflexivity. Qed.
Lemma cong_mod : forall a, (a mod P == a)%Z.
Proof. intro. apply Zmod_mod. Qed.

Lemma nonzero_mod : forall a, ~ (Z.of_N a == 0)%Z -> (a mod p25519 <> 0)%N.
Proof.
  intros a H E. apply H. rewrite Z.mod_0_l by (vm_compute; discriminate).
  change 0%Z with (Z.of_N 0). rewrite <- E. rewrite N2Z.inj_mod by (vm_compute; discriminate). reflexivity.
Qed.

(** The birational map and back. *)
Lemma bi_plus : forall y d i u : Z, (d == 1 - y)%Z -> (d * i == 1)%Z -> (u == (1 + y) * i)%Z ->
  ((u + 1) * d == 2)%Z /\ ((u - 1) * d == 2 * y)%Z.
Proof.
  intros y d i u Hd Hdi Hu.
  assert (Ud : (u * d == 1 + y)%Z).
  { transitivity (((1 + y) * i * d) mod P)%Z; [apply cong_mul; auto|].
    replace ((1 + y) * i * d)%Z with ((1 + y) * (d * i))%Z by ring.
    transitivity (((1 + y) * 1) mod P)%Z; [apply cong_mul; auto|f_equal; ring]. }
  split.
  - replace ((u + 1) * d)%Z with (u * d + d)%Z by ring.
    transitivity (((1 + y) + (1 - y)) mod P)%Z; [apply cong_add; auto|f_equal; ring].
  - replace ((u - 1) * d)%Z with (u * d - d)%Z by ring.
    transitivity (((1 + y) - (1 - y)) mod P)%Z; [apply cong_sub; auto|f_equal; ring].
Qed.
Lemma bi_back : forall y d u w y' : Z, ((u + 1) * d == 2)%Z -> ((u - 1) * d == 2 * y)%Z ->
  ((u + 1) * w == 1)%Z -> (y' == (u - 1) * w)%Z -> (y' * 2 == y * 2)%Z.
Proof.
  intros y d u w y' Up Um Hw Hy.
  transitivity ((y' * ((u + 1) * d)) mod P)%Z; [apply cong_mul; auto|].
  transitivity (((u - 1) * w * ((u + 1) * d)) mod P)%Z; [apply cong_mul; auto|].
  replace ((u - 1) * w * ((u + 1) * d))%Z with (((u - 1) * d) * ((u + 1) * w))%Z by ring.
  transitivity ((2 * y * 1) mod P)%Z; [apply cong_mul; auto|f_equal; ring].
Qed.

Lemma mont_roundtrip : forall y, (y < p25519)%N -> (y <> 1)%N ->
  let u := fmul (fadd 1 y) (finv (fsub 1 y)) in
  (u < p25519)%N /\ u <> (p25519 - 1)%N /\ fmul (fsub u 1) (finv (fadd u 1)) = y.
Proof.
  intros y Hy H1 u. pose proof P_pos as PP.
  assert (Pn : (p25519 <> 0)%N) by (vm_compute; discriminate).
  assert (Hu : (u < p25519)%N) by (apply N.mod_lt; exact Pn).
  assert (Hd : (Z.of_N (fsub 1 y) == 1 - Z.of_N y)%Z) by (rewrite fsub_z; apply cong_mod).
  assert (Hpy : (0 <= Z.of_N y < P)%Z) by (clear -Hy; lia).
  assert (Hy1 : (Z.of_N y <> 1)%Z) by (clear -H1; lia).
  assert (Hdn : ~ (Z.of_N (fsub 1 y) == 0)%Z).
  { rewrite Hd. generalize dependent (Z.of_N y). generalize dependent P. clear.
    intros p Hp yz _ Hr Hn E. rewrite Z.mod_0_l in E by lia.
    apply Z.mod_divide in E; [|lia]. destruct E as [k Hk].
    assert (k = 0 \/ k <= -1 \/ k >= 1)%Z as [ -> |[K|K]] by lia; nia. }
  assert (Hdi : (Z.of_N (fsub 1 y) * Z.of_N (finv (fsub 1 y)) == 1)%Z)
    by (apply finv_ok, nonzero_mod; auto).
  assert (Uz : (Z.of_N u == (1 + Z.of_N y) * Z.of_N (finv (fsub 1 y)))%Z).
  { unfold u. rewrite fmul_z, cong_mod. apply cong_mul; [|reflexivity].
    rewrite fadd_z. apply cong_mod. }
  destruct (bi_plus _ _ _ _ Hd Hdi Uz) as [Up Um].
  assert (Hnz : ~ (Z.of_N u + 1 == 0)%Z).
  { intro E. assert (E2 : (2 == 0 * Z.of_N (fsub 1 y))%Z) by (rewrite <- Up; apply cong_mul; auto).
    rewrite Z.mul_0_l in E2. vm_compute in E2. discriminate. }
  split; [exact Hu|]. split.
  - intro E. apply Hnz. rewrite E. vm_compute. reflexivity.
  - assert (Hw : ((Z.of_N u + 1) * Z.of_N (finv (fadd u 1)) == 1)%Z).
    { transitivity ((Z.of_N (fadd u 1) * Z.of_N (finv (fadd u 1))) mod P)%Z.
      - apply cong_mul; [rewrite fadd_z; symmetry; apply cong_mod|reflexivity].
      - apply finv_ok, nonzero_mod. rewrite fadd_z, cong_mod. exact Hnz. }
    assert (Hy' : (fmul (fsub u 1) (finv (fadd u 1)) < p25519)%N) by (apply N.mod_lt; exact Pn).
    assert (Yz : (Z.of_N (fmul (fsub u 1) (finv (fadd u 1))) == (Z.of_N u - 1) * Z.of_N (finv (fadd u 1)))%Z).
    { rewrite fmul_z, cong_mod. apply cong_mul; [|reflexivity]. rewrite fsub_z. apply cong_mod. }
    pose proof (bi_back _ _ _ _ _ Up Um Hw Yz) as Y2.
    apply mod_cancel in Y2; [|clear -PP; lia|].
    + generalize dependent (fmul (fsub u 1) (finv (fadd u 1))). clear -Hy. intros y' Hy' _ Y2.
      rewrite !Z.mod_small in Y2 by lia. lia.
    + apply prime_rel_prime; [exact P_prime|]. intro D. apply Z.divide_pos_le in D; [|lia].
      vm_compute in D. congruence.
Qed.

(** ** Byte-level facts *)
Ltac all_bytes b := destruct b; vm_compute; reflexivity.

Lemma upd_nth_app : forall l i f t r, List.length l = i ->
  upd_nth i f (l ++ t :: r) = l ++ f t :: r.
Proof. induction l as [|x l IH]; intros i f t r H; simpl in H; subst i; simpl; auto. f_equal; auto. Qed.
Lemma upd_nth_length : forall b i f, List.length (upd_nth i f b) = List.length b.
Proof. induction b as [|x b IH]; intros i f; destruct i; simpl; auto. Qed.
Lemma clamp_length : forall k, List.length (clamp k) = List.length k.
Proof. intro. unfold clamp. rewrite !upd_nth_length. reflexivity. Qed.

Lemma split_last : forall (b : bytes) n, List.length b = S n ->
  exists l t, b = l ++ [t] /\ List.length l = n.
Proof.
  intros b n H. exists (firstn n b), (nth n b Byte.x00). split; [|rewrite firstn_length; lia].
  revert n H. induction b as [|x b IH]; intros n H; [discriminate|].
  simpl in H. injection H as H. destruct n as [|n].
  - destruct b; [reflexivity|discriminate].
  - simpl. f_equal. apply IH; auto.
Qed.

Lemma le2n_app : forall a b, le2n (a ++ b) = (le2n a + 256 ^ N.of_nat (List.length a) * le2n b)%N.
Proof.
  induction a as [|x a IH]; intro b.
  - cbn [app le2n List.length]. change (256 ^ N.of_nat 0)%N with 1%N. lia.
  - cbn [app le2n List.length]. rewrite IH, Nat2N.inj_succ, N.pow_succ_r by lia. ring.
Qed.

Definition lo_clamp (x : byte) := n2b (N.land (b2n x) 248).
Definition hi_clamp (x : byte) := n2b (N.lor (N.land (b2n x) 63) 64).
Lemma lo_clamp_idem : forall x, lo_clamp (lo_clamp x) = lo_clamp x.
Proof. intro x. all_bytes x. Qed.
Lemma hi_clamp_idem : forall x, hi_clamp (hi_clamp x) = hi_clamp x.
Proof. intro x. all_bytes x. Qed.
Lemma lo_clamp_val : forall x, (b2n (lo_clamp x) mod 8 = 0)%N.
Proof. intro x. all_bytes x. Qed.
Lemma hi_clamp_val : forall x, ((64 <=? b2n (hi_clamp x)) && (b2n (hi_clamp x) <? 128) = true)%N.
Proof. intro x. all_bytes x. Qed.

Lemma clamp_split : forall x m y, List.length m = 30 ->
  clamp (x :: m ++ [y]) = lo_clamp x :: m ++ [hi_clamp y].
Proof.
  intros x m y H.
  change (clamp (x :: m ++ [y])) with (upd_nth 31 hi_clamp ((lo_clamp x :: m) ++ y :: [])).
  rewrite upd_nth_app by (simpl; lia). reflexivity.
Qed.

Lemma split_key : forall k : bytes, List.length k = 32 ->
  exists x m y, k = x :: m ++ [y] /\ List.length m = 30 /\
    clamp k = lo_clamp x :: m ++ [hi_clamp y].
Proof.
  intros k H. destruct k as [|x k]; [discriminate|]. simpl in H. injection H as H.
  destruct (split_last k 30 H) as (m & y & -> & Hm).
  exists x, m, y. repeat split; auto. apply clamp_split; auto.
Qed.

Lemma clamp_idem : forall k, List.length k = 32 -> clamp (clamp k) = clamp k.
Proof.
  intros k H. destruct (split_key k H) as (x & m & y & Hk & Hm & ->).
  rewrite clamp_split, lo_clamp_idem, hi_clamp_idem by auto. reflexivity.
Qed.

Lemma scalar_clamp : forall k, List.length k = 32 -> scalar_of (clamp k) = scalar_of k.
Proof. intros. unfold scalar_of. rewrite clamp_idem; auto. Qed.

(** A clamped scalar is never a multiple of the group order. *)
Lemma scalar_range : forall k, List.length k = 32 -> (0 < scalar_of k < ell)%N.
Proof.
  intros k H. unfold scalar_of. destruct (split_key k H) as (x & m & y & Hk & Hm & ->).
  assert (L : (le2n (lo_clamp x :: m ++ [hi_clamp y]) mod ell < ell)%N)
    by (apply N.mod_lt; vm_compute; discriminate).
  split; [|exact L]. clear L.
  cbn [le2n]. rewrite le2n_app, Hm. cbn [le2n]. rewrite N.mul_0_r, N.add_0_r.
  change (256 ^ N.of_nat 30)%N with 1766847064778384329583297500742918515827483896875618958121606201292619776%N.
  pose proof (lo_clamp_val x) as Hx. pose proof (hi_clamp_val y) as Hy.
  pose proof (le2n_lt m) as Hl. rewrite Hm in Hl.
  change (256 ^ N.of_nat 30)%N with 1766847064778384329583297500742918515827483896875618958121606201292619776%N in Hl.
  assert (Hx' : exists j, b2n (lo_clamp x) = (8 * j)%N).
  { exists (b2n (lo_clamp x) / 8)%N. pose proof (N.div_mod (b2n (lo_clamp x)) 8). lia. }
  destruct Hx' as [j Hj].
  apply andb_prop in Hy as [Hy1 Hy2]. apply N.leb_le in Hy1. apply N.ltb_lt in Hy2.
  pose proof (b2n_lt (lo_clamp x)) as Hb.
  set (n := (b2n (lo_clamp x) + 256 * (le2n m + 1766847064778384329583297500742918515827483896875618958121606201292619776 * b2n (hi_clamp y)))%N).
  destruct (N.eq_dec (n mod ell) 0) as [E|E]; [|lia]. exfalso.
  pose proof (N.div_mod n ell ltac:(vm_compute; discriminate)) as D. rewrite E, N.add_0_r in D.
  set (q := (n / ell)%N) in *.
  assert (Q : (q < 8)%N).
  { destruct (N.lt_ge_cases q 8); auto. exfalso.
    assert (ell * 8 <= ell * q)%N by (apply N.mul_le_mono_l; auto).
    rewrite <- D in H1. unfold n, ell in H1. lia. }
  assert (Q1 : (0 < q)%N).
  { destruct (N.eq_dec q 0) as [Z0|]; [|lia]. rewrite Z0, N.mul_0_r in D. unfold n in D. lia. }
  assert (Hn8 : exists t, n = (8 * t)%N).
  { exists (j + 32 * (le2n m + 1766847064778384329583297500742918515827483896875618958121606201292619776 * b2n (hi_clamp y)))%N.
    unfold n. lia. }
  destruct Hn8 as [t Ht]. rewrite Ht in D. clear -D Q Q1. unfold ell in D.
  assert (C : (q = 1 \/ q = 2 \/ q = 3 \/ q = 4 \/ q = 5 \/ q = 6 \/ q = 7)%N) by lia.
  destruct C as [->|[->|[->|[->|[->|[->| ->]]]]]]; lia.
Qed.

Lemma fe_bytes_length : forall n, List.length (fe_bytes n) = 32.
Proof. intro. apply n2le_length. Qed.
Lemma ed_to_mont_length : forall b, List.length (ed_to_mont b) = 32.
Proof. intro. apply fe_bytes_length. Qed.

Lemma pow256_32 : (256 ^ N.of_nat 32 = 2 * two255)%N.
Proof. vm_compute; reflexivity. Qed.
Lemma fe_bytes_roundtrip : forall n, (n < p25519)%N -> fe_of_bytes (fe_bytes n) = n.
Proof.
  intros n H. unfold fe_of_bytes, fe_bytes. rewrite (N.mod_small n) by auto.
  assert (p25519 < two255)%N by (vm_compute; reflexivity).
  rewrite le2n_n2le by (rewrite pow256_32; lia).
  rewrite (N.mod_small n two255) by lia. apply N.mod_small; auto.
Qed.

(** Splitting off the sign bit. *)
Definition low7 (x : byte) := n2b (N.land (b2n x) 127).
Lemma low7_val : forall x, b2n (low7 x) = (b2n x mod 128)%N.
Proof. intro x. all_bytes x. Qed.

Lemma le2n_mod255 : forall l t, List.length l = 31 ->
  (le2n (l ++ [t]) mod two255 = le2n (l ++ [low7 t]))%N.
Proof.
  intros l t H. rewrite !le2n_app, H. cbn [le2n]. rewrite low7_val.
  pose proof (le2n_lt l) as L. rewrite H in L.
  set (q := (256 ^ N.of_nat 31)%N) in *.
  assert (Q : two255 = (128 * q)%N) by (vm_compute; reflexivity).
  assert (Hq : (0 < q)%N) by (vm_compute; reflexivity). clearbody q.
  rewrite !N.mul_0_r, !N.add_0_r.
  pose proof (N.div_mod (b2n t) 128 ltac:(lia)) as D.
  pose proof (N.mod_lt (b2n t) 128 ltac:(lia)) as M.
  rewrite Q.
  replace (le2n l + q * b2n t)%N
    with (le2n l + q * (b2n t mod 128) + (b2n t / 128) * (128 * q))%N by (rewrite D at 3; ring).
  rewrite N.mod_add by lia. apply N.mod_small. nia.
Qed.

Lemma n2le_mod255 : forall l t, List.length l = 31 ->
  n2le 32 (le2n (l ++ [t]) mod two255) = l ++ [low7 t].
Proof.
  intros l t H. rewrite le2n_mod255 by auto.
  replace 32 with (List.length (l ++ [low7 t])) by (rewrite app_length; simpl; lia).
  apply n2le_le2n.
Qed.

Definition high_bit (x : byte) : N := N.land (b2n x) 128.
Lemma restore_sign : forall t,
  bxor (low7 t) (if N.eqb (high_bit t) 0 then Byte.x00 else Byte.x80) = t.
Proof. intro t. all_bytes t. Qed.

(** Montgomery public key and sign bit determine the Edwards encoding. *)
Lemma utoy_mont : forall A, List.length A = 32 ->
  (le2n A mod two255 < p25519)%N -> (le2n A mod two255 <> 1)%N ->
  utoy (ed_to_mont A) (N.eqb (high_bit (nth 31 A Byte.x00)) 0) = Ok A.
Proof.
  intros A L Hc H1. unfold utoy. rewrite ed_to_mont_length. cbn [Nat.eqb negb].
  assert (E : fe_of_bytes A = (le2n A mod two255)%N).
  { unfold fe_of_bytes. apply N.mod_small; auto. }
  unfold ed_to_mont. rewrite E.
  set (y := (le2n A mod two255)%N) in *.
  destruct (mont_roundtrip y Hc H1) as (Hu & Hne & Hr).
  rewrite fe_bytes_roundtrip by auto.
  destruct (N.eqb_spec (fmul (fadd 1 y) (finv (fsub 1 y))) (p25519 - 1)); [contradiction|].
  rewrite Hr. unfold fe_bytes. rewrite (N.mod_small y) by auto. f_equal.
  destruct (split_last A 31 L) as (l & t & -> & Hl). unfold y.
  rewrite n2le_mod255 by auto. rewrite upd_nth_app by auto.
  rewrite app_nth2, Hl by lia. cbn [nth Nat.sub]. rewrite restore_sign. reflexivity.
Qed.

Lemma restore_s : forall t sb, (sb = 0 \/ sb = 128)%N -> (b2n t < 128)%N ->
  low7 (n2b (N.lor (N.land (b2n t) 127) sb)) = t
  /\ N.land (b2n (n2b (N.lor (N.land (b2n t) 127) sb))) 128 = sb.
Proof. intros t sb [->| ->] H; destruct t; vm_compute in H |- *; auto; discriminate. Qed.
Lemma high_bit_val : forall t, (high_bit t = 0 \/ high_bit t = 128)%N.
Proof. intro t. destruct t; vm_compute; auto. Qed.

(** The last byte of a reduced scalar has its top bit clear. *)
Lemma n2le_last : forall n, (n < two255)%N ->
  exists l t, n2le 32 n = l ++ [t] /\ List.length l = 31 /\ (b2n t < 128)%N.
Proof.
  intros n H. destruct (split_last (n2le 32 n) 31 (n2le_length 32 n)) as (l & t & E & Hl).
  exists l, t. repeat split; auto.
  assert (V : le2n (n2le 32 n) = n) by (apply le2n_n2le; rewrite pow256_32; lia).
  rewrite E, le2n_app, Hl in V. cbn [le2n] in V.
  set (q := (256 ^ N.of_nat 31)%N) in *.
  assert (Q : two255 = (128 * q)%N) by (vm_compute; reflexivity).
  assert (Hq : (0 < q)%N) by (vm_compute; reflexivity). clearbody q.
  destruct (N.lt_ge_cases (b2n t) 128); auto. exfalso.
  assert (q * 128 <= q * b2n t)%N by (apply N.mul_le_mono_l; auto). lia.
Qed.

Lemma Ok_pair_inv : forall {A B} (a b : A) (r r' : B), (Ok a, r) = (Ok b, r') -> a = b.
Proof. intros A B a b r r' H. injection H; auto. Qed.

Section Ok.
Context (C : Crypto) (H : CryptoOk C).

Lemma sign_verifies : forall key k rnd sig rest parts parts',
  new_private_key C key = Ok k ->
  sign C k rnd parts = (Ok sig, rest) ->
  List.concat parts' = List.concat parts ->
  List.length sig = 64 /\ verify_signature C (sk_pub k) sig parts' = Ok true.
Proof using H.
  intros key k rnd sig rest parts parts' Hk Hs Hp.
  unfold new_private_key in Hk.
  destruct (Nat.eqb_spec (List.length key) 32) as [L|]; cbn [negb] in Hk; [|discriminate].
  injection Hk as <-. cbn [sk_pub].
  unfold sign in Hs. destruct (read_full 64 rnd) as [[z| |] rst]; try discriminate.
  apply Ok_pair_inv in Hs. cbn [sk_scalar] in Hs.
  destruct (scalar_range key L) as [S0 S1].
  set (a := scalar_of key) in *.
  set (m := List.concat parts) in *.
  set (A := c_edbase C a) in *.
  set (r := scalar_uniform (c_sha512 C (hash_prefix ++ n2le 32 a ++ m ++ z))) in *.
  assert (Hr : (r < ell)%N) by (apply N.mod_lt; vm_compute; discriminate).
  set (R := c_edbase C r) in *.
  assert (LA : List.length A = 32) by (apply (ok_ed_len C H); auto).
  assert (LR : List.length R = 32) by (apply (ok_ed_len C H); auto).
  destruct (ok_ed_canon C H a (conj S0 S1)) as [Hc Hn1]. fold A in Hc, Hn1.
  set (sc := ((a * scalar_uniform (c_sha512 C (R ++ A ++ m)) + r) mod ell)%N) in *.
  assert (Hsc : (sc < two255)%N).
  { apply N.lt_trans with ell; [apply N.mod_lt; vm_compute; discriminate|vm_compute; reflexivity]. }
  destruct (n2le_last sc Hsc) as (l & t & El & Ll & Ht).
  set (sb := N.land (b2n (nth 31 A Byte.x00)) 128) in *.
  assert (Hsb : (sb = 0 \/ sb = 128)%N) by apply high_bit_val.
  destruct (restore_s t sb Hsb Ht) as [Rt Rb].
  assert (Hsig : sig = (R ++ l) ++ [n2b (N.lor (N.land (b2n t) 127) sb)]).
  { rewrite <- Hs, El. rewrite firstn_all2 by lia. rewrite app_assoc.
    rewrite upd_nth_app by (rewrite app_length; lia). reflexivity. }
  assert (Lsig : List.length sig = 64) by (rewrite Hsig, !app_length; simpl; lia).
  split; [exact Lsig|].
  unfold verify_signature. rewrite Lsig. cbn [Nat.eqb negb].
  unfold verify25519. rewrite Lsig. cbn [Nat.ltb Nat.leb].
  assert (Nl : nth 63 sig Byte.x00 = n2b (N.lor (N.land (b2n t) 127) sb)).
  { rewrite Hsig, app_nth2; rewrite app_length; [|lia]. rewrite LR, Ll. reflexivity. }
  rewrite Nl, Rb. unfold sb at 1. fold (high_bit (nth 31 A Byte.x00)).
  rewrite (utoy_mont A LA Hc Hn1). cbn [bind].
  rewrite firstn_all2 by lia. rewrite Hsig.
  rewrite upd_nth_app by (rewrite app_length; lia).
  fold (low7 (n2b (N.lor (N.land (b2n t) 127) sb))). rewrite Rt.
  rewrite <- app_assoc, <- El, Hp. f_equal.
  unfold sc. apply (ok_ed_verify C H); auto.
Qed.

Lemma agreement_sym : forall ka kb a b,
  new_private_key C ka = Ok a -> new_private_key C kb = Ok b ->
  exists s, agreement C a (sk_pub b) = Ok s /\ agreement C b (sk_pub a) = Ok s
            /\ List.length s = 32.
Proof using H.
  intros ka kb a b Ha Hb. unfold new_private_key in *.
  destruct (Nat.eqb_spec (List.length ka) 32) as [La|]; cbn [negb] in Ha; [|discriminate].
  destruct (Nat.eqb_spec (List.length kb) 32) as [Lb|]; cbn [negb] in Hb; [|discriminate].
  injection Ha as <-. injection Hb as <-. unfold agreement. cbn [sk_pub sk_ecdh].
  fold (mont_pub C ka) (mont_pub C kb).
  assert (LA : List.length (mont_pub C ka) = 32) by apply ed_to_mont_length.
  assert (LB : List.length (mont_pub C kb) = 32) by apply ed_to_mont_length.
  rewrite LA, LB. cbn [Nat.eqb negb].
  rewrite (ok_dh_nz C H ka kb), (ok_dh_nz C H kb ka) by auto.
  exists (c_x25519 C ka (mont_pub C kb)). repeat split.
  - f_equal. apply (ok_dh C H); auto.
  - apply (ok_x_len C H); auto.
Qed.

Lemma private_key_restored : forall key k, new_private_key C key = Ok k ->
  exists k', new_private_key C (sk_bytes k) = Ok k' /\ sk_bytes k' = sk_bytes k
    /\ sk_pub k' = sk_pub k /\ sk_scalar k' = sk_scalar k
    /\ (forall u, agreement C k' u = agreement C k u)
    /\ (forall rnd ms, sign C k' rnd ms = sign C k rnd ms)
    /\ List.length (sk_bytes k) = 32.
Proof using H.
  intros key k Hk. unfold new_private_key in *.
  destruct (Nat.eqb_spec (List.length key) 32) as [L|]; cbn [negb] in Hk; [|discriminate].
  injection Hk as <-. cbn [sk_bytes].
  rewrite clamp_length, L. cbn [Nat.eqb negb].
  eexists; split; [reflexivity|]. cbn [sk_bytes sk_pub sk_scalar].
  rewrite clamp_idem, scalar_clamp by auto. repeat split; auto.
  intro u. unfold agreement. cbn [sk_ecdh]. rewrite (ok_x_clamp C H) by auto. reflexivity.
Qed.
End Ok.

Lemma agreement_total : forall C k u, List.length u = 32 ->
  (all_zero (c_x25519 C (sk_ecdh k) u) = false /\ agreement C k u = Ok (c_x25519 C (sk_ecdh k) u))
  \/ (all_zero (c_x25519 C (sk_ecdh k) u) = true /\ exists e, agreement C k u = Err e).
Proof.
  intros C k u L. unfold agreement. rewrite L. cbn [Nat.eqb negb].
  destruct (all_zero _); [right|left]; eauto.
Qed.

Lemma agreement_no_panic : forall C k u, agreement C k u <> Panic.
Proof. intros. unfold agreement. destruct (negb _); [discriminate|]. cbv zeta. destruct (all_zero _); discriminate. Qed.
Lemma agreement_len : forall C k u s, CryptoOk C -> List.length (sk_ecdh k) = 32 ->
  agreement C k u = Ok s -> List.length s = 32.
Proof.
  intros C k u s H L E. unfold agreement in E.
  destruct (Nat.eqb_spec (List.length u) 32); cbn [negb] in E; [|discriminate].
  destruct (all_zero _); [discriminate|]. injection E as <-. apply (ok_x_len C H); auto.
Qed.

(** ** Public keys *)
Lemma new_public_key_exact : forall b k,
  new_public_key b = Ok k <->
  (33 <= List.length b /\ exists r, b = Byte.x05 :: r /\ k = firstn 32 r).
Proof.
  intros b k. unfold new_public_key. destruct (Nat.ltb_spec (List.length b) 33) as [L|L].
  - split; [discriminate|intros [? _]; lia].
  - destruct b as [|t r]; [simpl in L; lia|].
    destruct (Byte.eqb t Byte.x05) eqn:E.
    + apply byte_eqb_eq in E. subst t. split.
      * intro H. injection H as <-. split; eauto.
      * intros [_ (r' & E & ->)]. injection E as <-. reflexivity.
    + split; [discriminate|]. intros [_ (r' & E' & ->)]. injection E' as -> _.
      rewrite byte_eqb_refl in E. discriminate.
Qed.
Lemma new_public_key_no_panic : forall b, new_public_key b <> Panic.
Proof.
  intro b. unfold new_public_key. destruct (Nat.ltb_spec (List.length b) 33); [discriminate|].
  destruct b; [simpl in *; lia|]. destruct (Byte.eqb _ _); discriminate.
Qed.
Lemma new_public_key_len : forall b k, new_public_key b = Ok k -> List.length k = 32.
Proof.
  intros b k H. apply new_public_key_exact in H as (L & r & -> & ->). simpl in L.
  rewrite firstn_length. lia.
Qed.
Lemma new_public_key_bytes : forall k, List.length k = 32 -> new_public_key (pub_bytes k) = Ok k.
Proof.
  intros k L. apply new_public_key_exact. unfold pub_bytes. split; [simpl; lia|].
  exists k. split; auto. symmetry. apply firstn_all2. lia.
Qed.
Lemma pub_bytes_inj : forall a b, pub_bytes a = pub_bytes b -> a = b.
Proof. intros a b H. injection H; auto. Qed.
Lemma pub_equal_iff : forall a b, pub_equal a b = true <-> pub_bytes a = pub_bytes b.
Proof. intros. unfold pub_equal. rewrite bytes_eqb_eq. split; [congruence|apply pub_bytes_inj]. Qed.

Lemma gen_keypair_ok : forall C rnd, 32 <= List.length rnd ->
  exists k, new_private_key C (firstn 32 rnd) = Ok k /\
    gen_keypair C rnd = (Ok (mkPair k (sk_pub k)), skipn 32 rnd).
Proof.
  intros C rnd L. unfold gen_keypair, gen_private_key, read_full.
  destruct (Nat.ltb_spec (List.length rnd) 32); [lia|].
  assert (L32 : List.length (firstn 32 rnd) = 32) by (rewrite firstn_length; lia).
  unfold new_private_key. rewrite L32. cbn [Nat.eqb negb]. eexists; split; reflexivity.
Qed.
