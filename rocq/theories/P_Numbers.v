(** Equal safety numbers mean equal people and keys, or a clash of hashes. *)
From Verif Require Import M_Base M_Crypto M_Curve M_Proto M_Fingerprint S_Crypto S_Message S_Fingerprint S_Numbers.
From Verif Require Import P_Base P_Fingerprint P_CryptoTop K_Toy.

Lemma bytes_dec : forall x y : bytes, {x = y} + {x <> y}.
Proof. apply list_eq_dec. apply Byte.byte_eq_dec. Qed.

Lemma app_len_inj : forall (a b c d : bytes), List.length a = List.length c -> a ++ b = c ++ d -> a = c /\ b = d.
Proof.
  induction a as [|x a IH]; intros b [|y c] d L E; try discriminate; [auto|].
  cbn [app] in E. injection E as -> E. destruct (IH _ c _ ltac:(cbn in L; congruence) E) as [-> ->]. auto.
Qed.

Definition step (C : Crypto) (key d : bytes) : bytes := c_sha512 C (d ++ Byte.x05 :: key).
Definition first_in (id key : bytes) : bytes := Byte.x00 :: Byte.x00 :: (Byte.x05 :: key) ++ id ++ (Byte.x05 :: key).

Lemma first_inj : forall id key id' key', List.length key = 32 -> List.length key' = 32 ->
  first_in id key = first_in id' key' -> id = id' /\ key = key'.
Proof.
  intros id key id' key' L L' E. unfold first_in in E. injection E as E.
  apply app_len_inj in E; [|congruence]. destruct E as [-> F]. split; [|reflexivity].
  apply app_inv_tail in F. exact F.
Qed.

Lemma digest_S : forall C k id key, user_digest C (S (S k)) id key = step C key (user_digest C (S k) id key).
Proof. intros. unfold user_digest. replace (S (S k) - 1) with (S k) by lia. replace (S k - 1) with k by lia. reflexivity. Qed.
Lemma digest_len : forall C n id key, CryptoOk C -> List.length (user_digest C n id key) = 64.
Proof.
  intros C n id key H. unfold user_digest. destruct (n - 1) as [|k]; cbn [Nat.iter nat_rect]; apply (ok_sha_len C H).
Qed.

Section Same.
Variable C : Crypto.
Hypothesis H : CryptoOk C.

Lemma clash_S : forall same n id key id' key', clash C same n id key id' key' -> clash C same (S n) id key id' key'.
Proof.
  intros same n id key id' key' (x & y & A & B & N & E). exists x, y.
  split; [|split; [|auto]].
  - destruct A as [A|(k & L & A)]; [left; exact A|]. right. exists k. split; [lia|exact A].
  - destruct B as [B|(k & L & B)]; [left; exact B|]. right. exists k. split; [lia|exact B].
Qed.

Lemma digest_same : forall same : bytes -> bytes -> Prop, (forall d, same d d) ->
  forall k id key id' key', List.length key = 32 -> List.length key' = 32 ->
  same (user_digest C (S k) id key) (user_digest C (S k) id' key') ->
  (id = id' /\ key = key') \/ clash C same (S k) id key id' key'.
Proof using H.
  assert (Eq : forall k id key id' key', List.length key = 32 -> List.length key' = 32 ->
    user_digest C (S k) id key = user_digest C (S k) id' key' -> (id = id' /\ key = key') \/ clash C eq (S k) id key id' key').
  { induction k as [|k IH]; intros id key id' key' L L' E.
    - destruct (bytes_dec (first_in id key) (first_in id' key')) as [Q|Q].
      + left. apply first_inj; auto.
      + right. exists (first_in id key), (first_in id' key').
        split; [left; reflexivity|]. split; [left; reflexivity|]. split; [exact Q|exact E].
    - rewrite !digest_S in E. unfold step in E.
      destruct (bytes_dec (user_digest C (S k) id key ++ Byte.x05 :: key) (user_digest C (S k) id' key' ++ Byte.x05 :: key')) as [Q|Q].
      + apply app_len_inj in Q; [|rewrite !digest_len by auto; reflexivity]. destruct Q as [Q _].
        destruct (IH _ _ _ _ L L' Q) as [G|G]; [auto|]. right. apply clash_S. exact G.
      + right. eexists _, _. split; [right; exists (S k); split; [lia|reflexivity]|].
        split; [right; exists (S k); split; [lia|reflexivity]|]. split; [exact Q|exact E]. }
  intros same R k id key id' key' L L' E. destruct k as [|k].
  - destruct (bytes_dec (first_in id key) (first_in id' key')) as [Q|Q].
    + left. apply first_inj; auto.
    + right. exists (first_in id key), (first_in id' key').
      split; [left; reflexivity|]. split; [left; reflexivity|]. split; [exact Q|exact E].
  - rewrite !digest_S in E. unfold step in E.
    destruct (bytes_dec (user_digest C (S k) id key ++ Byte.x05 :: key) (user_digest C (S k) id' key' ++ Byte.x05 :: key')) as [Q|Q].
    + apply app_len_inj in Q; [|rewrite !digest_len by auto; reflexivity]. destruct Q as [Q _].
      destruct (Eq k id key id' key' L L' Q) as [G|G]; [left; exact G|].
      right. apply clash_S. destruct G as (x & y & A & B & N & Z). exists x, y.
      split; [exact A|]. split; [exact B|]. split; [exact N|]. rewrite Z. apply R.
    + right. eexists _, _. split; [right; exists (S k); split; [lia|reflexivity]|].
      split; [right; exists (S k); split; [lia|reflexivity]|]. split; [exact Q|exact E].
Qed.

Lemma text_same : forall d e s, digest_text d s -> digest_text e s -> same_digits d e.
Proof. intros d e s (_ & _ & A) (_ & _ & B) i L. rewrite <- A, <- B by auto. reflexivity. Qed.

Theorem scanned_means : forall v it idA keyA idB keyB idA' keyA' idB' keyB' fa fb, go_u32 v ->
  List.length keyA = 32 -> List.length keyB = 32 -> List.length keyA' = 32 -> List.length keyB' = 32 ->
  new_fingerprint C v it idA keyA idB keyB = Ok fa ->
  new_fingerprint C v it idB' keyB' idA' keyA' = Ok fb ->
  scan_compare (fp_scan fa) (scan_bytes (fp_scan fb)) = Ok true ->
  ((idA = idA' /\ keyA = keyA') /\ (idB = idB' /\ keyB = keyB')) \/
  clash C same_head (N.to_nat it) idA keyA idA' keyA' \/ clash C same_head (N.to_nat it) idB keyB idB' keyB'.
Proof using H.
  intros v it idA keyA idB keyB idA' keyA' idB' keyB' fa fb V LA LB LA' LB' Ea Eb S.
  pose proof (iteration_bounds C v it idA keyA idB keyB H) as Ia. rewrite Ea in Ia. destruct Ia as [B Qa].
  pose proof (iteration_bounds C v it idB' keyB' idA' keyA' H) as Ib. rewrite Eb in Ib. destruct Ib as [_ Qb].
  destruct (N.to_nat it) as [|k] eqn:K; [lia|].
  destruct scanned_code as (SC & _ & _).
  destruct (SC (fp_scan fa) (fp_scan fb)) as [_ G].
  { rewrite Qb. exact V. }
  { rewrite Qb. cbn [sc_local]. rewrite firstn_length, digest_len by auto. reflexivity. }
  { rewrite Qb. cbn [sc_remote]. rewrite firstn_length, digest_len by auto. reflexivity. }
  destruct G as (b & Eq & I). { rewrite Qa, Qb. reflexivity. }
  rewrite S in Eq. assert (b = true) by congruence. apply I in H0. rewrite Qa, Qb in H0. cbn [sc_local sc_remote] in H0.
  destruct H0 as [Z1 Z2].
  destruct (digest_same same_head (fun d => eq_refl) k idA keyA idA' keyA' LA LA' Z1) as [G1|G1]; [|right; left; exact G1].
  destruct (digest_same same_head (fun d => eq_refl) k idB keyB idB' keyB' LB LB' Z2) as [G2|G2]; [|right; right; exact G2].
  left. auto.
Qed.

Theorem displayed_means : forall v v' it idA keyA idB keyB idA' keyA' idB' keyB' fa fb,
  List.length keyA = 32 -> List.length keyB = 32 -> List.length keyA' = 32 -> List.length keyB' = 32 ->
  new_fingerprint C v it idA keyA idB keyB = Ok fa ->
  new_fingerprint C v' it idB' keyB' idA' keyA' = Ok fb ->
  fp_string fa = fp_string fb ->
  ((idA = idA' /\ keyA = keyA') /\ (idB = idB' /\ keyB = keyB')) \/
  ((idA = idB' /\ keyA = keyB') /\ (idB = idA' /\ keyB = keyA')) \/
  exists id key id' key', In (id, key) [(idA, keyA); (idB, keyB)] /\ In (id', key') [(idA', keyA'); (idB', keyB')] /\
    clash C same_digits (N.to_nat it) id key id' key'.
Proof using H.
  intros v v' it idA keyA idB keyB idA' keyA' idB' keyB' fa fb LA LB LA' LB' Ea Eb S.
  pose proof (iteration_bounds C v it idA keyA idB keyB H) as Ia. rewrite Ea in Ia. destruct Ia as [B _].
  pose proof (iteration_bounds C v it idB keyB idA keyA H) as Ia'.
  destruct (new_fingerprint C v it idB keyB idA keyA) as [ga| |] eqn:Ga; [|destruct (Ia' B)|destruct Ia'].
  pose proof (iteration_bounds C v' it idA' keyA' idB' keyB' H) as Ib'.
  destruct (new_fingerprint C v' it idA' keyA' idB' keyB') as [gb| |] eqn:Gb; [|destruct (Ib' B)|destruct Ib'].
  destruct (displayed_number C v v it idA keyA idB keyB fa ga H Ea Ga) as (_ & _ & _ & x & y & Ex & _ & Cx).
  destruct (displayed_number C v' v' it idB' keyB' idA' keyA' fb gb H Eb Gb) as (_ & _ & _ & x' & y' & Ex' & _ & Cx').
  assert (Lx : List.length x = 30) by (destruct Cx as [[(L & _) _]|[(L & _) _]]; exact L).
  assert (Lx' : List.length x' = 30) by (destruct Cx' as [[(L & _) _]|[(L & _) _]]; exact L).
  rewrite Ex, Ex' in S. apply app_len_inj in S; [|congruence]. destruct S as [Q1 Q2]. subst x' y'.
  destruct (N.to_nat it) as [|k] eqn:K; [lia|].
  assert (D : forall id key id' key' s, List.length key = 32 -> List.length key' = 32 ->
    digest_text (user_digest C (Datatypes.S k) id key) s -> digest_text (user_digest C (Datatypes.S k) id' key') s ->
    (id = id' /\ key = key') \/ clash C same_digits (Datatypes.S k) id key id' key').
  { intros id key id' key' s L L' T T'. apply (digest_same same_digits (fun d i _ => eq_refl) k); auto.
    exact (text_same _ _ _ T T'). }
  destruct Cx as [[T1 T2]|[T1 T2]]; destruct Cx' as [[U1 U2]|[U1 U2]].
  - destruct (D _ _ _ _ _ LA LB' T1 U1) as [G1|G1]; [|right; right; eexists _, _, _, _; split; [|split; [|exact G1]]; cbn; auto].
    destruct (D _ _ _ _ _ LB LA' T2 U2) as [G2|G2]; [right; left; auto|right; right; eexists _, _, _, _; split; [|split; [|exact G2]]; cbn; auto].
  - destruct (D _ _ _ _ _ LA LA' T1 U1) as [G1|G1]; [|right; right; eexists _, _, _, _; split; [|split; [|exact G1]]; cbn; auto].
    destruct (D _ _ _ _ _ LB LB' T2 U2) as [G2|G2]; [left; auto|right; right; eexists _, _, _, _; split; [|split; [|exact G2]]; cbn; auto].
  - destruct (D _ _ _ _ _ LB LB' T1 U1) as [G1|G1]; [|right; right; eexists _, _, _, _; split; [|split; [|exact G1]]; cbn; auto].
    destruct (D _ _ _ _ _ LA LA' T2 U2) as [G2|G2]; [left; auto|right; right; eexists _, _, _, _; split; [|split; [|exact G2]]; cbn; auto].
  - destruct (D _ _ _ _ _ LB LA' T1 U1) as [G1|G1]; [|right; right; eexists _, _, _, _; split; [|split; [|exact G1]]; cbn; auto].
    destruct (D _ _ _ _ _ LA LB' T2 U2) as [G2|G2]; [right; left; auto|right; right; eexists _, _, _, _; split; [|split; [|exact G2]]; cbn; auto].
Qed.
End Same.
