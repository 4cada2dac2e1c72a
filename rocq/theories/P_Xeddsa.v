(** The signing function makes XEdDSA signatures. *)
From Verif Require Import M_Base M_Crypto M_Curve M_Message M_Text S_Crypto S_Xeddsa P_Base P_Curve.
From Coq Require Import ZifyBool ZifyNat ZifyN.
Local Open Scope N_scope.

Lemma order_ell : order = ell.
Proof. vm_compute. reflexivity. Qed.

Lemma lo_clamp_num : forall x, b2n (lo_clamp x) = 8 * (b2n x / 8).
Proof. intro x. destruct x; vm_compute; reflexivity. Qed.
Lemma hi_clamp_num : forall x, b2n (hi_clamp x) = 64 + b2n x mod 64.
Proof. intro x. destruct x; vm_compute; reflexivity. Qed.

Lemma key_scalar_of : forall key, List.length key = 32%nat -> scalar_of key = key_scalar key.
Proof.
  intros key L. unfold scalar_of, key_scalar. rewrite order_ell. f_equal.
  destruct (split_key key L) as (x & m & y & -> & Lm & ->).
  cbn [le2n]. rewrite !le2n_app, Lm. cbn [le2n]. rewrite lo_clamp_num, hi_clamp_num.
  pose proof (le2n_lt m) as B. rewrite Lm in B.
  replace (2 ^ 251) with (2048 * 256 ^ N.of_nat 30) by (vm_compute; reflexivity).
  replace (2 ^ 254) with (16384 * 256 ^ N.of_nat 30) by (vm_compute; reflexivity).
  set (q := 256 ^ N.of_nat 30) in *. assert (Q : 0 < q) by (vm_compute; reflexivity). clearbody q.
  set (M := le2n m) in *. clearbody M.
  pose proof (N.div_mod (b2n x) 8 ltac:(lia)) as X. pose proof (N.mod_lt (b2n x) 8 ltac:(lia)) as X'.
  pose proof (N.div_mod (b2n y) 64 ltac:(lia)) as Y. pose proof (N.mod_lt (b2n y) 64 ltac:(lia)) as Y'.
  assert (X8 : b2n x / 8 < 32). { pose proof (Byte.to_N_bounded x). unfold b2n in *. lia. }
  set (x1 := b2n x / 8) in *. set (x0 := b2n x mod 8) in *. set (y1 := b2n y / 64) in *. set (y0 := b2n y mod 64) in *.
  clearbody x1 x0 y1 y0. rewrite X, Y. clear X Y.
  replace ((8 * x1 + x0 + 256 * (M + q * (64 * y1 + y0 + 256 * 0))) / 8)
    with (x1 + 32 * (M + q * (64 * y1 + y0))).
  2:{ apply N.div_unique with x0; [lia|ring]. }
  replace ((x1 + 32 * (M + q * (64 * y1 + y0))) mod (2048 * q)) with (x1 + 32 * (M + q * y0)).
  2:{ apply N.mod_unique with y1; [|ring].
      assert (q * y0 <= q * 63) by (apply N.mul_le_mono_l; lia). lia. }
  ring.
Qed.

Lemma sign_bit_val : forall t, N.land (b2n t) 128 = 128 * (b2n t / 128).
Proof. intro t. destruct t; vm_compute; reflexivity. Qed.
Lemma join_bit : forall t b, b2n t < 128 -> b = 0 \/ b = 1 ->
  b2n (n2b (N.lor (N.land (b2n t) 127) (128 * b))) = b2n t + 128 * b.
Proof. intros t b H [->| ->]; destruct t; vm_compute in H |- *; auto; discriminate. Qed.

Theorem sign_xeddsa : forall C key k rnd parts, CryptoOk C -> new_private_key C key = Ok k ->
  (64 <= List.length rnd)%nat ->
  exists sig, sign C k rnd parts = (Ok sig, skipn 64 rnd) /\
    xed_signature C key (List.concat parts) (firstn 64 rnd) sig.
Proof.
  intros C key k rnd parts H Hk Lr.
  unfold new_private_key in Hk.
  destruct (Nat.eqb_spec (List.length key) 32) as [L|]; cbn [negb] in Hk; [|discriminate].
  injection Hk as <-.
  unfold sign, read_full. destruct (Nat.ltb_spec (List.length rnd) 64); [lia|].
  eexists. split; [reflexivity|]. cbn [sk_scalar].
  unfold xed_signature. rewrite <- key_scalar_of by auto. rewrite order_ell.
  destruct (scalar_range key L) as [S0 S1].
  set (a := scalar_of key) in *. set (m := List.concat parts) in *.
  set (A := c_edbase C a) in *.
  unfold as_scalar. rewrite order_ell.
  change scalar_uniform with (fun d => le2n d mod ell). cbv beta.
  set (r := le2n (c_sha512 C (hash_prefix ++ n2le 32 a ++ m ++ firstn 64 rnd)) mod ell) in *.
  assert (Hr : r < ell) by (apply N.mod_lt; vm_compute; discriminate).
  set (R := c_edbase C r) in *.
  assert (LA : List.length A = 32%nat) by (apply (ok_ed_len C H); auto).
  assert (LR : List.length R = 32%nat) by (apply (ok_ed_len C H); auto).
  set (sc := (a * (le2n (c_sha512 C (R ++ A ++ m)) mod ell) + r) mod ell) in *.
  assert (Hsc : sc < two255).
  { apply N.lt_trans with ell; [apply N.mod_lt; vm_compute; discriminate|vm_compute; reflexivity]. }
  assert (Vsc : le2n (n2le 32 sc) = sc) by (apply le2n_n2le; rewrite pow256_32; lia).
  destruct (n2le_last sc Hsc) as (l & t & El & Ll & Ht).
  destruct (split_last A 31 LA) as (lA & tA & EA & LlA).
  exists r, (l ++ [n2b (N.lor (N.land (b2n t) 127) (N.land (b2n tA) 128))]).
  split; [|fold R A; cbv zeta; split; [|split]].
  - exists hash_prefix, (n2le 32 a). split; [reflexivity|]. split; [vm_compute; reflexivity|].
    split; [apply n2le_length|]. split; [|unfold as_scalar; rewrite order_ell; reflexivity].
    apply le2n_n2le. rewrite pow256_32. apply N.lt_trans with ell; [auto|].
    assert (ell < two255) by (vm_compute; reflexivity). lia.
  - rewrite El. rewrite firstn_all2 by lia. replace (nth 31 A Byte.x00) with tA.
    2:{ rewrite EA, app_nth2, LlA by lia. reflexivity. }
    rewrite app_assoc. rewrite upd_nth_app by (rewrite app_length; lia). rewrite app_assoc. reflexivity.
  - rewrite app_length, Ll. reflexivity.
  - rewrite El in Vsc. rewrite le2n_app, Ll in Vsc. cbn [le2n] in Vsc.
    fold sc. rewrite <- Vsc. rewrite sign_bit_val.
    pose proof (Byte.to_N_bounded tA) as BT.
    assert (D : b2n tA / 128 = 0 \/ b2n tA / 128 = 1).
    { unfold b2n. pose proof (N.div_mod (Byte.to_N tA) 128 ltac:(lia)). pose proof (N.mod_lt (Byte.to_N tA) 128 ltac:(lia)). lia. }
    rewrite EA. rewrite !le2n_app, Ll, LlA. cbn [le2n]. rewrite join_bit by auto.
    pose proof (le2n_lt lA) as B. rewrite LlA in B.
    replace (2 ^ 255) with (128 * 256 ^ N.of_nat 31) by (vm_compute; reflexivity).
    set (q := 256 ^ N.of_nat 31) in *. assert (Q : 0 < q) by (vm_compute; reflexivity). clearbody q.
    replace ((le2n lA + q * (b2n tA + 256 * 0)) / (128 * q)) with (b2n tA / 128); [ring|].
    pose proof (N.div_mod (b2n tA) 128 ltac:(lia)) as X. pose proof (N.mod_lt (b2n tA) 128 ltac:(lia)) as X'.
    set (t1 := b2n tA / 128) in *. set (t0 := b2n tA mod 128) in *. clearbody t1 t0. rewrite X.
    apply N.div_unique with (le2n lA + q * t0); [|ring].
    assert (q * t0 <= q * 127) by (apply N.mul_le_mono_l; lia). lia.
Qed.

(** *** Types of messages *)
Lemma message_types : forall c, type_string (Z.of_N (ct_type c)) =
  match c with CSignal _ => str "WhisperType" | CPreKey _ => str "PreKeyType"
             | CSenderKey _ => str "SenderKeyType" | CPlaintext _ => str "PlaintextType" end.
Proof. intros [| | |]; reflexivity. Qed.
