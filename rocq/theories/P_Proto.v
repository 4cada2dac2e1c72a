(** Wire-format round trips. *)
From Verif Require Import M_Base M_Proto P_Base.
From Coq Require Import ZifyBool ZifyNat ZifyN.
Ltac Zify.zify_post_hook ::= Z.div_mod_to_equations.
Local Open Scope N_scope.

Definition two64 : N := 18446744073709551616.

Lemma dec_enc_varint_aux : forall f n rest,
  n < 2 * 128 ^ N.of_nat f ->
  dec_varint_aux (S f) (enc_varint_aux (S f) n ++ rest) = Some (n, rest).
Proof.
  induction f as [|f IH]; intros n rest H.
  - cbn in H. cbn [enc_varint_aux].
    destruct (N.ltb_spec n 128); [|lia].
    cbn [app dec_varint_aux]. rewrite b2n_n2b_small by lia.
    destruct (N.ltb_spec n 128); [|lia].
    destruct (N.ltb_spec n 2); [reflexivity|lia].
  - remember (S f) as g. cbn [enc_varint_aux].
    destruct (N.ltb_spec n 128).
    + cbn [app dec_varint_aux]. rewrite b2n_n2b_small by lia.
      destruct (N.ltb_spec n 128); [|lia]. subst g. reflexivity.
    + cbn [app dec_varint_aux].
      assert (Hm : n mod 128 < 128) by (apply N.mod_lt; lia).
      rewrite b2n_n2b_small by lia.
      destruct (N.ltb_spec (128 + n mod 128) 128); [lia|].
      subst g. rewrite IH.
      * f_equal. f_equal. pose proof (N.div_mod n 128). lia.
      * rewrite Nat2N.inj_succ, N.pow_succ_r' in H.
        apply N.div_lt_upper_bound; lia.
Qed.

Lemma dec_enc_varint : forall n rest, n < two64 ->
  dec_varint (enc_varint n ++ rest) = Some (n, rest).
Proof.
  intros n rest H. unfold dec_varint, enc_varint.
  apply dec_enc_varint_aux. change (N.of_nat 9) with 9.
  change (2 * 128 ^ 9) with two64. exact H.
Qed.

Lemma enc_varint_nonnil : forall n, enc_varint n <> [].
Proof. intro n. unfold enc_varint. cbn [enc_varint_aux]. destruct (n <? 128); discriminate. Qed.

Definition wf_wval (w : wval) : Prop :=
  match w with
  | WVarint n => n < two64
  | WI64 b => List.length b = 8%nat
  | WLen b => N.of_nat (List.length b) < two64
  | WI32 b => List.length b = 4%nat
  | WGroup => False
  end.
Definition wf_field (f : field) : Prop := 1 <= fst f <= 536870911 /\ wf_wval (snd f).

Lemma take_app : forall n a b, List.length a = n -> take n (a ++ b) = Some (a, b).
Proof.
  intros. unfold take. rewrite app_length.
  destruct (Nat.ltb_spec (List.length a + List.length b) n); [lia|].
  rewrite firstn_app_len, skipn_app_len; auto.
Qed.

Lemma dec_len_app : forall a b, N.of_nat (List.length a) < two64 ->
  dec_len ((enc_varint (N.of_nat (List.length a)) ++ a) ++ b) = Some (a, b).
Proof.
  intros. unfold dec_len. rewrite <- app_assoc, dec_enc_varint by auto.
  rewrite app_length.
  destruct (N.ltb_spec (N.of_nat (List.length a + List.length b)) (N.of_nat (List.length a))); [lia|].
  rewrite Nat2N.id, firstn_app_len, skipn_app_len; auto.
Qed.

Lemma wtype_lt : forall w, wtype w < 8.
Proof. destruct w; simpl; lia. Qed.

Lemma dec_scalar_enc : forall w rest, wf_wval w ->
  dec_scalar (wtype w) (enc_wval w ++ rest) = Some (w, rest).
Proof.
  intros w rest H. unfold dec_scalar. destruct w; simpl in H; cbn [wtype enc_wval].
  - cbn [N.eqb]. rewrite dec_enc_varint; auto.
  - cbn [N.eqb Pos.eqb]. rewrite take_app; auto.
  - cbn [N.eqb Pos.eqb]. rewrite dec_len_app; auto.
  - cbn [N.eqb Pos.eqb]. rewrite take_app; auto.
  - contradiction.
Qed.

Lemma enc_field_nonnil : forall f, enc_field f <> [].
Proof.
  intro f. unfold enc_field. intro H. apply app_eq_nil in H as [H _].
  eapply enc_varint_nonnil; eauto.
Qed.

Lemma dec_enc_fields_aux : forall fs fuel, Forall wf_field fs ->
  (List.length fs <= fuel)%nat -> dec_fields_aux fuel (enc_fields fs) = Some fs.
Proof.
  induction fs as [|[num w] fs IH]; intros fuel Hw Hl.
  - destruct fuel; reflexivity.
  - inversion Hw as [|? ? [Hn Hv] Hw']; subst. simpl in Hn, Hv.
    unfold enc_fields. cbn [map List.concat]. fold (enc_fields fs).
    destruct fuel as [|fuel]; [simpl in Hl; lia|].
    destruct (enc_field (num, w) ++ enc_fields fs) as [|x l] eqn:E.
    { apply app_eq_nil in E as [E _]. exfalso; eapply enc_field_nonnil; eauto. }
    cbn [dec_fields_aux]. rewrite <- E. clear E x l.
    unfold enc_field. cbn [fst snd]. rewrite <- app_assoc.
    pose proof (wtype_lt w).
    rewrite dec_enc_varint by (unfold two64; lia).
    replace ((num * 8 + wtype w) / 8) with num by lia.
    replace ((num * 8 + wtype w) mod 8) with (wtype w) by lia.
    destruct (N.ltb_spec num 1); [lia|]. destruct (N.ltb_spec 536870911 num); [lia|].
    cbn [orb].
    destruct (N.eqb_spec (wtype w) 3) as [E|E].
    { destruct w; simpl in E; try lia; simpl in Hv; contradiction. }
    rewrite dec_scalar_enc by auto.
    rewrite IH; auto. simpl in Hl; lia.
Qed.

Lemma enc_fields_length : forall fs, (List.length fs <= List.length (enc_fields fs))%nat.
Proof.
  induction fs as [|f fs IH]; [simpl; lia|].
  unfold enc_fields. cbn [map List.concat]. fold (enc_fields fs). rewrite app_length.
  pose proof (enc_field_nonnil f). destruct (enc_field f); [contradiction|]. simpl. lia.
Qed.

Lemma dec_enc_fields : forall fs, Forall wf_field fs -> dec_fields (enc_fields fs) = Some fs.
Proof.
  intros. unfold dec_fields. apply dec_enc_fields_aux; auto. apply enc_fields_length.
Qed.

(** Lengths of encodings (to bound nested lengths). *)
Lemma enc_varint_aux_length : forall f n, (List.length (enc_varint_aux f n) <= f)%nat.
Proof.
  induction f as [|f IH]; intro n; cbn [enc_varint_aux]; [simpl; lia|].
  destruct (n <? 128); simpl; [lia|]. specialize (IH (n / 128)). lia.
Qed.
Lemma enc_varint_length : forall n, (List.length (enc_varint n) <= 10)%nat.
Proof. intro. apply enc_varint_aux_length. Qed.

Definition wval_size (w : wval) : nat :=
  match w with
  | WVarint _ => 10 | WI64 b => List.length b | WLen b => 10 + List.length b
  | WI32 b => List.length b | WGroup => 0
  end.
Lemma enc_wval_length : forall w, (List.length (enc_wval w) <= wval_size w)%nat.
Proof.
  destruct w; cbn [enc_wval wval_size]; try lia.
  - apply enc_varint_length.
  - rewrite app_length. pose proof (enc_varint_length (N.of_nat (List.length b))). lia.
  - simpl; lia.
Qed.
Fixpoint fields_size (fs : list field) : nat :=
  match fs with [] => 0 | (_, w) :: r => (10 + wval_size w + fields_size r)%nat end.
Lemma enc_fields_size : forall fs, (List.length (enc_fields fs) <= fields_size fs)%nat.
Proof.
  induction fs as [|[n w] fs IH]; [simpl; lia|].
  unfold enc_fields. cbn [map List.concat fields_size]. fold (enc_fields fs).
  unfold enc_field. cbn [fst snd]. rewrite !app_length.
  pose proof (enc_varint_length (n * 8 + wtype w)). pose proof (enc_wval_length w). lia.
Qed.

(** Getters on appended lists. *)
Lemma get_varint_app : forall n a b, get_varint n (a ++ b) =
  match get_varint n b with Some v => Some v | None => get_varint n a end.
Proof.
  induction a as [|[m w] a IH]; intro b; cbn [app].
  - destruct (get_varint n b); reflexivity.
  - destruct w; cbn [get_varint]; rewrite IH; try reflexivity.
    destruct (get_varint n b); reflexivity.
Qed.
Lemma get_bytes_app : forall n a b, get_bytes n (a ++ b) =
  match get_bytes n b with Some v => Some v | None => get_bytes n a end.
Proof.
  induction a as [|[m w] a IH]; intro b; cbn [app].
  - destruct (get_bytes n b); reflexivity.
  - destruct w; cbn [get_bytes]; rewrite IH; try reflexivity.
    destruct (get_bytes n b); reflexivity.
Qed.
Lemma get_all_app : forall n a b, get_all n (a ++ b) = get_all n a ++ get_all n b.
Proof.
  induction a as [|[m w] a IH]; intro b; cbn [app get_all]; auto.
  destruct w; auto. rewrite IH. destruct (m =? n); reflexivity.
Qed.

Lemma get_varint_p3_u32 : forall n m v, get_varint n (p3_u32 m v) =
  if (m =? n) && negb (v =? 0) then Some v else None.
Proof.
  intros. unfold p3_u32. destruct (v =? 0); cbn [get_varint negb]; rewrite ?andb_false_r, ?andb_true_r; auto.
Qed.
Lemma get_varint_p3_bytes : forall n m v, get_varint n (p3_bytes m v) = None.
Proof. intros. destruct v; reflexivity. Qed.
Lemma get_varint_p3_int32 : forall n m v, get_varint n (p3_int32 m v) =
  if (m =? n) && negb (v =? 0)%Z then Some (int32_varint v) else None.
Proof.
  intros. unfold p3_int32. destruct (v =? 0)%Z; cbn [get_varint negb]; rewrite ?andb_false_r, ?andb_true_r; auto.
Qed.
Lemma get_varint_p_sub : forall n m o, get_varint n (p_sub m o) = None.
Proof. intros. destruct o; reflexivity. Qed.
Lemma get_varint_p_subs : forall n m l, get_varint n (p_subs m l) = None.
Proof. induction l; auto. Qed.

Lemma get_bytes_p3_u32 : forall n m v, get_bytes n (p3_u32 m v) = None.
Proof. intros. unfold p3_u32. destruct (v =? 0); reflexivity. Qed.
Lemma get_bytes_p3_int32 : forall n m v, get_bytes n (p3_int32 m v) = None.
Proof. intros. unfold p3_int32. destruct (v =? 0)%Z; reflexivity. Qed.
Lemma get_bytes_p3_bytes : forall n m v, get_bytes n (p3_bytes m v) =
  if (m =? n) then match v with [] => None | _ => Some v end else None.
Proof. intros. destruct v; cbn; destruct (m =? n); reflexivity. Qed.
Lemma get_bytes_p_sub_neq : forall n m o, (m =? n) = false -> get_bytes n (p_sub m o) = None.
Proof. intros. destruct o; cbn; rewrite ?H; reflexivity. Qed.
Lemma get_bytes_p_subs_neq : forall n m l, (m =? n) = false -> get_bytes n (p_subs m l) = None.
Proof. induction l as [|a l IH]; intro H; auto. cbn. unfold p_subs in IH. rewrite IH, H; auto. Qed.

Lemma get_all_p3_u32 : forall n m v, get_all n (p3_u32 m v) = [].
Proof. intros. unfold p3_u32. destruct (v =? 0); reflexivity. Qed.
Lemma get_all_p3_int32 : forall n m v, get_all n (p3_int32 m v) = [].
Proof. intros. unfold p3_int32. destruct (v =? 0)%Z; reflexivity. Qed.
Lemma get_all_p3_bytes_neq : forall n m v, (m =? n) = false -> get_all n (p3_bytes m v) = [].
Proof. intros. destruct v; cbn; rewrite ?H; reflexivity. Qed.
Lemma get_all_p_sub : forall n m o, get_all n (p_sub m o) =
  if m =? n then match o with None => [] | Some fs => [enc_fields fs] end else [].
Proof. intros. destruct o; cbn; destruct (m =? n); reflexivity. Qed.
Lemma get_all_p_subs : forall n m l, get_all n (p_subs m l) =
  if m =? n then map enc_fields l else [].
Proof.
  induction l as [|a l IH]; cbn; [destruct (m =? n); reflexivity|].
  unfold p_subs in IH. rewrite IH. destruct (m =? n); reflexivity.
Qed.

Lemma ornil_bytes : forall (b : bytes), ornil (match b with [] => None | _ => Some b end) = b.
Proof. destruct b; reflexivity. Qed.

Lemma dec_each_enc : forall l, Forall (Forall wf_field) l ->
  dec_each (map enc_fields l) = Some l.
Proof.
  induction l as [|fs l IH]; intro H; [reflexivity|].
  inversion H; subst. cbn [map dec_each]. rewrite dec_enc_fields, IH; auto.
Qed.

(** well-formedness of the pieces *)
Lemma wf_p3_u32 : forall m v, 1 <= m <= 536870911 -> v < two64 -> Forall wf_field (p3_u32 m v).
Proof. intros. unfold p3_u32. destruct (v =? 0); repeat constructor; simpl; auto; lia. Qed.
Lemma wf_p3_bytes : forall m v, 1 <= m <= 536870911 -> N.of_nat (List.length v) < two64 ->
  Forall wf_field (p3_bytes m v).
Proof. intros. destruct v; repeat constructor; simpl in *; auto; lia. Qed.
Lemma wf_p3_int32 : forall m v, 1 <= m <= 536870911 -> Forall wf_field (p3_int32 m v).
Proof.
  intros. unfold p3_int32. destruct (v =? 0)%Z; repeat constructor; simpl; auto; try lia.
  unfold int32_varint, two64. pose proof (Z.mod_pos_bound v 18446744073709551616). lia.
Qed.
Lemma wf_p_sub : forall m o, 1 <= m <= 536870911 ->
  (forall fs, o = Some fs -> N.of_nat (List.length (enc_fields fs)) < two64) ->
  Forall wf_field (p_sub m o).
Proof. intros. destruct o; repeat constructor; simpl; auto; lia. Qed.
Lemma wf_p_subs : forall m l, 1 <= m <= 536870911 ->
  Forall (fun fs => N.of_nat (List.length (enc_fields fs)) < two64) l ->
  Forall wf_field (p_subs m l).
Proof.
  intros. unfold p_subs. apply Forall_map. eapply Forall_impl; [|eassumption].
  intros fs Hf. split; simpl; auto.
Qed.

(** int32 *)
Lemma of_to_int32 : forall n, n < two32 -> of_int32 (to_int32 n) = n.
Proof.
  intros n H. unfold of_int32, to_int32, two32 in *.
  destruct (N.ltb_spec n 2147483648).
  - rewrite Z.mod_small by lia. lia.
  - replace (Z.of_N n - 4294967296)%Z with (Z.of_N n + (-1) * 4294967296)%Z by lia.
    rewrite Z.mod_add by lia. rewrite Z.mod_small by lia. lia.
Qed.
Lemma to_int32_range : forall n, n < two32 -> (-2147483648 <= to_int32 n < 2147483648)%Z.
Proof. intros n H. unfold to_int32, two32 in *. destruct (N.ltb_spec n 2147483648); lia. Qed.
Lemma int32_varint_roundtrip : forall z, (-2147483648 <= z < 2147483648)%Z ->
  varint_int32 (int32_varint z) = z.
Proof.
  intros z H. unfold varint_int32, int32_varint, u32, two32, to_int32.
  assert (E : (Z.to_N (z mod 18446744073709551616) mod 4294967296)%N = Z.to_N (z mod 4294967296)).
  { apply N2Z.inj. rewrite N2Z.inj_mod by lia.
    pose proof (Z.mod_pos_bound z 18446744073709551616). pose proof (Z.mod_pos_bound z 4294967296).
    rewrite !Z2N.id by lia.
    change (Z.of_N 4294967296) with 4294967296%Z.
    replace 18446744073709551616%Z with (4294967296 * 4294967296)%Z by reflexivity.
    rewrite Z.rem_mul_r by lia.
    rewrite (Z.mul_comm 4294967296 (_ mod _)), Z.mod_add by lia.
    apply Z.mod_mod; lia. }
  rewrite E. pose proof (Z.mod_pos_bound z 4294967296).
  destruct (Z_lt_ge_dec z 0).
  - replace (z mod 4294967296)%Z with (z + 4294967296)%Z
      by (symmetry; rewrite <- (Z.mod_add z 1) by lia; apply Z.mod_small; lia).
    destruct (N.ltb_spec (Z.to_N (z + 4294967296)) 2147483648); lia.
  - rewrite Z.mod_small by lia. destruct (N.ltb_spec (Z.to_N z) 2147483648); lia.
Qed.
