(** Proofs for C87. *)
From Verif Require Import M_Base M_Text S_Fingerprint S_Text P_Base.
Local Open Scope N_scope.

Lemma decimal_snoc : forall b x, decimal (b ++ [x]) = 10 * decimal b + (b2n x - 48).
Proof. intros. unfold decimal. rewrite fold_left_app. reflexivity. Qed.
Lemma dig_n : forall n, n < 10 -> b2n (n2b (48 + n)) = 48 + n.
Proof. intros. apply b2n_n2b_small. lia. Qed.
Lemma dec_numeral : forall fuel n, n < 2 ^ N.of_nat fuel -> numeral n (dec_from (S fuel) n).
Proof.
  induction fuel as [|k IH]; intros n H.
  - cbn in H. assert (n = 0) by lia. subst. cbn. repeat split; try discriminate; try congruence.
    + destruct H0 as [<-|[]]. vm_compute; discriminate.
    + destruct H0 as [<-|[]]. vm_compute; discriminate.
  - change (dec_from (S (S k)) n) with (if n <? 10 then [n2b (48 + n)] else dec_from (S k) (n / 10) ++ [n2b (48 + n mod 10)]).
    destruct (N.ltb_spec n 10).
    + assert (D := dig_n n H0). split; [discriminate|]. split; [|split; [|split]].
      * intros x [<-|[]]. unfold is_digit. lia.
      * unfold decimal. cbn [fold_left]. lia.
      * intros Z Q. cbn [hd] in Q. rewrite Q in D. change (b2n Byte.x30) with 48 in D. lia.
      * intros ->. reflexivity.
    + assert (n / 10 < 2 ^ N.of_nat k).
      { apply N.div_lt_upper_bound; [lia|]. rewrite Nat2N.inj_succ, N.pow_succ_r' in H. lia. }
      destruct (IH _ H1) as (A & B & V & Hd & Z).
      assert (n / 10 <> 0). { intro Q. apply N.div_small_iff in Q; lia. }
      assert (M : n mod 10 < 10) by (apply N.mod_lt; lia). assert (D := dig_n _ M).
      split; [|split; [|split; [|split]]].
      * intro Q. apply app_eq_nil in Q as [_ Q]. discriminate.
      * intros x I. apply in_app_or in I as [I|[<-|[]]]; [auto|]. unfold is_digit. lia.
      * rewrite decimal_snoc, V, D. replace (48 + n mod 10 - 48) with (n mod 10) by lia. symmetry. apply N.div_mod'.
      * intros _. destruct (dec_from (S k) (n / 10)); [congruence|]. cbn [hd app]. apply Hd. exact H2.
      * lia.
Qed.
Lemma size_bound : forall n, n < 2 ^ N.of_nat (N.size_nat n).
Proof.
  intros [|p]; [reflexivity|]. cbn [N.size_nat].
  induction p; cbn [Pos.size_nat]; rewrite ?Nat2N.inj_succ, ?N.pow_succ_r'; lia.
Qed.
Lemma format_uint_numeral : forall n, numeral n (format_uint n).
Proof. intro. apply dec_numeral, size_bound. Qed.
Lemma format_uint_inj : forall a b, format_uint a = format_uint b -> a = b.
Proof.
  intros a b H. destruct (format_uint_numeral a) as (_ & _ & A & _). destruct (format_uint_numeral b) as (_ & _ & B & _).
  congruence.
Qed.
Lemma format_int_numeral : forall z, int_numeral z (format_int z).
Proof.
  intros [|p|p]; unfold format_int; cbn [Z.ltb Z.compare Z.abs_N int_numeral Z.to_N]; try apply format_uint_numeral.
  exists (format_uint (N.pos p)). split; [apply format_uint_numeral|reflexivity].
Qed.
Lemma no_sign : forall n b, numeral n b -> hd Byte.x30 b <> Byte.x2d.
Proof.
  intros n [|x b] (A & B & _); [congruence|]. cbn [hd]. intros ->. specialize (B _ (or_introl eq_refl)).
  unfold is_digit in B. change (b2n Byte.x2d) with 45 in B. lia.
Qed.
Lemma format_int_inj : forall a b, format_int a = format_int b -> a = b.
Proof.
  intros a b. unfold format_int. assert (NA := no_sign _ _ (format_uint_numeral (Z.abs_N a))).
  assert (NB := no_sign _ _ (format_uint_numeral (Z.abs_N b))).
  destruct (Z.ltb_spec a 0), (Z.ltb_spec b 0); intro E.
  - apply (f_equal (@tl byte)) in E. cbn [tl] in E. apply format_uint_inj in E. lia.
  - rewrite <- E in NB. cbn [hd] in NB. congruence.
  - rewrite E in NA. cbn [hd] in NA. congruence.
  - apply format_uint_inj in E. lia.
Qed.
Lemma str_inj : forall a b, str a = str b -> a = b.
Proof.
  induction a as [|x a IH]; intros [|y b] E; cbn [str] in E; try discriminate; [reflexivity|].
  assert (Q := f_equal (hd Byte.x00) E). cbn [hd] in Q. apply (f_equal (@tl byte)) in E. cbn [tl] in E.
  rewrite (IH _ E). rewrite <- (Ascii.ascii_of_byte_of_ascii x), <- (Ascii.ascii_of_byte_of_ascii y), Q. reflexivity.
Qed.
(** The last dot of the text ends the name. *)
Lemma split_last : forall (x : byte) (a b c d : bytes), ~ In x c -> ~ In x d -> a ++ x :: c = b ++ x :: d -> a = b /\ c = d.
Proof.
  intros x a. induction a as [|p a IH]; intros [|q b] c d NC ND E; cbn [app] in E.
  - apply (f_equal (@tl byte)) in E. auto.
  - exfalso. apply NC. assert (Q := f_equal (@tl byte) E). cbn [tl] in Q. rewrite Q. apply in_or_app. right. left. reflexivity.
  - exfalso. apply ND. assert (Q := f_equal (@tl byte) E). cbn [tl] in Q. rewrite <- Q. apply in_or_app. right. left. reflexivity.
  - assert (Q := f_equal (hd Byte.x00) E). cbn [hd] in Q. apply (f_equal (@tl byte)) in E. cbn [tl] in E.
    destruct (IH _ _ _ NC ND E). subst. auto.
Qed.
Lemma no_dot : forall n, ~ In Byte.x2e (format_uint n).
Proof.
  intros n I. destruct (format_uint_numeral n) as (_ & B & _). specialize (B _ I). unfold is_digit in B.
  change (b2n Byte.x2e) with 46 in B. lia.
Qed.
Lemma address_inj : forall a b, address_string a = address_string b -> a = b.
Proof.
  intros [na da] [nb db] E. unfold address_string in E. cbn [a_name a_dev] in E.
  destruct (split_last Byte.x2e _ _ _ _ (no_dot _) (no_dot _) E) as [A B].
  apply str_inj in A. apply format_uint_inj in B. subst. reflexivity.
Qed.
Lemma address_form : forall a, exists d, numeral (a_dev a) d /\ address_string a = str (a_name a) ++ str "." ++ d.
Proof. intro a. exists (format_uint (a_dev a)). split; [apply format_uint_numeral|reflexivity]. Qed.

Lemma type_cases : forall t, t = 2%Z \/ t = 3%Z \/ t = 7%Z \/ t = 8%Z \/
  (t <> 2 /\ t <> 3 /\ t <> 7 /\ t <> 8)%Z /\ type_string t = str "CiphertextType(" ++ format_int t ++ str ")".
Proof.
  intro t. destruct (Z.eq_dec t 2); [auto|]. destruct (Z.eq_dec t 3); [auto|]. destruct (Z.eq_dec t 7); [auto|]. destruct (Z.eq_dec t 8); [auto|].
  do 4 right. split; [auto|]. unfold type_string.
  destruct (Z.leb_spec 2 t), (Z.leb_spec t 3), (Z.leb_spec 7 t), (Z.leb_spec t 8); cbn [andb]; try lia; reflexivity.
Qed.
Lemma type_other : forall t, ~ In t [2; 3; 7; 8]%Z -> exists d, int_numeral t d /\ type_string t = str "CiphertextType(" ++ d ++ str ")".
Proof.
  intros t H. exists (format_int t). split; [apply format_int_numeral|].
  destruct (type_cases t) as [->|[->|[->|[->|[_ E]]]]]; try (exfalso; apply H; cbn; tauto). exact E.
Qed.
Lemma type_inj : forall s t, type_string s = type_string t -> s = t.
Proof.
  intros s t E. destruct (type_cases s) as [->|[->|[->|[->|[_ A]]]]], (type_cases t) as [->|[->|[->|[->|[_ B]]]]];
    try reflexivity; try (vm_compute in E; discriminate).
  all: try (rewrite A in E; apply (f_equal (hd Byte.x00)) in E; vm_compute in E; discriminate).
  all: try (rewrite B in E; apply (f_equal (hd Byte.x00)) in E; vm_compute in E; discriminate).
  rewrite A, B in E. apply app_inv_head in E. apply app_inv_tail in E. apply format_int_inj. exact E.
Qed.
