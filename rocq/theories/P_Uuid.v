From Verif Require Import M_Base M_Uuid S_Uuid P_Base.
From Coq Require Import ZifyBool ZifyNat ZifyN.
Ltac Zify.zify_post_hook ::= Z.div_mod_to_equations.

Lemma hex_byte_hex2 : forall b, hex_byte b = hex2 b.
Proof. intro b. destruct b; vm_compute; reflexivity. Qed.
Lemma lower_fold : forall b, fold_ascii b = lower b.
Proof. reflexivity. Qed.

Definition opt_n_eqb (a b : option N) : bool :=
  match a, b with Some x, Some y => N.eqb x y | None, None => true | _, _ => false end.
Lemma unhex_lower_b : forall b,
  match unhex b with
  | Some n => (n <? 16)%N && Byte.eqb (lower b) (hexd n)
  | None => forallb (fun n => negb (Byte.eqb (lower b) (hexd n)))
                    [0;1;2;3;4;5;6;7;8;9;10;11;12;13;14;15]%N
  end = true.
Proof. intro b. destruct b; vm_compute; reflexivity. Qed.

Lemma unhex_hexd : forall n, (n < 16)%N -> unhex (hexd n) = Some n.
Proof.
  intros n H. assert (C : In n [0;1;2;3;4;5;6;7;8;9;10;11;12;13;14;15]%N) by (simpl; lia).
  simpl in C. repeat (destruct C as [<-|C]; [reflexivity|]). contradiction.
Qed.
Lemma hexd_inj : forall m n, (m < 16 -> n < 16 -> hexd m = hexd n -> m = n)%N.
Proof.
  intros m n Hm Hn E. pose proof (unhex_hexd m Hm). rewrite E, unhex_hexd in H by auto. congruence.
Qed.

Lemma unhex_iff : forall b n, (n < 16)%N -> (unhex b = Some n <-> lower b = hexd n).
Proof.
  intros b n H. pose proof (unhex_lower_b b) as E. destruct (unhex b) as [m|] eqn:U.
  - apply andb_prop in E as [E1 E2]. apply N.ltb_lt in E1. apply byte_eqb_eq in E2.
    split; intro X; [injection X as <-; auto|]. f_equal. apply hexd_inj; auto. congruence.
  - split; [discriminate|]. intro X. rewrite forallb_forall in E.
    assert (C : In n [0;1;2;3;4;5;6;7;8;9;10;11;12;13;14;15]%N) by (simpl; lia).
    apply E in C. rewrite X, byte_eqb_refl in C. discriminate.
Qed.
Lemma unhex_lt : forall b n, unhex b = Some n -> (n < 16)%N.
Proof.
  intros b n U. pose proof (unhex_lower_b b) as E. rewrite U in E.
  apply andb_prop in E as [E1 _]. apply N.ltb_lt in E1. auto.
Qed.

Lemma xtob_iff : forall a b c, xtob a b = Some c <->
  (lower a = hexd (b2n c / 16) /\ lower b = hexd (b2n c mod 16)).
Proof.
  intros a b c. pose proof (b2n_lt c) as Hc.
  rewrite <- !unhex_iff by lia. unfold xtob. split.
  - destruct (unhex a) as [x|] eqn:A; [|discriminate].
    destruct (unhex b) as [y|] eqn:B; [|discriminate]. intro E. injection E as <-.
    apply unhex_lt in A, B. rewrite b2n_n2b_small by lia. split; f_equal; lia.
  - intros [-> ->]. f_equal. rewrite <- (n2b_b2n c) at 3. f_equal. lia.
Qed.

Ltac open_list b :=
  repeat match goal with
  | H : List.length (_ :: _) = _ |- _ => cbn [List.length] in H; apply Nat.succ_inj in H
  | H : List.length b = _ |- _ => idtac
  end.

(** Explicit elements of a list of known length. *)
Ltac explode b H :=
  let x := fresh "x" in
  destruct b as [|x b]; [try discriminate H| cbn [List.length] in H; try discriminate H; apply Nat.succ_inj in H; try explode b H].

Definition list16 (u : bytes) := List.length u = 16.

Lemma xtobs_length : forall b offs l, xtobs b offs = Some l -> List.length l = List.length offs.
Proof.
  induction offs as [|o r IH]; intros l H; cbn [xtobs] in H.
  - injection H as <-. reflexivity.
  - destruct (xtob _ _); [|discriminate]. destruct (xtobs b r); [|discriminate].
    injection H as <-. simpl. f_equal; auto.
Qed.

Lemma xtobs_iff : forall b offs l, xtobs b offs = Some l <->
  Forall2 (fun o c => lower (nth o b Byte.x00) = hexd (b2n c / 16)
                      /\ lower (nth (S o) b Byte.x00) = hexd (b2n c mod 16)) offs l.
Proof.
  induction offs as [|o r IH]; intros l; cbn [xtobs].
  - split; intro H; [injection H as <-; constructor|inversion H; auto].
  - split.
    + destruct (xtob _ _) as [x|] eqn:X; [|discriminate].
      destruct (xtobs b r) as [t|] eqn:T; [|discriminate]. intro H. injection H as <-.
      constructor; [apply xtob_iff; auto|apply IH; auto].
    + intro H. inversion H as [|? c ? t Hc Ht]; subst.
      apply xtob_iff in Hc. rewrite Hc. apply IH in Ht. rewrite Ht. reflexivity.
Qed.

Lemma lower_dash : forall b, lower b = dash <-> b = dash.
Proof. intro b. destruct b; vm_compute; split; intro H; congruence. Qed.

Ltac f2 := repeat match goal with
  | H : Forall2 _ (_ :: _) (_ :: _) |- _ => inversion H; clear H; subst
  | H : Forall2 _ [] _ |- _ => inversion H; clear H; subst
  | H : _ /\ _ |- _ => destruct H
  end.

Lemma parse36_iff : forall b u, List.length b = 36 ->
  (parse36 b = Some u <-> (List.length u = 16 /\ map lower b = canonical u)).
Proof.
  intros b u H. split.
  - intro E. unfold parse36 in E.
    destruct (Byte.eqb (nth 8 b Byte.x00) dash && Byte.eqb (nth 13 b Byte.x00) dash
     && Byte.eqb (nth 18 b Byte.x00) dash && Byte.eqb (nth 23 b Byte.x00) dash) eqn:D; [|discriminate].
    repeat (apply andb_prop in D as [D ?]).
    repeat match goal with X : Byte.eqb _ _ = true |- _ => apply byte_eqb_eq in X end.
    pose proof (xtobs_length _ _ _ E) as L. cbn [List.length uuid_offs] in L. split; [exact L|].
    apply xtobs_iff in E. unfold uuid_offs in E.
    explode b H. explode u L.
    cbn [nth] in *. subst. f2. cbn [nth] in *. cbn [map canonical]. unfold hexs, hex2. cbn [flat_map app str Ascii.byte_of_ascii].
    repeat match goal with X : lower _ = _ |- _ => rewrite X; clear X end. reflexivity.
  - intros [L E]. explode b H. explode u L.
    cbn [map canonical] in E. unfold hexs, hex2 in E. cbn [flat_map app] in E.
    injection E as ? ? ? ? ? ? ? ? ? ? ? ? ? ? ? ? ? ? ? ? ? ? ? ? ? ? ? ? ? ? ? ? ? ? ? ?.
    repeat match goal with X : lower ?x = _ |- _ =>
      lazymatch type of X with
      | lower x = hexd _ => fail
      | _ => change (lower x = dash) in X; apply (proj1 (lower_dash x)) in X; subst x
      end end.
    unfold parse36. cbn [nth]. rewrite byte_eqb_refl. cbn [andb].
    apply xtobs_iff. unfold uuid_offs. repeat (constructor; [cbn [nth]; split; assumption|]). constructor.
Qed.

Lemma raw_iff : forall b u, List.length b = 32 ->
  (xtobs b raw_offs = Some u <-> (List.length u = 16 /\ map lower b = hexs u)).
Proof.
  intros b u H. rewrite xtobs_iff. split.
  - intro E. pose proof (proj2 (xtobs_iff _ _ _) E) as L. apply xtobs_length in L. cbn [List.length raw_offs] in L.
    split; [exact L|]. unfold raw_offs in E.
    explode b H. explode u L.
    cbn [nth] in *. f2. cbn [nth] in *. cbn [map]. unfold hexs, hex2. cbn [flat_map app].
    repeat match goal with X : lower _ = _ |- _ => rewrite X; clear X end. reflexivity.
  - intros [L E]. explode b H. explode u L.
    cbn [map] in E. unfold hexs, hex2 in E. cbn [flat_map app] in E.
    injection E as ? ? ? ? ? ? ? ? ? ? ? ? ? ? ? ? ? ? ? ? ? ? ? ? ? ? ? ? ? ? ? ?.
    unfold raw_offs. repeat (constructor; [cbn [nth]; split; assumption|]). constructor.
Qed.

Lemma canonical_length : forall u, List.length u = 16 -> List.length (canonical u) = 36.
Proof. intros u L. explode u L. reflexivity. Qed.
Lemma hexs_length : forall u, List.length (hexs u) = 2 * List.length u.
Proof. induction u as [|x u IH]; [reflexivity|]. unfold hexs in *. cbn [flat_map]. rewrite app_length, IH. simpl. lia. Qed.

Lemma uuid_string_canonical : forall u, List.length u = 16 -> uuid_string u = canonical u.
Proof.
  intros u L. explode u L. unfold uuid_string, hex. cbn [firstn skipn map List.concat].
  rewrite !hex_byte_hex2. reflexivity.
Qed.

Lemma canonical_lower : forall u, map lower (canonical u) = canonical u.
Proof.
  assert (H2 : forall b, map lower (hex2 b) = hex2 b) by (intro b; destruct b; vm_compute; reflexivity).
  assert (HS : forall l, map lower (hexs l) = hexs l).
  { induction l as [|x l IH]; [reflexivity|]. unfold hexs in *. cbn [flat_map]. rewrite map_app, IH, H2. reflexivity. }
  intro u. unfold canonical. repeat (destruct u as [|? u]; try reflexivity).
  rewrite !map_app, !HS. reflexivity.
Qed.

Lemma uuid_parse_exact : forall b u, uuid_parse b = Some u <-> denotes b u.
Proof.
  intros b u. unfold uuid_parse, denotes.
  pose proof (map_length lower b) as ML.
  destruct (Nat.eqb_spec (List.length b) 36) as [E36|N36].
  { rewrite parse36_iff by auto. split; [tauto|]. intros [L [X|[X|[(x & y & t & -> & X)|X]]]]; auto.
    - exfalso. apply (f_equal (@List.length _)) in X. rewrite ML, app_length, canonical_length in X by auto. simpl in X; lia.
    - exfalso. apply (f_equal (@List.length _)) in X. rewrite map_length, canonical_length in X by auto.
      cbn [List.length] in E36. rewrite app_length in E36. simpl in E36. lia.
    - exfalso. apply (f_equal (@List.length _)) in X. rewrite ML, hexs_length in X. lia. }
  destruct (Nat.eqb_spec (List.length b) 45) as [E45|N45].
  { assert (S9 : List.length (skipn 9 b) = 36) by (rewrite skipn_length; lia).
    destruct (bytes_eqb (map fold_ascii (firstn 9 b)) (str "urn:uuid:")) eqn:F.
    - apply bytes_eqb_eq in F. rewrite parse36_iff by auto. split.
      + intros [L X]. split; auto. right; left. rewrite <- (firstn_skipn 9 b), map_app, X. f_equal. exact F.
      + intros [L [X|[X|[(x & y & t & -> & X)|X]]]].
        * exfalso. apply (f_equal (@List.length _)) in X. rewrite ML, canonical_length in X by auto. lia.
        * split; auto. rewrite <- (firstn_skipn 9 b), map_app in X.
          apply app_inv_head_iff with (l := str "urn:uuid:"). rewrite <- X. f_equal. symmetry; exact F.
        * exfalso. apply (f_equal (@List.length _)) in X. rewrite map_length, canonical_length in X by auto.
          cbn [List.length] in E45. rewrite app_length in E45. simpl in E45. lia.
        * exfalso. apply (f_equal (@List.length _)) in X. rewrite ML, hexs_length in X. lia.
    - split; [discriminate|]. intros [L [X|[X|[(x & y & t & -> & X)|X]]]].
      + exfalso. apply (f_equal (@List.length _)) in X. rewrite ML, canonical_length in X by auto. lia.
      + exfalso. rewrite <- (firstn_skipn 9 b), map_app in X.
        assert (Y : map lower (firstn 9 b) = str "urn:uuid:").
        { apply (f_equal (firstn 9)) in X. rewrite firstn_app_len in X by (rewrite map_length, firstn_length; lia).
          rewrite firstn_app_len in X by reflexivity. exact X. }
        change (map lower (firstn 9 b)) with (map fold_ascii (firstn 9 b)) in Y.
        rewrite Y, bytes_eqb_refl in F. discriminate.
      + exfalso. apply (f_equal (@List.length _)) in X. rewrite map_length, canonical_length in X by auto.
        cbn [List.length] in E45. rewrite app_length in E45. simpl in E45. lia.
      + exfalso. apply (f_equal (@List.length _)) in X. rewrite ML, hexs_length in X. lia. }
  destruct (Nat.eqb_spec (List.length b) 38) as [E38|N38].
  { destruct b as [|x b]; [discriminate|]. cbn [List.length] in E38.
    assert (exists t y, b = t ++ [y] /\ List.length t = 36) as (t & y & -> & Lt).
    { exists (firstn 36 b), (nth 36 b Byte.x00). split; [|rewrite firstn_length; lia].
      rewrite <- (firstn_skipn 36 b) at 1. f_equal.
      assert (S1 : List.length (skipn 36 b) = 1) by (rewrite skipn_length; lia).
      rewrite <- (firstn_skipn 36 b) at 2. rewrite app_nth2; rewrite firstn_length; [|lia].
      replace (36 - Nat.min 36 (List.length b)) with 0 by lia.
      destruct (skipn 36 b) as [|z [|? ?]]; try discriminate. reflexivity. }
    cbn [skipn].
    assert (PP : parse36 (t ++ [y]) = parse36 t).
    { explode t Lt. reflexivity. }
    rewrite PP, parse36_iff by auto. split.
    - intros [L X]. split; auto. right; right; left. exists x, y, t. auto.
    - intros [L [X|[X|[(x' & y' & t' & E & X)|X]]]].
      + exfalso. apply (f_equal (@List.length _)) in X. rewrite ML, canonical_length in X by auto. cbn [List.length] in *. lia.
      + exfalso. apply (f_equal (@List.length _)) in X. rewrite ML, app_length, canonical_length in X by auto. simpl in X. simpl in E38. lia.
      + split; auto. injection E as -> E. apply app_inj_tail in E as [-> _]. auto.
      + exfalso. apply (f_equal (@List.length _)) in X. rewrite ML, hexs_length in X. cbn [List.length] in *. lia. }
  destruct (Nat.eqb_spec (List.length b) 32) as [E32|N32].
  { rewrite raw_iff by auto. split; [tauto|]. intros [L [X|[X|[(x & y & t & -> & X)|X]]]]; auto.
    - exfalso. apply (f_equal (@List.length _)) in X. rewrite ML, canonical_length in X by auto. lia.
    - exfalso. apply (f_equal (@List.length _)) in X. rewrite ML, app_length, canonical_length in X by auto. simpl in X; lia.
    - exfalso. apply (f_equal (@List.length _)) in X. rewrite map_length, canonical_length in X by auto.
      cbn [List.length] in E32. rewrite app_length in E32. simpl in E32. lia. }
  split; [discriminate|]. intros [L [X|[X|[(x & y & t & -> & X)|X]]]]; exfalso.
  - apply (f_equal (@List.length _)) in X. rewrite ML, canonical_length in X by auto. lia.
  - apply (f_equal (@List.length _)) in X. rewrite ML, app_length, canonical_length in X by auto. simpl in X; lia.
  - apply (f_equal (@List.length _)) in X. rewrite map_length, canonical_length in X by auto.
    cbn [List.length] in N38. rewrite app_length in N38. simpl in N38. lia.
  - apply (f_equal (@List.length _)) in X. rewrite ML, hexs_length in X. lia.
Qed.

Lemma uuid_roundtrip : forall u, List.length u = 16 -> uuid_parse (uuid_string u) = Some u.
Proof.
  intros u L. apply uuid_parse_exact. split; auto. left.
  rewrite uuid_string_canonical by auto. apply canonical_lower.
Qed.
Lemma uuid_string_length : forall u, List.length u = 16 -> List.length (uuid_string u) = 36.
Proof. intros. rewrite uuid_string_canonical by auto. apply canonical_length; auto. Qed.
Lemma dist_parse_exact : forall b u, dist_parse b = Ok u <-> denotes b u.
Proof.
  intros b u. rewrite <- uuid_parse_exact. unfold dist_parse.
  destruct (uuid_parse b); split; intro H; congruence || discriminate.
Qed.
Lemma dist_roundtrip : forall u, List.length u = 16 -> dist_parse (uuid_string u) = Ok u.
Proof. intros u L. unfold dist_parse. rewrite uuid_roundtrip; auto. Qed.
Lemma dist_parse_no_panic : forall b, dist_parse b <> Panic.
Proof. intro b. unfold dist_parse. destruct (uuid_parse b); discriminate. Qed.
Lemma dist_parse_len : forall b u, dist_parse b = Ok u -> List.length u = 16.
Proof. intros b u H. apply dist_parse_exact in H. apply H. Qed.
