(** The decoder accepts exactly the grammar, the encoder produces it. *)
From Verif Require Import M_Base M_Crypto M_Curve M_Proto M_Uuid M_Message S_Crypto S_Message S_Uuid S_Wire
  P_Base P_Proto P_Curve P_Uuid P_Message.
From Coq Require Import ZifyBool ZifyNat ZifyN.
Local Open Scope N_scope.

Lemma varint_nonnil : forall b n, varint b n -> b <> [].
Proof. intros b n H. inversion H; discriminate. Qed.

Lemma dec_varint_aux_sound : forall f b n r, dec_varint_aux f b = Some (n, r) ->
  exists v, b = v ++ r /\ varint v n /\ (List.length v <= f)%nat /\
    (f <> 0%nat -> n < 2 * 128 ^ N.of_nat (f - 1)).
Proof.
  induction f as [|f IH]; intros b n r E; [discriminate|]. cbn [dec_varint_aux] in E.
  destruct b as [|x b]; [discriminate|]. cbv zeta in E.
  destruct (N.ltb_spec (b2n x) 128) as [L|L].
  - assert (Q : n = b2n x /\ r = b /\ (f = 0%nat -> b2n x < 2)).
    { destruct f; [|injection E as <- <-; split; [auto|split; [auto|discriminate]]].
      destruct (N.ltb_spec (b2n x) 2); [|discriminate]. injection E as <- <-. auto. }
    destruct Q as (-> & -> & Z). exists [x]. split; [reflexivity|]. split; [constructor; auto|].
    split; [cbn; lia|]. intros _. replace (S f - 1)%nat with f by lia.
    destruct f; [cbn; specialize (Z eq_refl); lia|].
    rewrite Nat2N.inj_succ, N.pow_succ_r'. pose proof (N.pow_nonzero 128 (N.of_nat f) ltac:(lia)). nia.
  - destruct (dec_varint_aux f b) as [[v r']|] eqn:D; [|discriminate]. injection E as <- <-.
    destruct (IH _ _ _ D) as (w & -> & V & Lw & B). exists (x :: w). split; [reflexivity|].
    split; [constructor; auto|]. split; [cbn; lia|]. intros _.
    assert (f <> 0%nat) by (destruct f; [discriminate D|lia]). specialize (B H).
    replace (S f - 1)%nat with (S (f - 1)) by lia. rewrite Nat2N.inj_succ, N.pow_succ_r'.
    pose proof (b2n_lt x). nia.
Qed.

Lemma dec_varint_aux_complete : forall v n, varint v n -> forall f r, (List.length v <= S f)%nat ->
  n < 2 * 128 ^ N.of_nat f -> dec_varint_aux (S f) (v ++ r) = Some (n, r).
Proof.
  induction 1 as [x L|x b n L V IH]; intros f r Lv B.
  - cbn [app dec_varint_aux]. cbv zeta. destruct (N.ltb_spec (b2n x) 128); [|lia].
    destruct f; [|reflexivity]. cbn in B. destruct (N.ltb_spec (b2n x) 2); [reflexivity|lia].
  - cbn [app]. cbn [dec_varint_aux]. cbv zeta. destruct (N.ltb_spec (b2n x) 128); [lia|].
    pose proof (varint_nonnil _ _ V). destruct b as [|y b]; [contradiction|]. cbn [List.length] in Lv.
    destruct f as [|f]; [lia|]. rewrite IH; [reflexivity|cbn [List.length]; lia|].
    rewrite Nat2N.inj_succ, N.pow_succ_r' in B. lia.
Qed.

Lemma dec_varint_iff : forall b n r, dec_varint b = Some (n, r) <-> exists v, b = v ++ r /\ vint v n.
Proof.
  intros b n r. assert (E : 2 * 128 ^ N.of_nat 9 = 18446744073709551616) by reflexivity. split.
  - intro D. apply dec_varint_aux_sound in D. destruct D as (v & -> & V & L & B).
    exists v. split; [reflexivity|]. split; [auto|]. split; [lia|]. specialize (B ltac:(discriminate)).
    change (10 - 1)%nat with 9%nat in B. rewrite E in B. auto.
  - intros (v & -> & V & L & B). apply dec_varint_aux_complete; [auto..|]. rewrite E. auto.
Qed.

Lemma take_iff : forall k b v r, take k b = Some (v, r) <-> (b = v ++ r /\ List.length v = k).
Proof.
  intros k b v r. unfold take. destruct (Nat.ltb_spec (List.length b) k); split.
  - discriminate.
  - intros [-> E]. rewrite app_length in H. lia.
  - intro E. injection E as <- <-. split; [symmetry; apply firstn_skipn|]. rewrite firstn_length. lia.
  - intros [-> E]. rewrite firstn_app_len, skipn_app_len by auto. reflexivity.
Qed.

Lemma dec_len_iff : forall b v r, dec_len b = Some (v, r) <->
  exists l, b = l ++ v ++ r /\ vint l (N.of_nat (List.length v)).
Proof.
  intros b v r. unfold dec_len. split.
  - destruct (dec_varint b) as [[m r0]|] eqn:D; [|discriminate]. apply dec_varint_iff in D.
    destruct D as (l & -> & V). destruct (N.ltb_spec (N.of_nat (List.length r0)) m); [discriminate|].
    intro E. injection E as <- <-. exists l. rewrite firstn_skipn. split; [reflexivity|].
    rewrite firstn_length. replace (N.of_nat (Nat.min (N.to_nat m) (List.length r0))) with m by lia. auto.
  - intros (l & -> & V). assert (D : dec_varint (l ++ v ++ r) = Some (N.of_nat (List.length v), v ++ r)).
    { apply dec_varint_iff. exists l. auto. }
    rewrite D. rewrite app_length. destruct (N.ltb_spec (N.of_nat (List.length v + List.length r)) (N.of_nat (List.length v))); [lia|].
    rewrite Nat2N.id, firstn_app_len, skipn_app_len by auto. reflexivity.
Qed.

Lemma dec_scalar_iff : forall ty b w r, dec_scalar ty b = Some (w, r) <->
  exists v, b = v ++ r /\ scalar ty v w.
Proof.
  intros ty b w r. unfold dec_scalar. split.
  - destruct (N.eqb_spec ty 0) as [->|].
    { destruct (dec_varint b) as [[m r0]|] eqn:D; [|discriminate]. intro E. injection E as <- <-.
      apply dec_varint_iff in D. destruct D as (v & -> & V). exists v. split; [auto|]. constructor; auto. }
    destruct (N.eqb_spec ty 1) as [->|].
    { destruct (take 8 b) as [[m r0]|] eqn:D; [|discriminate]. intro E. injection E as <- <-.
      apply take_iff in D. destruct D as [-> L]. exists m. split; [auto|]. constructor; auto. }
    destruct (N.eqb_spec ty 2) as [->|].
    { destruct (dec_len b) as [[m r0]|] eqn:D; [|discriminate]. intro E. injection E as <- <-.
      apply dec_len_iff in D. destruct D as (l & -> & V). exists (l ++ m). rewrite <- app_assoc.
      split; [auto|]. constructor; auto. }
    destruct (N.eqb_spec ty 5) as [->|]; [|discriminate].
    destruct (take 4 b) as [[m r0]|] eqn:D; [|discriminate]. intro E. injection E as <- <-.
    apply take_iff in D. destruct D as [-> L]. exists m. split; [auto|]. constructor; auto.
  - intros (v & -> & S). destruct S as [b n V|b L|l b V|b L]; cbn [N.eqb Pos.eqb].
    + replace (dec_varint (b ++ r)) with (Some (n, r)); [reflexivity|]. symmetry. apply dec_varint_iff. eauto.
    + replace (take 8 (b ++ r)) with (Some (b, r)); [reflexivity|]. symmetry. apply take_iff. auto.
    + replace (dec_len ((l ++ b) ++ r)) with (Some (b, r)); [reflexivity|]. symmetry. apply dec_len_iff.
      exists l. rewrite <- app_assoc. auto.
    + replace (take 4 (b ++ r)) with (Some (b, r)); [reflexivity|]. symmetry. apply take_iff. auto.
Qed.

Lemma vint_pos : forall b n, vint b n -> (1 <= List.length b)%nat.
Proof. intros b n (V & _). apply varint_nonnil in V. destruct b; [contradiction|cbn; lia]. Qed.

Lemma tag_split : forall t, t = 8 * (t / 8) + t mod 8 /\ t mod 8 < 8.
Proof. intro t. split; [apply N.div_mod; lia|apply N.mod_lt; lia]. Qed.
Lemma tag_join : forall n ty, ty < 8 -> (8 * n + ty) / 8 = n /\ (8 * n + ty) mod 8 = ty.
Proof.
  intros n ty H. rewrite (N.mul_comm 8 n), N.add_comm, N.div_add, N.mod_add by lia.
  rewrite N.div_small, N.mod_small by lia. auto.
Qed.

Lemma dec_tag_iff : forall b n ty r, dec_tag b = Some (n, ty, r) <->
  exists t, b = t ++ r /\ vint t (8 * n + ty) /\ 1 <= n <= 2147483647 /\ ty < 8.
Proof.
  intros b n ty r. unfold dec_tag. split.
  - destruct (dec_varint b) as [[m r0]|] eqn:D; [|discriminate]. apply dec_varint_iff in D.
    destruct D as (v & -> & V). destruct (tag_split m) as [Q R].
    destruct ((m / 8 <? 1) || (2147483647 <? m / 8)) eqn:B; [discriminate|].
    apply orb_false_elim in B. destruct B as [B1 B2]. apply N.ltb_ge in B1, B2.
    intro E. injection E as <- <- <-. exists v. rewrite <- Q. auto.
  - intros (t & -> & V & B & T). replace (dec_varint (t ++ r)) with (Some (8 * n + ty, r)).
    2:{ symmetry. apply dec_varint_iff. eauto. }
    destruct (tag_join n ty T) as [-> ->].
    destruct (N.ltb_spec n 1); [lia|]. destruct (N.ltb_spec 2147483647 n); [lia|]. reflexivity.
Qed.

Lemma skip_group_sound : forall f d num b r, skip_group f d num b = Some r ->
  exists g, b = g ++ r /\ group d num g.
Proof.
  induction f as [|f IH]; intros d num b r E; [discriminate|]. cbn [skip_group] in E.
  destruct (dec_tag b) as [[[n ty] r0]|] eqn:D; [|discriminate]. apply dec_tag_iff in D.
  destruct D as (t & -> & V & B & T).
  destruct (N.eqb_spec ty 4) as [->|].
  { destruct (N.eqb_spec num n) as [->|]; [|discriminate]. injection E as <-. exists t. split; [auto|]. constructor; auto. }
  destruct (N.eqb_spec ty 3) as [->|].
  { destruct (Z.ltb_spec (d - 1) 0); [discriminate|].
    destruct (skip_group f (d - 1) n r0) as [r1|] eqn:G; [|discriminate].
    apply IH in G. destruct G as (g & -> & G). apply IH in E. destruct E as (h & -> & E).
    exists (t ++ g ++ h). rewrite <- !app_assoc. split; [auto|]. eapply gr_nested; eauto. lia. }
  destruct (dec_scalar ty r0) as [[w r1]|] eqn:S; [|discriminate]. apply dec_scalar_iff in S.
  destruct S as (v & -> & S). apply IH in E. destruct E as (h & -> & E).
  exists (t ++ v ++ h). rewrite <- !app_assoc. split; [auto|]. eapply gr_scalar; eauto.
Qed.

Lemma scalar_type : forall ty v w, scalar ty v w -> ty <> 3 /\ ty <> 4 /\ ty < 8.
Proof. intros ty v w S. destruct S; lia. Qed.

Lemma skip_group_complete : forall d num g, group d num g -> forall f r, (List.length g <= f)%nat ->
  skip_group f d num (g ++ r) = Some r.
Proof.
  induction 1 as [d num t V B|d num t n ty v w r0 V B T S G IH|d num t n g r0 V B D G IHg R IHr];
    intros f r L; destruct f as [|f];
    try (pose proof (vint_pos _ _ V); repeat rewrite app_length in L; lia); cbn [skip_group].
  - replace (dec_tag (t ++ r)) with (Some (num, 4, r)).
    2:{ symmetry. apply dec_tag_iff. exists t. split; [auto|split; [auto|split; [auto|lia]]]. }
    cbn [N.eqb Pos.eqb]. rewrite N.eqb_refl. reflexivity.
  - rewrite <- !app_assoc. replace (dec_tag (t ++ v ++ r0 ++ r)) with (Some (n, ty, v ++ r0 ++ r)).
    2:{ symmetry. apply dec_tag_iff. exists t. split; [auto|split; [auto|split; [auto|lia]]]. }
    destruct (scalar_type _ _ _ S) as (N3 & N4 & _).
    destruct (N.eqb_spec ty 4); [contradiction|]. destruct (N.eqb_spec ty 3); [contradiction|].
    replace (dec_scalar ty (v ++ r0 ++ r)) with (Some (w, r0 ++ r)).
    2:{ symmetry. apply dec_scalar_iff. eauto. }
    apply IH. pose proof (vint_pos _ _ V). rewrite !app_length in L. lia.
  - rewrite <- !app_assoc. replace (dec_tag (t ++ g ++ r0 ++ r)) with (Some (n, 3, g ++ r0 ++ r)).
    2:{ symmetry. apply dec_tag_iff. exists t. split; [auto|split; [auto|split; [auto|lia]]]. }
    cbn [N.eqb Pos.eqb]. destruct (Z.ltb_spec (d - 1) 0); [lia|].
    pose proof (vint_pos _ _ V). rewrite !app_length in L.
    rewrite IHg by lia. apply IHr. lia.
Qed.

Lemma dec_fields_aux_sound : forall f b fs, dec_fields_aux f b = Some fs -> wire b fs.
Proof.
  induction f as [|f IH]; intros b fs E.
  - destruct b; [|discriminate]. injection E as <-. constructor.
  - cbn [dec_fields_aux] in E. destruct b as [|x b]; [injection E as <-; constructor|].
    destruct (dec_varint (x :: b)) as [[t r]|] eqn:D; [|discriminate]. apply dec_varint_iff in D.
    destruct D as (v & Eb & V). rewrite Eb. destruct (tag_split t) as [Q R]. cbv zeta in E.
    destruct ((t / 8 <? 1) || (536870911 <? t / 8)) eqn:B; [discriminate|].
    apply orb_false_elim in B. destruct B as [B1 B2]. apply N.ltb_ge in B1, B2.
    destruct (N.eqb_spec (t mod 8) 3) as [T3|T3].
    + destruct (skip_group (List.length r) 10000 (t / 8) r) as [r'|] eqn:G; [|discriminate].
      apply skip_group_sound in G. destruct G as (g & -> & G).
      destruct (dec_fields_aux f r') as [fs'|] eqn:D'; [|discriminate]. injection E as <-.
      apply IH in D'. eapply w_group; eauto. rewrite T3 in Q. rewrite <- Q. auto.
    + destruct (dec_scalar (t mod 8) r) as [[w r']|] eqn:S; [|discriminate].
      apply dec_scalar_iff in S. destruct S as (s & -> & S).
      destruct (dec_fields_aux f r') as [fs'|] eqn:D'; [|discriminate]. injection E as <-.
      apply IH in D'. eapply w_scalar; eauto. rewrite <- Q. auto.
Qed.

Lemma dec_fields_aux_complete : forall b fs, wire b fs -> forall f, (List.length b <= f)%nat ->
  dec_fields_aux f b = Some fs.
Proof.
  induction 1 as [|t n ty v w r fs V B T S W IH|t n g r fs V B G W IH]; intros f L.
  - destruct f; reflexivity.
  - pose proof (vint_pos _ _ V). rewrite !app_length in L. destruct f as [|f]; [lia|].
    destruct (t ++ v ++ r) as [|x b] eqn:Eb; [destruct t; [cbn in *; lia|discriminate]|]. rewrite <- Eb.
    cbn [dec_fields_aux]. rewrite Eb. rewrite <- Eb.
    replace (dec_varint (t ++ v ++ r)) with (Some (8 * n + ty, v ++ r)).
    2:{ symmetry. apply dec_varint_iff. eauto. }
    destruct (tag_join n ty T) as [-> ->]. cbv zeta.
    destruct (N.ltb_spec n 1); [lia|]. destruct (N.ltb_spec 536870911 n); [lia|]. cbn [orb].
    destruct (scalar_type _ _ _ S) as (N3 & N4 & _). destruct (N.eqb_spec ty 3); [contradiction|].
    replace (dec_scalar ty (v ++ r)) with (Some (w, r)).
    2:{ symmetry. apply dec_scalar_iff. eauto. }
    rewrite IH by lia. reflexivity.
  - pose proof (vint_pos _ _ V). rewrite !app_length in L. destruct f as [|f]; [lia|].
    destruct (t ++ g ++ r) as [|x b] eqn:Eb; [destruct t; [cbn in *; lia|discriminate]|]. rewrite <- Eb.
    cbn [dec_fields_aux]. rewrite Eb. rewrite <- Eb.
    replace (dec_varint (t ++ g ++ r)) with (Some (8 * n + 3, g ++ r)).
    2:{ symmetry. apply dec_varint_iff. eauto. }
    destruct (tag_join n 3 ltac:(lia)) as [-> ->]. cbv zeta.
    destruct (N.ltb_spec n 1); [lia|]. destruct (N.ltb_spec 536870911 n); [lia|]. cbn [orb N.eqb Pos.eqb].
    rewrite (skip_group_complete _ _ _ G) by (rewrite app_length; lia).
    rewrite IH by lia. reflexivity.
Qed.

(** The decoder and the grammar agree. *)
Lemma dec_fields_iff : forall b fs, dec_fields b = Some fs <-> wire b fs.
Proof.
  intros. split; [apply dec_fields_aux_sound|]. intro W. apply dec_fields_aux_complete; auto.
Qed.

(** *** Reading fields *)
Lemma get_bytes_all : forall n fs, get_bytes n fs =
  match all_bytes n fs with [] => None | _ => Some (the_bytes n fs) end.
Proof.
  intros n fs. unfold the_bytes. induction fs as [|[m w] fs IH]; [reflexivity|].
  cbn [get_bytes all_bytes flat_map]. fold (all_bytes n fs).
  destruct w; cbn [app]; auto. rewrite IH.
  destruct (all_bytes n fs) as [|x l] eqn:E; destruct (m =? n); reflexivity.
Qed.
Lemma get_varint_all : forall n fs, get_varint n fs =
  match all_nums n fs with [] => None | l => Some (last l 0) end.
Proof.
  intros n fs. induction fs as [|[m w] fs IH]; [reflexivity|].
  cbn [get_varint all_nums flat_map]. fold (all_nums n fs).
  destruct w; cbn [app]; auto. rewrite IH.
  destruct (all_nums n fs) as [|x l] eqn:E; destruct (m =? n); reflexivity.
Qed.
Lemma ornil_get : forall n fs, ornil (get_bytes n fs) = the_bytes n fs.
Proof. intros. rewrite get_bytes_all. unfold the_bytes. destruct (all_bytes n fs); reflexivity. Qed.
Lemma or0_get : forall n fs, or0 (get_u32 n fs) = the_u32 n fs.
Proof. intros. unfold get_u32. rewrite get_varint_all. unfold the_u32. destruct (all_nums n fs); reflexivity. Qed.
Lemma opt_get : forall n fs, get_u32 n fs = the_opt_u32 n fs.
Proof. intros. unfold get_u32. rewrite get_varint_all. unfold the_opt_u32. destruct (all_nums n fs); reflexivity. Qed.

Lemma key_text_iff : forall b k, new_public_key b = Ok k <-> key_text b k.
Proof.
  intros b k. rewrite new_public_key_exact. unfold key_text. split.
  - intros (L & r & -> & ->). cbn [List.length] in L. rewrite firstn_length. split; [lia|].
    exists (skipn 32 r). rewrite firstn_skipn. reflexivity.
  - intros (L & junk & ->). cbn [List.length]. rewrite app_length. split; [lia|].
    eexists. split; [reflexivity|]. rewrite firstn_app_len by auto. reflexivity.
Qed.

Lemma split_tail : forall (b : bytes) n, (n <= List.length b)%nat ->
  b = firstn (List.length b - n) b ++ skipn (List.length b - n) b /\
  List.length (skipn (List.length b - n) b) = n.
Proof. intros b n L. rewrite firstn_skipn, skipn_length. split; [auto|lia]. Qed.

Lemma firstn_body : forall (v : byte) body tag n, List.length tag = n ->
  firstn (List.length (v :: body ++ tag) - n - 1) (body ++ tag) = body.
Proof.
  intros v body tag n L. cbn [List.length]. rewrite app_length.
  replace (S (List.length body + List.length tag) - n - 1)%nat with (List.length body) by lia.
  apply firstn_app_len. reflexivity.
Qed.

Theorem parse_signal_iff : forall b m, parse_signal b = Ok m <-> signal_text b m.
Proof.
  intros b m. unfold signal_text. split.
  - intro E. unfold parse_signal in E. destruct b as [|v r]; [discriminate|].
    destruct (N.eqb_spec (version_nibble v) 3) as [V|]; [|discriminate]. cbn [negb] in E.
    destruct (Nat.ltb_spec (List.length (v :: r) - 8) 1) as [|L]; [discriminate|].
    cbn [List.length] in L. cbn [skipn] in E.
    destruct (split_tail r 8 ltac:(lia)) as [Er Lt].
    set (body := firstn (List.length r - 8) r) in *. set (tag := skipn (List.length r - 8) r) in *.
    rewrite Er in E at 2. rewrite Er in E at 1. rewrite firstn_body in E by auto.
    destruct (dec_fields body) as [fs|] eqn:D; [|discriminate]. apply dec_fields_iff in D.
    rewrite !ornil_get, !or0_get in E.
    destruct (new_public_key (the_bytes 1 fs)) as [k| |] eqn:K; cbn [bind] in E; [|discriminate..].
    apply key_text_iff in K. rewrite V in E.
    exists v, body, tag, fs. rewrite Er at 1. repeat split; auto.
    + apply (f_equal (fun x => match x with Ok a => a | _ => m end)) in E. cbn in E. rewrite <- E. apply K.
    + apply (f_equal (fun x => match x with Ok a => a | _ => m end)) in E. cbn in E. rewrite <- E. apply K.
    + apply (f_equal (fun x => match x with Ok a => a | _ => m end)) in E. cbv beta iota in E.
      rewrite <- E. reflexivity.
  - intros (v & body & tag & fs & -> & Lt & V & W & K & ->). cbn [sg_ratchet] in *.
    unfold parse_signal. unfold version_nibble. rewrite V. cbn [N.eqb Pos.eqb negb].
    destruct (Nat.ltb_spec (List.length (v :: body ++ tag) - 8) 1) as [L|L].
    { cbn [List.length] in L. rewrite app_length in L. lia. }
    cbn [skipn]. rewrite firstn_body by auto. apply dec_fields_iff in W. rewrite W.
    rewrite !ornil_get, !or0_get. apply key_text_iff in K. rewrite K. reflexivity.
Qed.

Theorem parse_prekey_iff : forall b m, parse_prekey_msg b = Ok m <-> prekey_text b m.
Proof.
  intros b m. unfold prekey_text. split.
  - intro E. unfold parse_prekey_msg in E. destruct b as [|v r]; [discriminate|].
    destruct (N.eqb_spec (version_nibble v) 3) as [V|]; [|discriminate]. cbn [negb] in E.
    destruct (dec_fields r) as [fs|] eqn:D; [|discriminate]. apply dec_fields_iff in D.
    rewrite !ornil_get, !or0_get, opt_get in E.
    destruct (new_public_key (the_bytes 2 fs)) as [kb| |] eqn:K; cbn [bind] in E; [|discriminate..].
    destruct (new_public_key (the_bytes 3 fs)) as [ki| |] eqn:K'; cbn [bind] in E; [|discriminate..].
    destruct (parse_signal (the_bytes 4 fs)) as [s| |] eqn:S; cbn [bind] in E; [|discriminate..].
    apply key_text_iff in K, K'. apply parse_signal_iff in S. rewrite V in E.
    apply (f_equal (fun x => match x with Ok a => a | _ => m end)) in E. cbv beta iota in E. subst m.
    exists v, r, fs. cbn [pm_base pm_identity pm_message]. auto 10.
  - intros (v & body & fs & -> & V & W & K & K' & S & ->). cbn [pm_base pm_identity pm_message] in *.
    unfold parse_prekey_msg, version_nibble. rewrite V. cbn [N.eqb Pos.eqb negb].
    apply dec_fields_iff in W. rewrite W, !ornil_get, !or0_get, opt_get.
    apply key_text_iff in K, K'. rewrite K, K'. cbn [bind]. apply parse_signal_iff in S. rewrite S. reflexivity.
Qed.

Theorem parse_senderkey_iff : forall b m, parse_senderkey b = Ok m <-> senderkey_text b m.
Proof.
  intros b m. unfold senderkey_text. split.
  - intro E. unfold parse_senderkey in E. destruct (Nat.ltb_spec (List.length b) 65) as [|L]; [discriminate|].
    destruct b as [|v r]; [discriminate|]. cbn [List.length] in L.
    destruct (N.eqb_spec (version_nibble v) 3) as [V|]; [|discriminate]. cbn [negb] in E.
    destruct (split_tail r 64 ltac:(lia)) as [Er Lt].
    set (body := firstn (List.length r - 64) r) in *. set (tag := skipn (List.length r - 64) r) in *.
    rewrite Er in E at 2. rewrite Er in E at 1. rewrite firstn_body in E by auto.
    destruct (dec_fields body) as [fs|] eqn:D; [|discriminate]. apply dec_fields_iff in D.
    rewrite !ornil_get, !or0_get in E.
    destruct (dist_parse (the_bytes 1 fs)) as [d| |] eqn:K; cbn [bind] in E; [|discriminate..].
    apply dist_parse_exact in K. rewrite V in E.
    apply (f_equal (fun x => match x with Ok a => a | _ => m end)) in E. cbv beta iota in E. subst m.
    exists v, body, tag, fs. rewrite Er at 1. cbn [sm_dist]. auto 10.
  - intros (v & body & sig & fs & -> & Lt & V & W & K & ->). cbn [sm_dist] in *.
    unfold parse_senderkey.
    destruct (Nat.ltb_spec (List.length (v :: body ++ sig)) 65) as [L|L].
    { cbn [List.length] in L. rewrite app_length in L. lia. }
    unfold version_nibble. rewrite V. cbn [N.eqb Pos.eqb negb].
    rewrite firstn_body by auto. apply dec_fields_iff in W. rewrite W.
    rewrite !ornil_get, !or0_get. apply dist_parse_exact in K. rewrite K. reflexivity.
Qed.

Theorem parse_dist_iff : forall b m, parse_dist b = Ok m <-> dist_text b m.
Proof.
  intros b m. unfold dist_text. split.
  - intro E. unfold parse_dist in E. destruct (Nat.ltb_spec (List.length b) 65) as [|L]; [discriminate|].
    destruct b as [|v r]; [discriminate|].
    destruct (N.eqb_spec (version_nibble v) 3) as [V|]; [|discriminate]. cbn [negb] in E.
    destruct (dec_fields r) as [fs|] eqn:D; [|discriminate]. apply dec_fields_iff in D.
    rewrite !ornil_get, !or0_get in E.
    destruct (dist_parse (the_bytes 1 fs)) as [d| |] eqn:K; cbn [bind] in E; [|discriminate..].
    apply dist_parse_exact in K. rewrite V in E. cbv zeta in E.
    destruct (Nat.eqb_spec (List.length (the_bytes 4 fs)) 32) as [L4|]; [|discriminate]. cbn [negb] in E.
    destruct (new_public_key (the_bytes 5 fs)) as [k| |] eqn:K'; cbn [bind] in E; [|discriminate..].
    apply key_text_iff in K'.
    apply (f_equal (fun x => match x with Ok a => a | _ => m end)) in E. cbv beta iota in E. subst m.
    exists v, r, fs. cbn [dm_dist dm_signing dm_chainkey]. auto 10.
  - intros (v & body & fs & -> & L & V & W & K & L4 & K' & Em).
    assert (E4 : dm_chainkey m = the_bytes 4 fs) by (rewrite Em; reflexivity). rewrite E4 in L4. rewrite Em. clear Em E4.
    unfold parse_dist. destruct (Nat.ltb_spec (List.length (v :: body)) 65) as [|_]; [lia|].
    unfold version_nibble. rewrite V. cbn [N.eqb Pos.eqb negb].
    apply dec_fields_iff in W. rewrite W, !ornil_get, !or0_get. apply dist_parse_exact in K. rewrite K. cbn [bind].
    cbv zeta. rewrite L4. cbn [Nat.eqb negb]. apply key_text_iff in K'. rewrite K'. reflexivity.
Qed.

(** *** What is built *)
Lemma enc_fields_wire : forall fs, Forall wf_field fs -> wire (enc_fields fs) fs.
Proof. intros. apply dec_fields_iff. apply dec_enc_fields. auto. Qed.

(** The exact text of a built whisper message. *)
Lemma new_signal_text : forall C mackey ratchet prev counter body s r m,
  CryptoOk C -> List.length ratchet = 32%nat -> go_u32 prev -> go_u32 counter -> go_slice body ->
  new_signal C 3 mackey ratchet prev counter body s r = Ok m ->
  exists b, wire b [(1, WLen (Byte.x05 :: ratchet)); (2, WVarint counter); (3, WVarint prev); (4, WLen body)] /\
    sg_raw m = (Byte.x33 :: b) ++
      firstn 8 (c_hmac C mackey ((Byte.x05 :: s) ++ (Byte.x05 :: r) ++ Byte.x33 :: b)).
Proof.
  intros C mackey ratchet prev counter body s r m H L P Q G E.
  exists (enc_fields (signal_fields ratchet counter prev body)). split.
  - apply enc_fields_wire. apply wf_signal_fields; auto.
  - unfold new_signal in E. unfold mac in E. destruct (Nat.eqb (List.length mackey) 32); [|discriminate].
    cbn [negb bind] in E. apply (f_equal (fun x => match x with Ok a => a | _ => m end)) in E.
    cbv beta iota in E. rewrite <- E. reflexivity.
Qed.

Lemma new_prekey_text : forall reg pkid spkid base identity inner,
  List.length base = 32%nat -> List.length identity = 32%nat ->
  go_u32 reg -> go_u32 spkid -> (forall i, pkid = Some i -> go_u32 i) -> go_slice (sg_raw inner) ->
  exists b, pm_raw (new_prekey_msg 3 reg pkid spkid base identity inner) = Byte.x33 :: b /\
    wire b ((match pkid with Some i => [(1, WVarint i)] | None => [] end) ++
      [(2, WLen (Byte.x05 :: base)); (3, WLen (Byte.x05 :: identity)); (4, WLen (sg_raw inner));
       (5, WVarint reg); (6, WVarint spkid)]).
Proof.
  intros reg pkid spkid base identity inner Lb Li G1 G2 G3 G4.
  exists (enc_fields (prekey_fields reg pkid spkid base identity (sg_raw inner))). split; [reflexivity|].
  apply enc_fields_wire. unfold prekey_fields. apply Forall_app. split.
  - destruct pkid as [i|]; [|constructor]. repeat constructor; cbn; try lia. apply u32_64. auto.
  - repeat constructor; cbn [fst snd wf_wval]; try lia.
    + apply (pub_bytes_64 base Lb).
    + apply (pub_bytes_64 identity Li).
    + apply slice_64; auto.
    + apply u32_64; auto.
    + apply u32_64; auto.
Qed.

Lemma new_senderkey_text : forall C rnd d chain iter body key m rest,
  List.length d = 16%nat -> go_u32 chain -> go_u32 iter -> go_slice body ->
  new_senderkey C rnd 3 d chain iter body key = (Ok m, rest) ->
  exists b sig, sign C key rnd [Byte.x33 :: b] = (Ok sig, rest) /\
    sm_raw m = (Byte.x33 :: b) ++ sig /\
    wire b [(1, WLen (canonical d)); (2, WVarint chain); (3, WVarint iter); (4, WLen body)].
Proof.
  intros C rnd d chain iter body key m rest Ld Gc Gi Gb E. unfold new_senderkey in E.
  destruct (sign C key rnd _) as [[sig| |] r] eqn:S; [|discriminate..].
  exists (enc_fields (senderkey_fields d chain iter body)), sig.
  assert (Q : m = mkSenderKeyMsg 3 d chain iter body
     ((Byte.x33 :: enc_fields (senderkey_fields d chain iter body)) ++ sig) /\ r = rest).
  { apply pair_equal_spec in E. destruct E as [E ->]. split; [|reflexivity].
    apply (f_equal (fun x => match x with Ok a => a | _ => m end)) in E. symmetry. exact E. }
  destruct Q as [-> ->]. split; [exact S|]. split; [reflexivity|].
  rewrite <- (uuid_string_canonical d Ld). apply enc_fields_wire. apply wf_senderkey_fields; auto.
Qed.

Lemma new_dist_text : forall d chain iter ck signing,
  List.length d = 16%nat -> go_u32 chain -> go_u32 iter -> List.length ck = 32%nat -> List.length signing = 32%nat ->
  exists b, dm_raw (new_dist 3 d chain iter ck signing) = Byte.x33 :: b /\
    wire b [(1, WLen (canonical d)); (2, WVarint chain); (3, WVarint iter); (4, WLen ck);
            (5, WLen (Byte.x05 :: signing))].
Proof.
  intros d chain iter ck signing Ld Gc Gi Lk Ls.
  exists (enc_fields (dist_fields d chain iter ck signing)). split; [reflexivity|].
  rewrite <- (uuid_string_canonical d Ld). apply enc_fields_wire. unfold dist_fields.
  repeat constructor; cbn [fst snd wf_wval]; try lia.
  - rewrite uuid_string_length by auto. reflexivity.
  - apply u32_64; auto.
  - apply u32_64; auto.
  - rewrite Lk. reflexivity.
  - apply (pub_bytes_64 signing Ls).
Qed.

(** *** Crashes *)
Lemma version_of_iff : forall v r n, version_of (v :: r) n <-> b2n v / 16 = n.
Proof.
  intros v r n. split.
  - intros (x & t & E & H). injection E as <- <-. auto.
  - intro H. exists v, r. auto.
Qed.
Lemma prekey_panic_iff : forall b,
  parse_prekey_msg b = Panic <->
  exists v body fs base ident, b = v :: body /\ b2n v / 16 = 3 /\ wire body fs /\
     key_text (the_bytes 2 fs) base /\ key_text (the_bytes 3 fs) ident /\
     version_of (the_bytes 4 fs) 3 /\ (List.length (the_bytes 4 fs) <= 8)%nat.
Proof.
  intro b. rewrite parse_prekey_panic. split.
  - intros (v & r & fs & base & ident & -> & V & D & K & K' & V' & L).
    rewrite !ornil_get in *. exists v, r, fs, base, ident. apply dec_fields_iff in D.
    apply key_text_iff in K, K'. apply version_of_iff in V. auto 10.
  - intros (v & r & fs & base & ident & -> & V & D & K & K' & V' & L).
    exists v, r, fs, base, ident. rewrite !ornil_get. apply dec_fields_iff in D.
    apply key_text_iff in K, K'. split; [auto|]. split; [apply version_of_iff; auto|]. auto 10.
Qed.
