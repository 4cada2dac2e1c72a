(** The message kinds are not confused on the wire. *)
From Verif Require Import M_Base M_Crypto M_Curve M_Proto M_Uuid M_Message.
From Verif Require Import S_Crypto S_Message S_Uuid S_Wire S_Kinds.
From Verif Require Import P_Base P_Proto P_Curve P_Uuid P_Message P_Wire.
From Coq Require Import ZifyBool ZifyNat ZifyN.
Local Open Scope N_scope.

(** *** Fields of joined and cut texts *)
Lemma wire_unique : forall b fs gs, wire b fs -> wire b gs -> fs = gs.
Proof. intros b fs gs A B. apply dec_fields_iff in A, B. congruence. Qed.

Lemma first_scalar : forall t n ty v w x fs, vint t (8 * n + ty) -> 1 <= n <= 536870911 -> ty < 8 ->
  scalar ty v w -> wire (t ++ v ++ x) fs -> exists fs', fs = (n, w) :: fs' /\ wire x fs'.
Proof.
  intros t n ty v w x fs V B T S W. apply dec_fields_iff in W. unfold dec_fields in W.
  pose proof (vint_pos _ _ V). remember (List.length (t ++ v ++ x)) as f eqn:Ef.
  destruct f as [|f]. { rewrite !app_length in Ef. lia. }
  cbn [dec_fields_aux] in W.
  destruct (t ++ v ++ x) as [|y b] eqn:Eb; [discriminate|]. rewrite <- Eb in W.
  replace (dec_varint (t ++ v ++ x)) with (Some (8 * n + ty, v ++ x)) in W.
  2:{ symmetry. apply dec_varint_iff. eauto. }
  destruct (tag_join n ty T) as [Q R]. rewrite Q, R in W. cbv zeta in W.
  destruct (N.ltb_spec n 1); [lia|]. destruct (N.ltb_spec 536870911 n); [lia|]. cbn [orb] in W.
  destruct (scalar_type _ _ _ S) as (N3 & N4 & _). destruct (N.eqb_spec ty 3); [contradiction|].
  replace (dec_scalar ty (v ++ x)) with (Some (w, x)) in W.
  2:{ symmetry. apply dec_scalar_iff. eauto. }
  destruct (dec_fields_aux f x) as [fs'|] eqn:D; [|discriminate]. injection W as <-.
  exists fs'. split; [reflexivity|]. eapply dec_fields_aux_sound; eauto.
Qed.

Lemma first_group : forall t n g x fs, vint t (8 * n + 3) -> 1 <= n <= 536870911 ->
  group 10000 n g -> wire (t ++ g ++ x) fs -> exists fs', fs = (n, WGroup) :: fs' /\ wire x fs'.
Proof.
  intros t n g x fs V B G W. apply dec_fields_iff in W. unfold dec_fields in W.
  pose proof (vint_pos _ _ V). remember (List.length (t ++ g ++ x)) as f eqn:Ef.
  destruct f as [|f]. { rewrite !app_length in Ef. lia. }
  cbn [dec_fields_aux] in W.
  destruct (t ++ g ++ x) as [|y b] eqn:Eb; [discriminate|]. rewrite <- Eb in W.
  replace (dec_varint (t ++ g ++ x)) with (Some (8 * n + 3, g ++ x)) in W.
  2:{ symmetry. apply dec_varint_iff. eauto. }
  destruct (tag_join n 3 ltac:(lia)) as [Q R]. rewrite Q, R in W. cbv zeta in W.
  destruct (N.ltb_spec n 1); [lia|]. destruct (N.ltb_spec 536870911 n); [lia|]. cbn [orb N.eqb Pos.eqb] in W.
  rewrite (skip_group_complete _ _ _ G) in W by (rewrite app_length; lia).
  destruct (dec_fields_aux f x) as [fs'|] eqn:D; [|discriminate]. injection W as <-.
  exists fs'. split; [reflexivity|]. eapply dec_fields_aux_sound; eauto.
Qed.

(** A text that starts with a text reads as the fields of that start and then the rest. *)
Lemma wire_split : forall a gs, wire a gs -> forall b fs, wire (a ++ b) fs ->
  exists hs, fs = gs ++ hs /\ wire b hs.
Proof.
  induction 1 as [|t n ty v w r gs V B T S W IH|t n g r gs V B G W IH]; intros b fs F.
  - exists fs. auto.
  - rewrite <- !app_assoc in F. destruct (first_scalar _ _ _ _ _ _ _ V B T S F) as (fs' & -> & F').
    destruct (IH _ _ F') as (hs & -> & K). exists hs. auto.
  - rewrite <- !app_assoc in F. destruct (first_group _ _ _ _ _ V B G F) as (fs' & -> & F').
    destruct (IH _ _ F') as (hs & -> & K). exists hs. auto.
Qed.

Lemma wire_nil_inv : forall b, wire b [] -> b = [].
Proof. intros b W. inversion W. reflexivity. Qed.

(** Bytes a field takes at least. *)
Definition fsize (f : field) : nat := match snd f with WLen b => 2 + List.length b | _ => 0 end.
Lemma wire_size : forall a gs, wire a gs -> (list_sum (map fsize gs) <= List.length a)%nat.
Proof.
  induction 1 as [|t n ty v w r gs V B T S W IH|t n g r gs V B G W IH].
  - cbn. lia.
  - cbn [map list_sum fold_right]. fold (list_sum (map fsize gs)). rewrite !app_length.
    pose proof (vint_pos _ _ V). destruct S as [b m V'|b L|l b V'|b L]; unfold fsize at 1; cbn [snd]; try lia.
    pose proof (vint_pos _ _ V'). rewrite app_length. lia.
  - cbn [map list_sum fold_right]. fold (list_sum (map fsize gs)). rewrite !app_length. unfold fsize at 1. cbn [snd]. lia.
Qed.

Lemma all_bytes_in : forall n fs b, In b (all_bytes n fs) -> In (n, WLen b) fs.
Proof.
  intros n fs b I. unfold all_bytes in I. apply in_flat_map in I. destruct I as ((m & w) & I & J).
  destruct w; try destruct J. destruct (N.eqb_spec m n) as [->|]; [|destruct J].
  destruct J as [->|[]]. exact I.
Qed.
Lemma last_in : forall (l : list bytes) d, last l d <> d -> In (last l d) l.
Proof.
  induction l as [|x l IH]; intros d H; [contradiction|]. destruct l as [|y l]; [left; reflexivity|].
  right. apply IH. exact H.
Qed.
Lemma the_bytes_in : forall n fs, the_bytes n fs <> [] -> In (n, WLen (the_bytes n fs)) fs.
Proof. intros n fs H. apply all_bytes_in. apply last_in. exact H. Qed.

Lemma all_bytes_app : forall n fs gs, all_bytes n (fs ++ gs) = all_bytes n fs ++ all_bytes n gs.
Proof. intros. apply flat_map_app. Qed.
Lemma last_app_ne : forall (l k : list bytes) d, k <> [] -> last (l ++ k) d = last k d.
Proof.
  induction l as [|x l IH]; intros k d H; [reflexivity|]. cbn [app last].
  destruct (l ++ k) eqn:E; [apply app_eq_nil in E; tauto|]. rewrite <- E. apply IH. exact H.
Qed.
Lemma the_bytes_app : forall n fs gs,
  (all_bytes n gs = [] /\ the_bytes n (fs ++ gs) = the_bytes n fs) \/
  (all_bytes n gs <> [] /\ the_bytes n (fs ++ gs) = the_bytes n gs).
Proof.
  intros n fs gs. unfold the_bytes. rewrite all_bytes_app.
  destruct (all_bytes n gs) as [|x l] eqn:E.
  - left. rewrite app_nil_r. auto.
  - right. split; [discriminate|]. apply last_app_ne. discriminate.
Qed.

Lemma sum_in : forall l (f : field), In f l -> (fsize f <= list_sum (map fsize l))%nat.
Proof.
  intros l f I. apply in_split in I. destruct I as (x & y & ->). rewrite map_app, list_sum_app.
  cbn [map list_sum fold_right]. lia.
Qed.
Lemma sum_in2 : forall l (f g : field), In f l -> In g l -> f <> g ->
  (fsize f + fsize g <= list_sum (map fsize l))%nat.
Proof.
  intros l f g I J Ne. apply in_split in I. destruct I as (x & y & ->).
  assert (K : In g (x ++ y)). { apply in_app_iff in J. destruct J as [J|[->|J]]; apply in_app_iff; [auto|contradiction|auto]. }
  apply sum_in in K. rewrite map_app, list_sum_app in K. rewrite map_app, list_sum_app.
  cbn [map list_sum fold_right]. fold (list_sum (map fsize y)). lia.
Qed.

(** A byte field of a text is at least two bytes shorter than the text. *)
Lemma the_bytes_short : forall a gs n, wire a gs -> (List.length (the_bytes n gs) = 0 \/
  2 + List.length (the_bytes n gs) <= List.length a)%nat.
Proof.
  intros a gs n W. destruct (the_bytes n gs) as [|x l] eqn:E; [left; reflexivity|]. right.
  assert (I : In (n, WLen (the_bytes n gs)) gs) by (apply the_bytes_in; rewrite E; discriminate).
  apply sum_in in I. apply wire_size in W. unfold fsize in I at 1. cbn [snd] in I. rewrite E in I. lia.
Qed.
Lemma the_bytes_short2 : forall a gs n m, wire a gs -> n <> m ->
  the_bytes n gs <> [] -> the_bytes m gs <> [] ->
  (4 + List.length (the_bytes n gs) + List.length (the_bytes m gs) <= List.length a)%nat.
Proof.
  intros a gs n m W Ne A B. apply the_bytes_in in A, B.
  assert (D : (n, WLen (the_bytes n gs)) <> (m, WLen (the_bytes m gs))) by (intro Q; apply Ne; congruence).
  pose proof (sum_in2 _ _ _ A B D) as L. apply wire_size in W. unfold fsize in L at 1 2. cbn [snd] in L. lia.
Qed.

(** *** Keys and identifiers *)
Lemma key_text_long : forall b k, key_text b k -> (33 <= List.length b)%nat.
Proof. intros b k (L & j & ->). cbn [List.length]. rewrite app_length. lia. Qed.
Lemma denotes_length : forall b u, denotes b u ->
  (List.length b = 32 \/ List.length b = 36 \/ List.length b = 38 \/ List.length b = 45)%nat.
Proof.
  intros b u (L & D).
  do 16 (destruct u as [|? u]; [discriminate L|]). destruct u; [|discriminate L].
  destruct D as [D|[D|[(x & y & t & -> & D)|D]]]; apply (f_equal (@List.length byte)) in D;
    rewrite map_length in D; cbn in D.
  - lia.
  - lia.
  - cbn [List.length]. rewrite app_length. cbn [List.length]. lia.
  - lia.
Qed.
Lemma hexd_not5 : forall n, hexd n <> Byte.x05.
Proof.
  intros n E. unfold hexd in E. assert (I : In Byte.x05 (Byte.x00 :: hexdigits)).
  { rewrite <- E. destruct (nth_in_or_default (N.to_nat n) hexdigits Byte.x00) as [I| ->]; [right; exact I|left; reflexivity]. }
  cbn in I. repeat (destruct I as [I|I]; [discriminate I|]). destruct I.
Qed.
Lemma canonical_not_key : forall d k, List.length d = 16%nat -> ~ key_text (canonical d) k.
Proof.
  intros d k L (_ & j & E).
  do 16 (destruct d as [|? d]; [discriminate L|]). destruct d; [|discriminate L].
  unfold canonical, hexs in E. cbn [flat_map hex2 app] in E. injection E as E _. exact (hexd_not5 _ E).
Qed.
Lemma canonical_length : forall d, List.length d = 16%nat -> List.length (canonical d) = 36%nat.
Proof. intros d L. rewrite <- uuid_string_canonical by auto. apply uuid_string_length. auto. Qed.

(** *** Refusing parsers *)
Lemma refused_signal : forall b, (9 <= List.length b)%nat -> (forall m, ~ signal_text b m) -> refused (parse_signal b).
Proof.
  intros b L H. destruct (parse_signal b) as [m|e|] eqn:E; [|exists e; reflexivity|].
  - apply parse_signal_iff in E. destruct (H _ E).
  - apply parse_signal_panic in E. lia.
Qed.
Lemma refused_prekey : forall v body, (forall fs k, wire body fs -> key_text (the_bytes 2 fs) k ->
  forall k', key_text (the_bytes 3 fs) k' -> False) ->
  refused (parse_prekey_msg (v :: body)).
Proof.
  intros v body H. destruct (parse_prekey_msg (v :: body)) as [m|e|] eqn:E; [|exists e; reflexivity|].
  - apply parse_prekey_iff in E. destruct E as (v' & b' & fs & Q & _ & W & K & K' & _). injection Q as <- <-.
    destruct (H _ _ W K _ K').
  - apply prekey_panic_iff in E. destruct E as (v' & b' & fs & k & k' & Q & _ & W & K & K' & _). injection Q as <- <-.
    destruct (H _ _ W K _ K').
Qed.
Lemma refused_senderkey : forall b, (forall m, ~ senderkey_text b m) -> refused (parse_senderkey b).
Proof.
  intros b H. destruct (parse_senderkey b) as [m|e|] eqn:E; [|exists e; reflexivity|].
  - apply parse_senderkey_iff in E. destruct (H _ E).
  - destruct (parse_senderkey_no_panic _ E).
Qed.
Lemma refused_dist : forall b, (forall m, ~ dist_text b m) -> refused (parse_dist b).
Proof.
  intros b H. destruct (parse_dist b) as [m|e|] eqn:E; [|exists e; reflexivity|].
  - apply parse_dist_iff in E. destruct (H _ E).
  - destruct (parse_dist_no_panic _ E).
Qed.
Lemma refused_plaintext : forall r, refused (parse_plaintext (Byte.x33 :: r)).
Proof. intro r. eexists. reflexivity. Qed.

(** *** Whisper messages *)
Lemma tail_prefix : forall (b tag a x : bytes), b ++ tag = a ++ x ->
  (List.length tag <= List.length x)%nat -> exists y, b = a ++ y.
Proof.
  intros b tag a x E L. exists (skipn (List.length a) b).
  assert (Q : (List.length a <= List.length b)%nat).
  { apply (f_equal (@List.length byte)) in E. rewrite !app_length in E. lia. }
  rewrite <- (firstn_skipn (List.length a) b) at 1. f_equal.
  apply (f_equal (firstn (List.length a))) in E. rewrite firstn_app in E.
  replace (List.length a - List.length b)%nat with 0%nat in E by lia. cbn [firstn] in E. rewrite app_nil_r in E.
  rewrite E. rewrite firstn_app_len by auto. reflexivity.
Qed.

Lemma prefix_bytes : forall n fs gs hs, fs = gs ++ hs -> all_bytes n fs = [] -> the_bytes n gs = [].
Proof.
  intros n fs gs hs -> A. rewrite all_bytes_app in A. apply app_eq_nil in A. unfold the_bytes.
  destruct A as [-> _]. reflexivity.
Qed.
Lemma prefix_bytes1 : forall n fs gs hs x, fs = gs ++ hs -> all_bytes n fs = [x] -> the_bytes n gs = [] \/ the_bytes n gs = x.
Proof.
  intros n fs gs hs x -> A. rewrite all_bytes_app in A. unfold the_bytes.
  destruct (all_bytes n gs) as [|y l]; [left; reflexivity|]. right. injection A as -> A.
  apply app_eq_nil in A. destruct A as [-> _]. reflexivity.
Qed.

Lemma signal_kind : forall b tag ratchet n p body,
  wire b [(1, WLen (Byte.x05 :: ratchet)); (2, WVarint n); (3, WVarint p); (4, WLen body)] ->
  List.length ratchet = 32%nat -> List.length tag = 8%nat ->
  let raw := Byte.x33 :: b ++ tag in
  refused (parse_prekey_msg raw) /\ refused (parse_senderkey raw) /\ refused (parse_dist raw) /\
  refused (parse_plaintext raw).
Proof.
  intros b tag ratchet n p body W L T raw. unfold raw. clear raw. split; [|split; [|split]].
  - apply refused_prekey. intros fs k F K k' _. destruct (wire_split _ _ W _ _ F) as (hs & -> & H).
    apply key_text_long in K. destruct (the_bytes_app 2 [(1, WLen (Byte.x05 :: ratchet)); (2, WVarint n); (3, WVarint p); (4, WLen body)] hs) as [[_ Q]|[_ Q]]; rewrite Q in K.
    + cbn in K. lia.
    + destruct (the_bytes_short _ _ 2 H); lia.
  - apply refused_senderkey. intros m (v & a & x & gs & E & Lx & _ & G & D & _). injection E as <- E.
    destruct (tail_prefix _ _ _ _ E ltac:(lia)) as (y & ->).
    destruct (wire_split _ _ G _ _ W) as (hs & Q & _). apply denotes_length in D.
    destruct (prefix_bytes1 1 _ _ _ _ Q eq_refl) as [R|R]; rewrite R in D; cbn [List.length] in D; lia.
  - apply refused_dist. intros m (v & a & fs & E & _ & _ & F & D & _). injection E as <- <-.
    destruct (wire_split _ _ W _ _ F) as (hs & -> & H). apply denotes_length in D.
    destruct (the_bytes_app 1 [(1, WLen (Byte.x05 :: ratchet)); (2, WVarint n); (3, WVarint p); (4, WLen body)] hs) as [[_ Q]|[_ Q]]; rewrite Q in D.
    + unfold the_bytes in D. cbn [all_bytes flat_map app last N.eqb Pos.eqb List.length] in D. lia.
    + destruct (the_bytes_short _ _ 1 H); lia.
  - apply refused_plaintext.
Qed.

(** *** Pre-key messages *)
Lemma prekey_kind : forall b fs, wire b fs -> all_bytes 1 fs = [] -> (8 <= List.length b)%nat ->
  let raw := Byte.x33 :: b in
  refused (parse_signal raw) /\ refused (parse_senderkey raw) /\ refused (parse_dist raw) /\
  refused (parse_plaintext raw).
Proof.
  intros b fs W A L raw. unfold raw. clear raw. split; [|split; [|split]].
  - apply refused_signal; [cbn [List.length]; lia|].
    intros m (v & a & x & gs & E & Lx & _ & G & K & _). injection E as <- ->.
    destruct (wire_split _ _ G _ _ W) as (hs & Q & _). rewrite (prefix_bytes _ _ _ _ Q A) in K.
    apply key_text_long in K. cbn in K. lia.
  - apply refused_senderkey. intros m (v & a & x & gs & E & Lx & _ & G & D & _). injection E as <- ->.
    destruct (wire_split _ _ G _ _ W) as (hs & Q & _). rewrite (prefix_bytes _ _ _ _ Q A) in D.
    apply denotes_length in D. cbn in D. lia.
  - apply refused_dist. intros m (v & a & gs & E & _ & _ & G & D & _). injection E as <- <-.
    rewrite (wire_unique _ _ _ G W) in D. unfold the_bytes in D. rewrite A in D.
    apply denotes_length in D. cbn in D. lia.
  - apply refused_plaintext.
Qed.

(** *** Group messages *)
Lemma senderkey_kind : forall b sig d chain iter body,
  wire b [(1, WLen (canonical d)); (2, WVarint chain); (3, WVarint iter); (4, WLen body)] ->
  List.length d = 16%nat -> List.length sig = 64%nat ->
  let raw := Byte.x33 :: b ++ sig in
  refused (parse_prekey_msg raw) /\ refused (parse_plaintext raw) /\
  (refused (parse_signal raw) \/ exists hs k, wire (firstn 56 sig) hs /\ key_text (the_bytes 1 hs) k) /\
  (refused (parse_dist raw) \/ exists hs k, wire sig hs /\ key_text (the_bytes 5 hs) k).
Proof.
  intros b sig d chain iter body W L T raw. unfold raw. clear raw. split; [|split; [|split]].
  - apply refused_prekey. intros fs k F K k' K'. destruct (wire_split _ _ W _ _ F) as (hs & -> & H).
    apply key_text_long in K, K'.
    destruct (the_bytes_app 2 [(1, WLen (canonical d)); (2, WVarint chain); (3, WVarint iter); (4, WLen body)] hs) as [[_ Q]|[_ Q]];
      rewrite Q in K; [cbn in K; lia|].
    destruct (the_bytes_app 3 [(1, WLen (canonical d)); (2, WVarint chain); (3, WVarint iter); (4, WLen body)] hs) as [[_ Q']|[_ Q']];
      rewrite Q' in K'; [cbn in K'; lia|].
    assert (Z : (4 + List.length (the_bytes 2%N hs) + List.length (the_bytes 3%N hs) <= List.length sig)%nat).
    { apply the_bytes_short2; auto; [lia| |]; intro Z; rewrite Z in *; cbn in *; lia. }
    lia.
  - apply refused_plaintext.
  - destruct (parse_signal (Byte.x33 :: b ++ sig)) as [m|e|] eqn:E; [|left; exists e; reflexivity|].
    + right. apply parse_signal_iff in E. destruct E as (v & a & x & fs & E & Lx & _ & F & K & _). injection E as <- E.
      assert (Q : a = b ++ firstn 56 sig).
      { assert (LL : (List.length a = List.length b + 56)%nat).
        { apply (f_equal (@List.length byte)) in E. rewrite !app_length in E. lia. }
        apply (f_equal (firstn (List.length b + 56))) in E. rewrite firstn_app in E.
        rewrite firstn_all2 in E by lia. replace (List.length b + 56 - List.length b)%nat with 56%nat in E by lia.
        rewrite E. symmetry. apply firstn_app_len. lia. }
      subst a. destruct (wire_split _ _ W _ _ F) as (hs & -> & H). exists hs, (sg_ratchet m). split; [exact H|].
      destruct (the_bytes_app 1 [(1, WLen (canonical d)); (2, WVarint chain); (3, WVarint iter); (4, WLen body)] hs) as [[_ Q]|[_ Q]];
        rewrite Q in K; [|exact K]. destruct (canonical_not_key _ _ L K).
    + apply parse_signal_panic in E. destruct E as [_ E]. cbn [List.length] in E. rewrite app_length in E. lia.
  - destruct (parse_dist (Byte.x33 :: b ++ sig)) as [m|e|] eqn:E; [|left; exists e; reflexivity|].
    + right. apply parse_dist_iff in E. destruct E as (v & a & fs & E & _ & _ & F & _ & _ & K & _). injection E as <- <-.
      destruct (wire_split _ _ W _ _ F) as (hs & -> & H). exists hs, (dm_signing m). split; [exact H|].
      destruct (the_bytes_app 5 [(1, WLen (canonical d)); (2, WVarint chain); (3, WVarint iter); (4, WLen body)] hs) as [[_ Q]|[_ Q]];
        rewrite Q in K; [|exact K]. apply key_text_long in K. cbn in K. lia.
    + destruct (parse_dist_no_panic _ E).
Qed.

(** *** Distribution messages *)
Lemma cut_exact : forall fs gs hs a x, Forall wf_field fs -> fs = gs ++ hs -> wire a gs ->
  enc_fields fs = a ++ x -> a = enc_fields gs /\ x = enc_fields hs.
Proof.
  intros fs gs hs a x F -> W E. apply Forall_app in F. destruct F as [Fg Fh].
  unfold enc_fields in E. rewrite map_app, concat_app in E. fold (enc_fields gs) (enc_fields hs) in E.
  pose proof (enc_fields_wire _ Fg) as G.
  assert (Q : List.length a = List.length (enc_fields gs)).
  { destruct (Nat.le_ge_cases (List.length a) (List.length (enc_fields gs))) as [L|L].
    - destruct (tail_prefix (enc_fields gs) [] a (skipn (List.length a) (enc_fields gs))) as (y & Y).
      + rewrite app_nil_r. rewrite <- (firstn_skipn (List.length a) (enc_fields gs)) at 1. f_equal.
        apply (f_equal (firstn (List.length a))) in E. rewrite firstn_app in E.
        replace (List.length a - List.length (enc_fields gs))%nat with 0%nat in E by lia. cbn [firstn] in E.
        rewrite app_nil_r in E. rewrite E. apply firstn_app_len. reflexivity.
      + cbn. lia.
      + rewrite Y in G. destruct (wire_split _ _ W _ _ G) as (ks & K & H).
        rewrite <- (app_nil_r gs) in K at 1. apply app_inv_head in K. subst ks. apply wire_nil_inv in H.
        subst y. rewrite Y, app_nil_r. reflexivity.
    - destruct (tail_prefix a x (enc_fields gs) (enc_fields hs)) as (y & Y); [auto| |].
      + apply (f_equal (@List.length byte)) in E. rewrite !app_length in E. lia.
      + rewrite Y in W. destruct (wire_split _ _ G _ _ W) as (ks & K & H).
        rewrite <- (app_nil_r gs) in K at 1. apply app_inv_head in K. subst ks. apply wire_nil_inv in H.
        subst y. rewrite Y, app_nil_r. reflexivity. }
  apply (f_equal (firstn (List.length a))) in E as E1. apply (f_equal (skipn (List.length a))) in E as E2.
  rewrite Q in E1 at 1. rewrite Q in E2 at 1.
  rewrite !firstn_app_len in E1 by auto. rewrite !skipn_app_len in E2 by auto. auto.
Qed.

Lemma dist_kind : forall d chain iter ck signing, List.length d = 16%nat -> go_u32 chain -> go_u32 iter ->
  List.length ck = 32%nat -> List.length signing = 32%nat ->
  let raw := dm_raw (new_dist 3 d chain iter ck signing) in
  refused (parse_signal raw) /\ refused (parse_prekey_msg raw) /\ refused (parse_senderkey raw) /\
  refused (parse_plaintext raw).
Proof.
  intros d chain iter ck signing Ld Gc Gi Lk Ls raw. unfold raw. clear raw.
  assert (WF : Forall wf_field (dist_fields d chain iter ck signing)).
  { unfold dist_fields. repeat constructor; cbn [fst snd wf_wval]; try lia.
    - rewrite uuid_string_length by auto. reflexivity.
    - apply u32_64; auto.
    - apply u32_64; auto.
    - rewrite Lk. reflexivity.
    - apply (pub_bytes_64 signing Ls). }
  pose proof (enc_fields_wire _ WF) as W.
  assert (Sz : (69 <= List.length (enc_fields (dist_fields d chain iter ck signing)))%nat).
  { apply wire_size in W. unfold dist_fields, fsize, list_sum in W. cbn [map snd fold_right] in W.
    unfold pub_bytes in W. cbn [List.length] in W. rewrite Lk, Ls in W. unfold dist_fields, pub_bytes. lia. }
  change (dm_raw (new_dist 3 d chain iter ck signing)) with
    (Byte.x33 :: enc_fields (dist_fields d chain iter ck signing)).
  assert (A1 : all_bytes 1 (dist_fields d chain iter ck signing) = [uuid_string d]) by reflexivity.
  split; [|split; [|split]].
  - apply refused_signal; [cbn [List.length]; lia|].
    intros m (v & a & x & gs & E & Lx & _ & G & K & _). injection E as <- E. rewrite E in W.
    destruct (wire_split _ _ G _ _ W) as (hs & Q & _).
    destruct (prefix_bytes1 _ _ _ _ _ Q A1) as [R|R]; rewrite R in K.
    + apply key_text_long in K. cbn in K. lia.
    + rewrite uuid_string_canonical in K by auto. exact (canonical_not_key _ _ Ld K).
  - apply refused_prekey. intros fs k F K k' _. rewrite (wire_unique _ _ _ F W) in K.
    apply key_text_long in K. cbn in K. lia.
  - apply refused_senderkey. intros m (v & a & x & gs & E & Lx & _ & G & D & _). injection E as <- E.
    pose proof W as W'. rewrite E in W'. destruct (wire_split _ _ G _ _ W') as (hs & Q & Wx).
    destruct (cut_exact _ _ _ _ _ WF Q G E) as [_ Ex].
    assert (B : hs = [] \/ hs = [(5, WLen (pub_bytes signing))] \/ exists pre, hs = pre ++ [(4, WLen ck); (5, WLen (pub_bytes signing))]).
    { unfold dist_fields in Q. clear - Q.
      destruct gs as [|g0 gs]; [right; right; cbn [app] in Q; rewrite <- Q; exists [(1, WLen (uuid_string d)); (2, WVarint chain); (3, WVarint iter)]; reflexivity|].
      injection Q as _ Q. destruct gs as [|g1 gs]; [right; right; cbn [app] in Q; rewrite <- Q; exists [(2, WVarint chain); (3, WVarint iter)]; reflexivity|].
      injection Q as _ Q. destruct gs as [|g2 gs]; [right; right; cbn [app] in Q; rewrite <- Q; exists [(3, WVarint iter)]; reflexivity|].
      injection Q as _ Q. destruct gs as [|g3 gs]; [right; right; cbn [app] in Q; rewrite <- Q; exists []; reflexivity|].
      injection Q as _ Q. destruct gs as [|g4 gs]; [right; left; cbn [app] in Q; rewrite <- Q; reflexivity|].
      injection Q as _ Q. left. destruct gs; [auto|discriminate Q]. }
    destruct B as [->|[->|(pre & ->)]].
    + rewrite Ex in Lx. discriminate Lx.
    + rewrite Ex in Lx. do 32 (destruct signing as [|? signing]; [discriminate Ls|]).
      destruct signing; [|discriminate Ls]. vm_compute in Lx. discriminate Lx.
    + apply wire_size in Wx. rewrite map_app, list_sum_app in Wx. unfold fsize, list_sum in Wx. cbn [map snd fold_right] in Wx.
      unfold pub_bytes in Wx. cbn [List.length] in Wx. rewrite Lk, Ls in Wx. lia.
  - apply refused_plaintext.
Qed.

(** *** Plaintext messages *)
Lemma plaintext_kind : forall b x, parse_plaintext b = Ok x ->
  refused (parse_signal b) /\ refused (parse_prekey_msg b) /\ refused (parse_senderkey b) /\ refused (parse_dist b).
Proof.
  intros b x E. destruct b as [|v r]; [discriminate|]. unfold parse_plaintext in E.
  destruct (Byte.eqb v Byte.xc0) eqn:V; [|discriminate]. apply byte_eqb_eq in V. subst v.
  split; [|split; [|split]]; [eexists; reflexivity|eexists; reflexivity| |].
  - apply refused_senderkey. intros m (v & a & t & fs & Q & _ & V & _). injection Q as <- _. vm_compute in V. discriminate V.
  - apply refused_dist. intros m (v & a & fs & Q & _ & V & _). injection Q as <- _. vm_compute in V. discriminate V.
Qed.

(** *** The five kinds *)
Theorem kinds_signal : forall C mackey ratchet prev counter body s r m,
  CryptoOk C -> List.length ratchet = 32%nat -> go_u32 prev -> go_u32 counter -> go_slice body ->
  new_signal C 3 mackey ratchet prev counter body s r = Ok m ->
  refused (parse_prekey_msg (sg_raw m)) /\ refused (parse_senderkey (sg_raw m)) /\
  refused (parse_dist (sg_raw m)) /\ refused (parse_plaintext (sg_raw m)).
Proof.
  intros C mackey ratchet prev counter body s r m H L P Q G E.
  destruct (new_signal_text _ _ _ _ _ _ _ _ _ H L P Q G E) as (b & W & ->).
  apply (signal_kind _ _ _ _ _ _ W L). rewrite firstn_length, (ok_hmac_len C H). reflexivity.
Qed.

Theorem kinds_prekey : forall reg pkid spkid base identity inner,
  List.length base = 32%nat -> List.length identity = 32%nat ->
  go_u32 reg -> go_u32 spkid -> (forall i, pkid = Some i -> go_u32 i) -> go_slice (sg_raw inner) ->
  let raw := pm_raw (new_prekey_msg 3 reg pkid spkid base identity inner) in
  refused (parse_signal raw) /\ refused (parse_senderkey raw) /\ refused (parse_dist raw) /\
  refused (parse_plaintext raw).
Proof.
  intros reg pkid spkid base identity inner Lb Li G1 G2 G3 G4 raw.
  destruct (new_prekey_text reg pkid spkid base identity inner Lb Li G1 G2 G3 G4) as (b & E & W).
  unfold raw. rewrite E. eapply prekey_kind; [exact W| |].
  - destruct pkid; reflexivity.
  - apply wire_size in W. rewrite map_app, list_sum_app in W. unfold fsize in W at 2. unfold list_sum in W at 2.
    cbn [map snd fold_right List.length] in W. lia.
Qed.

Theorem kinds_senderkey : forall C rnd d chain iter body key k m rest,
  CryptoOk C -> List.length d = 16%nat -> go_u32 chain -> go_u32 iter -> go_slice body ->
  new_private_key C key = Ok k ->
  new_senderkey C rnd 3 d chain iter body k = (Ok m, rest) ->
  let raw := sm_raw m in
  let sig := skipn (List.length raw - 64) raw in
  refused (parse_prekey_msg raw) /\ refused (parse_plaintext raw) /\
  (refused (parse_signal raw) \/ exists hs k, wire (firstn 56 sig) hs /\ key_text (the_bytes 1 hs) k) /\
  (refused (parse_dist raw) \/ exists hs k, wire sig hs /\ key_text (the_bytes 5 hs) k).
Proof.
  intros C rnd d chain iter body key k m rest H Ld Gc Gi Gb Hk E raw sig.
  destruct (new_senderkey_text _ _ _ _ _ _ _ _ _ Ld Gc Gi Gb E) as (b & sg & S & R & W).
  destruct (sign_verifies C H key k rnd sg _ _ _ Hk S eq_refl) as [Ls _].
  assert (Q : sig = sg).
  { unfold sig, raw. rewrite R. rewrite app_length, Ls.
    replace (List.length (Byte.x33 :: b) + 64 - 64)%nat with (List.length (Byte.x33 :: b)) by lia.
    apply skipn_app_len. reflexivity. }
  rewrite Q. unfold raw. rewrite R. exact (senderkey_kind _ _ _ _ _ _ W Ld Ls).
Qed.
