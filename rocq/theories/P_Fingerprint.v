(** Fingerprints: digests, displayed and scanned safety numbers (C16, C17, C18). *)
From Verif Require Import M_Base M_Crypto M_Curve M_Proto M_Fingerprint
  S_Crypto S_Fingerprint S_Message P_Base P_Proto P_Message.
From Coq Require Import ZifyBool ZifyNat ZifyN.

Lemma iter_swap : forall {A} (f : A -> A) n x, Nat.iter n f (f x) = f (Nat.iter n f x).
Proof. intros A f n x. induction n as [|n IH]; [reflexivity|]. simpl. rewrite IH. reflexivity. Qed.

Lemma fp_loop_iter : forall C k n s, fp_loop C k n s = Nat.iter n (fun d => c_sha512 C (d ++ k)) s.
Proof.
  intros C k n. induction n as [|n IH]; intro s; [reflexivity|].
  cbn [fp_loop]. rewrite IH. apply (iter_swap (fun d => c_sha512 C (d ++ k))).
Qed.

Lemma fp_digest_exact : forall C it id key,
  fp_digest C it id key =
  if ((2 <=? it) && (it <=? 1000000))%N then Ok (user_digest C (N.to_nat it) id key)
  else Err (EOther "invalid iterations").
Proof.
  intros. unfold fp_digest.
  destruct (N.leb_spec it 1), (N.ltb_spec 1000000 it), (N.leb_spec 2 it), (N.leb_spec it 1000000);
    cbn [orb andb]; try reflexivity; try (exfalso; lia).
  f_equal. rewrite fp_loop_iter. unfold user_digest, pub_bytes.
  replace (N.to_nat (it - 1)) with (N.to_nat it - 1) by lia. reflexivity.
Qed.

Lemma user_digest_len : forall C n id key, CryptoOk C -> List.length (user_digest C n id key) = 64.
Proof.
  intros C n id key H. unfold user_digest.
  destruct (n - 1); cbn [Nat.iter nat_rect]; apply (ok_sha_len C H).
Qed.

Lemma be_chunk_acc : forall b v, fold_left (fun acc x => acc * 256 + b2n x)%N b v =
  fold_left (fun v x => (256 * v + b2n x)%N) b v.
Proof. induction b; intro v; cbn [fold_left]; [reflexivity|]. rewrite IHb. f_equal. lia. Qed.
Lemma be_chunk : forall b, chunk_val b = big_endian b.
Proof. intro. apply be_chunk_acc. Qed.

Lemma digit_val : forall n, (n < 10)%N -> b2n (digit n) = (48 + n)%N.
Proof. intros. unfold digit. apply b2n_n2b_small. lia. Qed.

Lemma five_digits_ok : forall v, List.length (five_digits v) = 5 /\ Forall is_digit (five_digits v) /\
  decimal (five_digits v) = (v mod 100000)%N.
Proof.
  intro v. unfold five_digits. set (w := (v mod 100000)%N).
  assert (W : (w < 100000)%N) by (unfold w; apply N.mod_lt; lia). clearbody w. clear v.
  assert (D4 : (w / 10000 < 10)%N) by (apply N.div_lt_upper_bound; lia).
  assert (M : forall x, (x mod 10 < 10)%N) by (intro; apply N.mod_lt; lia).
  split; [reflexivity|]. split.
  - assert (Q : forall x, (x < 10)%N -> is_digit (digit x)).
    { intros x Hx. unfold is_digit. rewrite digit_val by exact Hx. lia. }
    repeat (constructor; [apply Q; auto|]). constructor.
  - unfold decimal. cbn [fold_left]. rewrite !digit_val by auto.
    replace 10000%N with (10 * (10 * (10 * 10)))%N by reflexivity.
    replace 1000%N with (10 * (10 * 10))%N by reflexivity.
    replace 100%N with (10 * 10)%N by reflexivity.
    rewrite <- !N.div_div by lia.
    pose proof (N.div_mod w 10). pose proof (N.div_mod (w / 10) 10).
    pose proof (N.div_mod (w / 10 / 10) 10). pose proof (N.div_mod (w / 10 / 10 / 10) 10). lia.
Qed.

Lemma encode_chunk_ok : forall b, List.length (encode_chunk b) = 5 /\ Forall is_digit (encode_chunk b) /\
  decimal (encode_chunk b) = (big_endian b mod 100000)%N.
Proof. intro. unfold encode_chunk. rewrite be_chunk. apply five_digits_ok. Qed.

Lemma fp_encode_ok : forall d, 30 <= List.length d -> exists s, fp_encode d = Ok s /\ digest_text d s.
Proof.
  intros d L. unfold fp_encode.
  destruct (Nat.ltb_spec (List.length d) 30); [lia|].
  eexists. split; [reflexivity|].
  destruct (encode_chunk_ok (firstn 5 d)) as (L0 & F0 & D0).
  destruct (encode_chunk_ok (firstn 5 (skipn 5 d))) as (L1 & F1 & D1).
  destruct (encode_chunk_ok (firstn 5 (skipn 10 d))) as (L2 & F2 & D2).
  destruct (encode_chunk_ok (firstn 5 (skipn 15 d))) as (L3 & F3 & D3).
  destruct (encode_chunk_ok (firstn 5 (skipn 20 d))) as (L4 & F4 & D4).
  destruct (encode_chunk_ok (firstn 5 (skipn 25 d))) as (L5 & F5 & D5).
  revert L0 L1 L2 L3 L4 L5 F0 F1 F2 F3 F4 F5 D0 D1 D2 D3 D4 D5.
  generalize (encode_chunk (firstn 5 d)) (encode_chunk (firstn 5 (skipn 5 d)))
    (encode_chunk (firstn 5 (skipn 10 d))) (encode_chunk (firstn 5 (skipn 15 d)))
    (encode_chunk (firstn 5 (skipn 20 d))) (encode_chunk (firstn 5 (skipn 25 d))).
  intros c0 c1 c2 c3 c4 c5 L0 L1 L2 L3 L4 L5 F0 F1 F2 F3 F4 F5 D0 D1 D2 D3 D4 D5.
  split; [rewrite !app_length; lia|]. split; [rewrite !Forall_app; auto 10|].
  intros i Hi.
  do 5 (destruct c0 as [|? c0]; [discriminate L0|]). destruct c0; [|discriminate L0].
  do 5 (destruct c1 as [|? c1]; [discriminate L1|]). destruct c1; [|discriminate L1].
  do 5 (destruct c2 as [|? c2]; [discriminate L2|]). destruct c2; [|discriminate L2].
  do 5 (destruct c3 as [|? c3]; [discriminate L3|]). destruct c3; [|discriminate L3].
  do 5 (destruct c4 as [|? c4]; [discriminate L4|]). destruct c4; [|discriminate L4].
  do 5 (destruct c5 as [|? c5]; [discriminate L5|]). destruct c5; [|discriminate L5].
  unfold group5.
  destruct i as [|[|[|[|[|[|i]]]]]]; [..|lia]; cbn [Nat.mul Nat.add app firstn skipn] in *; assumption.
Qed.

Lemma ltb_lex : forall a b, bytes_ltb a b = true -> lex_le a b.
Proof.
  induction a as [|x a IH]; intros [|y b]; cbn [bytes_ltb]; try discriminate; [constructor..|].
  destruct (N.ltb_spec (b2n x) (b2n y)); [intro; apply lex_lt; assumption|].
  destruct (N.ltb_spec (b2n y) (b2n x)); [discriminate|]. intro E.
  assert (x = y) by (apply b2n_inj; lia). subst. apply lex_eq. auto.
Qed.

Lemma ltb_lex_neg : forall a b, bytes_ltb a b = false -> lex_le b a.
Proof.
  induction a as [|x a IH]; intros [|y b]; cbn [bytes_ltb]; try discriminate; [constructor..|].
  destruct (N.ltb_spec (b2n x) (b2n y)); [discriminate|].
  destruct (N.ltb_spec (b2n y) (b2n x)); [intro; apply lex_lt; assumption|]. intro E.
  assert (x = y) by (apply b2n_inj; lia). subst. apply lex_eq. auto.
Qed.

Lemma lex_antisym : forall a b, lex_le a b -> lex_le b a -> a = b.
Proof.
  intros a b H. induction H; intro G.
  - inversion G; reflexivity.
  - inversion G; subst; exfalso; lia.
  - inversion G; subst; [exfalso; lia|]. f_equal. auto.
Qed.

Lemma disp_sorted : forall l r, exists a b, lex_le a b /\ disp_string (mkDisp l r) = a ++ b /\
  ((a = l /\ b = r) \/ (a = r /\ b = l)).
Proof.
  intros l r. unfold disp_string. cbn [dp_local dp_remote]. destruct (bytes_ltb l r) eqn:E.
  - exists l, r. auto using ltb_lex.
  - exists r, l. auto using ltb_lex_neg.
Qed.

Lemma disp_sym : forall l r, disp_string (mkDisp l r) = disp_string (mkDisp r l).
Proof.
  intros l r. unfold disp_string. cbn [dp_local dp_remote].
  destruct (bytes_ltb l r) eqn:E, (bytes_ltb r l) eqn:F; try reflexivity.
  - assert (l = r) by (apply lex_antisym; auto using ltb_lex). subst. reflexivity.
  - assert (l = r) by (apply lex_antisym; auto using ltb_lex_neg). subst. reflexivity.
Qed.

(** C18 *)
Lemma new_fingerprint_exact : forall C version it lid lkey rid rkey, CryptoOk C ->
  match new_fingerprint C version it lid lkey rid rkey with
  | Ok f => (2 <= it <= 1000000)%N /\
      sc_version (fp_scan f) = version /\
      sc_local (fp_scan f) = firstn 32 (user_digest C (N.to_nat it) lid lkey) /\
      sc_remote (fp_scan f) = firstn 32 (user_digest C (N.to_nat it) rid rkey)
  | Err _ => ~ (2 <= it <= 1000000)%N
  | Panic => False
  end.
Proof.
  intros C version it lid lkey rid rkey H. unfold new_fingerprint. rewrite !fp_digest_exact.
  destruct (N.leb_spec 2 it), (N.leb_spec it 1000000); cbn [andb bind]; try lia.
  pose proof (user_digest_len C (N.to_nat it) lid lkey H) as LL.
  pose proof (user_digest_len C (N.to_nat it) rid rkey H) as LR.
  unfold new_displayable.
  destruct (fp_encode_ok (user_digest C (N.to_nat it) lid lkey)) as (l & El & _); [lia|].
  destruct (fp_encode_ok (user_digest C (N.to_nat it) rid rkey)) as (r & Er & _); [lia|].
  rewrite El, Er. cbn [bind]. unfold new_scannable. rewrite LL, LR.
  cbn [Nat.ltb Nat.leb bind]. repeat split; try lia; reflexivity.
Qed.

(** C16 *)
Lemma safety_number : forall C version it lid lkey rid rkey f, CryptoOk C ->
  new_fingerprint C version it lid lkey rid rkey = Ok f ->
  exists a b, fp_string f = a ++ b /\ lex_le a b /\
    ((digest_text (user_digest C (N.to_nat it) lid lkey) a /\
      digest_text (user_digest C (N.to_nat it) rid rkey) b) \/
     (digest_text (user_digest C (N.to_nat it) rid rkey) a /\
      digest_text (user_digest C (N.to_nat it) lid lkey) b)).
Proof.
  intros C version it lid lkey rid rkey f H E.
  unfold new_fingerprint in E. rewrite !fp_digest_exact in E.
  destruct (_ && _)%N; [|discriminate]. cbn [bind] in E.
  pose proof (user_digest_len C (N.to_nat it) lid lkey H) as LL.
  pose proof (user_digest_len C (N.to_nat it) rid rkey H) as LR.
  unfold new_displayable in E.
  destruct (fp_encode_ok (user_digest C (N.to_nat it) lid lkey)) as (l & El & Dl); [lia|].
  destruct (fp_encode_ok (user_digest C (N.to_nat it) rid rkey)) as (r & Er & Dr); [lia|].
  rewrite El, Er in E. cbn [bind] in E. destruct (new_scannable _ _ _); [|discriminate..].
  apply (f_equal (fun x => match x with Ok g => fp_string g | _ => [] end)) in E.
  cbn [bind fp_string fp_disp] in E. rewrite <- E.
  destruct (disp_sorted l r) as (a0 & b0 & Ls & E0 & [[-> ->]|[-> ->]]); unfold fp_string; cbn [fp_disp]; rewrite E0; (eexists; eexists; split; [reflexivity|]; auto).
Qed.

Lemma safety_number_shape : forall C version it lid lkey rid rkey f, CryptoOk C ->
  new_fingerprint C version it lid lkey rid rkey = Ok f ->
  List.length (fp_string f) = 60 /\ Forall is_digit (fp_string f).
Proof.
  intros C version it lid lkey rid rkey f H E.
  destruct (safety_number _ _ _ _ _ _ _ _ H E) as (a & b & -> & _ & D).
  rewrite app_length, Forall_app.
  destruct D as [[(A1 & A2 & _) (B1 & B2 & _)]|[(A1 & A2 & _) (B1 & B2 & _)]]; rewrite A1, B1; auto.
Qed.

Lemma safety_number_sym : forall C v1 v2 it lid lkey rid rkey f g, 
  new_fingerprint C v1 it lid lkey rid rkey = Ok f ->
  new_fingerprint C v2 it rid rkey lid lkey = Ok g ->
  fp_string f = fp_string g.
Proof.
  intros C v1 v2 it lid lkey rid rkey f g E F. unfold new_fingerprint in E, F.
  destruct (fp_digest C it lid lkey) as [l| |]; [|discriminate..].
  destruct (fp_digest C it rid rkey) as [r| |]; [|discriminate..]. cbn [bind] in E, F.
  unfold new_displayable in E, F.
  destruct (fp_encode l) as [le| |]; [|cbn [bind] in E; discriminate..].
  destruct (fp_encode r) as [re| |]; [|cbn [bind] in E; discriminate..]. cbn [bind] in E, F.
  destruct (new_scannable v1 l r); [|discriminate..]. destruct (new_scannable v2 r l); [|discriminate..].
  cbn [bind] in E, F. injection E as <-. injection F as <-. unfold fp_string. cbn [fp_disp].
  apply disp_sym.
Qed.

(** C17 *)
Lemma scan_compare_peer : forall s t, (sc_version t < two32)%N ->
  List.length (sc_local t) = 32 -> List.length (sc_remote t) = 32 ->
  scan_compare s (scan_bytes t) =
  if N.eqb (sc_version t) (sc_version s)
  then Ok (bytes_eqb (sc_local s) (sc_remote t) && bytes_eqb (sc_remote s) (sc_local t))
  else Err (EOther "fingerprint version mismatch").
Proof.
  intros s t V Ll Lr. unfold scan_compare, scan_bytes.
  assert (W : forall b, List.length b = 32 -> Forall wf_field [(1%N, WLen b)]).
  { intros b L. constructor; [|constructor]. split; cbn [fst snd wf_wval]; [lia|]. rewrite L. vm_compute. reflexivity. }
  assert (S : forall b, List.length b = 32 ->
    (N.of_nat (List.length (enc_fields [(1%N, WLen b)])) < two64)%N).
  { intros b L. pose proof (enc_fields_size [(1%N, WLen b)]) as E. cbn [fields_size wval_size snd] in E.
    rewrite L in E. assert (two64 > 1000)%N by reflexivity. lia. }
  rewrite dec_enc_fields.
  2:{ repeat constructor; cbn [fst snd wf_wval]; try lia; auto.
      assert (two32 < two64)%N by reflexivity. lia. }
  unfold get_sub.
  cbn [get_all N.eqb Pos.eqb dec_each]. rewrite !dec_enc_fields by auto.
  cbn [concat app]. unfold get_u32. cbn [get_varint N.eqb Pos.eqb or0].
  rewrite u32_small by exact V. cbn [get_bytes N.eqb Pos.eqb ornil].
  destruct (N.eqb (sc_version t) (sc_version s)); reflexivity.
Qed.

(** The version a scanned code carries: the last value of field 1, or 0. *)
Lemma scan_compare_version : forall s b r, scan_compare s b = Ok r ->
  exists fs, dec_fields b = Some fs /\ or0 (get_u32 1 fs) = sc_version s.
Proof.
  intros s b r. unfold scan_compare. destruct (dec_fields b) as [fs|]; [|discriminate].
  destruct (get_sub 2 fs); [|discriminate]. destruct (get_sub 3 fs); [|discriminate].
  destruct (N.eqb_spec (or0 (get_u32 1 fs)) (sc_version s)); cbn [negb]; [|discriminate].
  eauto.
Qed.

Lemma scan_compare_no_panic : forall s b, scan_compare s b <> Panic.
Proof.
  intros s b. unfold scan_compare. destruct (dec_fields b) as [fs|]; [|discriminate].
  destruct (get_sub 2 fs); [|discriminate]. destruct (get_sub 3 fs); [|discriminate].
  destruct (N.eqb (or0 (get_u32 1 fs)) (sc_version s)); discriminate.
Qed.
