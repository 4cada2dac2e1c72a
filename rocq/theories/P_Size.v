(** Message sizes. *)
From Verif Require Import M_Base M_Crypto M_Aes M_Curve M_Proto M_Uuid M_Message M_Ratchet M_State M_Store M_Session M_Group
  S_Crypto S_Message S_Uuid S_State S_Shape S_Ratchet S_Session S_Api S_Aes S_Group S_GroupMsg S_Size S_Wire
  P_Base P_Aes P_Proto P_Uuid P_Message P_Shape P_Ratchet P_Decrypt P_Encrypt P_Send P_Curve P_CryptoTop P_WireTop P_Group P_GroupSend.
Local Open Scope N_scope.

Lemma varint_size_aux : forall f n, n < 128 ^ N.of_nat f -> (f <> 0)%nat -> size (enc_varint_aux f n) = vsize n.
Proof.
  induction f as [|f IH]; intros n L F; [congruence|]. cbn [enc_varint_aux]. unfold size, vsize. destruct (N.ltb_spec n 128) as [Q|Q].
  - assert (E : N.log2 n / 7 = 0); [|rewrite E; reflexivity].
    apply N.div_small. destruct (N.eq_dec n 0) as [->|Z]; [reflexivity|]. apply (N.log2_lt_pow2 n 7); [lia|exact Q].
  - cbn [List.length]. rewrite Nat2N.inj_succ. destruct f as [|f].
    { exfalso. change (128 ^ N.of_nat 1) with 128 in L. lia. }
    fold (size (enc_varint_aux (S f) (n / 128))). rewrite IH; [|apply N.div_lt_upper_bound; [discriminate|]; rewrite <- N.pow_succ_r', <- Nat2N.inj_succ; exact L|discriminate].
    unfold vsize. assert (E : N.log2 (n / 128) = N.log2 n - 7) by (rewrite <- (N.log2_shiftr n 7), N.shiftr_div_pow2; reflexivity).
    rewrite E. assert (7 <= N.log2 n) by (apply (N.log2_le_mono 128 n); exact Q).
    assert (D : N.log2 n / 7 = 1 + (N.log2 n - 7) / 7); [|lia].
    replace (N.log2 n) with (1 * 7 + (N.log2 n - 7)) at 1 by lia. rewrite N.div_add_l by discriminate. reflexivity.
Qed.
Lemma varint_size : forall n, n < 18446744073709551616 -> size (enc_varint n) = vsize n.
Proof. intros n L. apply varint_size_aux; [|discriminate]. eapply N.lt_le_trans; [exact L|]. vm_compute. discriminate. Qed.
Lemma size_app : forall a b, size (a ++ b) = size a + size b.
Proof. intros. unfold size. rewrite app_length. lia. Qed.
Lemma size_cons : forall x b, size (x :: b) = 1 + size b.
Proof. intros. unfold size. cbn [List.length]. lia. Qed.
Lemma tag_size : forall n t, n * 8 + t < 128 -> size (enc_varint (n * 8 + t)) = 1.
Proof. intros n t L. rewrite varint_size by lia. unfold vsize. rewrite N.div_small; [reflexivity|]. destruct (N.eq_dec (n * 8 + t) 0) as [->|Z]; [reflexivity|]. apply (N.log2_lt_pow2 _ 7); [lia|exact L]. Qed.
Lemma num_size : forall n x, n < 15 -> x < 18446744073709551616 -> size (enc_field (n, WVarint x)) = num_field x.
Proof. intros n x L X. unfold enc_field. cbn [fst snd wtype enc_wval]. rewrite size_app, tag_size, varint_size by lia. reflexivity. Qed.
Lemma len_size : forall n b, n < 15 -> go_slice b -> size (enc_field (n, WLen b)) = len_field (size b).
Proof.
  intros n b L X. unfold go_slice in X. unfold enc_field. cbn [fst snd wtype enc_wval]. rewrite !size_app, tag_size by lia. rewrite varint_size by lia.
  unfold len_field, size. lia.
Qed.
Lemma body_size : forall C key iv pt ct, CryptoOk C -> cbc_encrypt C key iv pt = Ok ct -> size ct = padded_size (size pt).
Proof.
  intros C key iv pt ct H E. unfold cbc_encrypt in E. destruct (aes_key_ok key) eqn:K; [|discriminate]. cbn [negb] in E.
  destruct (Nat.eqb_spec (List.length iv) 16) as [Li|]; [|discriminate]. cbn [negb] in E. apply (f_equal (fun x => match x with Ok y => y | _ => [] end)) in E. subst ct. unfold size, padded_size.
  rewrite (cbc_enc_length C H key _ iv _ K Li (pad_length_div pt)), <- pad_length_div, pad_length.
  pose proof (Nat.div_mod (List.length pt) 16 ltac:(discriminate)) as D. pose proof (Nat.mod_upper_bound (List.length pt) 16 ltac:(discriminate)) as U.
  change 16 with (N.of_nat 16). rewrite <- Nat2N.inj_div. change 1 with (N.of_nat 1). rewrite <- Nat2N.inj_add, <- Nat2N.inj_mul. f_equal. lia.
Qed.
Lemma key_slice : forall k, List.length k = 32%nat -> go_slice (pub_bytes k) /\ size (pub_bytes k) = 33.
Proof. intros k L. unfold go_slice, size, pub_bytes. cbn [List.length]. rewrite L. split; [reflexivity|reflexivity]. Qed.
(** A plaintext that leaves room for the message around it. *)
Lemma body_slice : forall C key iv pt ct, CryptoOk C -> cbc_encrypt C key iv pt = Ok ct -> size pt < 2 ^ 62 -> go_slice ct /\ size ct <= size pt + 16.
Proof.
  intros C key iv pt ct H E L. pose proof (body_size _ _ _ _ _ H E) as Z. unfold padded_size in Z. pose proof (N.mul_div_le (size pt) 16 ltac:(discriminate)) as D.
  change (2 ^ 62) with 4611686018427387904 in L. assert (size ct <= size pt + 16) by lia. split; [unfold go_slice; fold (size ct); lia|assumption].
Qed.
Lemma vsize_64 : forall n, n < 18446744073709551616 -> vsize n <= 10.
Proof. intros n L. rewrite <- varint_size by exact L. unfold size. pose proof (enc_varint_length n). lia. Qed.
Lemma signal_size : forall C mackey ratchet prev counter body s r m, CryptoOk C -> List.length ratchet = 32%nat -> go_u32 prev -> go_u32 counter ->
  new_signal C 3 mackey ratchet prev counter body s r = Ok m -> go_slice body ->
  size (sg_raw m) = 1 + len_field 33 + num_field counter + num_field prev + len_field (size body) + 8.
Proof.
  intros C mackey ratchet prev counter body s r m H Lr Gp Gc E Gb. unfold new_signal, mac in E.
  destruct (negb (Nat.eqb (List.length mackey) 32)); [discriminate|]. cbn [bind] in E.
  apply (f_equal (fun x => match x with Ok y => sg_raw y | _ => [] end)) in E. cbn [sg_raw] in E. rewrite <- E. clear E.
  rewrite size_app. unfold size at 2. rewrite firstn_length, (ok_hmac_len C H). rewrite size_cons. unfold enc_fields, signal_fields. cbn [map List.concat].
  destruct (key_slice ratchet Lr) as [Gr Er]. unfold go_u32 in *.
  rewrite !size_app, !num_size, !len_size by (lia || assumption). rewrite Er. change (N.of_nat (Nat.min 8 32)) with 8. unfold size at 2. cbn [List.length N.of_nat]. lia.
Qed.
Lemma frame_size : forall reg id spk base ident m, List.length base = 32%nat -> List.length ident = 32%nat -> go_u32 reg -> go_u32 spk ->
  (forall i, id = Some i -> go_u32 i) -> go_slice (sg_raw m) ->
  size (pm_raw (new_prekey_msg 3 reg id spk base ident m)) = prekey_size id reg spk (size (sg_raw m)).
Proof.
  intros reg id spk base ident m Lb Li Gr Gs Gi Gm. unfold new_prekey_msg. cbn [pm_raw].
  destruct (key_slice base Lb) as [G1 E1]. destruct (key_slice ident Li) as [G2 E2]. unfold go_u32 in *.
  rewrite size_cons. unfold enc_fields, prekey_fields, prekey_size.
  destruct id as [i|]; cbn [map List.concat app].
  - specialize (Gi i eq_refl). rewrite !size_app, !num_size, !len_size by (lia || assumption). rewrite E1, E2. change (size []) with 0. lia.
  - rewrite !size_app, !num_size, !len_size by (lia || assumption). rewrite E1, E2. change (size []) with 0. lia.
Qed.
Lemma sender_size : forall d chain iter body sg, List.length d = 16%nat -> go_u32 chain -> go_u32 iter -> List.length sg = 64%nat ->
  let ser := version_prefix 3 :: enc_fields (senderkey_fields d chain iter body) in go_slice body ->
  size (ser ++ sg) = 1 + len_field 36 + num_field chain + num_field iter + len_field (size body) + 64.
Proof.
  intros d chain iter body sg Ld Gc Gi Ls ser Gb.
  assert (Lu : List.length (uuid_string d) = 36%nat) by (rewrite uuid_string_canonical by exact Ld; apply canonical_length; exact Ld).
  assert (Gu : go_slice (uuid_string d)) by (unfold go_slice; rewrite Lu; reflexivity).
  rewrite size_app. unfold size at 2. rewrite Ls. unfold ser. rewrite size_cons. unfold enc_fields, senderkey_fields. cbn [map List.concat].
  unfold go_u32 in *. rewrite !size_app, !num_size, !len_size by (lia || assumption). replace (size (uuid_string d)) with 36 by (unfold size; rewrite Lu; reflexivity). change (size []) with 0. change (N.of_nat 64) with 64. lia.
Qed.

(** ** The API *)
Lemma sent_from : forall C a pt fs w c w', CryptoOk C -> wf_device w -> run (encrypt_message C a pt) fs w = (Ok c, w') ->
  exists r s s' rid, w_sess w a = Some r /\ rc_current r = Some s /\ wf_state s /\ encrypt_state C s pt = Ok (c, s', rid).
Proof.
  intros C a pt fs w c w' H W E. destruct (w_sess w a) as [r|] eqn:R.
  2:{ exfalso. unfold encrypt_message, pdo in E. cbn [run exec_f fallible] in E. destruct (hd_fault fs); cbn [exec snd] in E; try discriminate. rewrite R in E. discriminate. }
  destruct (rc_current r) as [s|] eqn:Rs.
  2:{ exfalso. unfold encrypt_message, pdo in E. cbn [run exec_f fallible] in E. destruct (hd_fault fs); cbn [exec snd] in E; try discriminate. rewrite R, Rs in E. discriminate. }
  assert (Ws : wf_state s) by (apply (proj1 (proj1 (proj1 W) a r R)); exact Rs).
  destruct (encrypt_state_exact C s pt H Ws) as (sc & k & ratchet & local & remote & m & out & _ & _ & _ & _ & _ & _ & _ & _ & _ & _ & En).
  destruct (encrypt_success _ _ _ _ _ _ _ _ _ _ _ _ R Rs En E) as (-> & _). do 2 eexists. do 2 eexists. split; [reflexivity|]. split; [exact Rs|]. split; [exact Ws|exact En].
Qed.
(** What is built. *)
Lemma built_from : forall C s pt c s' rid, CryptoOk C -> wf_state s -> encrypt_state C s pt = Ok (c, s', rid) ->
  exists ratchet local remote k mk body m, List.length ratchet = 32%nat /\ List.length local = 32%nat /\ go_u32 (pck_index k) /\ go_u32 (ss_prevctr s) /\
    List.length (mk_mac mk) = 32%nat /\
    (exists sc, ss_sender s = Some sc /\ pc_key sc = Some k /\ pc_ratchet sc = pub_bytes ratchet) /\
    ss_local s = pub_bytes local /\ cbc_encrypt C (mk_cipher mk) (mk_iv mk) pt = Ok body /\
    new_signal C 3 (mk_mac mk) ratchet (ss_prevctr s) (pck_index k) body local remote = Ok m /\ framed s local m c.
Proof.
  intros C s pt c s' rid H W E. pose proof W as (V & _ & _ & _ & Gp & (sc & Es & (Ks & _) & _) & _ & Pd & _).
  destruct (wf_sender_key s W) as (sc' & k & Es' & Ek & Gk & _ & Sk). rewrite Es in Es'. injection Es' as <-.
  destruct (key33_parse _ Ks) as (ratchet & Lrt & Ert & Prt). destruct (wf_local s W) as (local & Ll & El & Pl). destruct (wf_remote s W) as (remote & Lrm & Erm & Prm).
  destruct (derive_message_keys_at C (mkChainKey (pck_key k) (pck_index k)) H) as (K0 & L1 & L2 & L3 & K1).
  unfold encrypt_state in E. rewrite Sk in E. cbn [bind] in E. unfold st_sender_ratchet in E. rewrite Es, Prt in E. cbn [bind] in E.
  rewrite (P_Decrypt.wf_version s W), Pl, Prm in E. change (3 mod 256)%N with 3%N in E. cbn [bind] in E.
  set (mk := ck_message_keys C (mkChainKey (pck_key k) (pck_index k))) in *.
  destruct (cbc_encrypt C (mk_cipher mk) (mk_iv mk) pt) as [body| |] eqn:Ec; cbn [bind] in E; [|discriminate..]. cbn [ck_index] in E.
  destruct (new_signal C 3 (mk_mac mk) ratchet (ss_prevctr s) (pck_index k) body local remote) as [m| |] eqn:Em; cbn [bind] in E; [|discriminate..].
  exists ratchet, local, remote, k, mk, body, m. repeat (split; [assumption|]). split; [exists sc; auto|]. repeat (split; [assumption|]).
  unfold framed, st_unack in *. destruct (ss_pending s) as [p|].
  - destruct (Pd p eq_refl) as (_ & _ & Kb). destruct (key33_parse _ Kb) as (base & Lb & Eb & Pb). rewrite Pb in E. cbn [bind] in E.
    apply (f_equal (fun x => match x with Ok (a, _, _) => a | _ => c end)) in E. exists base. split; [exact Eb|]. split; [exact Lb|]. symmetry. exact E.
  - cbn [bind] in E. apply (f_equal (fun x => match x with Ok (a, _, _) => a | _ => c end)) in E. symmetry. exact E.
Qed.

Lemma signal_back : forall C mackey ratchet prev counter body s r m, CryptoOk C -> List.length mackey = 32%nat -> List.length ratchet = 32%nat -> go_u32 prev -> go_u32 counter ->
  new_signal C 3 mackey ratchet prev counter body s r = Ok m -> size body < 2 ^ 62 + 100 ->
  parse_signal (sg_raw m) = Ok m /\ sg_version m = 3 /\ sg_ratchet m = ratchet /\ sg_prev m = prev /\ sg_counter m = counter /\ sg_body m = body /\
  go_slice (sg_raw m) /\ size (sg_raw m) = 1 + len_field 33 + num_field counter + num_field prev + len_field (size body) + 8.
Proof.
  intros C mackey ratchet prev counter body s r m H Lm Lr Gp Gc E L. change (2 ^ 62) with 4611686018427387904 in L.
  assert (Gb : go_slice body) by (unfold go_slice; fold (size body); lia).
  pose proof (signal_size _ _ _ _ _ _ _ _ _ H Lr Gp Gc E Gb) as Z.
  destruct (signal_wire C mackey ratchet prev counter body s r H Lm Lr Gp Gc Gb) as (m' & b & E' & _ & _ & M & P & _). rewrite E in E'. injection E' as <-.
  split; [exact P|]. split; [rewrite M; reflexivity|]. do 4 (split; [rewrite M; reflexivity|]). split; [|exact Z].
  unfold go_slice. fold (size (sg_raw m)). rewrite Z. unfold len_field, num_field. unfold go_u32 in *. pose proof (vsize_64 counter ltac:(lia)). pose proof (vsize_64 prev ltac:(lia)).
  pose proof (vsize_64 (size body) ltac:(lia)). pose proof (vsize_64 33 ltac:(lia)). lia.
Qed.
Lemma of_int32_u32 : forall z, go_u32 (of_int32 z).
Proof. intro z. unfold of_int32, go_u32. pose proof (Z.mod_pos_bound z 4294967296 eq_refl). lia. Qed.

Theorem sent_size : forall C a pt fs w c w', CryptoOk C -> wf_device w -> size pt < 2 ^ 62 -> run (encrypt_message C a pt) fs w = (Ok c, w') ->
  exists m, inner c = Some m /\ size (sg_raw m) = whisper_size (sg_counter m) (sg_prev m) (size pt) /\
    parse_signal (sg_raw m) = Ok m /\
    match c with
    | CPreKey pm => size (pm_raw pm) = prekey_size (pm_prekey_id pm) (pm_reg pm) (pm_signed_id pm) (size (sg_raw m)) /\ parse_prekey_msg (pm_raw pm) = Ok pm
    | _ => True
    end.
Proof.
  intros C a pt fs w c w' H W L E. destruct (sent_from _ _ _ _ _ _ _ H W E) as (r & s & s' & rid & _ & _ & Ws & En).
  destruct (built_from _ _ _ _ _ _ H Ws En) as (ratchet & local & remote & k & mk & body & m & Lr & Ll & Gk & Gp & Lm & _ & _ & Ec & Em & Fr).
  exists m. pose proof Ws as (_ & _ & _ & _ & _ & _ & _ & Pd & _ & Gl & _). destruct (body_slice _ _ _ _ _ H Ec L) as [Gb Lb'].
  destruct (signal_back _ _ _ _ _ _ _ _ _ H Lm Lr Gp Gk Em ltac:(lia)) as (Z2 & _ & _ & E1 & E2 & _ & Gm & Z1).
  assert (Z : size (sg_raw m) = whisper_size (sg_counter m) (sg_prev m) (size pt)).
  { rewrite Z1, E1, E2, (body_size _ _ _ _ _ H Ec). reflexivity. }
  unfold framed in Fr. destruct (ss_pending s) as [p|] eqn:Ep.
  - destruct Fr as (base & Eb & Lb & ->).
    split; [reflexivity|]. split; [exact Z|]. split; [exact Z2|]. destruct (Pd p eq_refl) as (Gi & _ & _).
    assert (Gi' : forall i, (if N.eqb (pp_prekey p) 0 then None else Some (pp_prekey p)) = Some i -> go_u32 i).
    { intros i. destruct (N.eqb (pp_prekey p) 0); intro Q; [discriminate|]. injection Q as <-. exact Gi. }
    split; [exact (frame_size (ss_local_reg s) _ (of_int32 (pp_signed p)) base local m Lb Ll Gl (of_int32_u32 _) Gi' Gm)|].
    destruct (prekey_wire (ss_local_reg s) (if N.eqb (pp_prekey p) 0 then None else Some (pp_prekey p)) (of_int32 (pp_signed p)) base local m Lb Ll Gl (of_int32_u32 _) Gi' Gm Z2) as (b & _ & _ & _ & Q).
    exact Q.
  - subst c. auto.
Qed.
Theorem sent_looks : forall C a pt1 pt2 fs1 fs2 w c1 c2 w1 w2, CryptoOk C -> wf_device w -> size pt1 < 2 ^ 62 ->
  run (encrypt_message C a pt1) fs1 w = (Ok c1, w1) -> run (encrypt_message C a pt2) fs2 w = (Ok c2, w2) ->
  size pt1 / 16 = size pt2 / 16 -> looks_same c1 c2.
Proof.
  intros C a pt1 pt2 fs1 fs2 w c1 c2 w1 w2 H W G1 E1 E2 L.
  destruct (sent_from _ _ _ _ _ _ _ H W E1) as (r & s & s1 & rid1 & R & Rs & Ws & En1).
  destruct (sent_from _ _ _ _ _ _ _ H W E2) as (r' & s' & s2 & rid2 & R' & Rs' & _ & En2). rewrite R in R'. injection R' as <-. rewrite Rs in Rs'. injection Rs' as <-.
  destruct (built_from _ _ _ _ _ _ H Ws En1) as (ra & lo & re & k & mk & body & m & Lr & Ll & Gk & Gp & Lm & (sc & Es & Ek & Er) & El & Ec & Em & Fr).
  destruct (built_from _ _ _ _ _ _ H Ws En2) as (ra' & lo' & re' & k' & mk' & body' & m' & _ & _ & _ & _ & Lm' & (sc' & Es' & Ek' & Er') & El' & Ec' & Em' & Fr').
  rewrite Es in Es'. injection Es' as <-. rewrite Ek in Ek'. injection Ek' as <-. rewrite Er in Er'. apply (f_equal (@tl _)) in Er'. cbn [pub_bytes tl] in Er'. subst ra'.
  rewrite El in El'. apply (f_equal (@tl _)) in El'. cbn [pub_bytes tl] in El'. subst lo'.
  assert (Lb : size body = size body').
  { rewrite (body_size _ _ _ _ _ H Ec), (body_size _ _ _ _ _ H Ec'). unfold padded_size. rewrite L. reflexivity. }
  destruct (body_slice _ _ _ _ _ H Ec G1) as [_ Lb1].
  destruct (signal_back _ _ _ _ _ _ _ _ _ H Lm Lr Gp Gk Em ltac:(lia)) as (_ & A1 & A2 & A3 & A4 & A5 & Gm & A6).
  destruct (signal_back _ _ _ _ _ _ _ _ _ H Lm' Lr Gp Gk Em' ltac:(lia)) as (_ & B1 & B2 & B3 & B4 & B5 & Gm' & B6).
  assert (Z : same_outside m m').
  { unfold same_outside. rewrite A1, A2, A3, A4, A5, B1, B2, B3, B4, B5. repeat (split; [reflexivity|]). split; apply Nat2N.inj; [exact Lb|].
    fold (size (sg_raw m)). fold (size (sg_raw m')). rewrite A6, B6, Lb. reflexivity. }
  unfold framed in Fr, Fr'. destruct (ss_pending s) as [p|] eqn:Ep.
  - destruct Fr as (base & Eb & Lbs & ->). destruct Fr' as (base' & Eb' & _ & ->). rewrite Eb in Eb'. apply (f_equal (@tl _)) in Eb'. cbn [pub_bytes tl] in Eb'. subst base'.
    pose proof Ws as (_ & _ & _ & _ & _ & _ & _ & Pd & _ & Gl & _). destruct (Pd p Ep) as (Gi & _ & _).
    assert (Gi' : forall i, (if N.eqb (pp_prekey p) 0 then None else Some (pp_prekey p)) = Some i -> go_u32 i).
    { intros i. destruct (N.eqb (pp_prekey p) 0); intro Q; [discriminate|]. injection Q as <-. exact Gi. }
    unfold looks_same. repeat (split; [reflexivity|]). split; [|exact Z]. apply Nat2N.inj.
    match goal with |- N.of_nat (List.length ?x) = N.of_nat (List.length ?y) => fold (size x); fold (size y) end.
    rewrite (frame_size (ss_local_reg s) _ (of_int32 (pp_signed p)) base lo m Lbs Ll Gl (of_int32_u32 _) Gi' Gm), (frame_size (ss_local_reg s) _ (of_int32 (pp_signed p)) base lo m' Lbs Ll Gl (of_int32_u32 _) Gi' Gm').
    rewrite A6, B6, Lb. reflexivity.
  - subst c1 c2. exact Z.
Qed.
(** ** Groups *)
Lemma gsent_from : forall C a d rnd pt fs w m w', CryptoOk C -> wf_device w -> List.length d = 16%nat -> run (gencrypt C a d rnd pt) fs w = (Ok m, w') ->
  exists s r body sg mk, w_groups w a d = Some (s :: r) /\ wf_gstate s /\ cbc_encrypt C (gk_cipher mk) (gk_iv mk) pt = Ok body /\ List.length sg = 64%nat /\
    m = mkSenderKeyMsg 3 d (gs_chain s) (gs_iter s) body ((version_prefix 3 :: enc_fields (senderkey_fields d (gs_chain s) (gs_iter s) body)) ++ sg) /\
    (go_slice body -> parse_senderkey (sm_raw m) = Ok m).
Proof.
  intros C a d rnd pt fs w m w' H W Ld E. destruct (gencrypt_ok _ _ _ _ _ _ _ _ _ E) as (s & r & Eg & G & _).
  destruct (proj2 W a d _ Eg) as (_ & _ & F). inversion F as [|? ? Ws Fr]; subst. pose proof Ws as (_ & Gc & Gi & _).
  pose proof (gencrypt_needs_key _ _ _ _ _ _ G) as L. unfold gencrypt_state in G.
  destruct (cbc_encrypt C _ _ pt) as [ct| |] eqn:Ec; cbn [bind] in G; [|discriminate..].
  destruct (gs_private C s) as [key| |] eqn:Ek; cbn [bind] in G; [|discriminate..].
  rewrite (P_GroupMsg.gs_ver_wf s Ws) in G. change (3 mod 256)%N with 3%N in G. unfold gs_private in Ek.
  destruct (new_senderkey C rnd 3 d (gs_chain s) _ ct key) as [[m0| |] rest] eqn:Em; cbn [fst bind] in G; [|discriminate..].
  apply (f_equal (fun x => match x with Ok (a, _) => a | _ => m end)) in G. subst m0.
  pose proof Em as Em1. unfold new_senderkey in Em1. set (ser := version_prefix 3 :: _) in Em1.
  destruct (sign C key rnd [ser]) as [[sg| |] r0] eqn:Sg; [|discriminate..].
  destruct (sign_verifies C H _ key rnd sg r0 [ser] [ser] Ek Sg eq_refl) as [L64 _].
  apply (f_equal (fun x => match x with (Ok a, _) => a | _ => m end)) in Em1.
  exists s, r, ct, sg, (gc_message_key C (gs_chainkey s)). split; [exact Eg|]. split; [exact Ws|]. split; [exact Ec|]. split; [exact L64|].
  split; [symmetry; exact Em1|]. intro Gb.
  assert (L64r : (64 <= List.length rnd)%nat).
  { unfold sign in Sg. destruct (read_full 64 rnd) as [[z| |] q] eqn:Rf; [|discriminate..]. unfold read_full in Rf. destruct (Nat.ltb_spec (List.length rnd) 64); [discriminate|assumption]. }
  destruct (senderkey_wire C _ key rnd d (gs_chain s) (gs_iter s) ct H Ek L64r Ld Gc Gi Gb) as (m' & rest' & b & sig & E' & _ & _ & _ & _ & P & _).
  match type of Em with _ = (Ok m, rest) => change (gk_iter (gc_message_key C (gs_chainkey s))) with (gs_iter s) in Em end. rewrite Em in E'. injection E' as <- _. exact P.
Qed.
Theorem gsent_size : forall C a d rnd pt fs w m w', CryptoOk C -> wf_device w -> List.length d = 16%nat -> size pt < 2 ^ 62 -> run (gencrypt C a d rnd pt) fs w = (Ok m, w') ->
  size (sm_raw m) = group_size (sm_chain m) (sm_iter m) (size pt) /\ parse_senderkey (sm_raw m) = Ok m.
Proof.
  intros C a d rnd pt fs w m w' H W Ld L E. destruct (gsent_from _ _ _ _ _ _ _ _ _ H W Ld E) as (s & r & body & sg & mk & Eg & Ws & Ec & Ls & Em & P).
  pose proof Ws as (_ & Gc & Gi & _). destruct (body_slice _ _ _ _ _ H Ec L) as [Gb _].
  split; [|exact (P Gb)]. rewrite Em. cbn [sm_raw sm_chain sm_iter]. rewrite sender_size by assumption. rewrite (body_size _ _ _ _ _ H Ec). reflexivity.
Qed.
Theorem gsent_looks : forall C a d rnd1 rnd2 pt1 pt2 fs1 fs2 w m1 m2 w1 w2, CryptoOk C -> wf_device w -> List.length d = 16%nat -> size pt1 < 2 ^ 62 ->
  run (gencrypt C a d rnd1 pt1) fs1 w = (Ok m1, w1) -> run (gencrypt C a d rnd2 pt2) fs2 w = (Ok m2, w2) ->
  size pt1 / 16 = size pt2 / 16 -> looks_same_group m1 m2.
Proof.
  intros C a d rnd1 rnd2 pt1 pt2 fs1 fs2 w m1 m2 w1 w2 H W Ld G1 E1 E2 L.
  destruct (gsent_from _ _ _ _ _ _ _ _ _ H W Ld E1) as (s & r & body & sg & mk & Eg & Ws & Ec & Ls & Em & _).
  destruct (gsent_from _ _ _ _ _ _ _ _ _ H W Ld E2) as (s' & r' & body' & sg' & mk' & Eg' & _ & Ec' & Ls' & Em' & _).
  rewrite Eg in Eg'. injection Eg' as <- <-. pose proof Ws as (_ & Gc & Gi & _). destruct (body_slice _ _ _ _ _ H Ec G1) as [Gb _].
  assert (Lb : size body = size body').
  { rewrite (body_size _ _ _ _ _ H Ec), (body_size _ _ _ _ _ H Ec'). unfold padded_size. rewrite L. reflexivity. }
  assert (Gb' : go_slice body') by (unfold go_slice in *; fold (size body) in Gb; fold (size body'); rewrite <- Lb; exact Gb).
  unfold looks_same_group. do 4 (split; [rewrite Em, Em'; reflexivity|]). split; apply Nat2N.inj; [rewrite Em, Em'; exact Lb|].
  rewrite Em, Em'. cbn [sm_raw]. match goal with |- N.of_nat (List.length ?x) = N.of_nat (List.length ?y) => fold (size x); fold (size y) end.
  rewrite !sender_size by assumption. rewrite Lb. reflexivity.
Qed.
