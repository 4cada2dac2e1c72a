From Verif Require Import M_Base M_Crypto M_Curve M_Proto M_Uuid M_Message S_Message S_Crypto.
From Verif Require Import P_Base P_Proto P_Uuid P_Curve.
From Coq Require Import ZifyBool ZifyNat ZifyN.
Local Open Scope nat_scope.

Lemma two64_big : (9223372036854775808 < two64)%N.
Proof. reflexivity. Qed.
Lemma u32_64 : forall n, go_u32 n -> (n < two64)%N.
Proof. unfold go_u32, two64. intros; lia. Qed.
Lemma slice_64 : forall b, go_slice b -> (N.of_nat (List.length b) < two64)%N.
Proof. unfold go_slice, two64. intros; lia. Qed.
Lemma u32_id : forall n, go_u32 n -> u32 n = n.
Proof. intros. apply u32_small. exact H. Qed.
Lemma pub_bytes_64 : forall k : bytes, List.length k = 32 -> (N.of_nat (List.length (pub_bytes k)) < two64)%N.
Proof. intros k H. unfold pub_bytes. cbn [List.length]. rewrite H. reflexivity. Qed.

Lemma version_prefix_nibble : forall v, version_nibble (version_prefix v) = (v mod 16)%N.
Proof.
  intro v. unfold version_nibble, version_prefix.
  replace (N.land v 15) with (v mod 16)%N by (symmetry; apply (N.land_ones v 4)).
  pose proof (N.mod_lt v 16). rewrite b2n_n2b_small by lia.
  rewrite N.div_add_l by lia. change (3 / 16)%N with 0%N. lia.
Qed.

Lemma mac_ok : forall C key s r m, CryptoOk C -> List.length key = 32 ->
  mac C key s r m = Ok (firstn 8 (c_hmac C key (pub_bytes s ++ pub_bytes r ++ m)))
  /\ List.length (firstn 8 (c_hmac C key (pub_bytes s ++ pub_bytes r ++ m))) = 8.
Proof.
  intros C key s r m H L. unfold mac. rewrite L. split; [reflexivity|].
  rewrite firstn_length, (ok_hmac_len _ H). reflexivity.
Qed.

Lemma wf_signal_fields : forall ratchet counter prev body,
  List.length ratchet = 32 -> go_u32 counter -> go_u32 prev -> go_slice body ->
  Forall wf_field (signal_fields ratchet counter prev body).
Proof.
  intros. unfold signal_fields.
  repeat constructor; cbn [fst snd wf_wval]; try lia; auto using u32_64, slice_64, pub_bytes_64.
Qed.

Lemma parse_signal_split : forall v body tr,
  List.length tr = 8 -> version_nibble v = 3%N ->
  parse_signal (v :: body ++ tr) =
    match dec_fields body with
    | None => Err (EOther "proto")
    | Some fs =>
        do k <- new_public_key (ornil (get_bytes 1 fs));
        Ok (mkSignal 3 k (or0 (get_u32 3 fs)) (or0 (get_u32 2 fs))
                     (ornil (get_bytes 4 fs)) (v :: body ++ tr))
    end.
Proof.
  intros v body tr L V. unfold parse_signal. rewrite V. cbn [N.eqb Pos.eqb negb].
  cbn [List.length]. rewrite app_length, L.
  replace (Nat.ltb (S (List.length body + 8) - 8) 1) with false
    by (symmetry; apply Nat.ltb_ge; lia).
  cbn [skipn]. replace (S (List.length body + 8) - 8 - 1) with (List.length body) by lia.
  rewrite firstn_app_exact. reflexivity.
Qed.

Lemma signal_roundtrip : forall C mackey ratchet prev counter body s r m,
  CryptoOk C -> List.length ratchet = 32 -> go_u32 prev -> go_u32 counter -> go_slice body ->
  new_signal C 3 mackey ratchet prev counter body s r = Ok m ->
  parse_signal (sg_raw m) = Ok m /\
  m = mkSignal 3 ratchet prev counter body (sg_raw m).
Proof.
  intros C mackey ratchet prev counter body s r m HC LR HP HN HB E.
  unfold new_signal in E.
  destruct (Nat.eqb_spec (List.length mackey) 32) as [LK|LK].
  2:{ unfold mac in E. destruct (Nat.eqb_spec (List.length mackey) 32); [contradiction|]. discriminate E. }
  destruct (mac_ok C mackey s r (version_prefix 3 :: enc_fields (signal_fields ratchet counter prev body)) HC LK) as [ME ML].
  rewrite ME in E. cbn [bind] in E.
  apply (f_equal (fun x => match x with Ok a => a | _ => m end)) in E. cbn beta iota in E. subst m.
  cbn [sg_raw]. split; [|reflexivity].
  cbn [app]. rewrite parse_signal_split; [|exact ML|apply version_prefix_nibble].
  rewrite dec_enc_fields by (apply wf_signal_fields; auto).
  unfold signal_fields, get_u32. cbn [get_bytes get_varint N.eqb Pos.eqb ornil or0].
  rewrite new_public_key_bytes by auto. cbn [bind].
  rewrite !u32_id by auto. reflexivity.
Qed.

Lemma new_signal_total : forall C v mackey ratchet prev counter body s r,
  (exists m, new_signal C v mackey ratchet prev counter body s r = Ok m) <-> List.length mackey = 32.
Proof.
  intros. unfold new_signal, mac. destruct (Nat.eqb_spec (List.length mackey) 32); cbn [negb bind].
  - split; eauto.
  - split; [intros [m E]; discriminate|contradiction].
Qed.

Lemma verify_mac_built : forall C v mackey ratchet prev counter body s r m key' s' r',
  CryptoOk C ->
  new_signal C v mackey ratchet prev counter body s r = Ok m ->
  exists ser, sg_raw m = ser ++ firstn 8 (c_hmac C mackey (pub_bytes s ++ pub_bytes r ++ ser)) /\
  (verify_mac C m key' s' r' = Ok true <->
   (List.length key' = 32 /\
    firstn 8 (c_hmac C key' (pub_bytes s' ++ pub_bytes r' ++ ser))
    = firstn 8 (c_hmac C mackey (pub_bytes s ++ pub_bytes r ++ ser)))).
Proof.
  intros C v mackey ratchet prev counter body s r m key' s' r' HC E.
  assert (LK : List.length mackey = 32) by (eapply new_signal_total; eauto).
  unfold new_signal in E. set (ser := version_prefix v :: _) in E.
  destruct (mac_ok C mackey s r ser HC LK) as [ME ML]. rewrite ME in E. cbn [bind] in E.
  apply (f_equal (fun x => match x with Ok a => a | _ => m end)) in E. cbn beta iota in E. subst m.
  exists ser. cbn [sg_raw]. split; [reflexivity|].
  set (t := firstn 8 (c_hmac C mackey _)) in *.
  unfold verify_mac. cbn [sg_raw]. rewrite app_length, ML.
  replace (Nat.ltb (List.length ser + 8) 8) with false by (symmetry; apply Nat.ltb_ge; lia).
  replace (List.length ser + 8 - 8) with (List.length ser) by lia.
  rewrite firstn_app_exact, skipn_app_exact. unfold mac.
  destruct (Nat.eqb_spec (List.length key') 32) as [L'|L']; cbn [negb bind].
  - split.
    + intro X. split; auto. apply bytes_eqb_eq. congruence.
    + intros [_ X]. rewrite X, bytes_eqb_refl. reflexivity.
  - split; [discriminate|]. intros [X _]. contradiction.
Qed.

(** Pre-key messages *)
Lemma prekey_roundtrip : forall reg pkid spkid base identity inner,
  List.length base = 32 -> List.length identity = 32 ->
  go_u32 reg -> go_u32 spkid -> (forall i, pkid = Some i -> go_u32 i) ->
  go_slice (sg_raw inner) -> parse_signal (sg_raw inner) = Ok inner ->
  parse_prekey_msg (pm_raw (new_prekey_msg 3 reg pkid spkid base identity inner))
  = Ok (new_prekey_msg 3 reg pkid spkid base identity inner).
Proof.
  intros reg pkid spkid base identity inner LB LI HR HS HP HL HI.
  unfold new_prekey_msg at 1. cbn [pm_raw]. unfold parse_prekey_msg.
  rewrite version_prefix_nibble. change (3 mod 16)%N with 3%N. cbn [N.eqb Pos.eqb negb].
  assert (W : Forall wf_field (prekey_fields reg pkid spkid base identity (sg_raw inner))).
  { unfold prekey_fields. apply Forall_app. split.
    - destruct pkid; repeat constructor; cbn [fst snd wf_wval]; try lia. apply u32_64; auto.
    - repeat constructor; cbn [fst snd wf_wval]; try lia; auto using u32_64, slice_64, pub_bytes_64. }
  rewrite dec_enc_fields by exact W.
  unfold prekey_fields, get_u32, new_prekey_msg.
  destruct pkid as [i|];
  cbn [app get_bytes get_varint N.eqb Pos.eqb ornil or0];
  rewrite !new_public_key_bytes by auto; cbn [bind]; rewrite HI; cbn [bind];
  rewrite !u32_id by auto; reflexivity.
Qed.

(** Sender-key messages *)
Lemma wf_senderkey_fields : forall d chain iter body,
  List.length d = 16 -> go_u32 chain -> go_u32 iter -> go_slice body ->
  Forall wf_field (senderkey_fields d chain iter body).
Proof.
  intros d chain iter body HD ? ? ?. unfold senderkey_fields.
  repeat constructor; cbn [fst snd wf_wval]; try lia; auto using u32_64, slice_64.
  rewrite uuid_string_length by auto. reflexivity.
Qed.

Lemma parse_senderkey_split : forall v body tr,
  List.length tr = 64 -> version_nibble v = 3%N ->
  parse_senderkey (v :: body ++ tr) =
    match dec_fields body with
    | None => Err (EOther "proto")
    | Some fs =>
        do d <- dist_parse (ornil (get_bytes 1 fs));
        Ok (mkSenderKeyMsg 3 d (or0 (get_u32 2 fs)) (or0 (get_u32 3 fs))
                     (ornil (get_bytes 4 fs)) (v :: body ++ tr))
    end.
Proof.
  intros v body tr L V. unfold parse_senderkey. cbn [List.length]. rewrite app_length, L.
  replace (Nat.ltb (S (List.length body + 64)) 65) with false by (symmetry; apply Nat.ltb_ge; lia).
  rewrite V. cbn [N.eqb Pos.eqb negb].
  replace (S (List.length body + 64) - 64 - 1) with (List.length body) by lia.
  rewrite firstn_app_exact. reflexivity.
Qed.

Lemma senderkey_roundtrip : forall C kb key rnd d chain iter body m rest,
  CryptoOk C -> new_private_key C kb = Ok key ->
  List.length d = 16 -> go_u32 chain -> go_u32 iter -> go_slice body ->
  new_senderkey C rnd 3 d chain iter body key = (Ok m, rest) ->
  parse_senderkey (sm_raw m) = Ok m /\
  m = mkSenderKeyMsg 3 d chain iter body (sm_raw m) /\
  verify_senderkey C m (sk_pub key) = Ok true.
Proof.
  intros C kb key rnd d chain iter body m rest HC HK HD HCh HIt HB E.
  unfold new_senderkey in E. set (ser := version_prefix 3 :: _) in E.
  destruct (sign C key rnd [ser]) as [[sg| |] r0] eqn:S; try discriminate E.
  apply (f_equal (fun x => match fst x with Ok a => a | _ => m end)) in E. cbn [fst] in E. cbn beta iota in E. subst m.
  destruct (sign_verifies C HC kb key rnd sg r0 [ser] [ser] HK S eq_refl) as [L64 V].
  cbn [sm_raw]. split; [|split; [reflexivity|]].
  - unfold ser. cbn [app]. rewrite parse_senderkey_split; [|exact L64|apply version_prefix_nibble].
    rewrite dec_enc_fields by (apply wf_senderkey_fields; auto).
    unfold senderkey_fields, get_u32. cbn [get_bytes get_varint N.eqb Pos.eqb ornil or0].
    rewrite dist_roundtrip by auto. cbn [bind]. rewrite !u32_id by auto. reflexivity.
  - unfold verify_senderkey. cbn [sm_raw]. rewrite app_length, L64.
    replace (Nat.ltb (List.length ser + 64) 64) with false by (symmetry; apply Nat.ltb_ge; lia).
    replace (List.length ser + 64 - 64) with (List.length ser) by lia.
    rewrite firstn_app_exact, skipn_app_exact. exact V.
Qed.

Lemma sign_result : forall C k rnd ms,
  (exists e r, sign C k rnd ms = (Err e, r) /\ List.length rnd < 64)
  \/ (64 <= List.length rnd /\ exists sg r, sign C k rnd ms = (Ok sg, r)).
Proof.
  intros. unfold sign. unfold read_full.
  destruct (Nat.ltb_spec (List.length rnd) 64).
  - left. eauto.
  - right. split; auto. eauto.
Qed.

Lemma new_senderkey_total : forall C v rnd d chain iter body key,
  64 <= List.length rnd -> exists m rest, new_senderkey C rnd v d chain iter body key = (Ok m, rest).
Proof.
  intros. unfold new_senderkey.
  match goal with |- context [sign C key rnd ?x] => destruct (sign_result C key rnd x) as [(e & r & E & L)|(L & sg & r & E)] end.
  - lia.
  - rewrite E. eauto.
Qed.

(** Distribution messages *)
Lemma dist_roundtrip_msg : forall d chain iter ck signing,
  List.length d = 16 -> go_u32 chain -> go_u32 iter -> List.length ck = 32 -> List.length signing = 32 ->
  parse_dist (dm_raw (new_dist 3 d chain iter ck signing)) = Ok (new_dist 3 d chain iter ck signing).
Proof.
  intros d chain iter ck signing HD HC HI LK LS. unfold new_dist at 1. cbn [dm_raw]. unfold parse_dist.
  assert (W : Forall wf_field (dist_fields d chain iter ck signing)).
  { unfold dist_fields. repeat constructor; cbn [fst snd wf_wval]; try lia; auto using u32_64, pub_bytes_64.
    - rewrite uuid_string_length by auto. reflexivity.
    - rewrite LK. reflexivity. }
  assert (L : 65 <= List.length (version_prefix 3 :: enc_fields (dist_fields d chain iter ck signing))).
  { cbn [List.length]. unfold dist_fields, enc_fields, enc_field.
    cbn [map List.concat fst snd enc_wval]. rewrite !app_length, uuid_string_length, LK by auto.
    unfold pub_bytes. cbn [List.length]. lia. }
  destruct (Nat.ltb_spec (List.length (version_prefix 3 :: enc_fields (dist_fields d chain iter ck signing))) 65); [lia|].
  rewrite version_prefix_nibble. change (3 mod 16)%N with 3%N. cbn [N.eqb Pos.eqb negb].
  rewrite dec_enc_fields by exact W.
  unfold dist_fields, get_u32. cbn [get_bytes get_varint N.eqb Pos.eqb ornil or0].
  rewrite dist_roundtrip by auto. cbn [bind]. rewrite LK. cbn [Nat.eqb negb].
  rewrite new_public_key_bytes by auto. cbn [bind]. rewrite !u32_id by auto. reflexivity.
Qed.

(** C05: when the parsers crash *)
Lemma bind_no_panic : forall {A B} (r : res A) (k : A -> res B),
  r <> Panic -> (forall a, r = Ok a -> k a <> Panic) -> bind r k <> Panic.
Proof. intros A B r k H1 H2. destruct r; cbn [bind]; auto; discriminate. Qed.

Lemma parse_signal_panic : forall b,
  parse_signal b = Panic <-> (version_of b 3 /\ List.length b <= 8).
Proof.
  intro b. unfold parse_signal. destruct b as [|v r].
  - split; [discriminate|]. intros [(x & r & X & _) _]. discriminate.
  - fold (version_nibble v). split.
    + destruct (N.eqb_spec (version_nibble v) 3) as [V|V]; cbn [negb]; [|discriminate].
      destruct (Nat.ltb_spec (List.length (v :: r) - 8) 1).
      * intros _. split; [exists v, r; auto|lia].
      * destruct (dec_fields _); [|discriminate]. intro X. exfalso. revert X.
        apply bind_no_panic; [apply new_public_key_no_panic|]. intros; discriminate.
    + intros [(x & r' & E & V) L]. injection E as <- <-.
      unfold version_nibble. rewrite V. cbn [N.eqb Pos.eqb negb].
      destruct (Nat.ltb_spec (List.length (v :: r) - 8) 1); [reflexivity|lia].
Qed.

Lemma parse_prekey_panic : forall b,
  parse_prekey_msg b = Panic <->
  (exists v r fs base ident, b = v :: r /\ version_of b 3 /\ dec_fields r = Some fs
     /\ new_public_key (ornil (get_bytes 2 fs)) = Ok base
     /\ new_public_key (ornil (get_bytes 3 fs)) = Ok ident
     /\ version_of (ornil (get_bytes 4 fs)) 3 /\ List.length (ornil (get_bytes 4 fs)) <= 8).
Proof.
  intro b. unfold parse_prekey_msg. destruct b as [|v r].
  - split; [discriminate|]. intros (x & r & fs & _ & _ & X & _). discriminate.
  - split.
    + destruct (N.eqb_spec (version_nibble v) 3) as [V|V]; cbn [negb]; [|discriminate].
      destruct (dec_fields r) as [fs|] eqn:D; [|discriminate].
      destruct (new_public_key (ornil (get_bytes 2 fs))) as [base| |] eqn:B; cbn [bind]; try discriminate.
      2:{ exfalso; eapply new_public_key_no_panic; eauto. }
      destruct (new_public_key (ornil (get_bytes 3 fs))) as [ident| |] eqn:I; cbn [bind]; try discriminate.
      2:{ exfalso; eapply new_public_key_no_panic; eauto. }
      destruct (parse_signal (ornil (get_bytes 4 fs))) eqn:P; cbn [bind]; try discriminate.
      intros _. apply parse_signal_panic in P as [P1 P2].
      exists v, r, fs, base, ident. repeat split; auto. exists v, r; auto.
    + intros (v' & r' & fs & base & ident & E & (x & r'' & E' & V) & D & B & I & P).
      injection E as <- <-. injection E' as <- <-.
      unfold version_nibble. rewrite V. cbn [N.eqb Pos.eqb negb]. rewrite D, B. cbn [bind]. rewrite I. cbn [bind].
      rewrite (proj2 (parse_signal_panic _) P). reflexivity.
Qed.

Lemma parse_senderkey_no_panic : forall b, parse_senderkey b <> Panic.
Proof.
  intro b. unfold parse_senderkey. destruct (Nat.ltb_spec (List.length b) 65) as [|L]; [discriminate|].
  destruct b as [|v r]; [simpl in L; lia|]. destruct (negb _); [discriminate|].
  destruct (dec_fields _); [|discriminate]. apply bind_no_panic; [apply dist_parse_no_panic|discriminate].
Qed.
Lemma parse_dist_no_panic : forall b, parse_dist b <> Panic.
Proof.
  intro b. unfold parse_dist. destruct (Nat.ltb_spec (List.length b) 65) as [|L]; [discriminate|].
  destruct b as [|v r]; [simpl in L; lia|]. destruct (negb _); [discriminate|].
  destruct (dec_fields _); [|discriminate]. apply bind_no_panic; [apply dist_parse_no_panic|].
  intros a _. cbv zeta. destruct (negb _); [discriminate|]. apply bind_no_panic; [apply new_public_key_no_panic|discriminate].
Qed.
Lemma parse_plaintext_no_panic : forall b, parse_plaintext b <> Panic.
Proof. intro b. destruct b; [discriminate|]. unfold parse_plaintext. destruct (Byte.eqb _ _); discriminate. Qed.

(** C06: what an accepted message looks like *)
Lemma u32_or0 : forall n fs, go_u32 (or0 (get_u32 n fs)).
Proof.
  intros. unfold get_u32. destruct (get_varint n fs); cbn [or0]; [apply u32_lt|reflexivity].
Qed.

Lemma parse_signal_accepts : forall b m, parse_signal b = Ok m ->
  exists v body tr fs krest,
    b = v :: body ++ tr /\ List.length tr = 8 /\ (b2n v / 16 = 3)%N /\
    dec_fields body = Some fs /\
    get_bytes 1 fs = Some (Byte.x05 :: sg_ratchet m ++ krest) /\
    List.length (sg_ratchet m) = 32 /\
    sg_version m = 3%N /\ sg_raw m = b /\
    go_u32 (sg_counter m) /\ go_u32 (sg_prev m) /\
    sg_counter m = or0 (get_u32 2 fs) /\ sg_prev m = or0 (get_u32 3 fs) /\
    sg_body m = ornil (get_bytes 4 fs).
Proof.
  intros b m E. unfold parse_signal in E. destruct b as [|v r]; [discriminate|].
  destruct (N.eqb_spec (version_nibble v) 3) as [V|V]; cbn [negb] in E; [|discriminate].
  destruct (Nat.ltb_spec (List.length (v :: r) - 8) 1) as [L|L]; [discriminate|].
  cbn [skipn] in E. destruct (dec_fields _) as [fs|] eqn:D in E; [|discriminate].
  destruct (new_public_key (ornil (get_bytes 1 fs))) as [k| |] eqn:K; cbn [bind] in E; try discriminate.
  injection E as <-. cbn [sg_ratchet sg_version sg_raw sg_counter sg_prev sg_body].
  set (n := List.length (v :: r) - 8 - 1) in *. cbn [List.length] in n, L.
  pose proof (new_public_key_len _ _ K) as LK.
  apply new_public_key_exact in K as (KL & kr & KE & KK).
  exists v, (firstn n r), (skipn n r), fs, (skipn 32 kr).
  rewrite firstn_skipn. split; [reflexivity|].
  split; [rewrite skipn_length; lia|]. split; [exact V|]. split; [exact D|].
  split.
  { destruct (get_bytes 1 fs) as [x|]; cbn [ornil] in KE; [|discriminate].
    rewrite KE, KK, firstn_skipn. reflexivity. }
  repeat split; auto using u32_or0.
Qed.

Lemma parse_prekey_accepts : forall b m, parse_prekey_msg b = Ok m ->
  exists v body fs kr1 kr2,
    b = v :: body /\ (b2n v / 16 = 3)%N /\ dec_fields body = Some fs /\
    get_bytes 2 fs = Some (Byte.x05 :: pm_base m ++ kr1) /\ List.length (pm_base m) = 32 /\
    get_bytes 3 fs = Some (Byte.x05 :: pm_identity m ++ kr2) /\ List.length (pm_identity m) = 32 /\
    get_bytes 4 fs = Some (sg_raw (pm_message m)) /\
    parse_signal (sg_raw (pm_message m)) = Ok (pm_message m) /\
    pm_version m = 3%N /\ pm_raw m = b /\
    pm_reg m = or0 (get_u32 5 fs) /\ pm_prekey_id m = get_u32 1 fs /\ pm_signed_id m = or0 (get_u32 6 fs) /\
    go_u32 (pm_reg m) /\ go_u32 (pm_signed_id m) /\ (forall i, pm_prekey_id m = Some i -> go_u32 i).
Proof.
  intros b m E. unfold parse_prekey_msg in E. destruct b as [|v r]; [discriminate|].
  destruct (N.eqb_spec (version_nibble v) 3) as [V|V]; cbn [negb] in E; [|discriminate].
  destruct (dec_fields r) as [fs|] eqn:D; [|discriminate].
  destruct (new_public_key (ornil (get_bytes 2 fs))) as [k| |] eqn:K; cbn [bind] in E; try discriminate.
  destruct (new_public_key (ornil (get_bytes 3 fs))) as [k'| |] eqn:K'; cbn [bind] in E; try discriminate.
  destruct (parse_signal (ornil (get_bytes 4 fs))) as [sg| |] eqn:P; cbn [bind] in E; try discriminate.
  injection E as <-. cbn [pm_base pm_identity pm_message pm_version pm_raw pm_reg pm_prekey_id pm_signed_id].
  pose proof (new_public_key_len _ _ K) as LK. pose proof (new_public_key_len _ _ K') as LK'.
  apply new_public_key_exact in K as (KL & kr & KE & KK).
  apply new_public_key_exact in K' as (KL' & kr' & KE' & KK').
  exists v, r, fs, (skipn 32 kr), (skipn 32 kr').
  pose proof (parse_signal_accepts _ _ P) as (? & ? & ? & ? & ? & ? & ? & ? & ? & ? & ? & ? & RR & ?).
  rewrite RR.
  repeat match goal with |- _ /\ _ => split end; auto using u32_or0.
  - destruct (get_bytes 2 fs) as [x'|]; cbn [ornil] in KE; [|discriminate]. rewrite KE, KK, firstn_skipn. reflexivity.
  - destruct (get_bytes 3 fs) as [x'|]; cbn [ornil] in KE'; [|discriminate]. rewrite KE', KK', firstn_skipn. reflexivity.
  - destruct (get_bytes 4 fs) as [x'|]; [reflexivity|]. cbn [ornil] in P. discriminate P.
  - intros i Hi. unfold get_u32 in Hi. destruct (get_varint 1 fs); [|discriminate]. injection Hi as <-. apply u32_lt.
Qed.

Lemma parse_senderkey_accepts : forall b m, parse_senderkey b = Ok m ->
  exists v body tr fs t,
    b = v :: body ++ tr /\ List.length tr = 64 /\ (b2n v / 16 = 3)%N /\
    dec_fields body = Some fs /\
    get_bytes 1 fs = Some t /\ S_Uuid.denotes t (sm_dist m) /\
    sm_version m = 3%N /\ sm_raw m = b /\
    sm_chain m = or0 (get_u32 2 fs) /\ sm_iter m = or0 (get_u32 3 fs) /\
    sm_body m = ornil (get_bytes 4 fs) /\
    go_u32 (sm_chain m) /\ go_u32 (sm_iter m).
Proof.
  intros b m E. unfold parse_senderkey in E.
  destruct (Nat.ltb_spec (List.length b) 65) as [|L]; [discriminate|]. destruct b as [|v r]; [discriminate|].
  destruct (N.eqb_spec (version_nibble v) 3) as [V|V]; cbn [negb] in E; [|discriminate].
  set (n := List.length (v :: r) - 64 - 1) in *. cbn [List.length] in n, L.
  destruct (dec_fields (firstn n r)) as [fs|] eqn:D; [|discriminate].
  destruct (dist_parse (ornil (get_bytes 1 fs))) as [d| |] eqn:K; cbn [bind] in E; try discriminate.
  injection E as <-. cbn [sm_dist sm_version sm_raw sm_chain sm_iter sm_body].
  assert (exists t, get_bytes 1 fs = Some t /\ S_Uuid.denotes t d) as (t & T1 & T2).
  { destruct (get_bytes 1 fs) as [t|]; [|discriminate K]. exists t. split; auto. apply dist_parse_exact; exact K. }
  exists v, (firstn n r), (skipn n r), fs, t. rewrite firstn_skipn.
  split; [reflexivity|]. split; [rewrite skipn_length; lia|].
  repeat split; auto using u32_or0; apply T2.
Qed.

Lemma parse_dist_accepts : forall b m, parse_dist b = Ok m ->
  exists v body fs t krest,
    b = v :: body /\ 65 <= List.length b /\ (b2n v / 16 = 3)%N /\
    dec_fields body = Some fs /\
    get_bytes 1 fs = Some t /\ S_Uuid.denotes t (dm_dist m) /\
    get_bytes 4 fs = Some (dm_chainkey m) /\ List.length (dm_chainkey m) = 32 /\
    get_bytes 5 fs = Some (Byte.x05 :: dm_signing m ++ krest) /\ List.length (dm_signing m) = 32 /\
    dm_version m = 3%N /\ dm_raw m = b /\
    dm_chain m = or0 (get_u32 2 fs) /\ dm_iter m = or0 (get_u32 3 fs) /\
    go_u32 (dm_chain m) /\ go_u32 (dm_iter m).
Proof.
  intros b m E. unfold parse_dist in E.
  destruct (Nat.ltb_spec (List.length b) 65) as [|L]; [discriminate|]. destruct b as [|v r]; [discriminate|].
  destruct (N.eqb_spec (version_nibble v) 3) as [V|V]; cbn [negb] in E; [|discriminate].
  destruct (dec_fields r) as [fs|] eqn:D; [|discriminate].
  destruct (dist_parse (ornil (get_bytes 1 fs))) as [d| |] eqn:K; cbn [bind] in E; try discriminate.
  cbv zeta in E.
  destruct (Nat.eqb_spec (List.length (ornil (get_bytes 4 fs))) 32) as [L4|L4]; cbn [negb] in E; [|discriminate].
  destruct (new_public_key (ornil (get_bytes 5 fs))) as [k| |] eqn:K5; cbn [bind] in E; try discriminate.
  injection E as <-. cbn [dm_dist dm_version dm_raw dm_chain dm_iter dm_chainkey dm_signing].
  pose proof (new_public_key_len _ _ K5) as LK.
  apply new_public_key_exact in K5 as (KL & kr & KE & KK).
  assert (exists t, get_bytes 1 fs = Some t /\ S_Uuid.denotes t d) as (t & T1 & T2).
  { destruct (get_bytes 1 fs) as [t|]; [|discriminate K]. exists t. split; auto. apply dist_parse_exact; exact K. }
  exists v, r, fs, t, (skipn 32 kr).
  repeat match goal with |- _ /\ _ => split end; auto using u32_or0.
  - destruct (get_bytes 4 fs); [reflexivity|discriminate L4].
  - destruct (get_bytes 5 fs) as [x'|]; cbn [ornil] in KE; [|discriminate]. rewrite KE, KK, firstn_skipn. reflexivity.
Qed.

Lemma parse_plaintext_exact : forall b x, parse_plaintext b = Ok x <->
  (x = b /\ exists r, b = Byte.xc0 :: r).
Proof.
  intros b x. unfold parse_plaintext. destruct b as [|v r].
  - split; [discriminate|]. intros [_ [r X]]. discriminate.
  - destruct (Byte.eqb v Byte.xc0) eqn:E.
    + apply byte_eqb_eq in E. subst v. split; [intro X; injection X as <-; eauto|intros [-> _]; reflexivity].
    + split; [discriminate|]. intros [_ [r' X]]. injection X as -> ->. rewrite byte_eqb_refl in E. discriminate.
Qed.
