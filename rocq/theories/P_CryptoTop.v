(** The primitive-level theorems in the form in which they are stated (T_Crypto.v). *)
From Verif Require Import M_Base M_Crypto M_Aes M_Curve M_Proto M_Ratchet M_Fingerprint M_Identity M_Slice
  S_Crypto S_Aes S_Message S_Wire S_Curve S_Ratchet S_Fingerprint S_Identity K_Toy
  P_Base P_Proto P_Wire P_Curve P_Verify P_Aes P_Ratchet P_Fingerprint P_Misc.
From Coq Require Import ZifyBool ZifyNat ZifyN.

Lemma cbc_inverse : forall C key iv pt, CryptoOk C -> legal_key key -> List.length iv = 16 ->
  exists ct padded, cbc_encrypt C key iv pt = Ok ct /\
    is_padded pt padded /\ is_cbc_enc C key iv padded ct /\
    List.length ct = 16 * (List.length pt / 16 + 1) /\
    cbc_decrypt C key iv ct = Ok pt.
Proof.
  intros C key iv pt H K I. apply (proj1 (legal_key_ok key)) in K.
  destruct (cbc_roundtrip C H key iv pt K I) as (ct & E & M & [L1 L2] & D & S).
  exists ct, (M_Aes.pkcs7pad pt). split; [auto|]. split; [apply is_padded_pad|]. split; [auto|]. split; [|auto].
  pose proof (Nat.div_mod_eq (List.length ct) 16). pose proof (Nat.div_mod_eq (List.length pt) 16).
  pose proof (Nat.mod_upper_bound (List.length pt) 16 ltac:(lia)). lia.
Qed.

Lemma cbc_encrypt_exact : forall C key iv pt, CryptoOk C ->
  cbc_encrypt C key iv pt <> Panic /\
  ((exists ct, cbc_encrypt C key iv pt = Ok ct) <-> (legal_key key /\ List.length iv = 16)).
Proof. intros C key iv pt H. split; [apply cbc_encrypt_total|apply (cbc_encrypt_ok_iff C)]. Qed.

Definition cbc_input_ok (key iv ct : bytes) : Prop :=
  legal_key key /\ ct <> [] /\ List.length ct mod 16 = 0 /\ List.length iv = 16.

Lemma cbc_decrypt_result : forall C key iv ct, CryptoOk C ->
  match cbc_decrypt C key iv ct with
  | Ok pt => (legal_key key /\ ct <> [] /\ List.length ct mod 16 = 0 /\ List.length iv = 16) /\
      exists d n, is_cbc_dec C key iv ct d /\ b2n (last d Byte.x00) = N.of_nat n /\ 1 <= n <= 16 /\
        d = pt ++ skipn (List.length d - n) d /\ List.length pt = List.length d - n
  | Err _ => ~ (legal_key key /\ ct <> [] /\ List.length ct mod 16 = 0 /\ List.length iv = 16) \/
      exists d, is_cbc_dec C key iv ct d /\ ~ (1 <= b2n (last d Byte.x00) <= 16)%N
  | Panic => False
  end.
Proof.
  intros C key iv ct H. destruct (cbc_decrypt_exact C H key iv ct) as [A B].
  assert (D : {cbc_input_ok key iv ct} + {~ cbc_input_ok key iv ct}).
  { unfold cbc_input_ok, legal_key. destruct (Nat.eq_dec (List.length key) 16), (Nat.eq_dec (List.length key) 24),
      (Nat.eq_dec (List.length key) 32), (Nat.eq_dec (List.length ct mod 16) 0), (Nat.eq_dec (List.length iv) 16), ct;
      try (left; repeat split; auto; discriminate); right; intros (K & N & M & I); try contradiction; lia. }
  unfold cbc_input_ok in D. destruct D as [D|D].
  - destruct (A D) as (d & S & [[N Q]|[N [e Q]]]); rewrite Q.
    + split; [auto|]. exists d, (N.to_nat (b2n (last d Byte.x00))). split; [auto|]. split; [lia|]. split; [lia|].
      rewrite firstn_skipn. split; [auto|]. rewrite firstn_length. lia.
    + right. exists d. auto.
  - destruct (B D) as [e Q]. rewrite Q. left. auto.
Qed.

Lemma public_key_encoding :
  (forall k, List.length k = 32 -> new_public_key (Byte.x05 :: k) = Ok k) /\
  (forall b k, new_public_key b = Ok k <-> (33 <= List.length b /\ exists r, b = Byte.x05 :: r /\ k = firstn 32 r)) /\
  (forall b, new_public_key b <> Panic) /\
  (forall k, pub_bytes k = Byte.x05 :: k) /\
  (forall a b, pub_equal a b = true <-> a = b).
Proof.
  split; [exact new_public_key_bytes|]. split; [exact new_public_key_exact|]. split; [exact new_public_key_no_panic|].
  split; [reflexivity|]. intros. apply bytes_eqb_eq.
Qed.

Lemma private_key_storage : forall C key k, CryptoOk C -> new_private_key C key = Ok k ->
  List.length (sk_bytes k) = 32 /\
  exists k', new_private_key C (sk_bytes k) = Ok k' /\ sk_bytes k' = sk_bytes k /\ sk_pub k' = sk_pub k /\
    (forall u, agreement C k' u = agreement C k u) /\
    (forall rnd ms, sign C k' rnd ms = sign C k rnd ms).
Proof.
  intros C key k H E. destruct (private_key_restored C H key k E) as (k' & A & B & D & _ & F & G & L).
  split; [auto|]. exists k'. auto.
Qed.

Lemma agreement_symmetric : forall C, CryptoOk C ->
  (forall ka kb a b, new_private_key C ka = Ok a -> new_private_key C kb = Ok b ->
     exists s, agreement C a (sk_pub b) = Ok s /\ agreement C b (sk_pub a) = Ok s /\ List.length s = 32) /\
  (forall ka a u, new_private_key C ka = Ok a ->
     match agreement C a u with
     | Ok s => List.length u = 32 /\ s = c_x25519 C ka u /\ exists x, In x s /\ x <> Byte.x00
     | Err _ => List.length u <> 32 \/ (forall x, In x (c_x25519 C ka u) -> x = Byte.x00)
     | Panic => False
     end).
Proof.
  intros C H. split; [exact (agreement_sym C H)|]. intros ka a u E.
  assert (K : sk_ecdh a = ka).
  { unfold new_private_key in E. destruct (negb _); [discriminate|]. injection E as <-. reflexivity. }
  unfold agreement. destruct (Nat.eqb_spec (List.length u) 32) as [L|L]; cbn [negb]; [|left; auto].
  rewrite K. destruct (all_zero (c_x25519 C ka u)) eqn:Z.
  - right. unfold all_zero in Z. rewrite forallb_forall in Z. intros x I. apply byte_eqb_eq. auto.
  - split; [auto|]. split; [auto|]. clear - Z. induction (c_x25519 C ka u) as [|x l IH]; [discriminate|].
    cbn [all_zero forallb] in Z. destruct (Byte.eqb x Byte.x00) eqn:B.
    + destruct (IH Z) as (y & I & N). exists y. split; [right|]; auto.
    + exists x. split; [left; auto|]. intros ->. discriminate.
Qed.

Lemma signatures : forall C, CryptoOk C ->
  (forall key k rnd parts, new_private_key C key = Ok k -> 64 <= List.length rnd ->
     exists sig, sign C k rnd parts = (Ok sig, skipn 64 rnd) /\ List.length sig = 64 /\
       forall parts', List.concat parts' = List.concat parts ->
         verify_signature C (sk_pub k) sig parts' = Ok true) /\
  (forall pub sig parts, verify_signature C pub sig parts = Ok true <->
     exists r t y, sig = r ++ [t] /\ List.length sig = 64 /\
       edwards_of pub (128 <=? b2n t)%N y /\
       c_edverify C y (List.concat parts) (r ++ [n2b (b2n t mod 128)]) = true) /\
  (forall pub sig parts, List.length sig <> 64 -> verify_signature C pub sig parts = Ok false) /\
  (forall pub sig parts, verify_signature C pub sig parts <> Panic).
Proof.
  intros C H. split; [|split; [|split]].
  - intros key k rnd parts E L.
    assert (S : exists sig, sign C k rnd parts = (Ok sig, skipn 64 rnd)).
    { unfold sign, read_full. destruct (Nat.ltb_spec (List.length rnd) 64); [lia|]. eexists. reflexivity. }
    destruct S as [sig S]. exists sig. split; [auto|].
    destruct (sign_verifies C H key k rnd sig _ parts parts E S eq_refl) as [Ls _]. split; [auto|].
    intros parts' Q. apply (sign_verifies C H key k rnd sig _ parts parts' E S Q).
  - intros. apply verify_exact.
  - intros pub sig parts N. unfold verify_signature. destruct (Nat.eqb_spec (List.length sig) 64); [contradiction|reflexivity].
  - intros. apply verify_no_panic.
Qed.

Lemma alternate_identity : forall C, CryptoOk C ->
  (forall key k rnd other, new_private_key C key = Ok k -> 64 <= List.length rnd ->
     exists sig, sign_alternate C k rnd other = (Ok sig, skipn 64 rnd) /\
       verify_alternate C (sk_pub k) sig other = Ok true) /\
  (forall k sig other, verify_alternate C k sig other = verify_signature C k sig [alternate_message other]) /\
  (forall k rnd other, sign_alternate C k rnd other = sign C k rnd [alternate_message other]) /\
  (forall a b, alternate_message a = alternate_message b -> a = b).
Proof.
  intros C H. split; [|split; [|split]].
  - intros key k rnd other E L. destruct (proj1 (signatures C H) key k rnd [alternate_message other] E L) as (sig & S & _).
    exists sig. rewrite alternate_signs_message. split; [auto|].
    apply (alternate_verifies C key k rnd sig (skipn 64 rnd) other H E). rewrite alternate_signs_message. auto.
  - intros k sig other. unfold verify_alternate, verify_signature, verify25519.
    replace (List.concat [alternate_message other]) with (List.concat [alt_prefix1; alt_prefix2; pub_bytes other]); [reflexivity|].
    cbn [List.concat]. unfold alternate_message, alt_prefix1, alt_prefix2, pub_bytes. rewrite !app_nil_r. reflexivity.
  - intros. apply alternate_signs_message.
  - exact alternate_message_inj.
Qed.

Lemma displayed_number : forall C v1 v2 it idA keyA idB keyB fa fb, CryptoOk C ->
  new_fingerprint C v1 it idA keyA idB keyB = Ok fa ->
  new_fingerprint C v2 it idB keyB idA keyA = Ok fb ->
  fp_string fa = fp_string fb /\
  List.length (fp_string fa) = 60 /\ Forall is_digit (fp_string fa) /\
  exists x y, fp_string fa = x ++ y /\ lex_le x y /\
    ((digest_text (user_digest C (N.to_nat it) idA keyA) x /\ digest_text (user_digest C (N.to_nat it) idB keyB) y) \/
     (digest_text (user_digest C (N.to_nat it) idB keyB) x /\ digest_text (user_digest C (N.to_nat it) idA keyA) y)).
Proof.
  intros C v1 v2 it idA keyA idB keyB fa fb H Ea Eb.
  split; [eapply safety_number_sym; eauto|].
  destruct (safety_number_shape _ _ _ _ _ _ _ _ H Ea) as [L F]. split; [auto|]. split; [auto|].
  eapply safety_number; eauto.
Qed.

Lemma scanned_code :
  (forall s t, go_u32 (sc_version t) -> List.length (sc_local t) = 32 -> List.length (sc_remote t) = 32 ->
     (sc_version t <> sc_version s -> exists e, scan_compare s (scan_bytes t) = Err e) /\
     (sc_version t = sc_version s ->
        exists b, scan_compare s (scan_bytes t) = Ok b /\
          (b = true <-> (sc_local s = sc_remote t /\ sc_remote s = sc_local t)))) /\
  (forall s b r, scan_compare s b = Ok r ->
     exists fs, wire b fs /\ the_u32 1 fs = sc_version s) /\
  (forall s b, scan_compare s b <> Panic).
Proof.
  split; [|split; [|exact scan_compare_no_panic]].
  2: { intros s b r E. destruct (scan_compare_version s b r E) as (fs & D & V). exists fs.
       split; [apply dec_fields_iff; auto|]. rewrite <- or0_get. auto. }
  intros s t G L1 L2. rewrite (scan_compare_peer s t G L1 L2). split.
  - intro N. destruct (N.eqb_spec (sc_version t) (sc_version s)); [contradiction|]. eexists. reflexivity.
  - intros ->. rewrite N.eqb_refl. eexists. split; [reflexivity|]. rewrite Bool.andb_true_iff, !bytes_eqb_eq. reflexivity.
Qed.

(** The two devices' codes of one conversation match. *)
Lemma scanned_peer : forall C v it idA keyA idB keyB fa fb, CryptoOk C -> go_u32 v ->
  new_fingerprint C v it idA keyA idB keyB = Ok fa ->
  new_fingerprint C v it idB keyB idA keyA = Ok fb ->
  scan_compare (fp_scan fa) (scan_bytes (fp_scan fb)) = Ok true.
Proof.
  intros C v it idA keyA idB keyB fa fb H G Ea Eb.
  pose proof (new_fingerprint_exact C v it idA keyA idB keyB H) as X. rewrite Ea in X.
  pose proof (new_fingerprint_exact C v it idB keyB idA keyA H) as Y. rewrite Eb in Y.
  destruct X as (A & V & L & R). destruct Y as (_ & V' & L' & R').
  rewrite scan_compare_peer.
  - rewrite V, V', L, R, L', R', N.eqb_refl, !bytes_eqb_refl. reflexivity.
  - rewrite V'. auto.
  - rewrite L', firstn_length, (user_digest_len C _ _ _ H); lia.
  - rewrite R', firstn_length, (user_digest_len C _ _ _ H); lia.
Qed.

Lemma iteration_bounds : forall C version it lid lkey rid rkey, CryptoOk C ->
  match new_fingerprint C version it lid lkey rid rkey with
  | Ok f => (2 <= it <= 1000000)%N /\
      fp_scan f = mkScan version (firstn 32 (user_digest C (N.to_nat it) lid lkey))
                                 (firstn 32 (user_digest C (N.to_nat it) rid rkey))
  | Err _ => ~ (2 <= it <= 1000000)%N
  | Panic => False
  end.
Proof.
  intros C version it lid lkey rid rkey H. pose proof (new_fingerprint_exact C version it lid lkey rid rkey H) as X.
  destruct (new_fingerprint C version it lid lkey rid rkey) as [f| |]; auto.
  destruct X as (A & B & D & E). split; [auto|]. destruct (fp_scan f) as [v l r]. cbn in *. congruence.
Qed.

Lemma chain_determinism : forall C, CryptoOk C ->
  (forall c n, go_u32 (ck_index c) ->
     ck_key (Nat.iter n (ck_next C) c) = chain_at C (ck_key c) n /\
     ck_index (Nat.iter n (ck_next C) c) = ((ck_index c + N.of_nat n) mod 4294967296)%N /\
     keys_at C (chain_at C (ck_key c) n) ((ck_index c + N.of_nat n) mod 4294967296)
       (ck_message_keys C (Nat.iter n (ck_next C) c))) /\
  (forall c n, go_u32 (gc_iter c) ->
     gc_key (Nat.iter n (gc_next C) c) = chain_at C (gc_key c) n /\
     gc_iter (Nat.iter n (gc_next C) c) = ((gc_iter c + N.of_nat n) mod 4294967296)%N /\
     gkeys_at C (chain_at C (gc_key c) n) ((gc_iter c + N.of_nat n) mod 4294967296)
       (gc_message_key C (Nat.iter n (gc_next C) c))) /\
  (forall k i m m', keys_at C k i m -> keys_at C k i m' -> m = m') /\
  (forall k n m, chain_at C (chain_at C k n) m = chain_at C k (n + m)) /\
  (forall secret salt info n, hkdf C secret salt info n = rfc_hkdf C salt secret info n).
Proof.
  intros C H. split; [|split; [|split; [|split]]].
  - intros c n G. split; [apply (ck_iter_key C n c)|]. split; [apply (ck_iter_index C n c G)|].
    apply (chain_position_keys C c n H G).
  - intros c n G. split; [apply (gc_iter_key C n c)|]. split; [apply (gc_iter_index C n c G)|].
    apply (gchain_position_keys C c n H G).
  - exact (keys_at_unique C).
  - intros k n m. unfold chain_at. rewrite Nat.add_comm. induction m as [|m IH]; [reflexivity|]. change (S m + n) with (S (m + n)). cbn [Nat.iter nat_rect]. f_equal. exact IH.
  - intros. apply hkdf_rfc.
Qed.

(** Concrete cases. *)
Lemma some_fingerprint : forall C id key id' key', CryptoOk C ->
  exists f g, new_fingerprint C 2 5200 id key id' key' = Ok f /\ new_fingerprint C 2 5200 id' key' id key = Ok g.
Proof.
  intros C id key id' key' H.
  pose proof (new_fingerprint_exact C 2 5200 id key id' key' H) as X.
  pose proof (new_fingerprint_exact C 2 5200 id' key' id key H) as Y.
  destruct (new_fingerprint C 2 5200 id key id' key') as [f| |]; [|exfalso; lia|contradiction].
  destruct (new_fingerprint C 2 5200 id' key' id key) as [g| |]; [|exfalso; lia|contradiction].
  exists f, g. auto.
Qed.
