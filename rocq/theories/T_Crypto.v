(** Property theorems: AES-CBC (C08-C10), curve keys and signatures (C11-C15),
    safety numbers (C16-C18), chain keys (C19), the identity store (C38, C39). *)
From Verif Require Import M_Base M_Crypto M_Aes M_Curve M_Proto M_Ratchet M_Fingerprint M_Identity M_Slice
  S_Crypto S_Aes S_Message S_Wire S_Curve S_Ratchet S_Fingerprint S_Identity K_Toy
  P_Base P_Proto P_Wire P_Curve P_Verify P_Aes P_Ratchet P_Fingerprint P_Misc P_CryptoTop.

(** C08. *)
Theorem c08_cbc_inverse : forall C key iv pt, CryptoOk C -> legal_key key -> List.length iv = 16 ->
  exists ct padded, cbc_encrypt C key iv pt = Ok ct /\
    is_padded pt padded /\ is_cbc_enc C key iv padded ct /\
    List.length ct = 16 * (List.length pt / 16 + 1) /\
    cbc_decrypt C key iv ct = Ok pt.
Proof. exact cbc_inverse. Qed.
Print Assumptions c08_cbc_inverse.
Theorem c08_cbc_encrypt_exact : forall C key iv pt, CryptoOk C ->
  cbc_encrypt C key iv pt <> Panic /\
  ((exists ct, cbc_encrypt C key iv pt = Ok ct) <-> (legal_key key /\ List.length iv = 16)).
Proof. exact cbc_encrypt_exact. Qed.
Print Assumptions c08_cbc_encrypt_exact.
Example c08_case : CryptoOk toy /\ legal_key (repeat Byte.x07 24) /\ List.length (repeat Byte.x02 16) = 16.
Proof. split; [apply toy_ok|]. split; [right; left; reflexivity|reflexivity]. Qed.

(** C09. *)
Theorem c09_cbc_decrypt_exact : forall C key iv ct, CryptoOk C ->
  match cbc_decrypt C key iv ct with
  | Ok pt => (legal_key key /\ ct <> [] /\ List.length ct mod 16 = 0 /\ List.length iv = 16) /\
      exists d n, is_cbc_dec C key iv ct d /\ b2n (last d Byte.x00) = N.of_nat n /\ 1 <= n <= 16 /\
        d = pt ++ skipn (List.length d - n) d /\ List.length pt = List.length d - n
  | Err _ => ~ (legal_key key /\ ct <> [] /\ List.length ct mod 16 = 0 /\ List.length iv = 16) \/
      exists d, is_cbc_dec C key iv ct d /\ ~ (1 <= b2n (last d Byte.x00) <= 16)%N
  | Panic => False
  end.
Proof. exact cbc_decrypt_result. Qed.
Print Assumptions c09_cbc_decrypt_exact.
Example c09_case : exists ct pt, cbc_decrypt toy (repeat Byte.x07 32) (repeat Byte.x02 16) ct = Ok pt /\ pt <> [].
Proof.
  destruct (c08_cbc_inverse toy (repeat Byte.x07 32) (repeat Byte.x02 16) [Byte.x41] toy_ok) as (ct & p & _ & _ & _ & _ & D).
  - right. right. reflexivity.
  - reflexivity.
  - exists ct, [Byte.x41]. split; [exact D|discriminate].
Qed.

(** C10. False: padding is written into the caller's spare capacity ... *)
Theorem c10_caller_buffer_refuted : exists arr s, slice_ok arr s /\ fst (pkcs7pad_slice arr s) <> arr.
Proof. exact pad_writes_caller. Qed.
Print Assumptions c10_caller_buffer_refuted.
(** ... exactly the bytes just past the slice, exactly when the capacity reaches that far. *)
Theorem c10_caller_buffer_exact : forall arr s, slice_ok arr s ->
  let after := fst (pkcs7pad_slice arr s) in
  let n := 16 - sl_len s mod 16 in
  List.length after = List.length arr /\
  forall j, nth j after Byte.x00 =
    if Nat.leb (sl_len s + n) (sl_cap s) && Nat.leb (sl_off s + sl_len s) j
       && Nat.ltb j (sl_off s + sl_len s + n)
    then n2b (N.of_nat n) else nth j arr Byte.x00.
Proof. exact pad_caller_buffer. Qed.
Print Assumptions c10_caller_buffer_exact.
(** The slice itself is never touched, and without spare capacity nothing is. *)
Theorem c10_no_spare_partial : forall arr s, slice_ok arr s -> sl_cap s < sl_len s + (16 - sl_len s mod 16) ->
  fst (pkcs7pad_slice arr s) = arr.
Proof. exact pad_no_spare. Qed.
Print Assumptions c10_no_spare_partial.
Example c10_case : slice_ok (repeat Byte.x41 32) (mkSlice 8 5 6) /\ 6 < 5 + (16 - 5 mod 16).
Proof. split; [split; cbn; auto with arith|cbn; auto with arith]. all: repeat constructor. Qed.

(** C11. *)
Theorem c11_public_key_encoding :
  (forall k, List.length k = 32 -> new_public_key (Byte.x05 :: k) = Ok k) /\
  (forall b k, new_public_key b = Ok k <-> (33 <= List.length b /\ exists r, b = Byte.x05 :: r /\ k = firstn 32 r)) /\
  (forall b, new_public_key b <> Panic) /\
  (forall k, pub_bytes k = Byte.x05 :: k) /\
  (forall a b, pub_equal a b = true <-> a = b).
Proof. exact public_key_encoding. Qed.
Print Assumptions c11_public_key_encoding.
Example c11_case : new_public_key (Byte.x05 :: repeat Byte.x09 40) = Ok (repeat Byte.x09 32) /\
  exists e, new_public_key (Byte.x06 :: repeat Byte.x09 32) = Err e.
Proof. split; [reflexivity|eexists; reflexivity]. Qed.

(** C12. *)
Theorem c12_private_key_storage : forall C key k, CryptoOk C -> new_private_key C key = Ok k ->
  List.length (sk_bytes k) = 32 /\
  exists k', new_private_key C (sk_bytes k) = Ok k' /\ sk_bytes k' = sk_bytes k /\ sk_pub k' = sk_pub k /\
    (forall u, agreement C k' u = agreement C k u) /\
    (forall rnd ms, sign C k' rnd ms = sign C k rnd ms).
Proof. exact private_key_storage. Qed.
Print Assumptions c12_private_key_storage.
Example c12_case : exists k, new_private_key toy (repeat Byte.xff 32) = Ok k /\ sk_bytes k <> repeat Byte.xff 32.
Proof. eexists. split; [reflexivity|]. vm_compute. discriminate. Qed.

(** C13. *)
Theorem c13_agreement_symmetric : forall C, CryptoOk C ->
  (forall ka kb a b, new_private_key C ka = Ok a -> new_private_key C kb = Ok b ->
     exists s, agreement C a (sk_pub b) = Ok s /\ agreement C b (sk_pub a) = Ok s /\ List.length s = 32) /\
  (forall ka a u, new_private_key C ka = Ok a ->
     match agreement C a u with
     | Ok s => List.length u = 32 /\ s = c_x25519 C ka u /\ exists x, In x s /\ x <> Byte.x00
     | Err _ => List.length u <> 32 \/ (forall x, In x (c_x25519 C ka u) -> x = Byte.x00)
     | Panic => False
     end).
Proof. exact agreement_symmetric. Qed.
Print Assumptions c13_agreement_symmetric.
Example c13_case : CryptoOk toy /\ exists a b,
  new_private_key toy (repeat Byte.x07 32) = Ok a /\ new_private_key toy (repeat Byte.x08 32) = Ok b /\
  sk_pub a <> sk_pub b.
Proof. split; [apply toy_ok|]. eexists _, _. split; [reflexivity|]. split; [reflexivity|]. vm_compute. discriminate. Qed.

(** C14. Also: exactly which signatures are accepted. *)
Theorem c14_signatures : forall C, CryptoOk C ->
  (forall key k rnd parts, new_private_key C key = Ok k -> 64 <= List.length rnd ->
     exists sig, sign C k rnd parts = (Ok sig, skipn 64 rnd) /\ List.length sig = 64 /\
       forall parts', List.concat parts' = List.concat parts ->
         verify_signature C (sk_pub k) sig parts' = Ok true) /\
  (forall pub sig parts, verify_signature C pub sig parts = Ok true <->
     exists r t y, sig = r ++ [t] /\ List.length sig = 64 /\
       edwards_of pub (128 <=? b2n t)%N y /\
       c_edverify C y (List.concat parts) (r ++ [n2b (b2n t mod 128)]) = true) /\
  (forall pub sig parts, List.length sig <> 64 -> verify_signature C pub sig parts = Ok false) /\
  (forall pub sig parts, verify_signature C pub sig parts <> Panic).
Proof. exact signatures. Qed.
Print Assumptions c14_signatures.
Example c14_case : CryptoOk toy /\ (exists k, new_private_key toy (repeat Byte.x07 32) = Ok k) /\
  List.concat [str "ab"; str "c"] = List.concat [str "a"; []; str "bc"].
Proof. split; [apply toy_ok|]. split; [eexists; reflexivity|reflexivity]. Qed.

(** C15. *)
Theorem c15_alternate_identity : forall C, CryptoOk C ->
  (forall key k rnd other, new_private_key C key = Ok k -> 64 <= List.length rnd ->
     exists sig, sign_alternate C k rnd other = (Ok sig, skipn 64 rnd) /\
       verify_alternate C (sk_pub k) sig other = Ok true) /\
  (forall k sig other, verify_alternate C k sig other = verify_signature C k sig [alternate_message other]) /\
  (forall k rnd other, sign_alternate C k rnd other = sign C k rnd [alternate_message other]) /\
  (forall a b, alternate_message a = alternate_message b -> a = b).
Proof. exact alternate_identity. Qed.
Print Assumptions c15_alternate_identity.
Example c15_case : CryptoOk toy /\ exists k, new_private_key toy (repeat Byte.x07 32) = Ok k.
Proof. split; [apply toy_ok|eexists; reflexivity]. Qed.

(** C16. *)
Theorem c16_displayed_number : forall C v1 v2 it idA keyA idB keyB fa fb, CryptoOk C ->
  new_fingerprint C v1 it idA keyA idB keyB = Ok fa ->
  new_fingerprint C v2 it idB keyB idA keyA = Ok fb ->
  fp_string fa = fp_string fb /\
  List.length (fp_string fa) = 60 /\ Forall is_digit (fp_string fa) /\
  exists x y, fp_string fa = x ++ y /\ lex_le x y /\
    ((digest_text (user_digest C (N.to_nat it) idA keyA) x /\ digest_text (user_digest C (N.to_nat it) idB keyB) y) \/
     (digest_text (user_digest C (N.to_nat it) idB keyB) x /\ digest_text (user_digest C (N.to_nat it) idA keyA) y)).
Proof. exact displayed_number. Qed.
Print Assumptions c16_displayed_number.
Example c16_case : exists f g,
  new_fingerprint toy 2 5200 (str "alice") (repeat Byte.x01 32) (str "bob") (repeat Byte.x02 32) = Ok f /\
  new_fingerprint toy 2 5200 (str "bob") (repeat Byte.x02 32) (str "alice") (repeat Byte.x01 32) = Ok g.
Proof. exact (some_fingerprint toy _ _ _ _ toy_ok). Qed.

(** C17. *)
Theorem c17_scanned_code :
  (forall s t, go_u32 (sc_version t) -> List.length (sc_local t) = 32 -> List.length (sc_remote t) = 32 ->
     (sc_version t <> sc_version s -> exists e, scan_compare s (scan_bytes t) = Err e) /\
     (sc_version t = sc_version s ->
        exists b, scan_compare s (scan_bytes t) = Ok b /\
          (b = true <-> (sc_local s = sc_remote t /\ sc_remote s = sc_local t)))) /\
  (forall s b r, scan_compare s b = Ok r -> exists fs, wire b fs /\ the_u32 1 fs = sc_version s) /\
  (forall s b, scan_compare s b <> Panic).
Proof. exact scanned_code. Qed.
Print Assumptions c17_scanned_code.
Theorem c17_scanned_peer : forall C v it idA keyA idB keyB fa fb, CryptoOk C -> go_u32 v ->
  new_fingerprint C v it idA keyA idB keyB = Ok fa ->
  new_fingerprint C v it idB keyB idA keyA = Ok fb ->
  scan_compare (fp_scan fa) (scan_bytes (fp_scan fb)) = Ok true.
Proof. exact scanned_peer. Qed.
Print Assumptions c17_scanned_peer.
Example c17_case : go_u32 2 /\ exists f g,
  new_fingerprint toy 2 5200 (str "alice") (repeat Byte.x01 32) (str "bob") (repeat Byte.x02 32) = Ok f /\
  new_fingerprint toy 2 5200 (str "bob") (repeat Byte.x02 32) (str "alice") (repeat Byte.x01 32) = Ok g.
Proof. split; [reflexivity|]. exact (some_fingerprint toy _ _ _ _ toy_ok). Qed.

(** C18. *)
Theorem c18_iteration_bounds : forall C version it lid lkey rid rkey, CryptoOk C ->
  match new_fingerprint C version it lid lkey rid rkey with
  | Ok f => (2 <= it <= 1000000)%N /\
      fp_scan f = mkScan version (firstn 32 (user_digest C (N.to_nat it) lid lkey))
                                 (firstn 32 (user_digest C (N.to_nat it) rid rkey))
  | Err _ => ~ (2 <= it <= 1000000)%N
  | Panic => False
  end.
Proof. exact iteration_bounds. Qed.
Print Assumptions c18_iteration_bounds.
Example c18_case : exists e f,
  new_fingerprint toy 2 1 (str "alice") (repeat Byte.x01 32) (str "bob") (repeat Byte.x02 32) = Err e /\
  new_fingerprint toy 2 5200 (str "alice") (repeat Byte.x01 32) (str "bob") (repeat Byte.x02 32) = Ok f.
Proof.
  eexists. destruct (some_fingerprint toy (str "alice") (repeat Byte.x01 32) (str "bob") (repeat Byte.x02 32) toy_ok)
    as (f & _ & E & _). exists f. split; [reflexivity|exact E].
Qed.

(** C19. *)
Theorem c19_chain_determinism : forall C, CryptoOk C ->
  (forall c n, go_u32 (ck_index c) ->
     ck_key (Nat.iter n (ck_next C) c) = chain_at C (ck_key c) n /\
     ck_index (Nat.iter n (ck_next C) c) = ((ck_index c + N.of_nat n) mod 4294967296)%N /\
     keys_at C (chain_at C (ck_key c) n) ((ck_index c + N.of_nat n) mod 4294967296)
       (ck_message_keys C (Nat.iter n (ck_next C) c))) /\
  (forall c n, go_u32 (gc_iter c) ->
     gc_key (Nat.iter n (gc_next C) c) = chain_at C (gc_key c) n /\
     gc_iter (Nat.iter n (gc_next C) c) = ((gc_iter c + N.of_nat n) mod 4294967296)%N /\
     gkeys_at C (chain_at C (gc_key c) n) ((gc_iter c + N.of_nat n) mod 4294967296)
       (gc_message_key C (Nat.iter n (gc_next C) c))) /\
  (forall k i m m', keys_at C k i m -> keys_at C k i m' -> m = m') /\
  (forall k n m, chain_at C (chain_at C k n) m = chain_at C k (n + m)) /\
  (forall secret salt info n, hkdf C secret salt info n = rfc_hkdf C salt secret info n).
Proof. exact chain_determinism. Qed.
Print Assumptions c19_chain_determinism.
Example c19_case : go_u32 (ck_index (mkChainKey (repeat Byte.x01 32) 4294967295)).
Proof. reflexivity. Qed.

(** C38. False: re-storing the same key from another object counts as a replacement ... *)
Theorem c38_store_answer_refuted : exists h s ret a k k', ihist h s ret /\ last_key h a = Some k' /\
  ptr_ok k k' /\ ik_pub k' = ik_pub k /\ fst (is_store s a k) = true.
Proof. exact store_same_key_refuted. Qed.
Print Assumptions c38_store_answer_refuted.
(** ... the answer is whether a different object was stored; a replaced key is always reported. *)
Theorem c38_store_answer_exact : forall h s ret a k, ihist h s ret ->
  (fst (is_store s a k) = true <-> exists k', last_key h a = Some k' /\ ik_ptr k' <> ik_ptr k).
Proof. exact store_answer. Qed.
Print Assumptions c38_store_answer_exact.
Theorem c38_replacement_reported_partial : forall h s ret a k k', ihist h s ret ->
  last_key h a = Some k' -> ptr_ok k k' -> ik_pub k' <> ik_pub k -> fst (is_store s a k) = true.
Proof. exact store_replaced_reported. Qed.
Print Assumptions c38_replacement_reported_partial.
Theorem c38_first_store_partial : forall h s ret a k, ihist h s ret ->
  last_key h a = None -> fst (is_store s a k) = false.
Proof. exact store_first_not_replaced. Qed.
Print Assumptions c38_first_store_partial.
Example c38_case : let a := mkAddr EmptyString 1%N in let k := mkIKey 1 [Byte.x01] in
  exists s ret, ihist [EvStore a k] s ret /\ last_key [EvStore a k] a = Some k /\
    ptr_ok (mkIKey 2 [Byte.x02]) k /\ ik_pub k <> ik_pub (mkIKey 2 [Byte.x02]).
Proof.
  cbn zeta. eexists _, _. split; [apply ih_store; apply ih_init|]. split; [reflexivity|].
  split; [intro Q; discriminate Q|discriminate].
Qed.

(** C39. *)
Theorem c39_identity_map : forall h s ret a, ihist h s ret -> is_load s a = last_key h a.
Proof. exact identity_map. Qed.
Print Assumptions c39_identity_map.
Theorem c39_identity_tofu : forall h s ret a k, ihist h s ret ->
  is_trusted s a k = true <->
  (last_key h a = None \/ exists k', last_key h a = Some k' /\ ik_pub k' = ik_pub k).
Proof. exact identity_tofu. Qed.
Print Assumptions c39_identity_tofu.
Example c39_case : let a := mkAddr EmptyString 1%N in let k := mkIKey 1 [Byte.x01] in
  exists s ret, ihist [EvDelete 0 a; EvStore a k; EvClear; EvStore a k] s ret /\
    last_key [EvDelete 0 a; EvStore a k; EvClear; EvStore a k] a = Some k.
Proof.
  cbn zeta. eexists _, _. split; [|reflexivity].
  apply ih_delete; [apply ih_store; apply ih_clear; apply ih_store; apply ih_init|]. left. reflexivity.
Qed.
