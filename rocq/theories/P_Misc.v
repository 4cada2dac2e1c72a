(** Caller's buffer (C10), alternate identities (C15), identity store (C38, C39). *)
From Verif Require Import M_Base M_Crypto M_Aes M_Curve M_Slice M_Identity
  S_Crypto S_Identity P_Base P_Curve.
From Coq Require Import ZifyBool ZifyNat ZifyN.

(** *** C10 *)
Lemma blit_nth : forall arr i b j d, i + List.length b <= List.length arr ->
  nth j (blit arr i b) d =
  if Nat.leb i j && Nat.ltb j (i + List.length b) then nth (j - i) b d else nth j arr d.
Proof.
  intros arr i b j d L. unfold blit.
  assert (Li : List.length (firstn i arr) = i) by (rewrite firstn_length; lia).
  destruct (Nat.leb_spec i j), (Nat.ltb_spec j (i + List.length b)); cbn [andb].
  - rewrite app_nth2 by lia. rewrite Li. apply app_nth1. lia.
  - rewrite app_nth2 by lia. rewrite Li. rewrite app_nth2 by lia.
    rewrite <- (firstn_skipn (i + List.length b) arr) at 2.
    rewrite app_nth2 by (rewrite firstn_length; lia). rewrite firstn_length. f_equal. lia.
  - rewrite app_nth1 by lia. rewrite <- (firstn_skipn i arr) at 2. rewrite app_nth1 by lia. reflexivity.
  - exfalso. lia.
Qed.

Lemma blit_length : forall arr i b, i + List.length b <= List.length arr ->
  List.length (blit arr i b) = List.length arr.
Proof. intros. unfold blit. rewrite !app_length, firstn_length, skipn_length. lia. Qed.

Definition pad_len (n : nat) : nat := 16 - n mod 16.

(** Exactly which bytes of the caller's array change. *)
Lemma pad_caller_buffer : forall arr s, slice_ok arr s ->
  let after := fst (pkcs7pad_slice arr s) in
  let n := pad_len (sl_len s) in
  List.length after = List.length arr /\
  forall j, nth j after Byte.x00 =
    if Nat.leb (sl_len s + n) (sl_cap s) && Nat.leb (sl_off s + sl_len s) j
       && Nat.ltb j (sl_off s + sl_len s + n)
    then n2b (N.of_nat n) else nth j arr Byte.x00.
Proof.
  intros arr s [H1 H2]. unfold pkcs7pad_slice, append_slice. fold (pad_len (sl_len s)). cbn zeta.
  set (n := pad_len (sl_len s)). cbn [fst]. rewrite repeat_length.
  destruct (Nat.leb_spec (sl_len s + n) (sl_cap s)); cbn [andb]; [|auto].
  split.
  - apply blit_length. rewrite repeat_length. lia.
  - intro j. rewrite blit_nth by (rewrite repeat_length; lia). rewrite repeat_length.
    destruct (Nat.leb_spec (sl_off s + sl_len s) j), (Nat.ltb_spec j (sl_off s + sl_len s + n));
      cbn [andb]; auto.
    set (m := j - (sl_off s + sl_len s)). assert (Hm : m < n) by lia. clearbody m.
    clear - Hm. revert m Hm. generalize (n2b (N.of_nat n)). induction n as [|n IH]; intros v m Hm; [lia|].
    destruct m; [reflexivity|]. cbn [repeat nth]. apply IH. lia.
Qed.

Lemma pad_no_spare : forall arr s, slice_ok arr s -> sl_cap s < sl_len s + pad_len (sl_len s) ->
  fst (pkcs7pad_slice arr s) = arr.
Proof.
  intros arr s _ H. unfold pkcs7pad_slice, append_slice. cbn zeta. cbn [fst]. rewrite repeat_length.
  fold (pad_len (sl_len s)). destruct (Nat.leb_spec (sl_len s + pad_len (sl_len s)) (sl_cap s)); [lia|auto].
Qed.

Lemma pad_value : forall arr s, slice_ok arr s ->
  snd (pkcs7pad_slice arr s) = pkcs7pad (slice_get arr s).
Proof.
  intros arr s [H1 H2]. unfold pkcs7pad_slice, append_slice, pkcs7pad. cbn zeta. cbn [snd].
  assert (L : List.length (slice_get arr s) = sl_len s).
  { unfold slice_get. rewrite firstn_length, skipn_length. lia. }
  rewrite L. reflexivity.
Qed.

Lemma pad_writes_caller : exists arr s, slice_ok arr s /\ fst (pkcs7pad_slice arr s) <> arr.
Proof.
  exists (repeat Byte.x41 32), (mkSlice 0 16 32). split; [split; cbn; lia|]. vm_compute. discriminate.
Qed.

(** *** C15 *)
Lemma alternate_verifies : forall C key k rnd sig rest other, CryptoOk C ->
  new_private_key C key = Ok k -> sign_alternate C k rnd other = (Ok sig, rest) ->
  verify_alternate C (sk_pub k) sig other = Ok true.
Proof.
  intros C key k rnd sig rest other H Hk E.
  exact (proj2 (sign_verifies C H key k rnd sig rest _ _ Hk E eq_refl)).
Qed.

Lemma alternate_signs_message : forall C k rnd other,
  sign_alternate C k rnd other = sign C k rnd [alternate_message other].
Proof. intros. unfold sign_alternate, sign. destruct (read_full 64 rnd) as [[z| |] r]; reflexivity. Qed.

Lemma alternate_message_inj : forall a b, alternate_message a = alternate_message b -> a = b.
Proof.
  intros a b E. unfold alternate_message in E. apply app_inv_head in E. apply app_inv_head in E.
  injection E; auto.
Qed.

(** *** C38, C39 *)
Section Ident.
Definition iinv (h : list ievent) (s : istore) (ret : list nat) : Prop :=
  (forall a, is_map s a = last_key h a) /\ is_cur s < is_next s /\
  ~ In (is_cur s) ret /\ Forall (fun i => i < is_next s) ret.

Lemma ihist_inv : forall h s ret, ihist h s ret -> iinv h s ret.
Proof.
  intros h s ret Hh. induction Hh as [|h s ret a k _ IH|h s ret _ IH|h s ret i a _ IH Hi].
  - repeat split; auto.
  - destruct IH as (I1 & I2 & I3 & I4). split; [|auto].
    intro b. unfold is_map, is_store. cbn [snd is_heap is_cur last_key].
    unfold heap_set. rewrite Nat.eqb_refl. unfold imap_set. destruct (addr_eqb b a); auto.
  - destruct IH as (I1 & I2 & I3 & I4). unfold is_clear. split; [|repeat split]; cbn [is_cur is_next is_heap].
    + intro b. unfold is_map. cbn [is_cur is_heap last_key]. unfold heap_set. rewrite Nat.eqb_refl. reflexivity.
    + lia.
    + intros [E|E]; [lia|]. rewrite Forall_forall in I4. apply I4 in E. lia.
    + constructor; [lia|]. eapply Forall_impl; [|exact I4]. cbn. lia.
  - destruct IH as (I1 & I2 & I3 & I4). split; [|auto].
    intro b. unfold is_map, is_bg_delete. cbn [is_heap is_cur last_key].
    unfold heap_set. destruct (Nat.eqb_spec (is_cur s) i) as [E|_]; [rewrite E in I3; contradiction|]. apply I1.
Qed.

Lemma identity_map : forall h s ret a, ihist h s ret -> is_load s a = last_key h a.
Proof. intros. destruct (ihist_inv _ _ _ H) as (I & _). apply I. Qed.

Lemma identity_tofu : forall h s ret a k, ihist h s ret ->
  is_trusted s a k = true <->
  (last_key h a = None \/ exists k', last_key h a = Some k' /\ ik_pub k' = ik_pub k).
Proof.
  intros h s ret a k Hh. destruct (ihist_inv _ _ _ Hh) as (I & _). unfold is_trusted. rewrite I.
  destruct (last_key h a) as [k'|].
  - rewrite pub_equal_iff. split.
    + intro E. right. exists k'. split; auto. symmetry. apply pub_bytes_inj; auto.
    + intros [E|(k2 & E & F)]; [discriminate|]. injection E as <-. rewrite F. reflexivity.
  - split; auto.
Qed.

Lemma store_answer : forall h s ret a k, ihist h s ret ->
  fst (is_store s a k) = true <-> exists k', last_key h a = Some k' /\ ik_ptr k' <> ik_ptr k.
Proof.
  intros h s ret a k Hh. destruct (ihist_inv _ _ _ Hh) as (I & _). unfold is_store. cbn [fst]. rewrite I.
  destruct (last_key h a) as [k'|].
  - destruct (Nat.eqb_spec (ik_ptr k) (ik_ptr k')); cbn [negb]; split; try discriminate.
    + intros (k2 & E & F). injection E as <-. congruence.
    + intros _. exists k'. split; congruence.
    + reflexivity.
  - split; [discriminate|]. intros (k2 & E & _). discriminate.
Qed.

Lemma store_replaced_reported : forall h s ret a k k', ihist h s ret ->
  last_key h a = Some k' -> ptr_ok k k' -> ik_pub k' <> ik_pub k -> fst (is_store s a k) = true.
Proof.
  intros. apply (store_answer _ _ _ _ _ H). exists k'. split; auto. intro E. apply H2. symmetry. apply H1. auto.
Qed.

Lemma store_first_not_replaced : forall h s ret a k, ihist h s ret ->
  last_key h a = None -> fst (is_store s a k) = false.
Proof.
  intros h s ret a k Hh E. destruct (fst (is_store s a k)) eqn:F; auto.
  apply (proj1 (store_answer _ _ _ _ _ Hh)) in F. destruct F as (k' & G & _). congruence.
Qed.

(** The same key in a second object is reported as a replacement. *)
Lemma store_same_key_refuted : exists h s ret a k k', ihist h s ret /\ last_key h a = Some k' /\
  ptr_ok k k' /\ ik_pub k' = ik_pub k /\ fst (is_store s a k) = true.
Proof.
  set (a := mkAddr EmptyString 0%N). set (k1 := mkIKey 1 [Byte.x01]). set (k2 := mkIKey 2 [Byte.x01]).
  exists [EvStore a k1], (snd (is_store is_init a k1)), [], a, k2, k1.
  split; [constructor; constructor|]. split; [reflexivity|]. split; [intro; reflexivity|].
  split; reflexivity.
Qed.
End Ident.
