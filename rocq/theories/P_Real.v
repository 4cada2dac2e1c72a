(** The primitives of the standards obey the laws that the theorems assume. *)
From Verif Require Import M_Base M_Crypto M_Aes M_Curve S_Crypto P_Base R_Sha R_Aes R_Curve R_Real S_Aes S_Edwards P_PrimeEll P_Curve P_RealAes P_RealEd P_Ladder P_CurveSpec P_CryptoTop.
From Coq Require Import ZArith Znumtheory Lia.
Local Open Scope nat_scope.

Lemma add_state_len : forall p s t, List.length (add_state p s t) = Nat.min (List.length s) (List.length t).
Proof. intros p s. induction s as [|x s IH]; intros [|y t]; cbn [add_state List.length Nat.min]; [reflexivity..|]. rewrite IH. reflexivity. Qed.
Lemma sha_rounds_len : forall p ks w s, List.length s = 8 -> List.length (sha_rounds p ks w s) = 8.
Proof.
  intros p ks. induction ks as [|k ks IH]; intros w s L; [exact L|].
  destruct s as [|a [|b [|c [|d [|e [|f [|g [|h [|i s]]]]]]]]]; try discriminate L.
  destruct w as [|w0 [|w1 rest]]; [reflexivity|reflexivity|]. cbn [sha_rounds]. apply IH. reflexivity.
Qed.
Lemma sha_blocks_len : forall p n b s, List.length s = 8 -> List.length (sha_blocks p n b s) = 8.
Proof.
  intros p n. induction n as [|n IH]; intros b s L; [exact L|]. cbn [sha_blocks]. apply IH. rewrite add_state_len, sha_rounds_len, L by exact L. reflexivity.
Qed.
Lemma concat_words_len : forall w l, List.length (List.concat (map (fun x => rev (n2le w x)) l)) = List.length l * w.
Proof. intros w l. induction l as [|x l IH]; [reflexivity|]. cbn [map List.concat List.length]. rewrite app_length, rev_length, n2le_length, IH. reflexivity. Qed.
Lemma sha_len : forall p m, List.length (sh_iv p) = 8 -> List.length (sha p m) = 8 * wbytes p.
Proof. intros p m L. unfold sha. cbv zeta. rewrite concat_words_len, sha_blocks_len by exact L. reflexivity. Qed.
Lemma real_sha512_len : forall m, List.length (real_sha512 m) = 64.
Proof. intro m. unfold real_sha512. rewrite sha_len by reflexivity. reflexivity. Qed.
Lemma real_hmac_len : forall k m, List.length (real_hmac k m) = 32.
Proof. intros k m. unfold real_hmac, real_sha256. cbv zeta. rewrite sha_len by reflexivity. reflexivity. Qed.

Lemma real_ok : CryptoOk real.
Proof.
  constructor; cbn [c_hmac c_sha512 c_aes_enc c_aes_dec c_x25519 c_edbase c_edverify real].
  - exact real_hmac_len.
  - exact real_sha512_len.
  - intros k b _. exact (real_aes_enc_len k b).
  - intros k b _. exact (real_aes_dec_len k b).
  - intros k b _. exact (real_aes_inv k b).
  - intros k u _ _. exact (real_x_len k u).
  - exact real_x_clamp.
  - exact real_dh.
  - exact real_dh_nz.
  - intros s _. exact (real_ed_len s).
  - exact real_ed_canon.
  - intros a r m _ Lr. exact (real_ed_verify real_sha512 a r m Lr).
Qed.

(** *** The forms stated in T_Real.v *)
Lemma curve_group : forall d, is_d d ->
  (forall p q, on_curve d p -> on_curve d q -> exists r, is_sum d p q r /\ forall r', is_sum d p q r' -> r' = r) /\
  (forall p q r, on_curve d p -> on_curve d q -> is_sum d p q r -> is_sum d q p r) /\
  (forall p q r pq qr t, on_curve d p -> on_curve d q -> on_curve d r ->
     is_sum d p q pq -> is_sum d pq r t -> is_sum d q r qr -> is_sum d p qr t) /\
  (forall p, on_curve d p -> is_sum d neutral p p) /\
  (forall p q, on_curve d p -> negated p q -> is_sum d p q neutral) /\
  prime (Z.of_N ell) /\ (exists B, is_base d B) /\
  (forall B n, is_base d B -> (is_mul d B n neutral <-> (n mod ell = 0)%N)).
Proof.
  intros d Hd. split; [exact (sum_exists d Hd)|]. split; [exact (sum_comm d Hd)|]. split; [exact (sum_assoc d Hd)|]. split; [exact (sum_neutral d Hd)|].
  split; [exact (sum_negated d Hd)|]. split; [exact prime_ell|]. split; [eexists; exact (base_exists d Hd)|exact (base_order_spec d Hd)].
Qed.
Lemma real_x25519_spec : forall d k u p r, is_d d -> List.length k = 32 -> on_curve d p ->
  snd p <> 1%Z -> snd p <> (fieldp - 1)%Z ->
  is_u (Z.of_N (le2n u) mod 2 ^ 255) p -> is_mul d p (le2n (clamp k)) r ->
  let v := Z.of_N (le2n (c_x25519 real k u)) in
  (0 <= v < fieldp)%Z /\ (snd r <> 1%Z -> is_u v r) /\ (snd r = 1%Z -> v = 0%Z).
Proof. intros d k u p r Hd. exact (x25519_spec d Hd k u p r). Qed.
Lemma real_base_spec : forall d B s R, is_d d -> is_base d B -> is_mul d B s R -> encodes (c_edbase real s) R.
Proof. intros d B s R Hd. exact (real_edbase_spec d Hd B s R). Qed.
Lemma real_verify_spec : forall d pk m sig, is_d d -> (c_edverify real pk m sig = true <-> accepts d real_sha512 pk m sig).
Proof. intros d pk m sig Hd. exact (verify_spec d Hd real_sha512 pk m sig). Qed.
Lemma real_cbc : forall key iv pt, legal_key key -> List.length iv = 16 ->
  exists ct, cbc_encrypt real key iv pt = Ok ct /\ cbc_decrypt real key iv ct = Ok pt.
Proof. intros key iv pt K L. destruct (cbc_inverse real key iv pt real_ok K L) as (ct & pd & A & _ & _ & _ & B). exists ct. split; [exact A|exact B]. Qed.
Lemma real_key : forall key, List.length key = 32 -> exists k, new_private_key real key = Ok k.
Proof. intros key L. unfold new_private_key. rewrite L. cbn [negb Nat.eqb]. eexists. reflexivity. Qed.
Lemma real_agreement : forall ka kb, List.length ka = 32 -> List.length kb = 32 ->
  exists a b s, new_private_key real ka = Ok a /\ new_private_key real kb = Ok b /\
    agreement real a (sk_pub b) = Ok s /\ agreement real b (sk_pub a) = Ok s /\ List.length s = 32.
Proof.
  intros ka kb La Lb. destruct (real_key ka La) as [a Ha]. destruct (real_key kb Lb) as [b Hb]. exists a, b.
  destruct (proj1 (agreement_symmetric real real_ok) ka kb a b Ha Hb) as (s & S). exists s. split; [exact Ha|]. split; [exact Hb|exact S].
Qed.
Lemma real_signature : forall key rnd parts, List.length key = 32 -> 64 <= List.length rnd ->
  exists k sig, new_private_key real key = Ok k /\ sign real k rnd parts = (Ok sig, skipn 64 rnd) /\
    verify_signature real (sk_pub k) sig parts = Ok true.
Proof.
  intros key rnd parts L Lr. destruct (real_key key L) as [k Hk]. exists k. destruct (proj1 (signatures real real_ok) key k rnd parts Hk Lr) as (sig & A & _ & V).
  exists sig. split; [exact Hk|]. split; [exact A|]. apply V. reflexivity.
Qed.
Lemma real_public_keys : forall ka kb, List.length ka = 32 -> List.length kb = 32 ->
  (mont_pub real ka = mont_pub real kb <->
   le2n (clamp ka) mod ell = le2n (clamp kb) mod ell \/ (le2n (clamp ka) + le2n (clamp kb)) mod ell = 0)%N.
Proof.
  intros ka kb La Lb. change (mont_pub real ka) with (ed_to_mont (real_edbase (scalar_of ka))). change (mont_pub real kb) with (ed_to_mont (real_edbase (scalar_of kb))).
  pose proof (scalar_range ka La) as Ra. pose proof (scalar_range kb Lb) as Rb. rewrite (mont_iff ka kb La Lb).
  assert (S : ((le2n (clamp ka) + le2n (clamp kb)) mod ell = (scalar_of ka + scalar_of kb) mod ell)%N).
  { unfold scalar_of. rewrite N.add_mod by discriminate. reflexivity. }
  rewrite S. clear S. fold (scalar_of ka). fold (scalar_of kb). split; (intros [H|H]; [left; exact H|right]).
  - rewrite H. apply N.mod_same. discriminate.
  - apply N.mod_divide in H; [|discriminate]. destruct H as [q H]. revert Ra Rb H. generalize ell, (scalar_of ka), (scalar_of kb). clear. intros l s t Ra Rb H.
    assert (C : (q = 0 \/ q = 1 \/ 2 <= q)%N) by lia. destruct C as [->|[->|C]]; nia.
Qed.
Lemma real_case : is_d (Z.of_N ed_d) /\ (exists B, is_base (Z.of_N ed_d) B /\ snd B <> 1%Z /\ snd B <> (fieldp - 1)%Z) /\
  List.length (repeat Byte.x01 32) = 32.
Proof.
  split; [exact d_exists|]. split; [|reflexivity]. eexists. split; [exact (base_exists _ d_exists)|]. split; vm_compute; discriminate.
Qed.
