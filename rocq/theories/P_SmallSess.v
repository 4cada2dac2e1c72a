(** Sessions and keys of small order (C82). *)
From Verif Require Import M_Base M_Crypto M_Aes M_Curve M_Proto M_Uuid M_Message M_Ratchet M_State M_Store M_Session M_Group
  S_Crypto S_Message S_State S_Shape S_Ratchet S_Session S_Aes S_Api S_Send S_Group S_Receive S_Curve S_Bundle S_Conv S_X3dh S_SmallKeys
  P_Base P_Proto P_Curve P_State P_Shape P_Ratchet P_Message P_Aes P_Chain P_Decrypt P_Receive P_Encrypt P_Record P_Prog P_Group
  P_Init P_Send P_Bundle P_DecApi P_DecTop P_Conv P_X3dh P_DecMore P_Api R_Real P_Real P_SmallKeys.
From Coq Require Import ZifyBool ZifyNat ZifyN.
Local Open Scope nat_scope.

Lemma agreement_len_pub : forall C k u s, agreement C k u = Ok s -> List.length u = 32.
Proof. intros C k u s E. unfold agreement in E. destruct (Nat.eqb_spec (List.length u) 32); [auto|discriminate]. Qed.
Lemma real_agreement_ok : forall k u s, List.length (sk_ecdh k) = 32 -> agreement real k u = Ok s -> ~ small_key u.
Proof.
  intros k u s L E B. pose proof (agreement_len_pub _ _ _ _ E) as Lu. destruct (agreement_total real k u Lu) as [[Z _]|[_ [e E']]]; [|congruence].
  apply (real_zero (sk_ecdh k) u L) in B. cbn [c_x25519 real] in Z. congruence.
Qed.
Lemma new_priv_ecdh : forall C ka a, new_private_key C ka = Ok a -> List.length ka = 32 /\ sk_ecdh a = ka.
Proof.
  intros C ka a E. unfold new_private_key in E. destruct (Nat.eqb_spec (List.length ka) 32) as [L|]; cbn [negb] in E; [|discriminate].
  split; [exact L|]. apply (f_equal (fun x => match x with Ok k => sk_ecdh k | _ => ka end)) in E. cbv beta iota zeta in E. cbn [sk_ecdh] in E. symmetry. exact E.
Qed.
Lemma real_agreement_iff : forall ka a pub, new_private_key real ka = Ok a -> List.length pub = 32 ->
  ((exists e, agreement real a pub = Err e) <-> small_key pub) /\ ((exists s, agreement real a pub = Ok s) <-> ~ small_key pub).
Proof.
  intros ka a pub Ea L. destruct (new_priv_ecdh _ _ _ Ea) as [La Ek].
  destruct (agreement_total real a pub L) as [[Z E]|[Z [e E]]]; rewrite Ek in *; cbn [c_x25519 real] in Z;
    pose proof (real_zero ka pub La) as R; rewrite Z in R.
  - assert (Nb : ~ small_key pub) by (intro B; apply R in B; discriminate). split; split.
    + intros [e E']. rewrite E in E'. discriminate.
    + intro B. destruct (Nb B).
    + intros _. exact Nb.
    + intros _. eexists. exact E.
  - assert (B : small_key pub) by (apply R; reflexivity). split; split.
    + intros _. exact B.
    + intros _. eauto.
    + intros [s E']. rewrite E in E'. discriminate.
    + intro Nb. destruct (Nb B).
Qed.
Lemma prekeyrec_ecdh : forall C x p, prekeyrec_pair C x = Ok p -> List.length (sk_ecdh (kp_priv p)) = 32.
Proof.
  intros C x p E. unfold prekeyrec_pair, new_keypair in E. destruct (new_private_key C _) as [k| |] eqn:K; cbn [bind] in E; [|discriminate..].
  destruct (new_public_key _) as [q| |]; cbn [bind] in E; [|discriminate..]. injection E as <-. cbn [kp_priv].
  destruct (new_priv_ecdh _ _ _ K) as [L ->]. exact L.
Qed.
Lemma gen_pair_ecdh : forall C rnd p rest, gen_keypair C rnd = (Ok p, rest) ->
  exists k, List.length k = 32 /\ new_private_key C k = Ok (kp_priv p) /\ kp_pub p = sk_pub (kp_priv p) /\ sk_ecdh (kp_priv p) = k.
Proof.
  intros C rnd p rest E. unfold gen_keypair, gen_private_key in E. destruct (read_full 32 rnd) as [[k| |] r]; [|discriminate..].
  destruct (new_private_key C k) as [a| |] eqn:K; [|discriminate..]. apply (f_equal fst) in E. cbn [fst] in E.
  apply (f_equal (fun x => match x with Ok q => q | _ => p end)) in E. cbv beta iota in E. subst p. cbn [kp_priv kp_pub].
  destruct (new_priv_ecdh _ _ _ K) as [L Q]. exists k. auto.
Qed.

(** *** The crash of a pre-key message *)
Lemma bob_ok_iff : forall w signed ot ti tb, List.length ti = 32 -> List.length tb = 32 ->
  List.length (sk_ecdh (kp_priv (w_pair w))) = 32 -> List.length (sk_ecdh (kp_priv signed)) = 32 ->
  (forall k, ot = Some k -> List.length (sk_ecdh (kp_priv k)) = 32) ->
  ((exists s, init_bob real (w_pair w) (Some signed) ot (Some signed) ti tb = Ok s) <-> ~ small_key ti /\ ~ small_key tb).
Proof.
  intros w signed ot ti tb Li Lb Lp Ls Lo. unfold init_bob. split.
  - intros [s E].
    destruct (agreement real (kp_priv signed) ti) as [d1| |] eqn:D1; cbn [bind] in E; [|discriminate..].
    destruct (agreement real (kp_priv (w_pair w)) tb) as [d2| |] eqn:D2; cbn [bind] in E; [|discriminate..].
    split; eapply real_agreement_ok; [exact Ls|exact D1|exact Lp|exact D2].
  - intros [Ni Nb].
    assert (A : forall k u, List.length (sk_ecdh k) = 32 -> List.length u = 32 -> ~ small_key u -> exists d, agreement real k u = Ok d).
    { intros k u Lk Lu Nu. destruct (agreement_total real k u Lu) as [[_ E]|[Z _]]; [eauto|]. apply (real_zero _ u Lk) in Z. destruct (Nu Z). }
    destruct (A _ _ Ls Li Ni) as [d1 ->]. destruct (A _ _ Lp Lb Nb) as [d2 ->]. destruct (A _ _ Ls Lb Nb) as [d3 ->]. cbn [bind].
    destruct ot as [o|].
    + destruct (A _ _ (Lo o eq_refl) Lb Nb) as [d4 ->]. cbn [bind]. destruct (match derive_keys real _ with Ok rc => rc | _ => _ end). eauto.
    + cbn [bind]. destruct (match derive_keys real _ with Ok rc => rc | _ => _ end). eauto.
Qed.
Lemma bob_rest_run0 : forall C a ex r m signed ot w,
  fst (run0 (bob_rest C a ex r m signed ot) w) = Panic <-> ~ (exists s, init_bob C (w_pair w) signed ot signed (pm_identity m) (pm_base m) = Ok s).
Proof.
  intros C a ex r m signed ot w. unfold run0, bob_rest. unfold pdo at 1. cbn [run exec_f fallible exec hd_fault tl].
  destruct (init_bob C (w_pair w) signed ot signed (pm_identity m) (pm_base m)) as [s|e|].
  - unfold pdo at 1. cbn [run exec_f fallible exec hd_fault tl]. split.
    + destruct ex; [|discriminate]. unfold pdo at 1. cbn [run exec_f fallible exec hd_fault tl]. discriminate.
    + intro N. exfalso. apply N. eauto.
  - cbn [run fst]. split; [intros _ [s E]; discriminate|reflexivity].
  - cbn [run fst]. split; [intros _ [s E]; discriminate|reflexivity].
Qed.
Lemma prekeyrec_no_panic : forall C x, prekeyrec_pair C x <> Panic.
Proof.
  intros C x E. unfold prekeyrec_pair, new_keypair, new_private_key in E. destruct (negb _); cbn [bind] in E; [discriminate|].
  unfold new_public_key in E. destruct (Nat.ltb_spec (List.length (pr_pub x)) 33); cbn [bind] in E; [discriminate|].
  destruct (pr_pub x); cbn in *; [lia|]. destruct (Byte.eqb _ _); discriminate.
Qed.
Lemma process_v3_crash : forall a ex r m w, wf_record r -> wf_prekeymsg m -> List.length (sk_ecdh (kp_priv (w_pair w))) = 32 ->
  (fst (run0 (process_prekey_v3 real a ex r m) w) = Panic <->
   (forall s, state_in s r -> ss_alice_base s <> Byte.x05 :: pm_base m) /\
   readable real (w_signed w (pm_signed_id m)) /\ (forall i, pm_prekey_id m = Some i -> readable real (w_prekeys w i)) /\
   (w_signed w (pm_signed_id m) = None \/ small_key (pm_identity m) \/ small_key (pm_base m))).
Proof.
  intros a ex r m w Wr Wm Lp. destruct (Wm) as (_ & Lb & Li & _). destruct (has_state_spec r m Wr Wm) as (b & Hb & Ib).
  assert (Dec : forall u, small_key u \/ ~ small_key u).
  { intro u. unfold small_key, Verif.S_Edwards.small_u. destruct (in_dec Z.eq_dec ((Z.of_N (le2n u) mod 2 ^ 255) mod S_Edwards.fieldp)%Z
      [0; 1; 325606250916557431795983626356110631294008115727848805560023387167927233504;
        39382357235489614581723060781553021112529911719440698176882885853963445705823; S_Edwards.fieldp - 1]%Z); auto. }
  assert (Fr : b = false <-> forall s, state_in s r -> ss_alice_base s <> Byte.x05 :: pm_base m).
  { split.
    - intros -> s I Q. assert (X : false = true) by (apply Ib; exists s; auto). discriminate.
    - intro N. destruct b; [|reflexivity]. destruct (proj1 Ib eq_refl) as (s & I & E). destruct (N s I E). }
  unfold run0, process_prekey_v3. rewrite Hb. cbn [plift]. rewrite <- Fr. destruct b.
  { cbn [run fst]. split; [discriminate|]. intros [E _]. discriminate. }
  unfold pdo at 1. cbn [run exec_f fallible exec hd_fault tl].
  assert (K : forall signed ot,
     (forall k, signed = Some k -> List.length (sk_ecdh (kp_priv k)) = 32) -> (forall k, ot = Some k -> List.length (sk_ecdh (kp_priv k)) = 32) ->
     (fst (run0 (bob_rest real a ex r m signed ot) w) = Panic <-> signed = None \/ small_key (pm_identity m) \/ small_key (pm_base m))).
  { intros signed ot Hs Ho. rewrite bob_rest_run0. destruct signed as [k|].
    - rewrite (bob_ok_iff w k ot _ _ Li Lb Lp (Hs k eq_refl) Ho). destruct (Dec (pm_identity m)), (Dec (pm_base m)); intuition congruence.
    - split; [auto|]. intros _ [s E]. discriminate. }
  assert (S0 : forall o, (forall k, (do k <- match o with Some x => do k <- prekeyrec_pair real x; Ok (Some k) | None => Ok None end; Ok k) = Ok (Some k) ->
     List.length (sk_ecdh (kp_priv k)) = 32)).
  { intros [x|] k E; [|discriminate]. destruct (prekeyrec_pair real x) as [q| |] eqn:Q; cbn [bind] in E; [|discriminate..]. injection E as <-. eapply prekeyrec_ecdh; eauto. }
  assert (Rd : forall x, readable real (Some x) <-> exists p, prekeyrec_pair real x = Ok p).
  { intro x. split; [intro R; apply R; reflexivity|]. intros P y E. injection E as <-. exact P. }
  assert (Rn : readable real None) by (intros x E; discriminate).
  assert (Q : forall signed, (forall k, signed = Some k -> List.length (sk_ecdh (kp_priv k)) = 32) ->
    (fst (run (match pm_prekey_id m with
       | Some id => pdo (OLoadPreKey id) (fun x => plift (match x with Some x => do k <- prekeyrec_pair real x; Ok (Some k) | None => Ok None end)
                      (fun ot => bob_rest real a ex r m signed ot))
       | None => bob_rest real a ex r m signed None end) [] w) = Panic <->
     (forall i, pm_prekey_id m = Some i -> readable real (w_prekeys w i)) /\ (signed = None \/ small_key (pm_identity m) \/ small_key (pm_base m)))).
  { intros signed Hs. destruct (pm_prekey_id m) as [i|].
    - unfold pdo at 1. cbn [run exec_f fallible exec hd_fault tl]. destruct (w_prekeys w i) as [y|] eqn:Ey.
      + destruct (prekeyrec_pair real y) as [k|e|] eqn:Ek; cbn [bind plift]; [| |destruct (prekeyrec_no_panic _ _ Ek)].
        * fold (run0 (bob_rest real a ex r m signed (Some k)) w). rewrite K; [|exact Hs|intros k' E; injection E as <-; eapply prekeyrec_ecdh; eauto].
          split; [|intros [_ A]; exact A]. intro A. split; [|exact A]. intros j Ej. injection Ej as <-. rewrite Ey. apply Rd. eauto.
        * split; [discriminate|]. intros [A _]. specialize (A i eq_refl). rewrite Ey in A. apply Rd in A. destruct A as [p A]. congruence.
      + cbn [plift]. fold (run0 (bob_rest real a ex r m signed None) w). rewrite K; [|exact Hs|discriminate].
        split; [|intros [_ A]; exact A]. intro A. split; [|exact A]. intros j Ej. injection Ej as <-. rewrite Ey. exact Rn.
    - fold (run0 (bob_rest real a ex r m signed None) w). rewrite K; [|exact Hs|discriminate]. split; [|intros [_ A]; exact A]. intro A. split; [discriminate|exact A]. }
  destruct (w_signed w (pm_signed_id m)) as [x|] eqn:Es.
  - destruct (prekeyrec_pair real x) as [k|e|] eqn:Ek; cbn [bind plift]; [| |destruct (prekeyrec_no_panic _ _ Ek)].
    + match goal with |- fst (run ?p [] w) = Panic <-> _ => transitivity (fst (run (match pm_prekey_id m with
       | Some id => pdo (OLoadPreKey id) (fun x => plift (match x with Some x => do k <- prekeyrec_pair real x; Ok (Some k) | None => Ok None end)
                      (fun ot => bob_rest real a ex r m (Some k) ot))
       | None => bob_rest real a ex r m (Some k) None end) [] w) = Panic) end.
      { destruct (pm_prekey_id m) eqn:Ei; unfold bob_rest; rewrite ?Ei; reflexivity. }
      rewrite Q; [|intros k' E; injection E as <-; eapply prekeyrec_ecdh; eauto].
      assert (Rx : readable real (Some x)) by (apply Rd; eauto). clear - Rx. intuition congruence.
    + cbn [run fst]. split; [discriminate|]. intros (_ & R & _). apply Rd in R. destruct R as [p R]. congruence.
  - cbn [plift]. match goal with |- fst (run ?p [] w) = Panic <-> _ => transitivity (fst (run (match pm_prekey_id m with
       | Some id => pdo (OLoadPreKey id) (fun x => plift (match x with Some x => do k <- prekeyrec_pair real x; Ok (Some k) | None => Ok None end)
                      (fun ot => bob_rest real a ex r m None ot))
       | None => bob_rest real a ex r m None None end) [] w) = Panic) end.
    { destruct (pm_prekey_id m) eqn:Ei; unfold bob_rest; rewrite ?Ei; reflexivity. }
    rewrite Q; [|discriminate]. clear - Rn. intuition congruence.
Qed.
Lemma prekey_crash : forall a rnd m w, wf_device w -> wf_prekeymsg m -> List.length (sk_ecdh (kp_priv (w_pair w))) = 32 ->
  (fst (run0 (decrypt_message real a rnd (CPreKey m)) w) = Panic <->
   w_policy w a (w_ident w a) (pm_identity m) Receiving = true /\
   (forall r s, w_sess w a = Some r -> state_in s r -> ss_alice_base s <> Byte.x05 :: pm_base m) /\
   readable real (w_signed w (pm_signed_id m)) /\ (forall i, pm_prekey_id m = Some i -> readable real (w_prekeys w i)) /\
   (w_signed w (pm_signed_id m) = None \/ small_key (pm_identity m) \/ small_key (pm_base m))).
Proof.
  intros a rnd m w Wd Wm Lp. pose proof Wd as [W _]. pose proof (loaded_wf w a W) as Wl.
  assert (L : (forall s, state_in s (loaded (w_sess w a)) -> ss_alice_base s <> Byte.x05 :: pm_base m) <->
              (forall r s, w_sess w a = Some r -> state_in s r -> ss_alice_base s <> Byte.x05 :: pm_base m)).
  { split.
    - intros N r s Er I. apply N. unfold loaded. rewrite Er. exact I.
    - intros N s I. destruct (state_in_loaded _ _ _ I) as (r & Er & I'). exact (N r s Er I'). }
  pose proof (process_v3_crash a (existed (w_sess w a)) (loaded (w_sess w a)) m w Wl Wm Lp) as V. rewrite L in V. clear L.
  assert (P : w_policy w a (w_ident w a) (pm_identity m) Receiving = true ->
    fst (run0 (decrypt_message real a rnd (CPreKey m)) w) = Panic <-> fst (run0 (process_prekey_v3 real a (existed (w_sess w a)) (loaded (w_sess w a)) m) w) = Panic).
  { intro T. split.
    - intro E. cbn [decrypt_message] in E. unfold run0 in E. destruct (decrypt_prekey_runs real a rnd m [] w) as [R _]. rewrite R in E. cbn [hd_fault tl] in E.
      unfold prekey_body in E. match type of E with fst (run (pbind ?p ?f) [] ?w) = _ => change (run (pbind p f) [] w) with (run0 (pbind p f) w) in E end.
      rewrite run0_bind in E.
      destruct (run0 (process_prekey real a (existed (w_sess w a)) (loaded (w_sess w a)) m) w) as [[[r1 id]|e|] w1] eqn:Q; cbn [fst snd plift] in E; [exfalso|discriminate|].
      + unfold run0 in Q. apply process_inv in Q. destruct Q as [_ Q]. unfold prekey_rest in E. cbn [fst snd] in E.
        assert (Wr1 : wf_record r1).
        { destruct Q as [(_ & -> & _)|(_ & _ & s & B & -> & _)]; [exact Wl|].
          destruct (bob_session_wf real w m s real_ok W Wm B) as (Ws & _). apply promote_wf; auto. }
        destruct (decrypt_record real rnd r1 (pm_message m)) as [[pt r2]|e|] eqn:D; cbn [plift] in E; [|discriminate|].
        2: { exact (decrypt_record_no_panic real rnd r1 _ real_ok Wr1 (wf_prekey_inner m Wm) D). }
        unfold run0, pdo in E. destruct (existed (w_sess w a)), id as [i|]; cbn [run exec_f fallible exec hd_fault tl snd] in E; discriminate.
      + unfold process_prekey, run0 in Q. unfold pdo at 1 in Q. cbn [run exec_f fallible exec hd_fault tl] in Q. rewrite T in Q. cbn [negb] in Q. unfold pseq in Q.
        match type of Q with run (pbind ?p ?f) [] ?w = _ => change (run (pbind p f) [] w) with (run0 (pbind p f) w) in Q end. rewrite run0_bind in Q.
        destruct (run0 (process_prekey_v3 real a (existed (w_sess w a)) (loaded (w_sess w a)) m) w) as [[[r2 id2]|e|] w2]; cbn [fst snd plift] in Q; [discriminate|discriminate|reflexivity].
    - intro V3. cbn [decrypt_message]. unfold run0. destruct (decrypt_prekey_runs real a rnd m [] w) as [R _]. rewrite R. cbn [hd_fault tl].
      unfold prekey_body. match goal with |- fst (run (pbind ?p ?f) [] ?w) = _ => change (run (pbind p f) [] w) with (run0 (pbind p f) w) end.
      rewrite run0_bind.
      assert (P : fst (run0 (process_prekey real a (existed (w_sess w a)) (loaded (w_sess w a)) m) w) = Panic).
      { unfold run0, process_prekey. unfold pdo at 1. cbn [run exec_f fallible exec hd_fault tl]. rewrite T. cbn [negb]. unfold pseq.
        match goal with |- fst (run (pbind ?p ?f) [] ?w) = _ => change (run (pbind p f) [] w) with (run0 (pbind p f) w) end. rewrite run0_bind.
        rewrite V3. reflexivity. }
      rewrite P. reflexivity. }
  split.
  - intro E. assert (T : w_policy w a (w_ident w a) (pm_identity m) Receiving = true) by exact (proj1 (prekey_panic real a rnd m [] w real_ok Wd Wm E)).
    split; [exact T|]. apply V, (P T), E.
  - intros [T X]. apply (P T), V, X.
Qed.
