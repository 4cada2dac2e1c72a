(** Group sending and receiving, one call. *)
From Verif Require Import M_Base M_Crypto M_Aes M_Curve M_Proto M_Uuid M_Message M_Ratchet M_State M_Store M_Session M_Group
  S_Crypto S_Message S_State S_Shape S_Ratchet S_Session S_Curve S_Aes S_Wire S_Uuid S_Api S_Group S_GroupMsg
  P_Base P_Proto P_Curve P_State P_Shape P_Ratchet P_Message P_Aes P_Chain P_Decrypt P_Init P_Record P_Verify P_CryptoTop P_Prog P_Group P_Api P_Isolation P_Bundle.
From Coq Require Import ZifyBool ZifyNat ZifyN.
Local Open Scope nat_scope.

Lemma concat1 : forall (b : bytes), List.concat [b] = b.
Proof. intro b. cbn. apply app_nil_r. Qed.
(** The signature check, exactly. *)
Lemma verify_signed : forall C m key, verify_senderkey C m key = Ok true <-> signed_by C key m.
Proof.
  intros C m key. unfold verify_senderkey, signed_by. destruct (Nat.ltb_spec (List.length (sm_raw m)) 64) as [L|L].
  - split; [discriminate|]. intros (text & r & t & y & E & L2 & _). rewrite E, app_length, L2 in L. lia.
  - rewrite verify_exact. rewrite concat1. split.
    + intros (r & t & y & E1 & E2 & E3 & E4). exists (firstn (List.length (sm_raw m) - 64) (sm_raw m)), r, t, y.
      rewrite <- E1. split; [symmetry; apply firstn_skipn|]. auto.
    + intros (text & r & t & y & E1 & E2 & E3 & E4). exists r, t, y.
      assert (Q : List.length (sm_raw m) - 64 = List.length text) by (rewrite E1, app_length, E2; lia).
      rewrite Q, E1, firstn_app_exact, skipn_app_exact. auto.
Qed.
Lemma verify_not_signed : forall C m key, ~ signed_by C key m -> verify_senderkey C m key <> Ok true.
Proof. intros C m key N E. apply N. apply verify_signed. exact E. Qed.

Lemma gs_ver_wf : forall s, wf_gstate s -> gs_ver s = 3%N.
Proof. intros s (V & _). unfold gs_ver. rewrite V. reflexivity. Qed.
Lemma distid_eqb_refl : forall d, distid_eqb d d = true.
Proof. intro d. unfold distid_eqb. apply bytes_eqb_refl. Qed.
Lemma group_set_same : forall w a d r, w_groups (set_group w a d r) a d = Some r.
Proof. intros. cbn. rewrite addr_eqb_refl, distid_eqb_refl. reflexivity. Qed.

Lemma gr_set_in : forall chain s s' r, gr_find chain r = Some s -> In s' (gr_set chain s' r).
Proof.
  intros chain s s' r. induction r as [|x r IH]; cbn [gr_find gr_set]; [discriminate|].
  destruct (N.eqb chain (gs_chain x)); [left; reflexivity|]. intro E. right. auto.
Qed.
Lemma gr_set_same : forall chain s r, gr_find chain r = Some s -> gr_set chain s r = r.
Proof.
  intros chain s r. induction r as [|x r IH]; cbn [gr_find gr_set]; [discriminate|].
  destruct (N.eqb chain (gs_chain x)); intro E; [injection E as <-; reflexivity|]. f_equal. auto.
Qed.
Lemma follows_find : forall w a d chain s, wf_device w -> follows w a d chain s ->
  exists r, w_groups w a d = Some r /\ wf_grecord r /\ gr_find chain r = Some s /\ wf_gstate s.
Proof.
  intros w a d chain s W (r & E & J & Ec). exists r. pose proof (proj2 W _ _ _ E) as Wr. split; [exact E|]. split; [exact Wr|].
  destruct Wr as (L & ND & F). split; [apply gr_find_spec; auto|]. rewrite Forall_forall in F. auto.
Qed.
(** The state for a chain is unique. *)
Lemma follows_unique : forall w a d chain s s', wf_device w -> follows w a d chain s -> follows w a d chain s' -> s = s'.
Proof.
  intros w a d chain s s' W F1 F2. destruct (follows_find _ _ _ _ _ W F1) as (r1 & E1 & _ & G1 & _).
  destruct (follows_find _ _ _ _ _ W F2) as (r2 & E2 & _ & G2 & _). congruence.
Qed.

(** DecryptMessage, all outcomes. *)
Definition gresult (C : Crypto) (s : gstate) (m : senderkeymsg) : res bytes :=
  bind (fst (gmessage_key C s (sm_iter m))) (fun mk => cbc_decrypt C (gk_cipher mk) (gk_iv mk) (sm_body m)).
Definition gnext (C : Crypto) (s : gstate) (m : senderkeymsg) : gstate := snd (gmessage_key C s (sm_iter m)).

Lemma gdecrypt_cases : forall C a m fs w, wf_device w ->
  (* nothing touched *)
  (snd (run (gdecrypt C a m) fs w) = w /\ (forall n, crash n (gdecrypt C a m) fs w = w) /\
   (forall pt, fst (run (gdecrypt C a m) fs w) <> Ok pt)) \/
  exists r s key, w_groups w a (sm_dist m) = Some r /\ gr_find (sm_chain m) r = Some s /\ wf_grecord r /\ wf_gstate s /\
    gs_pub s = Byte.x05 :: key /\ signed_by C key m /\ sm_version m = 3%N /\
    run (gdecrypt C a m) fs w =
      (let r' := gr_set (sm_chain m) (gnext C s m) r in
       let wt := if w_shared w then set_group w a (sm_dist m) r' else w in
       match gresult C s m with
       | Ok pt => match hd_fault (tl (tl fs)) with
                  | FNone => (Ok pt, set_group wt a (sm_dist m) r')
                  | FBefore => (Err EStore, wt)
                  | FAfter => (Err EStore, set_group wt a (sm_dist m) r')
                  end
       | Err e => (Err e, wt)
       | Panic => (Panic, wt)
       end) /\ hd_fault fs = FNone.
Proof.
  intros C a m fs w W. destruct (hd_fault fs) eqn:Q0.
  2,3: left; unfold gdecrypt, pdo; cbn [run exec_f fallible]; rewrite Q0; cbn [run fst snd exec];
    (split; [reflexivity|split; [|discriminate]]); intros [|n]; [reflexivity|]; cbn [crash pstep exec_f fallible]; rewrite Q0; cbn [snd exec]; apply crash_ret.
  assert (U : forall k : res (option grecord) -> prog bytes, (forall w', run (k (Ok (w_groups w' a (sm_dist m)))) (tl fs) w' = run (PDo (OLoadGroup a (sm_dist m)) k) fs w')).
  { intros k w'. cbn [run exec_f fallible]. rewrite Q0. reflexivity. }
  assert (N : forall e : err, (forall k : res (option grecord) -> prog bytes, k (Ok (w_groups w a (sm_dist m))) = PRet (Err e) ->
    snd (run (PDo (OLoadGroup a (sm_dist m)) k) fs w) = w /\ (forall n, crash n (PDo (OLoadGroup a (sm_dist m)) k) fs w = w) /\
    (forall pt, fst (run (PDo (OLoadGroup a (sm_dist m)) k) fs w) <> Ok pt))).
  { intros e k E. rewrite <- U, E. split; [reflexivity|]. split; [|discriminate]. intros [|n]; [reflexivity|].
    cbn [crash pstep exec_f fallible]. rewrite Q0. cbn [exec]. rewrite E. apply crash_ret. }
  eassert (EK : gdecrypt C a m = PDo (OLoadGroup a (sm_dist m)) _) by (unfold gdecrypt, pdo at 1; reflexivity). rewrite EK. clear EK.
  match goal with |- context [run (PDo (OLoadGroup a (sm_dist m)) ?k) fs w] => set (K := k) in * end.
  destruct (w_groups w a (sm_dist m)) as [r|] eqn:Er; [|left; eapply N; unfold K; rewrite ?Er; reflexivity].
  pose proof (proj2 W _ _ _ Er) as Wr.
  destruct (gr_find (sm_chain m) r) as [s|] eqn:Ef; [|left; eapply N; unfold K; rewrite ?Er, Ef; reflexivity].
  assert (Ws : wf_gstate s).
  { destruct Wr as (_ & ND & F). apply (gr_find_spec _ _ ND) in Ef. rewrite Forall_forall in F. apply F, Ef. }
  pose proof (gs_ver_wf s Ws) as V.
  destruct (N.eqb_spec (sm_version m) 3) as [Ev|Ev].
  2: { left. eapply N. unfold K. rewrite ?Er, Ef, V. apply N.eqb_neq in Ev. rewrite Ev. reflexivity. }
  destruct (gs_public_wf s Ws) as (key & Lk & Eb & Ep).
  destruct (verify_senderkey C m key) as [v| |] eqn:Vs.
  - destruct v.
    + right. exists r, s, key. split; [reflexivity|]. split; [exact Ef|]. split; [exact Wr|]. split; [exact Ws|]. split; [exact Eb|].
      split; [apply verify_signed; exact Vs|]. split; [exact Ev|]. split; [|reflexivity].
      rewrite <- U, Er. unfold K. rewrite Ef, V, Ev. cbn [N.eqb Pos.eqb negb]. rewrite Ep. cbn [plift]. rewrite Vs. cbn [plift negb].
      unfold gresult, gnext. destruct (gmessage_key C s (sm_iter m)) as [o s'] eqn:G. cbn [fst snd].
      unfold pdo. cbn [run exec_f fallible exec]. destruct o as [mk|e|]; cbn [plift bind run]; [|reflexivity|reflexivity].
      destruct (cbc_decrypt C (gk_cipher mk) (gk_iv mk) (sm_body m)) as [pt|e|]; cbn [plift run]; [|reflexivity|reflexivity].
      cbn [exec_f fallible exec]. destruct (hd_fault (tl (tl fs))); reflexivity.
    + left. eapply N. unfold K. rewrite ?Er, Ef, V, Ev. cbn [N.eqb Pos.eqb negb]. rewrite Ep. cbn [plift]. rewrite Vs. reflexivity.
  - left. eapply N. unfold K. rewrite ?Er, Ef, V, Ev. cbn [N.eqb Pos.eqb negb]. rewrite Ep. cbn [plift]. rewrite Vs. reflexivity.
  - left. rewrite <- U, Er.
    assert (E : K (Ok (Some r)) = PRet Panic).
    { unfold K. rewrite ?Er, Ef, V, Ev. cbn [N.eqb Pos.eqb negb]. rewrite Ep. cbn [plift]. rewrite Vs. reflexivity. }
    rewrite E. split; [reflexivity|]. split; [|discriminate]. intros [|n]; [reflexivity|].
    cbn [crash pstep exec_f fallible]. rewrite Q0. cbn [exec]. rewrite Er, E. apply crash_ret.
Qed.

Lemma gdecrypt_runs : forall C a m fs w r s key, wf_grecord r -> w_groups w a (sm_dist m) = Some r -> gr_find (sm_chain m) r = Some s -> wf_gstate s ->
  gs_pub s = Byte.x05 :: key -> signed_by C key m -> sm_version m = 3%N -> hd_fault fs = FNone ->
  run (gdecrypt C a m) fs w =
      (let r' := gr_set (sm_chain m) (gnext C s m) r in
       let wt := if w_shared w then set_group w a (sm_dist m) r' else w in
       match gresult C s m with
       | Ok pt => match hd_fault (tl (tl fs)) with
                  | FNone => (Ok pt, set_group wt a (sm_dist m) r')
                  | FBefore => (Err EStore, wt)
                  | FAfter => (Err EStore, set_group wt a (sm_dist m) r')
                  end
       | Err e => (Err e, wt)
       | Panic => (Panic, wt)
       end).
Proof.
  intros C a m fs w r s key Wr Er Ef Ws Ep Sg V Q0. destruct (gs_public_wf s Ws) as (key' & Lk & Eb & Ep').
  rewrite Ep in Eb. change (Byte.x05 :: key) with (pub_bytes key) in Eb. apply pub_bytes_inj in Eb. subst key'.
  apply verify_signed in Sg. unfold gdecrypt. unfold pdo at 1. cbn [run exec_f fallible]. rewrite Q0. cbn [exec]. rewrite Er, Ef, (gs_ver_wf s Ws), V.
  cbn [N.eqb Pos.eqb negb]. rewrite Ep'. cbn [plift]. rewrite Sg. cbn [plift negb].
  unfold gresult, gnext. destruct (gmessage_key C s (sm_iter m)) as [o s'] eqn:G. cbn [fst snd].
  unfold pdo. cbn [run exec_f fallible exec]. destruct o as [mk|e|]; cbn [plift bind run]; [|reflexivity|reflexivity].
  destruct (cbc_decrypt C (gk_cipher mk) (gk_iv mk) (sm_body m)) as [pt|e|]; cbn [plift run]; [|reflexivity|reflexivity].
  cbn [exec_f fallible exec]. destruct (hd_fault (tl (tl fs))); reflexivity.
Qed.

(** C48. *)
Lemma follows_of_find : forall w a d chain r s, wf_grecord r -> w_groups w a d = Some r -> gr_find chain r = Some s -> follows w a d chain s.
Proof. intros w a d chain r s (_ & ND & _) E F. apply (gr_find_spec _ _ ND) in F. exists r. tauto. Qed.
Lemma heard_signed : forall C a m fs w pt w', wf_device w -> run (gdecrypt C a m) fs w = (Ok pt, w') ->
  exists s key mk, follows w a (sm_dist m) (sm_chain m) s /\ gs_pub s = Byte.x05 :: key /\ signed_by C key m /\
    fst (gmessage_key C s (sm_iter m)) = Ok mk /\ cbc_decrypt C (gk_cipher mk) (gk_iv mk) (sm_body m) = Ok pt.
Proof.
  intros C a m fs w pt w' W E. destruct (gdecrypt_cases C a m fs w W) as [(_ & _ & N)|(r & s & key & E1 & E2 & Wr & Ws & E3 & E4 & _ & R & _)].
  - rewrite E in N. destruct (N pt eq_refl).
  - cbv zeta in R. rewrite E in R. unfold gresult in R. destruct (fst (gmessage_key C s (sm_iter m))) as [mk|e|] eqn:G; cbn [bind] in R; [|discriminate..].
    exists s, key, mk. split; [eapply follows_of_find; eauto|]. split; [exact E3|]. split; [exact E4|]. split; [exact G|].
    destruct (cbc_decrypt _ _ _ _) as [pt'| |]; [|discriminate..]. destruct (hd_fault _); [|discriminate..]. injection R as <- _. reflexivity.
Qed.
Lemma unsigned_ignored : forall C a m fs w, wf_device w ->
  (forall s key, follows w a (sm_dist m) (sm_chain m) s -> gs_pub s = Byte.x05 :: key -> ~ signed_by C key m) ->
  snd (run (gdecrypt C a m) fs w) = w /\ (forall n, crash n (gdecrypt C a m) fs w = w) /\
  forall pt, fst (run (gdecrypt C a m) fs w) <> Ok pt.
Proof.
  intros C a m fs w W N. destruct (gdecrypt_cases C a m fs w W) as [U|(r & s & key & E1 & E2 & Wr & Ws & E3 & E4 & _)]; [exact U|].
  exfalso. apply (N s key); auto. eapply follows_of_find; eauto.
Qed.

(** C51. *)
Lemma gerror_copying : forall C a m fs w, wf_device w -> w_shared w = false -> ~ In FAfter fs ->
  (forall pt, fst (run (gdecrypt C a m) fs w) <> Ok pt) -> snd (run (gdecrypt C a m) fs w) = w.
Proof.
  intros C a m fs w W Sh NF N. destruct (gdecrypt_cases C a m fs w W) as [(U & _)|(r & s & key & _ & _ & _ & _ & _ & _ & _ & R & _)]; [exact U|].
  cbv zeta in R. rewrite Sh in R. rewrite R in *. destruct (gresult C s m) as [pt| |]; [|reflexivity..].
  destruct (hd_fault (tl (tl fs))) eqn:Q; [|reflexivity|].
  - destruct (N pt eq_refl).
  - exfalso. apply NF. destruct fs as [|f0 [|f1 [|f2 fs]]]; try discriminate. cbn in Q. subst f2. right; right; left; reflexivity.
Qed.
(** A message of the signer whose body is not a whole number of blocks moves the shared
    state on and is an error. *)
Lemma gerror_shared : forall C a m w s key, CryptoOk C -> wf_device w -> w_shared w = true ->
  follows w a (sm_dist m) (sm_chain m) s -> gs_pub s = Byte.x05 :: key -> signed_by C key m -> sm_version m = 3%N ->
  (gs_iter s <= sm_iter m <= gs_iter s + 25000)%N -> List.length (sm_body m) mod 16 <> 0 ->
  exists e w' s', run0 (gdecrypt C a m) w = (Err e, w') /\ follows w' a (sm_dist m) (sm_chain m) s' /\
    gs_iter s' = ((sm_iter m + 1) mod 2 ^ 32)%N /\ gs_seed s' = chain_at C (gs_seed s) (S (N.to_nat (sm_iter m - gs_iter s))).
Proof.
  intros C a m w s key H W Sh Fo Ep Sg V J B. destruct (follows_find _ _ _ _ _ W Fo) as (r & Er & Wr & Ef & Ws).
  unfold run0. rewrite (gdecrypt_runs C a m [] w r s key Wr Er Ef Ws Ep Sg V eq_refl). cbv zeta. rewrite Sh. unfold gresult, gnext.
  rewrite gmessage_key_exact by exact Ws.
  destruct (N.ltb_spec (sm_iter m) (gs_iter s)); [lia|]. destruct (N.ltb_spec 25000 (sm_iter m - gs_iter s)); [lia|]. cbn [fst snd bind].
  match goal with |- context [cbc_decrypt C ?k ?iv ?b] => pose proof (cbc_decrypt_result C k iv b H) as D; destruct (cbc_decrypt C k iv b) as [pt|e|] end;
    [destruct D as ((_ & _ & D & _) & _); congruence| |destruct D].
  exists e. eexists. exists (gafter_ahead C s (sm_iter m)). split; [reflexivity|]. split; [|split].
  - exists (gr_set (sm_chain m) (gafter_ahead C s (sm_iter m)) r). split; [apply group_set_same|]. split; [eapply gr_set_in; eauto|].
    destruct Fo as (_ & _ & _ & Ec). exact Ec.
  - cbn [gafter_ahead gs_set_chainkey gc_next gs_iter gc_iter]. rewrite gc_iter_index by apply Ws. cbn [gs_chainkey gc_iter]. unfold u32.
    rewrite N.add_mod_idemp_l by discriminate. f_equal. lia.
  - cbn [gafter_ahead gs_set_chainkey gc_next gs_seed gc_key]. rewrite gc_iter_key. reflexivity.
Qed.
(** C28 for groups. *)
Lemma gfar_refused : forall C a m w s key, wf_device w -> follows w a (sm_dist m) (sm_chain m) s -> gs_pub s = Byte.x05 :: key ->
  signed_by C key m -> sm_version m = 3%N -> (gs_iter s + 25000 < sm_iter m)%N ->
  exists w', run0 (gdecrypt C a m) w = (Err (EOther "message from too far in the future"), w') /\ forall b d, w_groups w' b d = w_groups w b d.
Proof.
  intros C a m w s key W Fo Ep Sg V J. destruct (follows_find _ _ _ _ _ W Fo) as (r & Er & Wr & Ef & Ws).
  unfold run0. rewrite (gdecrypt_runs C a m [] w r s key Wr Er Ef Ws Ep Sg V eq_refl). cbv zeta. unfold gresult, gnext.
  rewrite gmessage_key_exact by exact Ws.
  destruct (N.ltb_spec (sm_iter m) (gs_iter s)); [lia|]. destruct (N.ltb_spec 25000 (sm_iter m - gs_iter s)); [|lia]. cbn [fst snd bind].
  eexists. split; [reflexivity|]. rewrite (gr_set_same _ _ _ Ef). intros b d. destruct (w_shared w); [|reflexivity]. cbn.
  destruct (addr_eqb b a) eqn:Qa; [|reflexivity]. destruct (distid_eqb d (sm_dist m)) eqn:Qd; [|reflexivity]. cbn [andb].
  apply addr_eqb_eq in Qa. apply distid_eqb_spec in Qd. subst. auto.
Qed.
Lemma heard : forall C a m fs w pt w', wf_device w -> run (gdecrypt C a m) fs w = (Ok pt, w') ->
  exists s key, follows w a (sm_dist m) (sm_chain m) s /\ gs_pub s = Byte.x05 :: key /\ signed_by C key m.
Proof. intros C a m fs w pt w' W E. destruct (heard_signed _ _ _ _ _ _ _ W E) as (s & key & mk & F & G & Sg & _). eauto. Qed.
