(** A property of session states that every call preserves holds of all sessions of all reachable devices. *)
From Verif Require Import M_Base M_Crypto M_Aes M_Curve M_Proto M_Uuid M_Message M_Ratchet M_State M_Store M_Session M_Group
  S_Crypto S_Message S_State S_Shape S_Ratchet S_Session S_Aes S_Api S_Send S_Group S_Receive S_Curve S_Bundle S_Conv S_X3dh
  P_Base P_Proto P_Curve P_State P_Shape P_Ratchet P_Message P_Aes P_Chain P_Decrypt P_Receive P_Encrypt P_Record P_Prog P_Group
  P_Init P_Send P_Bundle P_DecApi P_DecTop P_Conv P_X3dh P_DecMore P_Api P_SmallSess.
From Coq Require Import ZifyBool ZifyNat ZifyN.
Local Open Scope nat_scope.

Section Inv.
Variables (C : Crypto) (H : CryptoOk C) (full : state -> Prop).
Hypothesis session_full : forall rnd s m pt s' rest, wf_state s -> wf_signal m -> decrypt_session C rnd s m = (Ok (pt, s'), rest) -> full s -> full s'.
Hypothesis encrypt_full : forall s pt out s' rid, wf_state s -> encrypt_state C s pt = Ok (out, s', rid) -> full s -> full s'.
Hypothesis bob_full : forall ident signed ot rp ti tb s rr lr, init_bob C ident signed ot rp ti tb = Ok s ->
  (forall k, signed = Some k -> List.length (sk_ecdh (kp_priv k)) = 32) ->
  full (with_alice_base (with_regs (with_regs s (ss_remote_reg s) lr) rr lr) (pub_bytes tb)).
Hypothesis alice_full : forall rnd ident base ti ts ot tr s rest rnd0 q un sg rr lr, gen_keypair C rnd0 = (Ok base, q) ->
  init_alice C rnd ident base ti ts ot tr = (Ok s, rest) ->
  full (with_alice_base (with_regs (with_regs (st_set_unack s un sg (kp_pub base)) (ss_remote_reg (st_set_unack s un sg (kp_pub base))) lr) rr lr) (pub_bytes (kp_pub base))).

Definition rfull (r : record) : Prop := forall s, state_in s r -> full s.
Lemma rfull_set : forall r s, rfull r -> full s -> rfull (rc_set_state r s).
Proof. intros r s R F x [I|I]; [cbn in I; injection I as <-; exact F|]. apply R. right. exact I. Qed.
Lemma rfull_promote : forall r s, wf_record r -> rfull r -> full s -> rfull (rc_promote r s).
Proof. intros r s W R F x I. apply state_in_promote in I; [|exact W]. destruct I as [->|I]; [exact F|apply R; exact I]. Qed.
Lemma rfull_new : rfull (new_record None).
Proof. intros s [I|(b & I & _)]; [discriminate|destruct I]. Qed.
Lemma firstn_in : forall {A} n (l : list A) x, In x (firstn n l) -> In x l.
Proof. intros A n l x I. rewrite <- (firstn_skipn n l). apply in_or_app. auto. Qed.
Lemma skipn_in : forall {A} n (l : list A) x, In x (skipn n l) -> In x l.
Proof. intros A n l x I. rewrite <- (firstn_skipn n l). apply in_or_app. auto. Qed.
Lemma rfull_promote_old : forall r i s, wf_record r -> rfull r -> full s -> rfull (rc_promote_old r i s).
Proof.
  intros r i s W R F. unfold rc_promote_old. destruct (Nat.leb _ _); [exact R|]. intros x I.
  unfold rc_promote, rc_archive in I. cbn [rc_current rc_previous] in I. destruct I as [I|(b & I & P)]; [cbn in I; injection I as <-; exact F|].
  cbn [rc_previous] in I. destruct (rc_current r) as [c|] eqn:Ec.
  - cbn [rc_previous] in I. apply in_app_iff in I. destruct I as [I|[<-|[]]].
    + apply R. right. exists b. split; [|exact P].
      assert (J : In b (firstn i (rc_previous r) ++ skipn (S i) (rc_previous r))) by (destruct (Nat.leb _ _); [eapply skipn_in|]; exact I).
      apply in_app_iff in J. destruct J as [J|J]; [eapply firstn_in|eapply skipn_in]; exact J.
    + rewrite wf_roundtrip in P by (apply (proj1 W); exact Ec). injection P as <-. apply R. left. exact Ec.
  - cbn [rc_previous] in I. apply R. right. exists b. split; [|exact P]. apply in_app_iff in I. destruct I as [J|J]; [eapply firstn_in|eapply skipn_in]; exact J.
Qed.
Lemma record_full : forall rnd r m pt r', wf_record r -> wf_signal m -> rfull r -> decrypt_record C rnd r m = Ok (pt, r') -> rfull r'.
Proof.
  intros rnd r m pt r' W Wm R E. unfold decrypt_record in E.
  assert (T : forall l rnd0 i found o q, (forall s, In s l -> wf_state s) -> (forall s, In s l -> full s) -> (forall j s p, found = Some (j, s, p) -> full s) ->
     try_previous C rnd0 i l m found = (Ok o, q) -> forall j s p, o = Some (j, s, p) -> full s).
  { induction l as [|s l IH]; intros rnd0 i found o q Wl Fl Ff X j s0 p Eo; cbn [try_previous] in X; [injection X as <- _; eauto|].
    destruct (decrypt_session C rnd0 s m) as [[[pt' s']|e|] q'] eqn:D; [| |discriminate].
    - eapply IH; [| | |exact X|exact Eo]; [intros; apply Wl; right; auto|intros; apply Fl; right; auto|]. intros j' s1 p' Q. injection Q as _ <- _.
      eapply session_full; [apply Wl; left; reflexivity|exact Wm|exact D|]. apply Fl. left. reflexivity.
    - destruct e; try discriminate; (eapply IH; [| | |exact X|exact Eo]; [intros; apply Wl; right; auto|intros; apply Fl; right; auto|exact Ff]). }
  assert (K : forall rnd0,
    (do l <- rc_previous_states r;
     match try_previous C rnd0 0 l m None with
     | (Ok (Some (i, s, pt)), _) => Ok (pt, rc_promote_old r i s)
     | (Ok None, _) => Err (EOther "decryption failed: invalid message")
     | (Err e, _) => Err e
     | (Panic, _) => Panic
     end) = Ok (pt, r') -> rfull r').
  { intros rnd0 X. destruct (wf_record_parse r W) as (p & P & Fp & M & _). rewrite P in X. cbn [bind] in X.
    destruct (try_previous C rnd0 0 p m None) as [[[[[i s'] pt']|]| |] q] eqn:Y; [|discriminate..]. injection X as _ <-.
    apply rfull_promote_old; [exact W|exact R|]. eapply T; [| | |exact Y|reflexivity]; [rewrite Forall_forall in Fp; exact Fp| |discriminate].
    intros s I. apply R. apply state_in_bytes; [rewrite Forall_forall in Fp; auto|]. right. rewrite M. apply in_map. exact I. }
  destruct (rc_current r) as [s|] eqn:Ec.
  - destruct (decrypt_session C rnd s m) as [[[pt' s']|e|] q] eqn:D; [| |discriminate].
    + injection E as _ <-. apply rfull_set; [exact R|]. eapply session_full; [apply (proj1 W); exact Ec|exact Wm|exact D|]. apply R. left. exact Ec.
    + destruct e; try (exact (K _ E)); discriminate.
  - exact (K _ E).
Qed.

(** The invariant. *)
Definition fr (r : record) : Prop := wf_record r /\ rfull r.
Definition fw (w : world) : Prop := wf_device w /\ forall a r, w_sess w a = Some r -> rfull r.
Definition f_ok : forall X, op X -> Prop := fun X o => shape_ok X o /\ match o with OStoreSession _ r | OTouchSession _ r => rfull r | _ => True end.
Definition f_ans : forall X, op X -> res X -> Prop := fun X o x => shape_ans X o x /\
  match o in op T return res T -> Prop with OLoadSession _ => fun x => forall r, x = Ok (Some r) -> rfull r | _ => fun _ => True end x.
Lemma f_exec : forall X (o : op X) f w, fw w -> f_ok X o -> fw (snd (exec_f o f w)) /\ f_ans X o (fst (exec_f o f w)).
Proof.
  intros X o f w [W F] [K1 K2]. destruct (shape_exec X o f w W K1) as [A B].
  assert (G : forall a r, rfull r -> forall b x, w_sess (set_sess w a r) b = Some x -> rfull x).
  { intros a r R b x E. cbn [w_sess set_sess] in E. destruct (addr_eqb b a); [injection E as <-; exact R|eapply F; exact E]. }
  assert (A' : forall a r, w_sess (snd (exec o w)) a = Some r -> rfull r).
  { intros a r. destruct o; cbn [exec snd]; try apply F.
    - apply G. exact K2.
    - destruct (w_shared w); [apply G; exact K2|apply F].
    - destruct (w_shared w); apply F. }
  split; [split; [exact A|]|split; [exact B|]].
  - unfold exec_f. destruct (fallible o); [destruct f|]; destruct (exec o w) as [x w']; cbn [fst snd] in *; auto.
  - unfold exec_f. destruct o; cbn [fallible]; try exact I; intros r E;
      try (destruct f); cbn [exec fst] in E; try discriminate; injection E as E; eapply F; exact E.
Qed.
Notation sall := (pall f_ok f_ans).
Notation sres := (pres f_ans).

Lemma option_pair_ecdh : forall x k, (match x with Some x => do k <- prekeyrec_pair C x; Ok (Some k) | None => Ok None end) = Ok k ->
  forall p, k = Some p -> List.length (sk_ecdh (kp_priv p)) = 32.
Proof.
  intros [x|] k E p Ep; [|congruence]. destruct (prekeyrec_pair C x) as [q| |] eqn:Q; cbn [bind] in E; [|discriminate..].
  injection E as <-. injection Ep as <-. eapply prekeyrec_ecdh; eauto.
Qed.
Ltac doit := apply pall_do; [split; [exact I|exact I]|].
Lemma process_prekey_v3_full : forall a existed r m, fr r -> wf_prekeymsg m ->
  sall (process_prekey_v3 C a existed r m) /\ sres (fun '(r', _) => fr r') (process_prekey_v3 C a existed r m).
Proof.
  intros a existed r m [W R] (V & Lb & Li & Gr & Gs & Gp & Wm). unfold process_prekey_v3.
  match goal with |- pall _ _ ?p /\ _ => set (P := p) end.
  assert (K : forall signed onetime,
    (forall p, signed = Some p -> List.length (kp_pub p) = 32 /\ List.length (sk_bytes (kp_priv p)) = 32) ->
    (forall p, signed = Some p -> List.length (sk_ecdh (kp_priv p)) = 32) ->
    let q := pdo OKeyPair (fun ident =>
      match init_bob C ident signed onetime signed (pm_identity m) (pm_base m) with
      | Ok s =>
          pdo ORegistrationID (fun reg =>
          let s := with_regs s (ss_remote_reg s) reg in
          let s := with_regs s (pm_reg m) (ss_local_reg s) in
          let s := with_alice_base s (pub_bytes (pm_base m)) in
          let r' := rc_promote r s in
          if existed then pdo (OTouchSession a r') (fun _ => PRet (Ok (r', pm_prekey_id m)))
          else PRet (Ok (r', pm_prekey_id m)))
      | _ => PRet Panic
      end) in sall q /\ sres (fun '(r', _) => fr r') q).
  { intros signed onetime Hs He q.
    assert (Wn : forall ident s reg, List.length (kp_pub ident) = 32 -> go_u32 reg ->
      init_bob C ident signed onetime signed (pm_identity m) (pm_base m) = Ok s ->
      fr (rc_promote r (with_alice_base (with_regs (with_regs s (ss_remote_reg s) reg) (pm_reg m)
        (ss_local_reg (with_regs s (ss_remote_reg s) reg))) (pub_bytes (pm_base m))))).
    { intros ident s reg Lid Greg E. cbn [ss_local_reg with_regs]. split.
      - apply promote_wf; [exact W|]. destruct (init_bob_wf C ident signed onetime signed _ _ s H Lid Li Hs E) as (F & P0 & _). apply exec_sess_ok; auto.
      - apply rfull_promote; [exact W|exact R|]. eapply bob_full; [exact E|exact He]. }
    split.
    - doit. intros ident A. destruct A as [A _]. cbn [shape_ans] in A. specialize (A _ eq_refl).
      destruct (init_bob C ident signed onetime signed (pm_identity m) (pm_base m)) as [s| |] eqn:E; try exact I.
      doit. intros reg [B _]. cbn [shape_ans] in B. specialize (B _ eq_refl). cbv zeta.
      destruct existed; [|exact I]. apply pall_do; [|intros; exact I]. destruct (Wn _ _ _ A B E). split; assumption.
    - apply pres_do. intros ident [A _]. cbn [shape_ans] in A. specialize (A _ eq_refl).
      destruct (init_bob C ident signed onetime signed (pm_identity m) (pm_base m)) as [s| |] eqn:E;
        [|intros ? ?; discriminate..].
      apply pres_do. intros reg [B _]. cbn [shape_ans] in B. specialize (B _ eq_refl). cbv zeta.
      destruct existed; [apply pres_do; intros _ _|]; intros y Ey; injection Ey as <-; eapply Wn; eauto. }
  subst P. split.
  - apply pall_lift. intros has _. destruct has; [exact I|]. doit. intros sgn _.
    apply pall_lift. intros signed Es. cbv zeta.
    destruct (pm_prekey_id m) as [id|] eqn:Ei; [|apply K; [eapply option_pair_wf|eapply option_pair_ecdh]; eauto].
    doit. intros x _. apply pall_lift. intros onetime _. apply K; [eapply option_pair_wf|eapply option_pair_ecdh]; eauto.
  - apply pres_lift. intros has _. destruct has; [intros y E; injection E as <-; split; assumption|]. apply pres_do. intros sgn _.
    apply pres_lift. intros signed Es. cbv zeta.
    destruct (pm_prekey_id m) as [id|] eqn:Ei; [|apply K; [eapply option_pair_wf|eapply option_pair_ecdh]; eauto].
    apply pres_do. intros x _. apply pres_lift. intros onetime _. apply K; [eapply option_pair_wf|eapply option_pair_ecdh]; eauto.
Qed.
Lemma process_prekey_full : forall a existed r m, fr r -> wf_prekeymsg m ->
  sall (process_prekey C a existed r m) /\ sres (fun '(r', _) => fr r') (process_prekey C a existed r m).
Proof.
  intros a existed r m W Wm. destruct (process_prekey_v3_full a existed r m W Wm) as [A B]. unfold process_prekey. split.
  - doit. intros t _. destruct (negb t); [exact I|].
    eapply pall_seq; [exact A|exact B|]. intros [r' id] _. doit. intros; exact I.
  - apply pres_do. intros t _. destruct (negb t); [intros ? ?; discriminate|].
    eapply pres_seq; [exact B|]. intros [r' id] Wr. apply pres_do. intros _ _ y E. injection E as <-. exact Wr.
Qed.
Lemma loaded_full : forall (lr : option record), (forall r, Ok lr = Ok (Some r) -> wf_record r) -> (forall r, Ok lr = Ok (Some r) -> rfull r) ->
  fr (match lr with Some r => r | None => new_record None end).
Proof. intros [r|] A B; [split; [apply A|apply B]; reflexivity|split; [apply new_record_wf|apply rfull_new]]. Qed.
Lemma decrypt_prekey_full : forall a rnd m, wf_prekeymsg m -> sall (decrypt_prekey C a rnd m).
Proof.
  intros a rnd m Wm. unfold decrypt_prekey. doit. intros lr [A A']. cbn [shape_ans] in A. cbv zeta.
  pose proof (loaded_full lr A A') as W. set (r := match lr with Some r => r | None => new_record None end) in *.
  eapply pall_seq; [apply process_prekey_full; auto|apply process_prekey_full; auto|].
  intros [r1 pkid] [W1 R1]. apply pall_lift. intros [pt r2] E. pose proof (record_full _ _ _ _ _ W1 (proj2 (proj2 (proj2 (proj2 (proj2 (proj2 Wm)))))) R1 E) as R2.
  destruct (decrypt_record_inv _ _ _ _ _ _ H W1 (proj2 (proj2 (proj2 (proj2 (proj2 (proj2 Wm)))))) E)
    as (s & s' & x1 & x2 & _ & _ & _ & _ & W2).
  assert (F : sall (pdo (OStoreSession a r2) (fun _ => match pkid with
      | Some id => pdo (ODeletePreKey id) (fun _ => PRet (Ok pt)) | None => PRet (Ok pt) end))).
  { apply pall_do; [split; [exact W2|exact R2]|]. intros _ _. destruct pkid; [|exact I]. doit. intros; exact I. }
  destruct lr; [apply pall_do; [split; [exact W2|exact R2]|intros _ _; exact F]|exact F].
Qed.
Lemma decrypt_signal_full : forall a rnd m, wf_signal m -> sall (decrypt_signal C a rnd m).
Proof.
  intros a rnd m Wm. unfold decrypt_signal. doit. intros lr [A A']. cbn [shape_ans] in A.
  destruct lr as [r|]; [|exact I]. specialize (A r eq_refl). specialize (A' r eq_refl). cbv zeta.
  assert (F : forall pt r', wf_record r' -> rfull r' -> pall f_ok f_ans (A := bytes)
    match rc_current r' return prog bytes with
        | None => PRet (Err (EOther "successfully decrypted; must have a current state"))
        | Some s =>
            match st_remote_identity s with
            | Ok (Some rid) =>
                pdo (OIsTrusted a rid Receiving) (fun trusted =>
                if negb trusted then PRet (Err (EUntrusted a))
                else
                  pdo (OStoreIdentity a rid) (fun _ =>
                  pdo (OStoreSession a r') (fun _ =>
                  PRet (Ok pt))))
            | Panic => PRet Panic
            | _ => PRet (Err (EOther "successfully decrypted; must have a remote identity key"))
            end
        end).
  { intros pt r' W' R'. destruct (rc_current r') as [s|]; [|exact I]. destruct (st_remote_identity s) as [[rid|]| |]; try exact I.
    doit. intros t _. destruct (negb t); [exact I|]. doit. intros _ _. apply pall_do; [split; assumption|]. intros; exact I. }
  destruct (decrypt_record C rnd r m) as [[pt r']|e|] eqn:E; [|apply F; assumption|exact I].
  pose proof (record_full _ _ _ _ _ A Wm A' E) as R2.
  destruct (decrypt_record_inv _ _ _ _ _ _ H A Wm E) as (s & s' & x1 & x2 & _ & _ & _ & _ & W2).
  apply pall_do; [split; assumption|]. intros _ _. apply F; assumption.
Qed.
Lemma encrypt_message_full : forall a pt, sall (encrypt_message C a pt).
Proof.
  intros a pt. unfold encrypt_message. doit. intros lr [A A']. cbn [shape_ans] in A.
  destruct lr as [r|]; [|exact I]. specialize (A r eq_refl). specialize (A' r eq_refl). destruct (rc_current r) as [s|] eqn:Ec; [|exact I].
  apply pall_lift. intros [[msg s'] rid] E.
  destruct (encrypt_state_wf C s pt msg s' rid H (proj1 A s Ec) E) as (W' & _).
  assert (W2 : wf_record (rc_set_state r s')) by (apply set_state_wf; auto).
  assert (R2 : rfull (rc_set_state r s')) by (apply rfull_set; [exact A'|eapply encrypt_full; [apply (proj1 A); exact Ec|exact E|apply A'; left; exact Ec]]).
  apply pall_do; [split; assumption|]. intros _ _. doit. intros t _. destruct (negb t); [exact I|].
  doit. intros _ _. apply pall_do; [split; assumption|]. intros; exact I.
Qed.
Lemma process_bundle_full : forall a rnd b, wf_bundle b -> sall (process_bundle C a rnd b).
Proof.
  intros a rnd b (Gr & Gp & Lp & Gs & Ls & Li). unfold process_bundle.
  destruct (bd_identity b) as [ti|] eqn:Ei; [|exact I]. specialize (Li ti eq_refl).
  doit. intros t _. destruct (negb t); [exact I|].
  destruct (bd_signed b) as [ts|] eqn:Es; [|exact I]. specialize (Ls ts eq_refl).
  apply pall_lift. intros ok _. destruct (negb ok); [exact I|].
  doit. intros lr [A A']. cbn [shape_ans] in A. cbv zeta.
  pose proof (loaded_full lr A A') as [W R]. set (r := match lr with Some r => r | None => new_record None end) in *.
  destruct (gen_keypair C rnd) as [[base| |] rnd1] eqn:G; try exact I.
  destruct (gen_keypair_wf _ _ _ _ G) as [Lb _].
  doit. intros ident [B _]. cbn [shape_ans] in B. specialize (B _ eq_refl).
  apply pall_lift. intros s E. destruct (init_alice C rnd1 ident base ti ts (bd_prekey b) ts) as [o rest] eqn:E1.
  cbn [fst] in E. subst o.
  destruct (init_alice_wf _ _ _ _ _ _ _ _ _ _ B Li Ls E1) as (F & P0 & _).
  doit. intros reg [D _]. cbn [shape_ans] in D. specialize (D _ eq_refl).
  doit. intros _ _. cbv zeta.
  assert (Ws : fr (rc_promote r (with_alice_base (with_regs (with_regs (st_set_unack s (bd_prekey_id b) (bd_signed_id b) (kp_pub base))
     (ss_remote_reg (st_set_unack s (bd_prekey_id b) (bd_signed_id b) (kp_pub base))) reg) (bd_reg b)
     (ss_local_reg (with_regs (st_set_unack s (bd_prekey_id b) (bd_signed_id b) (kp_pub base))
        (ss_remote_reg (st_set_unack s (bd_prekey_id b) (bd_signed_id b) (kp_pub base))) reg))) (pub_bytes (kp_pub base))))).
  { cbn [ss_local_reg with_regs]. split.
    - apply promote_wf; [exact W|].
      apply (F (bd_reg b) reg (kp_pub base) (Some (mkPPending (match bd_prekey_id b with Some i => i | None => 0%N end)
                                   (pub_bytes (kp_pub base)) (to_int32 (bd_signed_id b)))) Gr D Lb).
      intros p Ep. injection Ep as <-. split; [|split]; cbn [pp_prekey pp_signed pp_base].
      + destruct (bd_prekey_id b) as [i|]; [apply Gp; reflexivity|reflexivity].
      + apply to_int32_range. exact Gs.
      + apply key33_bytes; auto.
    - apply rfull_promote; [exact W|exact R|]. eapply alice_full; [exact G|exact E1]. }
  destruct Ws as [Ws Rs].
  destruct lr; [apply pall_do; [split; assumption|intros _ _]|]; (apply pall_do; [split; assumption|intros; exact I]).
Qed.
(** The calls on groups touch no session. *)
Definition group_op : forall X, op X -> Prop := fun X o => match o with OStoreSession _ _ | OTouchSession _ _ => False | _ => True end.
Lemma full_of_shape : forall {A} (p : prog A), pall shape_ok shape_ans p -> pall group_op (fun _ _ _ => True) p -> sall p.
Proof.
  intros A p. induction p as [r|X o k IH]; intros S G; [exact I|]. cbn [pall] in *. destruct S as [S1 S2], G as [G1 G2]. split.
  - split; [exact S1|]. destruct o; try exact I; destruct G1.
  - intros x [Ax _]. apply IH; auto.
Qed.
Notation gall := (pall group_op (fun _ _ _ => True)).
Lemma process_dist_g : forall a m, gall (process_dist a m).
Proof.
  intros a m. unfold process_dist. apply pall_do; [exact I|]. intros lr _. cbv zeta. apply pall_lift. intros r' _.
  destruct lr; [apply pall_do; [exact I|intros _ _]|]; (apply pall_do; [exact I|intros; exact I]).
Qed.
Lemma new_sender_dist_g : forall a d sysrnd rnd, gall (new_sender_dist C a d sysrnd rnd).
Proof.
  intros a d sysrnd rnd. unfold new_sender_dist. apply pall_do; [exact I|]. intros lr _.
  destruct lr as [r|]; [apply pall_lift; intros; exact I|].
  apply pall_lift. intros chain _. destruct (read_full 32 rnd) as [[seed| |] rnd1]; try exact I.
  apply pall_lift. intros kp _. apply pall_lift. intros r _. apply pall_do; [exact I|]. intros. apply pall_lift; intros; exact I.
Qed.
Lemma gencrypt_g : forall a d rnd pt, gall (gencrypt C a d rnd pt).
Proof.
  intros a d rnd pt. unfold gencrypt. apply pall_do; [exact I|]. intros lr _.
  destruct lr as [r|]; [|exact I]. apply pall_lift. intros s _. apply pall_lift. intros [msg s'] _.
  apply pall_do; [exact I|]. intros _ _. apply pall_do; [exact I|]. intros; exact I.
Qed.
Lemma gdecrypt_g : forall a m, gall (gdecrypt C a m).
Proof.
  intros a m. unfold gdecrypt. apply pall_do; [exact I|]. intros lr _.
  destruct lr as [r|]; [|exact I]. destruct (gr_find (sm_chain m) r) as [s|]; [|exact I].
  destruct (negb (sm_version m =? gs_ver s)%N); [exact I|]. apply pall_lift. intros key _. apply pall_lift. intros valid _.
  destruct (negb valid); [exact I|]. destruct (gmessage_key C s (sm_iter m)) as [o s'].
  cbv zeta. apply pall_do; [exact I|]. intros _ _. apply pall_lift. intros mk _. apply pall_lift. intros pt _.
  apply pall_do; [exact I|]. intros; exact I.
Qed.
Lemma calls_full : forall c, wf_call c -> thread_all f_ok f_ans (start C c).
Proof.
  intros [a rnd b|a pt|a rnd m|a m|a d sr rnd|a d rnd pt|a m] W; cbn [start thread_all wf_call] in *.
  - apply process_bundle_full; auto.
  - apply encrypt_message_full.
  - destruct m; cbn [decrypt_message wf_ciphertext] in *; try exact I; [apply decrypt_signal_full|apply decrypt_prekey_full]; auto.
  - apply full_of_shape; [apply process_dist_shape; auto|apply process_dist_g].
  - apply full_of_shape; [apply new_sender_dist_shape; auto|apply new_sender_dist_g].
  - apply full_of_shape; [apply gencrypt_shape; auto|apply gencrypt_g].
  - apply full_of_shape; [apply gdecrypt_shape; auto|apply gdecrypt_g].
Qed.
Lemma reachable_full : forall ts w, reachable C (ts, w) -> forall a r s, w_sess w a = Some r -> state_in s r -> full s.
Proof.
  intros ts w R. pose proof (reachable_inv f_ok f_ans fw f_exec C calls_full) as Q.
  apply Q with (c := (ts, w)) in R.
  - destruct R as [_ [_ F]]. cbn [snd] in F. intros a r s E. exact (F a r E s).
  - intros w1 w2 [((W1 & W2 & W3) & W4) F] (E1 & E2 & E3 & E4 & E5). split; [split; [split; [|split]|]; auto|].
    + rewrite E1. exact W1.
    + rewrite E2. exact W4.
    + rewrite E1. exact F.
  - intros w0 (E1 & E2 & E3 & E4). split; [split; [split; [|split]|]; auto|].
    + intros a r E. rewrite E1 in E. discriminate.
    + intros a d r E. rewrite E2 in E. discriminate.
    + intros a r E. rewrite E1 in E. discriminate.
Qed.
End Inv.
