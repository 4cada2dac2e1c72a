(** Every execution keeps every stored record in shape (C27, C46). *)
From Verif Require Import M_Base M_Crypto M_Aes M_Curve M_Proto M_Uuid M_Message M_Ratchet M_State M_Store M_Session M_Group
  S_Crypto S_Message S_State S_Shape S_Ratchet S_Session S_Group S_Aes S_Api
  P_Base P_Proto P_Curve P_State P_Shape P_Ratchet P_Message P_Aes P_Chain P_Decrypt P_Receive P_Encrypt P_Record P_Init
  P_Group P_Prog.
From Coq Require Import ZifyBool ZifyNat ZifyN.
Local Open Scope nat_scope.


Definition shape_ok : forall X, op X -> Prop := fun X o =>
  match o with
  | OStoreSession _ r | OTouchSession _ r => wf_record r
  | OStoreGroup _ _ r | OTouchGroup _ _ r => wf_grecord r
  | _ => True
  end.
Definition shape_ans : forall X, op X -> res X -> Prop := fun X o =>
  match o in op T return res T -> Prop with
  | OLoadSession _ => fun x => forall r, x = Ok (Some r) -> wf_record r
  | OLoadGroup _ _ => fun x => forall r, x = Ok (Some r) -> wf_grecord r
  | OKeyPair => fun x => forall k, x = Ok k -> List.length (kp_pub k) = 32
  | ORegistrationID => fun x => forall n, x = Ok n -> go_u32 n
  | _ => fun _ => True
  end.

Lemma set_sess_wf : forall w a r, wf_device w -> wf_record r -> wf_device (set_sess w a r).
Proof.
  intros w a r ((W1 & W2 & W3) & W4) Wr. split; [split; [|split]|]; auto. cbn [w_sess set_sess].
  intros b x. destruct (addr_eqb b a); [intro E; injection E as <-; exact Wr|apply W1].
Qed.
Lemma set_group_wf : forall w a d r, wf_device w -> wf_grecord r -> wf_device (set_group w a d r).
Proof.
  intros w a d r (W & W4) Wr. split; [exact W|]. cbn [w_groups set_group].
  intros b e x. destruct (addr_eqb b a && distid_eqb e d); [intro E; injection E as <-; exact Wr|apply W4].
Qed.

Lemma shape_exec : forall X (o : op X) f w, wf_device w -> shape_ok X o ->
  wf_device (snd (exec_f o f w)) /\ shape_ans X o (fst (exec_f o f w)).
Proof.
  intros X o f w W K.
  assert (A : wf_device (snd (exec o w))).
  { destruct o; cbn [exec snd]; try exact W; cbn [shape_ok] in K.
    - apply set_sess_wf; auto.
    - destruct (w_shared w); [apply set_sess_wf; auto|exact W].
    - apply set_group_wf; auto.
    - destruct (w_shared w); [apply set_group_wf; auto|exact W]. }
  assert (B : shape_ans X o (Ok (fst (exec o w)))).
  { destruct W as ((W1 & W2 & W3) & W4). destruct o; cbn [exec fst shape_ans]; try exact I; intros ? E; injection E as E;
    subst; eauto. }
  assert (B' : shape_ans X o (Err EStore)).
  { destruct o; cbn [shape_ans]; try exact I; intros ? E; discriminate. }
  unfold exec_f. destruct (fallible o).
  - destruct f; destruct (exec o w) as [x w']; cbn [fst snd] in *; auto.
  - destruct (exec o w) as [x w']; cbn [fst snd] in *; auto.
Qed.

Lemma exec_sess_ok : forall s rr lr b, wf_fresh s -> ss_pending s = None -> go_u32 rr -> go_u32 lr -> List.length b = 32 ->
  wf_state (with_alice_base (with_regs (with_regs s (ss_remote_reg s) lr) rr lr) (pub_bytes b)).
Proof.
  intros s rr lr b F P G1 G2 L. specialize (F rr lr b None G1 G2 L).
  rewrite with_pending_none in F by exact P. apply F. intros; discriminate.
Qed.

Section Shape.
Variable C : Crypto.
Hypothesis H : CryptoOk C.

Notation sall := (pall shape_ok shape_ans).
Notation sres := (pres shape_ans).

Lemma option_pair_wf : forall x k, (match x with Some x => do k <- prekeyrec_pair C x; Ok (Some k) | None => Ok None end) = Ok k ->
  forall p, k = Some p -> List.length (kp_pub p) = 32 /\ List.length (sk_bytes (kp_priv p)) = 32.
Proof.
  intros [x|] k E p Ep; [|congruence]. destruct (prekeyrec_pair C x) as [q| |] eqn:Q; cbn [bind] in E; [|discriminate..].
  injection E as <-. injection Ep as <-. eapply prekeyrec_pair_wf; eauto.
Qed.

(** ProcessPreKey returns a record of the right shape. *)
Lemma process_prekey_v3_shape : forall a existed r m, wf_record r -> wf_prekeymsg m ->
  sall (process_prekey_v3 C a existed r m) /\ sres (fun '(r', _) => wf_record r') (process_prekey_v3 C a existed r m).
Proof.
  intros a existed r m W (V & Lb & Li & Gr & Gs & Gp & Wm). unfold process_prekey_v3.
  match goal with |- pall _ _ ?p /\ _ => set (P := p) end.
  assert (K : forall signed onetime,
    (forall p, signed = Some p -> List.length (kp_pub p) = 32 /\ List.length (sk_bytes (kp_priv p)) = 32) ->
    let q := pdo OKeyPair (fun ident =>
      match init_bob C ident signed onetime signed (pm_identity m) (pm_base m) with
      | Ok s =>
          pdo ORegistrationID (fun reg =>
          let s := with_regs s (ss_remote_reg s) reg in
          let s := with_regs s (pm_reg m) (ss_local_reg s) in
          let s := with_alice_base s (pub_bytes (pm_base m)) in
          let r' := rc_promote r s in
          if existed then pdo (OTouchSession a r') (fun _ => PRet (Ok (r', pm_prekey_id m)))
          else PRet (Ok (r', pm_prekey_id m)))
      | _ => PRet Panic
      end) in sall q /\ sres (fun '(r', _) => wf_record r') q).
  { intros signed onetime Hs q.
    assert (Wn : forall ident s reg, List.length (kp_pub ident) = 32 -> go_u32 reg ->
      init_bob C ident signed onetime signed (pm_identity m) (pm_base m) = Ok s ->
      wf_record (rc_promote r (with_alice_base (with_regs (with_regs s (ss_remote_reg s) reg) (pm_reg m)
        (ss_local_reg (with_regs s (ss_remote_reg s) reg))) (pub_bytes (pm_base m))))).
    { intros ident s reg Lid Greg E. apply promote_wf; [exact W|].
      destruct (init_bob_wf C ident signed onetime signed _ _ s H Lid Li Hs E) as (F & P0 & _).
      cbn [ss_local_reg with_regs]. apply exec_sess_ok; auto. }
    split.
    - apply pall_do; [exact I|]. intros ident A. cbn [shape_ans] in A. specialize (A _ eq_refl).
      destruct (init_bob C ident signed onetime signed (pm_identity m) (pm_base m)) as [s| |] eqn:E; try exact I.
      apply pall_do; [exact I|]. intros reg B. cbn [shape_ans] in B. specialize (B _ eq_refl). cbv zeta.
      destruct existed; [|exact I]. apply pall_do; [|intros; exact I]. cbn [shape_ok]. eapply Wn; eauto.
    - apply pres_do. intros ident A. cbn [shape_ans] in A. specialize (A _ eq_refl).
      destruct (init_bob C ident signed onetime signed (pm_identity m) (pm_base m)) as [s| |] eqn:E;
        [|intros ? ?; discriminate..].
      apply pres_do. intros reg B. cbn [shape_ans] in B. specialize (B _ eq_refl). cbv zeta.
      destruct existed; [apply pres_do; intros _ _|]; intros y Ey; injection Ey as <-; eapply Wn; eauto. }
  subst P. split.
  - apply pall_lift. intros has _. destruct has; [exact I|]. apply pall_do; [exact I|]. intros sgn _.
    apply pall_lift. intros signed Es. cbv zeta.
    destruct (pm_prekey_id m) as [id|] eqn:Ei; [|apply K; eapply option_pair_wf; eauto].
    apply pall_do; [exact I|]. intros x _. apply pall_lift. intros onetime _. apply K. eapply option_pair_wf; eauto.
  - apply pres_lift. intros has _. destruct has; [intros y E; injection E as <-; exact W|]. apply pres_do. intros sgn _.
    apply pres_lift. intros signed Es. cbv zeta.
    destruct (pm_prekey_id m) as [id|] eqn:Ei; [|apply K; eapply option_pair_wf; eauto].
    apply pres_do. intros x _. apply pres_lift. intros onetime _. apply K. eapply option_pair_wf; eauto.
Qed.

Lemma process_prekey_shape : forall a existed r m, wf_record r -> wf_prekeymsg m ->
  sall (process_prekey C a existed r m) /\ sres (fun '(r', _) => wf_record r') (process_prekey C a existed r m).
Proof.
  intros a existed r m W Wm. destruct (process_prekey_v3_shape a existed r m W Wm) as [A B]. unfold process_prekey. split.
  - apply pall_do; [exact I|]. intros t _. destruct (negb t); [exact I|].
    eapply pall_seq; [exact A|exact B|]. intros [r' id] _. apply pall_do; [exact I|]. intros; exact I.
  - apply pres_do. intros t _. destruct (negb t); [intros ? ?; discriminate|].
    eapply pres_seq; [exact B|]. intros [r' id] Wr. apply pres_do. intros _ _ y E. injection E as <-. exact Wr.
Qed.

Lemma decrypt_prekey_shape : forall a rnd m, wf_prekeymsg m -> sall (decrypt_prekey C a rnd m).
Proof.
  intros a rnd m Wm. unfold decrypt_prekey. apply pall_do; [exact I|]. intros lr A. cbn [shape_ans] in A.
  cbv zeta. set (r := match lr with Some r => r | None => new_record None end).
  assert (W : wf_record r) by (unfold r; destruct lr; [apply A; reflexivity|apply new_record_wf]).
  eapply pall_seq; [apply process_prekey_shape; auto|apply process_prekey_shape; auto|].
  intros [r1 pkid] W1. apply pall_lift. intros [pt r2] E.
  destruct (decrypt_record_inv _ _ _ _ _ _ H W1 (proj2 (proj2 (proj2 (proj2 (proj2 (proj2 Wm)))))) E)
    as (s & s' & x1 & x2 & _ & _ & _ & _ & W2).
  assert (F : sall (pdo (OStoreSession a r2) (fun _ => match pkid with
      | Some id => pdo (ODeletePreKey id) (fun _ => PRet (Ok pt)) | None => PRet (Ok pt) end))).
  { apply pall_do; [exact W2|]. intros _ _. destruct pkid; [|exact I]. apply pall_do; [exact I|]. intros; exact I. }
  destruct lr; [apply pall_do; [exact W2|intros _ _; exact F]|exact F].
Qed.

Lemma decrypt_signal_shape : forall a rnd m, wf_signal m -> sall (decrypt_signal C a rnd m).
Proof.
  intros a rnd m Wm. unfold decrypt_signal. apply pall_do; [exact I|]. intros lr A. cbn [shape_ans] in A.
  destruct lr as [r|]; [|exact I]. specialize (A r eq_refl). cbv zeta.
  assert (F : forall pt r', wf_record r' -> pall shape_ok shape_ans (A := bytes)
    match rc_current r' return prog bytes with
        | None => PRet (Err (EOther "successfully decrypted; must have a current state"))
        | Some s =>
            match st_remote_identity s with
            | Ok (Some rid) =>
                pdo (OIsTrusted a rid Receiving) (fun trusted =>
                if negb trusted then PRet (Err (EUntrusted a))
                else
                  pdo (OStoreIdentity a rid) (fun _ =>
                  pdo (OStoreSession a r') (fun _ =>
                  PRet (Ok pt))))
            | Panic => PRet Panic
            | _ => PRet (Err (EOther "successfully decrypted; must have a remote identity key"))
            end
        end).
  { intros pt r' W'. destruct (rc_current r') as [s|]; [|exact I]. destruct (st_remote_identity s) as [[rid|]| |]; try exact I.
    apply pall_do; [exact I|]. intros t _. destruct (negb t); [exact I|].
    apply pall_do; [exact I|]. intros _ _. apply pall_do; [exact W'|]. intros; exact I. }
  destruct (decrypt_record C rnd r m) as [[pt r']|e|] eqn:E; [|apply F; exact A|exact I].
  destruct (decrypt_record_inv _ _ _ _ _ _ H A Wm E) as (s & s' & x1 & x2 & _ & _ & _ & _ & W2).
  apply pall_do; [exact W2|]. intros _ _. apply F. exact W2.
Qed.

Lemma encrypt_message_shape : forall a pt, sall (encrypt_message C a pt).
Proof.
  intros a pt. unfold encrypt_message. apply pall_do; [exact I|]. intros lr A. cbn [shape_ans] in A.
  destruct lr as [r|]; [|exact I]. specialize (A r eq_refl). destruct (rc_current r) as [s|] eqn:Ec; [|exact I].
  apply pall_lift. intros [[msg s'] rid] E.
  destruct (encrypt_state_wf C s pt msg s' rid H (proj1 A s Ec) E) as (W' & _).
  assert (W2 : wf_record (rc_set_state r s')) by (apply set_state_wf; auto).
  apply pall_do; [exact W2|]. intros _ _. apply pall_do; [exact I|]. intros t _. destruct (negb t); [exact I|].
  apply pall_do; [exact I|]. intros _ _. apply pall_do; [exact W2|]. intros; exact I.
Qed.

Lemma to_int32_range : forall n, go_u32 n -> go_i32 (to_int32 n).
Proof.
  intros n G. unfold to_int32, go_i32, go_u32 in *. destruct (N.ltb_spec n 2147483648)%N; lia.
Qed.

Lemma process_bundle_shape : forall a rnd b, wf_bundle b -> sall (process_bundle C a rnd b).
Proof.
  intros a rnd b (Gr & Gp & Lp & Gs & Ls & Li). unfold process_bundle.
  destruct (bd_identity b) as [ti|] eqn:Ei; [|exact I]. specialize (Li ti eq_refl).
  apply pall_do; [exact I|]. intros t _. destruct (negb t); [exact I|].
  destruct (bd_signed b) as [ts|] eqn:Es; [|exact I]. specialize (Ls ts eq_refl).
  apply pall_lift. intros ok _. destruct (negb ok); [exact I|].
  apply pall_do; [exact I|]. intros lr A. cbn [shape_ans] in A. cbv zeta.
  set (r := match lr with Some r => r | None => new_record None end).
  assert (W : wf_record r) by (unfold r; destruct lr; [apply A; reflexivity|apply new_record_wf]).
  destruct (gen_keypair C rnd) as [[base| |] rnd1] eqn:G; try exact I.
  destruct (gen_keypair_wf _ _ _ _ G) as [Lb _].
  apply pall_do; [exact I|]. intros ident B. cbn [shape_ans] in B. specialize (B _ eq_refl).
  apply pall_lift. intros s E. destruct (init_alice C rnd1 ident base ti ts (bd_prekey b) ts) as [o rest] eqn:E1.
  cbn [fst] in E. subst o.
  destruct (init_alice_wf _ _ _ _ _ _ _ _ _ _ B Li Ls E1) as (F & P0 & _).
  apply pall_do; [exact I|]. intros reg D. cbn [shape_ans] in D. specialize (D _ eq_refl).
  apply pall_do; [exact I|]. intros _ _. cbv zeta.
  assert (Ws : wf_record (rc_promote r (with_alice_base (with_regs (with_regs (st_set_unack s (bd_prekey_id b) (bd_signed_id b) (kp_pub base))
     (ss_remote_reg (st_set_unack s (bd_prekey_id b) (bd_signed_id b) (kp_pub base))) reg) (bd_reg b)
     (ss_local_reg (with_regs (st_set_unack s (bd_prekey_id b) (bd_signed_id b) (kp_pub base))
        (ss_remote_reg (st_set_unack s (bd_prekey_id b) (bd_signed_id b) (kp_pub base))) reg))) (pub_bytes (kp_pub base))))).
  { apply promote_wf; [exact W|]. cbn [ss_local_reg with_regs].
    apply (F (bd_reg b) reg (kp_pub base) (Some (mkPPending (match bd_prekey_id b with Some i => i | None => 0%N end)
                                   (pub_bytes (kp_pub base)) (to_int32 (bd_signed_id b)))) Gr D Lb).
    intros p Ep. injection Ep as <-. split; [|split]; cbn [pp_prekey pp_signed pp_base].
    - destruct (bd_prekey_id b) as [i|]; [apply Gp; reflexivity|reflexivity].
    - apply to_int32_range. exact Gs.
    - apply key33_bytes; auto. }
  destruct lr; [apply pall_do; [exact Ws|intros _ _]|]; (apply pall_do; [exact Ws|intros; exact I]).
Qed.

Lemma process_dist_shape : forall a m, wf_dist m -> sall (process_dist a m).
Proof.
  intros a m (Gc & Gi & Lc & Ls & V). unfold process_dist. apply pall_do; [exact I|]. intros lr A. cbn [shape_ans] in A.
  cbv zeta. set (r := match lr with Some r => r | None => [] end).
  assert (W : wf_grecord r) by (unfold r; destruct lr; [apply A; reflexivity|apply wf_grecord_nil]).
  apply pall_lift. intros r' E.
  assert (W' : wf_grecord r').
  { eapply gr_add_wf; [exact W| |exact E]. rewrite V. apply new_gstate_wf; auto. intros; discriminate. }
  destruct lr; [apply pall_do; [exact W'|intros _ _]|]; (apply pall_do; [exact W'|intros; exact I]).
Qed.

Lemma random_chain_id_lt : forall b n, random_chain_id b = Ok n -> (n < 2147483648)%N.
Proof.
  intros b n E. unfold random_chain_id, read_full in E. destruct (Nat.ltb_spec (List.length b) 4) as [|L]; [discriminate|].
  apply (f_equal (fun x => match x with Ok a => a | _ => n end)) in E. cbv beta iota in E. rewrite <- E.
  pose proof (le2n_lt (firstn 4 b)) as Q. rewrite firstn_length_le in Q by exact L.
  change (256 ^ N.of_nat 4)%N with 4294967296%N in Q. apply N.div_lt_upper_bound; [discriminate|]. lia.
Qed.
Lemma read_full_len : forall n rnd b r, read_full n rnd = (Ok b, r) -> List.length b = n.
Proof.
  intros n rnd b r E. unfold read_full in E. destruct (Nat.ltb_spec (List.length rnd) n) as [|L]; [discriminate|].
  apply (f_equal (fun x => match x with (Ok a, _) => a | _ => b end)) in E. cbv beta iota in E. rewrite <- E.
  apply firstn_length_le. exact L.
Qed.

Lemma new_sender_dist_shape : forall a d sysrnd rnd, sall (new_sender_dist C a d sysrnd rnd).
Proof.
  intros a d sysrnd rnd. unfold new_sender_dist. apply pall_do; [exact I|]. intros lr _.
  destruct lr as [r|]; [apply pall_lift; intros; exact I|].
  apply pall_lift. intros chain Ec. apply random_chain_id_lt in Ec.
  destruct (read_full 32 rnd) as [[seed| |] rnd1] eqn:Er; try exact I. apply read_full_len in Er.
  apply pall_lift. intros kp Ek. destruct (gen_keypair C rnd1) as [o rest] eqn:G. cbn [fst] in Ek. subst o.
  destruct (gen_keypair_wf _ _ _ _ G) as [L1 L2].
  apply pall_lift. intros r E. apply pall_do; [|intros; apply pall_lift; intros; exact I].
  cbn [shape_ok]. eapply gr_add_wf; [apply wf_grecord_nil| |exact E].
  apply new_gstate_wf; auto; [unfold go_u32; lia|reflexivity|]. intros k Q. injection Q as <-. exact L2.
Qed.

Lemma gs_next_wf : forall s, wf_gstate s -> wf_gstate (gs_set_chainkey s (gc_next C (gs_chainkey s))).
Proof.
  intros s (V & Gc & Gi & Ls & K & P & L & F). unfold wf_gstate.
  cbn [gs_version gs_chain gs_iter gs_seed gs_pub gs_priv gs_keys gs_set_chainkey gc_next gc_iter gc_key].
  repeat (split; [first [assumption|apply (ok_hmac_len C H)|unfold u32, go_u32; apply N.mod_lt; discriminate]|]). assumption.
Qed.
Lemma gencrypt_state_next : forall rnd d s pt msg s', gencrypt_state C rnd d s pt = Ok (msg, s') ->
  s' = gs_set_chainkey s (gc_next C (gs_chainkey s)).
Proof.
  intros rnd d s pt msg s' E. unfold gencrypt_state in E.
  destruct (cbc_encrypt C _ _ pt) as [ct| |]; cbn [bind] in E; [|discriminate..].
  destruct (gs_private C s) as [key| |]; cbn [bind] in E; [|discriminate..].
  destruct (fst _) as [x| |]; cbn [bind] in E; [|discriminate..]. injection E as _ <-. reflexivity.
Qed.
Lemma gencrypt_shape : forall a d rnd pt, sall (gencrypt C a d rnd pt).
Proof.
  intros a d rnd pt. unfold gencrypt. apply pall_do; [exact I|]. intros lr A. cbn [shape_ans] in A.
  destruct lr as [r|]; [|exact I]. specialize (A r eq_refl). destruct r as [|s r]; [exact I|].
  cbn [gr_state plift]. apply pall_lift. intros [msg s'] E. apply gencrypt_state_next in E.
  assert (W : wf_grecord (gr_set_first s' (s :: r))).
  { apply gr_set_first_wf; [exact A|subst s'; apply gs_next_wf|subst s'; reflexivity].
    destruct A as (_ & _ & F). inversion F; auto. }
  apply pall_do; [exact W|]. intros _ _. apply pall_do; [exact W|]. intros; exact I.
Qed.

Lemma gdecrypt_shape : forall a m, sall (gdecrypt C a m).
Proof.
  intros a m. unfold gdecrypt. apply pall_do; [exact I|]. intros lr A. cbn [shape_ans] in A.
  destruct lr as [r|]; [|exact I]. specialize (A r eq_refl). destruct (gr_find (sm_chain m) r) as [s|] eqn:Ef; [|exact I].
  assert (Ws : wf_gstate s /\ gs_chain s = sm_chain m).
  { destruct A as (_ & ND & F). apply (gr_find_spec _ _ ND) in Ef. rewrite Forall_forall in F. destruct Ef; auto. }
  destruct Ws as [Ws Cs].
  destruct (negb (sm_version m =? gs_ver s)%N); [exact I|]. apply pall_lift. intros key _. apply pall_lift. intros valid _.
  destruct (negb valid); [exact I|]. destruct (gmessage_key C s (sm_iter m)) as [o s'] eqn:E.
  destruct (gmessage_key_wf C s _ o s' H Ws E) as (W' & C' & _).
  assert (W : wf_grecord (gr_set (sm_chain m) s' r)) by (apply gr_set_wf; [exact A|exact W'|congruence]).
  cbv zeta. apply pall_do; [exact W|]. intros _ _. apply pall_lift. intros mk _. apply pall_lift. intros pt _.
  apply pall_do; [exact W|]. intros; exact I.
Qed.

Lemma calls_shape : forall c, wf_call c -> thread_all shape_ok shape_ans (start C c).
Proof.
  intros [a rnd b|a pt|a rnd m|a m|a d sr rnd|a d rnd pt|a m] W; cbn [start thread_all wf_call] in *.
  - apply process_bundle_shape; auto.
  - apply encrypt_message_shape.
  - destruct m; cbn [decrypt_message wf_ciphertext] in *; try exact I; [apply decrypt_signal_shape|apply decrypt_prekey_shape]; auto.
  - apply process_dist_shape; auto.
  - apply new_sender_dist_shape.
  - apply gencrypt_shape.
  - apply gdecrypt_shape.
Qed.

Theorem reachable_wf : forall ts w, reachable C (ts, w) -> wf_device w.
Proof.
  intros ts w R. pose proof (reachable_inv shape_ok shape_ans wf_device shape_exec C calls_shape) as Q.
  apply (Q) with (c := (ts, w)) in R; [apply R| |].
  - intros w1 w2 ((W1 & W2 & W3) & W4) (E1 & E2 & E3 & E4 & E5). split; [split; [|split]|]; auto.
    + rewrite E1. exact W1.
    + rewrite E2. exact W4.
  - intros w0 (E1 & E2 & E3 & E4). split; [split; [|split]|]; auto.
    + intros a r E. rewrite E1 in E. discriminate.
    + intros a d r E. rewrite E2 in E. discriminate.
Qed.
End Shape.
