(** Sending, announcing and starting succeed exactly when they must (C95). *)
From Verif Require Import M_Base M_Crypto M_Aes M_Curve M_Proto M_Uuid M_Message M_Ratchet M_State M_Store M_Session M_Group R_Curve R_Real
  S_Crypto S_Message S_State S_Shape S_Ratchet S_Session S_Aes S_Api S_Send S_Group S_GroupMsg S_Receive S_Curve S_Bundle S_X3dh S_History S_Edwards S_SmallKeys S_Outcome
  P_Base P_Proto P_Curve P_State P_Shape P_Ratchet P_Message P_Aes P_Chain P_Decrypt P_Receive P_Encrypt P_Record P_Prog P_Group
  P_Init P_Send P_Bundle P_Conv P_X3dh P_DecMore P_Api P_CryptoTop P_Member S_Isolation P_Isolation P_GroupMsg P_Keep P_GroupSend P_GroupTop P_Opening P_Real P_SmallKeys P_SmallSess.
Local Open Scope nat_scope.

(** No group record is ever empty. *)
Definition ne_ok : forall X, op X -> Prop := fun X o => match o with OStoreGroup _ _ r | OTouchGroup _ _ r => r <> [] | _ => True end.
Definition ne_ans : forall X, op X -> res X -> Prop := fun X o =>
  match o in op T return res T -> Prop with OLoadGroup _ _ => fun x => forall r, x = Ok (Some r) -> r <> [] | _ => fun _ => True end.
Definition ne (w : world) : Prop := forall a d r, w_groups w a d = Some r -> r <> [].
Lemma set_group_ne : forall w a d r, ne w -> r <> [] -> ne (set_group w a d r).
Proof.
  intros w a d r K F b e x. cbn. destruct (addr_eqb b a) eqn:E1; cbn [andb]; [destruct (distid_eqb e d) eqn:E2|]; [|apply K..].
  intro E. injection E as <-. exact F.
Qed.
Lemma ne_exec : forall X (o : op X) f w, ne w -> ne_ok X o -> ne (snd (exec_f o f w)) /\ ne_ans X o (fst (exec_f o f w)).
Proof.
  intros X o f w W K.
  assert (K0 : ne (snd (exec o w))).
  { destruct o; cbn [exec snd]; try exact W; cbn [ne_ok] in K.
    - destruct (w_shared w); exact W.
    - apply set_group_ne; auto.
    - destruct (w_shared w); [apply set_group_ne; auto|exact W]. }
  split.
  - destruct (exec_f_cases X o f w) as [E|E]; rewrite E; [exact W|exact K0].
  - destruct o; cbn [ne_ans]; try exact I. intros r E. unfold exec_f in E. cbn [fallible] in E.
    destruct f; cbn [exec fst snd] in E; [injection E as E; exact (W a d r E)|discriminate..].
Qed.
Lemma gr_add_ne : forall s r r', gr_add s r = Ok r' -> r' <> [].
Proof.
  intros s r r' E. unfold gr_add in E. destruct (gs_public s) as [k| |]; cbn [bind] in E; [|discriminate..].
  destruct (gr_remove (gs_chain s) k r) as [old r1]. cbv zeta in E.
  match type of E with Ok ?l = _ => assert (Q : r' = l) by congruence end. subst r'. intro Z. apply app_eq_nil in Z. destruct Z as [_ Z]. discriminate.
Qed.
Lemma in_sess_ne : forall a X (o : op X), in_sess a X o -> ne_ok X o.
Proof. intros a X o J. destruct o; cbn in *; auto; contradiction. Qed.

Section Scope.
Variable C : Crypto.
Lemma calls_ne : forall c, wf_call c -> thread_all ne_ok ne_ans (start C c).
Proof.
  intros c W. destruct c as [a rnd b|a pt|a rnd m|a m|a d sr rnd|a d rnd pt|a m].
  1-3: match goal with |- thread_all _ _ (start C ?c) => pose proof (calls_scope C c) as S1 end;
    cbn [start thread_all scope_of in_scope] in *;
    (eapply pall_weaken; [apply (in_sess_ne a)|intros X o x _; exact I|exact S1]).
  all: cbn [start thread_all].
  - unfold process_dist. apply pall_do; [exact I|]. intros lr _. cbv zeta. apply pall_lift. intros r' E. apply gr_add_ne in E.
    destruct lr; [apply pall_do; [exact E|intros _ _]|]; (apply pall_do; [exact E|intros; exact I]).
  - unfold new_sender_dist. apply pall_do; [exact I|]. intros lr _. destruct lr as [r|]; [apply pall_lift; intros; exact I|].
    apply pall_lift. intros chain Ec. destruct (read_full 32 rnd) as [[seed| |] rnd1] eqn:Er; try exact I.
    apply pall_lift. intros kp Ek. apply pall_lift. intros r E. apply gr_add_ne in E. apply pall_do; [exact E|intros; apply pall_lift; intros; exact I].
  - unfold gencrypt. apply pall_do; [exact I|]. intros lr A. destruct lr as [r|]; [|exact I]. destruct r as [|s r]; [exact I|].
    cbn [gr_state plift]. apply pall_lift. intros [msg s'] E.
    assert (F' : gr_set_first s' (s :: r) <> []) by (cbn; discriminate).
    apply pall_do; [exact F'|]. intros _ _. apply pall_do; [exact F'|]. intros; exact I.
  - unfold gdecrypt. apply pall_do; [exact I|]. intros lr A. destruct lr as [r|]; [|exact I].
    destruct (gr_find (sm_chain m) r) as [s|] eqn:Ef; [|exact I].
    destruct (negb (sm_version m =? gs_ver s)%N); [exact I|]. apply pall_lift. intros key _. apply pall_lift. intros valid _.
    destruct (negb valid); [exact I|]. destruct (gmessage_key C s (sm_iter m)) as [o s'] eqn:E.
    assert (F' : gr_set (sm_chain m) s' r <> []) by (destruct r as [|x r]; [discriminate|cbn [gr_set]; destruct (sm_chain m =? gs_chain x)%N; discriminate]).
    cbv zeta. apply pall_do; [exact F'|]. intros _ _. apply pall_lift. intros mk _. apply pall_lift. intros pt _.
    apply pall_do; [exact F'|]. intros; exact I.
Qed.
End Scope.
Lemma reachable_ne : forall C ts w, reachable C (ts, w) -> ne w.
Proof.
  intros C ts w R. pose proof (reachable_inv ne_ok ne_ans ne ne_exec C (calls_ne C)) as Q. apply Q with (c := (ts, w)) in R; [apply R| |].
  - intros w1 w2 W (E1 & E2 & E3 & E4 & E5) a d r. rewrite E2. apply W.
  - intros w0 (E1 & E2 & E3 & E4) a d r E. rewrite E2 in E. discriminate.
Qed.

Section Outcome.
Variable C : Crypto.
Hypothesis H : CryptoOk C.

(** Sending to a peer. *)
Lemma send_outcome : forall ts w, reachable C (ts, w) -> forall a pt,
  match current_session w a with
  | None => run0 (encrypt_message C a pt) w = (Err (ESessionNotFound a), w)
  | Some s => exists remote, ss_remote s = Byte.x05 :: remote /\
      if w_policy w a (w_ident w a) remote Sending
      then exists c w', run0 (encrypt_message C a pt) w = (Ok c, w')
      else exists w', run0 (encrypt_message C a pt) w = (Err (EUntrusted a), w')
  end.
Proof.
  intros ts w R a pt. pose proof (reachable_wf C H _ _ R) as Wd. unfold current_session.
  destruct (w_sess w a) as [r|] eqn:Er; [destruct (rc_current r) as [s|] eqn:Ec|].
  - pose proof (proj1 (proj1 (proj1 Wd) _ _ Er) _ Ec) as Ws.
    destruct (encrypt_state_exact C s pt H Ws) as (sc & k & ratchet & local & remote & m & out & _ & _ & _ & _ & _ & Rm & _ & _ & _ & _ & E).
    exists remote. split; [exact Rm|].
    assert (Q : exists w1 w2, run0 (encrypt_message C a pt) w = if w_policy w a (w_ident w a) remote Sending then (Ok out, w1) else (Err (EUntrusted a), w2)).
    { unfold run0, encrypt_message, pdo. cbn [run exec_f fallible hd_fault exec]. rewrite Er, Ec, E. cbn [plift].
      set (r' := rc_set_state r _). clearbody r'. cbn [run exec_f fallible exec hd_fault tl].
      assert (Q : w_policy (if w_shared w then set_sess w a r' else w) = w_policy w /\ w_ident (if w_shared w then set_sess w a r' else w) = w_ident w)
        by (destruct (w_shared w); split; reflexivity).
      destruct Q as [-> ->]. eexists. eexists. destruct (w_policy w a (w_ident w a) remote Sending); cbn [negb run exec_f fallible exec hd_fault tl]; reflexivity. }
    destruct Q as (w1 & w2 & Q). destruct (w_policy w a (w_ident w a) remote Sending); eauto.
  - unfold run0, encrypt_message, pdo. cbn [run exec_f fallible hd_fault exec]. rewrite Er, Ec. reflexivity.
  - unfold run0, encrypt_message, pdo. cbn [run exec_f fallible hd_fault exec]. rewrite Er. reflexivity.
Qed.

(** Sending to a group. *)
Lemma group_outcome : forall ts w, reachable C (ts, w) -> forall a d rnd pt, 64 <= List.length rnd ->
  match w_groups w a d with
  | None => exists e, run0 (gencrypt C a d rnd pt) w = (Err e, w)
  | Some r => exists s rest, r = s :: rest /\
      (gs_priv s = [] -> exists e, run0 (gencrypt C a d rnd pt) w = (Err e, w)) /\
      (gs_priv s <> [] -> exists m w', run0 (gencrypt C a d rnd pt) w = (Ok m, w'))
  end.
Proof.
  intros ts w R a d rnd pt Lr. pose proof (reachable_wf C H _ _ R) as Wd.
  assert (Run : run0 (gencrypt C a d rnd pt) w = match w_groups w a d with None => (Err (EOther "no sender key state for distribution ID"), w)
    | Some r => run0 (plift (gr_state r) (fun s => plift (gencrypt_state C rnd d s pt) (fun '(msg, s') =>
        pdo (OTouchGroup a d (gr_set_first s' r)) (fun _ => pdo (OStoreGroup a d (gr_set_first s' r)) (fun _ => PRet (Ok msg)))))) w end).
  { unfold run0, gencrypt. unfold pdo at 1. cbn [run exec_f fallible hd_fault exec tl]. destruct (w_groups w a d); reflexivity. }
  destruct (w_groups w a d) as [r|] eqn:Er; [|eauto]. pose proof (reachable_ne _ _ _ R _ _ _ Er) as Nr. destruct r as [|s rest]; [contradiction|].
  exists s, rest. split; [reflexivity|]. destruct (proj2 Wd _ _ _ Er) as (_ & _ & F). inversion F as [|? ? Ws _]; subst.
  destruct Ws as (_ & _ & _ & Ls & _ & Wp & _). cbn [gr_state plift] in Run.
  set (mk := gc_message_key C (gs_chainkey s)).
  assert (Lk : legal_key (gk_cipher mk) /\ List.length (gk_iv mk) = 16).
  { unfold mk, gc_message_key, derive_gmsgkey. cbn [gk_cipher gk_iv]. set (o := hkdf C _ _ _ _).
    assert (L : List.length o = 48) by (apply (hkdf_length C H); lia). split; [|rewrite firstn_length; lia].
    unfold legal_key. rewrite skipn_length. lia. }
  destruct (proj2 (cbc_encrypt_ok_iff C (gk_cipher mk) (gk_iv mk) pt) Lk) as (ct & Ec). split.
  - intro Ep. assert (G : exists e, gencrypt_state C rnd d s pt = Err e).
    { unfold gencrypt_state. fold mk. rewrite Ec. cbn [bind]. unfold gs_private, new_private_key. rewrite Ep. cbn. eauto. }
    destruct G as (e & G). rewrite G in Run. cbn [plift] in Run. exists e. exact Run.
  - intro Ep. destruct Wp as [Wp|Wp]; [contradiction|].
    assert (G : exists m s', gencrypt_state C rnd d s pt = Ok (m, s')).
    { unfold gencrypt_state. fold mk. rewrite Ec. cbn [bind]. unfold gs_private.
      destruct (new_private_key C (gs_priv s)) as [key|e|] eqn:Ek; [|unfold new_private_key in Ek; rewrite Wp in Ek; discriminate..].
      cbn [bind]. unfold new_senderkey. cbv zeta.
      match goal with |- context [sign C key rnd [?x]] => destruct (proj1 (signatures C H) _ _ rnd [x] Ek Lr) as (sg & -> & _) end. cbn [fst bind]. eauto. }
    destruct G as (m & s' & G). rewrite G in Run. cbn [plift] in Run. unfold pdo, run0 in Run. cbn [run exec_f fallible exec hd_fault tl] in Run. eauto.
Qed.

(** Announcing a sender key. *)
Lemma announce_outcome : forall ts w, reachable C (ts, w) -> forall a d sysrnd rnd, 4 <= List.length sysrnd -> 64 <= List.length rnd ->
  exists m w', run0 (new_sender_dist C a d sysrnd rnd) w = (Ok m, w').
Proof.
  intros ts w R a d sysrnd rnd L1 L2. pose proof (reachable_wf C H _ _ R) as Wd.
  destruct (w_groups w a d) as [r|] eqn:Er.
  - pose proof (reachable_ne _ _ _ R _ _ _ Er) as Nr. destruct r as [|s rest]; [contradiction|].
    destruct (proj2 Wd _ _ _ Er) as (_ & _ & F). inversion F as [|? ? Ws _]; subst. destruct (gs_public_wf s Ws) as (k & Lk & Ep & Eg).
    assert (Sp : speaks w a d (gs_chain s) k (gs_iter s) (gs_seed s)) by (exists s, rest; auto).
    destruct (dist_again C w a d _ _ _ _ Wd Sp) as (m & _ & Q). eauto.
  - apply dist_fresh; auto. eapply reachable_own_device; eauto.
Qed.
(** Learning a sender key. *)
Lemma learn_outcome : forall ts w, reachable C (ts, w) -> forall a m, wf_dist m -> exists w', run0 (process_dist a m) w = (Ok tt, w').
Proof.
  intros ts w R a m Wm. pose proof (reachable_wf C H _ _ R) as Wd. unfold run0. rewrite (process_dist_runs a m [] w Wd Wm).
  cbn [hd_fault tl]. cbv zeta. destruct (w_groups w a (dm_dist m)); cbn [tl hd_fault]; eauto.
Qed.

(** Starting a session. *)
Lemma agree_iff : forall k p u, pair_for C k p -> List.length u = 32 -> (exists x, agreement C (kp_priv p) u = Ok x) <-> agreeable C k u.
Proof.
  intros k p u P L. pose proof P as (Lk & _ & _ & Hd). split.
  - intros (x & E). unfold agreement in E. rewrite L in E. cbn [Nat.eqb negb] in E. rewrite (holds_x C H _ k) in E by auto.
    destruct (all_zero (c_x25519 C k u)) eqn:Z; [discriminate|]. clear E. unfold all_zero in Z. unfold agreeable.
    induction (c_x25519 C k u) as [|y l IH]; [discriminate|]. cbn [forallb] in Z. destruct (Byte.eqb y Byte.x00) eqn:Y.
    + destruct (IH Z) as (z & J & N). exists z. split; [right; exact J|exact N].
    + exists y. split; [left; reflexivity|]. intros ->. discriminate.
  - intros A. exists (c_x25519 C (sk_ecdh (kp_priv p)) u). apply agreement_nz; [exact L|]. rewrite (holds_x C H _ k) by auto. exact A.
Qed.
Lemma start_outcome : forall w a rnd b ia, wf_bundle b -> pair_for C ia (w_pair w) -> 64 <= List.length rnd ->
  (exists w', run0 (process_bundle C a rnd b) w = (Ok tt, w')) <->
  bundle_trusted w a b /\ bundle_signed C b /\ all_agree C ia (firstn 32 rnd) (firstn 32 (skipn 32 rnd)) b.
Proof.
  intros w a rnd b ia Wb PA Lr. pose proof Wb as (_ & _ & Wo & _ & Ws & Wi).
  destruct (gen_pair_for C rnd ltac:(lia)) as (bp & G & Pb). assert (L2 : 32 <= List.length (skipn 32 rnd)) by (rewrite skipn_length; lia).
  destruct (gen_pair_for C (skipn 32 rnd) L2) as (rp & G2 & Pr). destruct (signatures C H) as (_ & V & _). split.
  - intros (w' & E). unfold run0 in E. destruct (bundle_success _ _ _ _ _ _ _ E) as (ti & ts & base & rnd1 & s0 & rest & E1 & E2 & T & Vs & G' & I1 & _).
    rewrite G in G'. injection G' as <- <-.
    assert (Li : List.length ti = 32) by (apply Wi; exact E1). assert (Ls : List.length ts = 32) by (apply Ws; exact E2).
    split; [exists ti; auto|]. split.
    { apply V in Vs. destruct Vs as (r & t & y & Q1 & Q2 & Q3 & Q4). cbn [List.concat] in Q4. rewrite app_nil_r in Q4. exists ti, ts, r, t, y. auto 7. }
    exists ti, ts. split; [exact E1|]. split; [exact E2|]. unfold init_alice in I1. rewrite G2 in I1.
    destruct (agreement C (kp_priv (w_pair w)) ts) as [d1| |] eqn:D1; cbn [bind] in I1; [|discriminate..].
    destruct (agreement C (kp_priv bp) ti) as [d2| |] eqn:D2; cbn [bind] in I1; [|discriminate..].
    destruct (agreement C (kp_priv bp) ts) as [d3| |] eqn:D3; cbn [bind] in I1; [|discriminate..].
    split; [apply (agree_iff _ _ _ PA Ls); eauto|]. split; [apply (agree_iff _ _ _ Pb Li); eauto|]. split; [apply (agree_iff _ _ _ Pb Ls); eauto|]. split.
    + intros one Eo. rewrite Eo in I1. destruct (agreement C (kp_priv bp) one) as [d4| |] eqn:D4; cbn [bind] in I1; [|discriminate..].
      apply (agree_iff _ _ _ Pb); [apply Wo; exact Eo|eauto].
    + match type of I1 with context [bind ?x _] => destruct x as [sec| |]; cbn [bind] in I1; [|discriminate..] end.
      destruct (derive_keys C sec) as [[root chain]| |] eqn:Dk; cbn [bind] in I1; [|discriminate..].
      unfold create_chain in I1. destruct (agreement C (kp_priv rp) ts) as [d5| |] eqn:D5; cbn [bind] in I1; [|discriminate..].
      apply (agree_iff _ _ _ Pr Ls). eauto.
  - intros ((ti & E1 & T) & (ti' & ts & r & t & y & Q1 & Q2 & Q3 & Q4 & Q5 & Q6) & (ti2 & ts2 & E3 & E4 & A1 & A2 & A3 & A4 & A5)).
    rewrite E1 in Q1, E3. injection Q1 as <-. injection E3 as <-. rewrite Q2 in E4. injection E4 as <-.
    assert (Li : List.length ti = 32) by (apply Wi; exact E1). assert (Ls : List.length ts = 32) by (apply Ws; exact Q2).
    assert (I1 : exists s0 rest, init_alice C (skipn 32 rnd) (w_pair w) bp ti ts (bd_prekey b) ts = (Ok s0, rest)).
    { unfold init_alice. rewrite G2. apply (agree_iff _ _ _ PA Ls) in A1. destruct A1 as (d1 & ->). apply (agree_iff _ _ _ Pb Li) in A2. destruct A2 as (d2 & ->).
      apply (agree_iff _ _ _ Pb Ls) in A3. destruct A3 as (d3 & ->). apply (agree_iff _ _ _ Pr Ls) in A5. destruct A5 as (d5 & A5). cbn [bind].
      match goal with |- context [bind ?x _] => assert (Sx : exists sec, x = Ok sec) end.
      { destruct (bd_prekey b) as [one|] eqn:Eo; [|eauto]. destruct (proj2 (agree_iff _ _ one Pb (Wo one eq_refl)) (A4 one eq_refl)) as (d4 & ->). cbn [bind]. eauto. }
      destruct Sx as (sec & ->). cbn [bind]. destruct (derive_keys_total C sec H) as (root & chain & -> & _). cbn [bind].
      destruct (create_chain_total C root (kp_priv rp) ts _ H A5) as (sroot & schain & -> & _). cbn [bind]. eauto. }
    destruct I1 as (s0 & rest & I1). eexists. eapply bundle_completes; eauto.
    apply V. exists r, t, y. cbn [List.concat]. rewrite app_nil_r. auto.
Qed.
End Outcome.

(** For the primitives of the standards: no key of the bundle is of small order. *)
Lemma real_agreeable : forall k u, List.length k = 32 -> (agreeable real k u <-> ~ small_key u).
Proof.
  intros k u L. rewrite <- (real_zero k u L). change (c_x25519 real) with real_x25519. unfold agreeable. change (c_x25519 real) with real_x25519.
  unfold all_zero. induction (real_x25519 k u) as [|y l IH].
  - cbn. split; [intros (x & [] & _)|intro N; destruct (N eq_refl)].
  - cbn [forallb]. destruct (Byte.eqb y Byte.x00) eqn:Y; cbn [andb].
    + rewrite <- IH. split; intros (x & J & N); [|exists x; split; [right; exact J|exact N]]. destruct J as [<-|J]; [|eauto].
      apply Byte.byte_dec_bl in Y. contradiction.
    + split; [discriminate|]. intros _. exists y. split; [left; reflexivity|]. intros ->. discriminate.
Qed.
Lemma real_start : forall w a rnd b ia, wf_bundle b -> pair_for real ia (w_pair w) -> 64 <= List.length rnd ->
  (exists w', run0 (process_bundle real a rnd b) w = (Ok tt, w')) <->
  bundle_trusted w a b /\ bundle_signed real b /\
  forall k, bd_identity b = Some k \/ bd_signed b = Some k \/ bd_prekey b = Some k -> ~ small_key k.
Proof.
  intros w a rnd b ia Wb PA Lr. rewrite (start_outcome real real_ok w a rnd b ia Wb PA Lr).
  assert (L1 : List.length (firstn 32 rnd) = 32) by (apply firstn_length_le; lia).
  assert (L2 : List.length (firstn 32 (skipn 32 rnd)) = 32) by (apply firstn_length_le; rewrite skipn_length; lia).
  pose proof PA as (L0 & _). split; intros (T & Sg & K); (split; [exact T|split; [exact Sg|]]).
  - destruct K as (ti & ts & E1 & E2 & _ & A2 & A3 & A4 & _). intros k [E|[E|E]].
    + rewrite E1 in E. injection E as <-. apply (real_agreeable _ _ L1). exact A2.
    + rewrite E2 in E. injection E as <-. apply (real_agreeable _ _ L1). exact A3.
    + apply (real_agreeable _ _ L1). apply A4. exact E.
  - destruct Sg as (ti & ts & r & t & y & E1 & E2 & _). exists ti, ts. split; [exact E1|]. split; [exact E2|].
    split; [apply (real_agreeable _ _ L0); auto|]. split; [apply (real_agreeable _ _ L1); auto|]. split; [apply (real_agreeable _ _ L1); auto|].
    split; [intros one Eo; apply (real_agreeable _ _ L1); auto|apply (real_agreeable _ _ L2); auto].
Qed.
