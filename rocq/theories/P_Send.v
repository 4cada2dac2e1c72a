(** Sending (C20, C36, C41, C42, C43). *)
From Verif Require Import M_Base M_Crypto M_Aes M_Curve M_Proto M_Message M_Ratchet M_State M_Store M_Session
  S_Crypto S_Message S_State S_Shape S_Ratchet S_Session S_Aes S_Api S_Send
  P_Base P_Proto P_Curve P_State P_Shape P_Ratchet P_Message P_Aes P_Chain P_Decrypt P_Receive P_Encrypt P_Record P_Prog.
From Coq Require Import ZifyBool ZifyNat ZifyN Sorted.
Local Open Scope nat_scope.

Definition writes_only (a : addr) (r' : record) : forall X, op X -> Prop := fun X o =>
  match o with
  | OStoreSession b x | OTouchSession b x => b = a /\ x = r'
  | _ => True
  end.
Lemma writes_only_effect : forall a r' X (o : op X) f w, writes_only a r' X o ->
  w_sess (snd (exec_f o f w)) a = w_sess w a \/ w_sess (snd (exec_f o f w)) a = Some r'.
Proof.
  intros a r' X o f w K. destruct (exec_f_cases X o f w) as [E|E]; rewrite E; [auto|].
  destruct o; cbn [exec snd writes_only] in *; auto.
  - destruct K; subst. right. cbn. rewrite addr_eqb_refl. reflexivity.
  - destruct K; subst. destruct (w_shared w); [|auto]. right. cbn. rewrite addr_eqb_refl. reflexivity.
  - destruct (w_shared w); auto.
Qed.
Lemma writes_only_run : forall a r' {A} (p : prog A), pall (writes_only a r') any_ans p -> forall fs w,
  (w_sess (snd (run p fs w)) a = w_sess w a \/ w_sess (snd (run p fs w)) a = Some r') /\
  forall n, w_sess (crash n p fs w) a = w_sess w a \/ w_sess (crash n p fs w) a = Some r'.
Proof.
  intros a r' A p P fs w.
  apply (run_crash_inv (fun w w' => w_sess w' a = w_sess w a \/ w_sess w' a = Some r') p (writes_only a r')); auto.
  - intros w1 w2 w3 [E|E] [F|F]; rewrite ?F; auto.
  - intros. apply writes_only_effect. assumption.
Qed.

Definition after_load (C : Crypto) (a : addr) (r : record) (msg : ciphertext) (s' : state) (rid : pubkey) : prog ciphertext :=
  let r' := rc_set_state r s' in
  pdo (OTouchSession a r') (fun _ =>
  pdo (OIsTrusted a rid Sending) (fun trusted =>
  if negb trusted then PRet (Err (EUntrusted a))
  else
    pdo (OStoreIdentity a rid) (fun _ =>
    pdo (OStoreSession a r') (fun _ =>
    PRet (Ok msg))))).

Lemma encrypt_runs : forall C a pt r s msg s' rid fs w, w_sess w a = Some r -> rc_current r = Some s ->
  encrypt_state C s pt = Ok (msg, s', rid) ->
  run (encrypt_message C a pt) fs w = (match hd_fault fs with FNone => run (after_load C a r msg s' rid) (tl fs) w | _ => (Err EStore, w) end) /\
  forall n, crash (S n) (encrypt_message C a pt) fs w =
    match hd_fault fs with FNone => crash n (after_load C a r msg s' rid) (tl fs) w | _ => w end.
Proof.
  intros C a pt r s msg s' rid fs w E1 E2 E3.
  assert (X : forall n (e : res ciphertext) fs w, crash n (PRet e) fs w = w).
  { intro n. induction n; intros; cbn [crash pstep]; auto. }
  unfold encrypt_message, pdo at 1 6. cbn [run crash pstep exec_f fallible exec].
  destruct (hd_fault fs); cbn [snd].
  - rewrite E1, E2, E3. auto.
  - split; auto.
  - split; auto.
Qed.
Lemma after_load_writes : forall C a r msg s' rid, pall (writes_only a (rc_set_state r s')) any_ans (after_load C a r msg s' rid).
Proof.
  intros. unfold after_load. apply pall_do; [split; reflexivity|]. intros _ _. apply pall_do; [exact I|]. intros t _.
  destruct (negb t); [exact I|]. apply pall_do; [exact I|]. intros _ _. apply pall_do; [split; reflexivity|]. intros; exact I.
Qed.

(** What a run of EncryptMessage can leave behind, whatever fails. *)
Lemma encrypt_effect : forall C a pt r s msg s' rid fs w, w_sess w a = Some r -> rc_current r = Some s ->
  encrypt_state C s pt = Ok (msg, s', rid) ->
  (w_sess (snd (run (encrypt_message C a pt) fs w)) a = Some r \/
   w_sess (snd (run (encrypt_message C a pt) fs w)) a = Some (rc_set_state r s')) /\
  forall n, w_sess (crash n (encrypt_message C a pt) fs w) a = Some r \/
            w_sess (crash n (encrypt_message C a pt) fs w) a = Some (rc_set_state r s').
Proof.
  intros C a pt r s msg s' rid fs w E1 E2 E3. destruct (encrypt_runs C a pt r s msg s' rid fs w E1 E2 E3) as [R K].
  rewrite R. destruct (writes_only_run a _ _ (after_load_writes C a r msg s' rid) (tl fs) w) as [A B]. rewrite E1 in A, B. split.
  - destruct (hd_fault fs); auto.
  - intros [|n]; [left; exact E1|]. rewrite K. destruct (hd_fault fs); auto.
Qed.

(** A returned ciphertext: no store call failed, the identity was trusted, the advanced
    session is stored. *)
Lemma encrypt_success : forall C a pt r s msg s' rid fs w c w', w_sess w a = Some r -> rc_current r = Some s ->
  encrypt_state C s pt = Ok (msg, s', rid) ->
  run (encrypt_message C a pt) fs w = (Ok c, w') ->
  c = msg /\ w_policy w a (w_ident w a) rid Sending = true /\
  w' = set_sess (set_ident (if w_shared w then set_sess w a (rc_set_state r s') else w) a rid) a (rc_set_state r s').
Proof.
  intros C a pt r s msg s' rid fs w c w' E1 E2 E3 E. destruct (encrypt_runs C a pt r s msg s' rid fs w E1 E2 E3) as [R _].
  rewrite R in E. destruct (hd_fault fs); [|discriminate..]. unfold after_load, pdo in E.
  cbn [run exec_f fallible exec] in E.
  set (w1 := if w_shared w then _ else w) in *.
  assert (P : w_policy w1 = w_policy w /\ w_ident w1 = w_ident w) by (unfold w1; destruct (w_shared w); auto).
  destruct P as [P1 P2]. rewrite P1, P2 in E.
  destruct (hd_fault (tl (tl fs))); cbn [snd] in E; [|cbn [run] in E; discriminate..].
  destruct (w_policy w a (w_ident w a) rid Sending) eqn:Q; cbn [negb] in E; [|cbn [run] in E; discriminate].
  cbn [run exec_f fallible exec] in E.
  destruct (hd_fault (tl (tl (tl fs)))); cbn [snd] in E; [|cbn [run] in E; discriminate..].
  cbn [run exec_f fallible exec] in E.
  destruct (hd_fault (tl (tl (tl (tl fs))))); cbn [snd] in E; [|cbn [run] in E; discriminate..].
  cbn [run] in E. injection E as <- <-. auto.
Qed.
(** Without faults and with a trusted identity it succeeds. *)
Lemma encrypt_completes : forall C a pt r s msg s' rid w, w_sess w a = Some r -> rc_current r = Some s ->
  encrypt_state C s pt = Ok (msg, s', rid) -> w_policy w a (w_ident w a) rid Sending = true ->
  run0 (encrypt_message C a pt) w = (Ok msg,
    set_sess (set_ident (if w_shared w then set_sess w a (rc_set_state r s') else w) a rid) a (rc_set_state r s')).
Proof.
  intros C a pt r s msg s' rid w E1 E2 E3 T. unfold run0.
  destruct (encrypt_runs C a pt r s msg s' rid [] w E1 E2 E3) as [R _]. rewrite R. cbn [hd_fault tl].
  unfold after_load, pdo. cbn [run exec_f fallible exec hd_fault tl].
  set (w1 := if w_shared w then _ else w) in *.
  assert (P : w_policy w1 = w_policy w /\ w_ident w1 = w_ident w) by (unfold w1; destruct (w_shared w); auto).
  destruct P as [P1 P2]. rewrite P1, P2, T. cbn [negb run exec_f fallible exec hd_fault tl]. reflexivity.
Qed.
Lemma run_pnp : forall {A} (p : prog A), pnp any_ans p -> forall fs w, fst (run p fs w) <> Panic.
Proof.
  intros A p P fs w. apply (run_no_panic (fun _ _ => True) any_ans (fun _ => True)); [intros; split; exact I| |exact P|exact I].
  clear P. induction p as [r|X o k IH]; cbn; auto.
Qed.
Lemma encrypt_no_panic : forall C a pt fs w, CryptoOk C -> (forall r, w_sess w a = Some r -> wf_record r) ->
  fst (run (encrypt_message C a pt) fs w) <> Panic.
Proof.
  intros C a pt fs w H W. destruct (w_sess w a) as [r|] eqn:Er.
  - specialize (W r eq_refl). destruct (rc_current r) as [s|] eqn:Es.
    + destruct (encrypt_state_exact C s pt H (proj1 W s Es)) as (sc & k & ratchet & local & remote & m & out & _ & _ & _ & _ & _ & _ & _ & _ & _ & _ & X).
      destruct (encrypt_runs C a pt r s _ _ _ fs w Er Es X) as [R _]. rewrite R. destruct (hd_fault fs); [|discriminate..].
      apply run_pnp. unfold after_load. apply pnp_do. intros _ _. apply pnp_do. intros t _. destruct (negb t); [discriminate|].
      apply pnp_do. intros _ _. apply pnp_do. intros _ _. discriminate.
    + unfold encrypt_message, pdo at 1. cbn [run exec_f fallible exec]. destruct (hd_fault fs); [|discriminate..].
      rewrite Er, Es. discriminate.
  - unfold encrypt_message, pdo at 1. cbn [run exec_f fallible exec]. destruct (hd_fault fs); [|discriminate..].
    rewrite Er. discriminate.
Qed.

(** The stored session before and after one attempt. *)
Definition sess_at (C : Crypto) (w : world) (a : addr) (s : state) : Prop :=
  exists r, w_sess w a = Some r /\ wf_record r /\ rc_current r = Some s.
(** Same session, sending chain possibly elsewhere. *)
Definition same_but_chain (s s' : state) : Prop :=
  ss_local s' = ss_local s /\ ss_remote s' = ss_remote s /\ ss_pending s' = ss_pending s /\
  ss_local_reg s' = ss_local_reg s /\ ss_receivers s' = ss_receivers s /\ ss_root s' = ss_root s.

Lemma one_attempt : forall C a w o w1 s ratchet key i, CryptoOk C -> attempt C a w o w1 ->
  sess_at C w a s -> sending_at s ratchet key i ->
  exists s1, sess_at C w1 a s1 /\ same_but_chain s s1 /\
    match o with
    | None => sending_at s1 ratchet key i \/ sending_at s1 ratchet (c_hmac C key [Byte.x02]) (u32 (i + 1))
    | Some (pt, c) => sending_at s1 ratchet (c_hmac C key [Byte.x02]) (u32 (i + 1)) /\
        exists m local remote, ss_local s = pub_bytes local /\ ss_remote s = pub_bytes remote /\
          List.length remote = 32 /\
          whisper C key i ratchet local remote pt m /\ framed s local m c /\
          w_policy w a (w_ident w a) remote Sending = true
    end.
Proof.
  intros C a w o w1 s ratchet key i H A (r & Er & Wr & Ec) (sc & k & Es & Ert & Ek & <- & <-).
  assert (Same : same_but_chain s s) by (unfold same_but_chain; auto 10).
  assert (At : sending_at s ratchet (pck_key k) (pck_index k)) by (exists sc, k; auto).
  pose proof (proj1 Wr s Ec) as Ws.
  assert (Enc : forall pt, exists m local remote out, ss_local s = pub_bytes local /\ ss_remote s = pub_bytes remote /\
    List.length remote = 32 /\
    whisper C (pck_key k) (pck_index k) ratchet local remote pt m /\ framed s local m out /\
    encrypt_state C s pt = Ok (out, with_sender s (Some (with_chainkey sc
            (mkPChainKey (u32 (pck_index k + 1)) (c_hmac C (pck_key k) [Byte.x02])))), remote)).
  { intro pt. destruct (encrypt_state_exact C s pt H Ws) as (sc' & k' & rt & local & remote & m & out & A1 & A2 & A3 & A4 & A5 & A6 & A7 & A8 & A9 & A10 & A11).
    rewrite Es in A1. injection A1 as <-. rewrite Ek in A2. injection A2 as <-. rewrite Ert in A3. injection A3 as <-.
    exists m, local, remote, out. auto 10. }
  set (s' := with_sender s (Some (with_chainkey sc (mkPChainKey (u32 (pck_index k + 1)) (c_hmac C (pck_key k) [Byte.x02]))))) in *.
  assert (At' : sending_at s' ratchet (c_hmac C (pck_key k) [Byte.x02]) (u32 (pck_index k + 1))).
  { eexists _, _. unfold s'. cbn [ss_sender with_sender]. split; [reflexivity|]. cbn. auto. }
  assert (Same' : same_but_chain s s') by (unfold same_but_chain, s'; cbn; auto 10).
  assert (Next : forall x, x = Some r \/ x = Some (rc_set_state r s') ->
    forall w2, w_sess w2 a = x -> exists s1, sess_at C w2 a s1 /\ same_but_chain s s1 /\
    (sending_at s1 ratchet (pck_key k) (pck_index k) \/ sending_at s1 ratchet (c_hmac C (pck_key k) [Byte.x02]) (u32 (pck_index k + 1)))).
  { intros x X w2 E2. destruct X as [-> | ->].
    - exists s. split; [exists r; auto|auto].
    - exists s'. split; [|auto]. exists (rc_set_state r s'). split; [exact E2|]. split; [|reflexivity].
      destruct (Enc []) as (m & local & remote & out & _ & _ & _ & _ & _ & X).
      apply set_state_wf; [exact Wr|]. apply (encrypt_state_wf C s [] out s' remote H Ws X). }
  destruct A as [pt fs w c w' E|pt fs w e w' E|pt fs w n|w w' E].
  - destruct (Enc pt) as (m & local & remote & out & B1 & B2 & B3 & B4 & B5 & B6).
    destruct (encrypt_success C a pt r s out s' remote fs w c w' Er Ec B6 E) as (-> & T & ->).
    exists s'. split; [|split; [exact Same'|split; [exact At'|]]].
    + exists (rc_set_state r s'). cbn [w_sess set_sess]. rewrite addr_eqb_refl. split; [reflexivity|]. split; [|reflexivity].
      apply set_state_wf; [exact Wr|]. apply (encrypt_state_wf C s pt out s' remote H Ws B6).
    + exists m, local, remote. auto 10.
  - destruct (Enc pt) as (m & local & remote & out & B1 & B2 & B3 & B4 & B5 & B6).
    destruct (encrypt_effect C a pt r s out s' remote fs w Er Ec B6) as [K _]. rewrite E in K. cbn [snd] in K.
    eapply Next; [exact K|reflexivity].
  - destruct (Enc pt) as (m & local & remote & out & B1 & B2 & B3 & B4 & B5 & B6).
    destruct (encrypt_effect C a pt r s out s' remote fs w Er Ec B6) as [_ K]. eapply Next; [apply (K n)|reflexivity].
  - rewrite Er in E. eapply Next; [left; reflexivity|exact E].
Qed.

Lemma same_but_chain_trans : forall s1 s2 s3, same_but_chain s1 s2 -> same_but_chain s2 s3 -> same_but_chain s1 s3.
Proof.
  unfold same_but_chain. intros s1 s2 s3 (A & B & D & E & F & G) (A' & B' & D' & E' & F' & G'). intuition congruence.
Qed.
Lemma framed_same : forall s s1 local m c, same_but_chain s s1 -> framed s1 local m c -> framed s local m c.
Proof. intros s s1 local m c (A & B & D & E & _) F. unfold framed in *. rewrite D, E in F. exact F. Qed.

(** What is known about the message sent at position [j] of the chain. *)
Definition sent_at (C : Crypto) (s : state) (ratchet key : bytes) (i : N) (j : nat) (x : bytes * ciphertext) : Prop :=
  exists m local remote, ss_local s = pub_bytes local /\ ss_remote s = pub_bytes remote /\
    whisper C (chain_at C key j) (i + N.of_nat j) ratchet local remote (fst x) m /\ framed s local m (snd x).

Lemma sends_positions : forall C a s0 ratchet key i n w l w', CryptoOk C -> sends C a n w l w' ->
  forall j s, sess_at C w a s -> same_but_chain s0 s ->
  sending_at s ratchet (chain_at C key j) (i + N.of_nat j) -> (i + N.of_nat (j + n) < 4294967296)%N ->
  (exists js, Forall2 (fun x p => sent_at C s0 ratchet key i p x) l js /\ StronglySorted lt js /\
    Forall (fun p => j <= p < j + n) js) /\
  exists j' s', j + List.length l <= j' <= j + n /\ sess_at C w' a s' /\ same_but_chain s0 s' /\
    sending_at s' ratchet (chain_at C key j') (i + N.of_nat j').
Proof.
  intros C a s0 ratchet key i n w l w' H Sd. induction Sd as [w|n w o w1 l w2 A Sd IH]; intros j s D Sm At L.
  - split; [exists []; split; [constructor|split; constructor]|]. exists j, s. cbn [List.length]. split; [lia|auto].
  - destruct (one_attempt C a w o w1 s ratchet _ _ H A D At) as (s1 & D1 & Sm1 & X).
    assert (Nx : sending_at s1 ratchet (c_hmac C (chain_at C key j) [Byte.x02]) (u32 (i + N.of_nat j + 1)) ->
      sending_at s1 ratchet (chain_at C key (S j)) (i + N.of_nat (S j))).
    { rewrite u32_small by (unfold two32; lia). replace (i + N.of_nat j + 1)%N with (i + N.of_nat (S j))%N by lia. auto. }
    pose proof (same_but_chain_trans _ _ _ Sm Sm1) as Sm2.
    destruct o as [[pt c]|].
    + destruct X as (X1 & m & local & remote & B1 & B2 & _ & B4 & B5 & _). apply Nx in X1.
      destruct (IH (S j) s1 D1 Sm2 X1) as [(js & F & So & Rg) (j' & s' & R & Fin)]; [lia|]. split.
      * exists (j :: js). split; [|split].
        -- constructor; [|exact F]. pose proof Sm as (Q1 & Q2 & _). exists m, local, remote. cbn [fst snd].
           split; [congruence|]. split; [congruence|]. split; [exact B4|].
           eapply framed_same; [exact Sm|exact B5].
        -- constructor; [exact So|]. eapply Forall_impl; [|exact Rg]. cbn. intros; lia.
        -- constructor; [lia|]. eapply Forall_impl; [|exact Rg]. cbn. intros; lia.
      * exists j', s'. split; [cbn [List.length]; lia|exact Fin].
    + destruct X as [X|X].
      * destruct (IH j s1 D1 Sm2 X) as [(js & F & So & Rg) (j' & s' & R & Fin)]; [lia|]. split.
        -- exists js. split; [exact F|]. split; [exact So|]. eapply Forall_impl; [|exact Rg]. cbn. intros; lia.
        -- exists j', s'. split; [lia|exact Fin].
      * apply Nx in X. destruct (IH (S j) s1 D1 Sm2 X) as [(js & F & So & Rg) (j' & s' & R & Fin)]; [lia|]. split.
        -- exists js. split; [exact F|]. split; [exact So|]. eapply Forall_impl; [|exact Rg]. cbn. intros; lia.
        -- exists j', s'. split; [lia|exact Fin].
Qed.

Lemma sends_ok_sends : forall C a w l w', sends_ok C a w l w' -> sends C a (List.length l) w l w'.
Proof.
  intros C a w l w' S. induction S as [|w pt fs c w1 l w2 E S IH]; [constructor|].
  cbn [List.length]. exact (sends_cons C a _ _ (Some (pt, c)) _ _ _ (at_sent C a pt fs w c w1 E) IH).
Qed.
Lemma sorted_range : forall js j n, StronglySorted lt js -> Forall (fun p => j <= p < j + n) js -> List.length js = n ->
  js = seq j n.
Proof.
  intros js. induction js as [|x js IH]; intros j n So F L; cbn in L; subst n; [reflexivity|].
  inversion So as [|? ? S1 S2]; subst. inversion F as [|? ? F1 F2]; subst. cbn [List.length seq] in *.
  assert (F3 : Forall (fun p => S x <= p < S x + (j + List.length js - x)) js).
  { rewrite Forall_forall in *. intros y I. specialize (S2 y I). specialize (F2 y I). lia. }
  assert (Q : forall js x n, StronglySorted lt js -> Forall (fun p => x <= p < x + n) js -> List.length js <= n).
  { clear. intros js. induction js as [|y js IH]; intros x n So F; cbn; [lia|].
    inversion So as [|? ? S1 S2]; subst. inversion F as [|? ? F1 F2]; subst.
    assert (Forall (fun p => S y <= p < S y + (x + n - S y)) js).
    { rewrite Forall_forall in *. intros z I. specialize (S2 z I). specialize (F2 z I). lia. }
    specialize (IH _ _ S1 H). lia. }
  pose proof (Q js (S x) _ S1 F3). assert (x = j) by lia. subst x. f_equal. apply IH; auto.
  rewrite Forall_forall in *. intros y I. specialize (S2 y I). specialize (F2 y I). lia.
Qed.
