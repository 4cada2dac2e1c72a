(** The headers of every history (C69). *)
From Verif Require Import M_Base M_Crypto M_Aes M_Curve M_Proto M_Message M_Ratchet M_State M_Store M_Session M_Group
  S_Crypto S_Message S_State S_Shape S_Ratchet S_Session S_Aes S_Api S_Send S_Group S_Curve S_X3dh S_Receive S_Conv S_History S_Header
  P_Base P_Proto P_Curve P_State P_Shape P_Ratchet P_Message P_Aes P_Chain P_Decrypt P_Receive P_Encrypt P_Record P_Prog P_Api
  P_Init P_Send P_Conv P_X3dh P_Conv2 P_Bundle P_DecApi P_DecTop P_DecMore P_Replay P_Trust P_History P_Size.
From Coq Require Import ZifyBool ZifyNat ZifyN.
Local Open Scope nat_scope.

(** *** The previous counter of a session *)
Lemma set_keys_prev : forall s eph mk s', st_set_message_keys s eph mk = Ok s' -> ss_prevctr s' = ss_prevctr s.
Proof.
  intros s eph mk s' E. unfold st_set_message_keys in E. destruct (st_receiver_chain s eph); [|discriminate].
  apply (f_equal (fun x => match x with Ok y => ss_prevctr y | _ => ss_prevctr s' end)) in E. symmetry. exact E.
Qed.
Lemma skip_prev : forall C n s eph ck s' ck', skip_keys C n s eph ck = Ok (s', ck') -> ss_prevctr s' = ss_prevctr s.
Proof.
  induction n as [|n IH]; intros s eph ck s' ck' E; cbn [skip_keys] in E.
  - apply (f_equal (fun x => match x with Ok (y, _) => ss_prevctr y | _ => ss_prevctr s' end)) in E. symmetry. exact E.
  - destruct (st_set_message_keys s eph (ck_message_keys C ck)) as [s1| |] eqn:E1; cbn [bind] in E; [|discriminate..].
    rewrite (IH _ _ _ _ _ E). exact (set_keys_prev _ _ _ _ E1).
Qed.
Lemma take_prev : forall s eph n, ss_prevctr (fst (st_take_message_keys s eph n)) = ss_prevctr s.
Proof.
  intros s eph n. unfold st_take_message_keys. destruct (st_receiver_chain s eph); [|reflexivity]. destruct (last_msgkey n _); reflexivity.
Qed.
Lemma message_keys_prev : forall C s eph ck n mk s', get_message_keys C s eph ck n = Ok (mk, s') -> ss_prevctr s' = ss_prevctr s.
Proof.
  intros C s eph ck n mk s' E. unfold get_message_keys in E. destruct (N.ltb n (ck_index ck)).
  - pose proof (take_prev s eph n) as T. destruct (st_take_message_keys s eph n) as [s1 [[k|]| |]]; try discriminate. cbn [fst] in T.
    apply (f_equal (fun x => match x with Ok (_, y) => ss_prevctr y | _ => ss_prevctr s' end)) in E. rewrite <- T. symmetry. exact E.
  - destruct (if N.ltb max_jumps (n - ck_index ck) then st_with_self s else Ok true) as [self| |]; cbn [bind] in E; [|discriminate..].
    destruct (negb self); [discriminate|].
    destruct (skip_keys C (N.to_nat (n - ck_index ck)) s eph ck) as [[s1 ck1]| |] eqn:E1; cbn [bind] in E; [|discriminate..].
    unfold st_set_receiver_chain_key in E. destruct (st_receiver_chain s1 eph); cbn [bind] in E; [|discriminate].
    apply (f_equal (fun x => match x with Ok (_, y) => ss_prevctr y | _ => ss_prevctr s' end)) in E.
    rewrite <- (skip_prev _ _ _ _ _ _ _ E1). symmetry. exact E.
Qed.
Lemma chain_prev : forall C rnd s eph ck s' rest, wf_state s -> get_chain_key C rnd s eph = (Ok (ck, s'), rest) ->
  match st_receiver_chain s eph with
  | Some _ => ss_prevctr s' = ss_prevctr s
  | None => forall sc k, ss_sender s = Some sc -> pc_key sc = Some k -> ss_prevctr s' = N.pred (pck_index k)
  end.
Proof.
  intros C rnd s eph ck s' rest W E. pose proof (wf_receiver_key s eph W) as R. unfold get_chain_key in E.
  destruct (st_receiver_chain s eph) as [c|].
  - destruct R as (k & _ & _ & _ & R). rewrite R in E.
    apply (f_equal (fun x => match x with (Ok (_, y), _) => ss_prevctr y | _ => ss_prevctr s' end)) in E. symmetry. exact E.
  - rewrite R in E. intros sc k Es Ek.
    destruct (do root <- st_root s; do ours <- st_sender_ratchet_priv C s; create_chain C root ours eph) as [[rroot rchain]| |]; [|discriminate..].
    destruct (gen_keypair C rnd) as [[kp| |] rest']; [|discriminate..].
    destruct (create_chain C rroot (kp_priv kp) eph) as [[sroot schain]| |]; cbn [bind] in E; [|discriminate..].
    unfold st_sender_chain_key in E. rewrite Es, Ek in E. unfold new_chain_key in E. destruct (negb _); cbn [bind] in E; [discriminate|].
    cbn [ck_index] in E.
    apply (f_equal (fun x => match x with (Ok (_, y), _) => ss_prevctr y | _ => ss_prevctr s' end)) in E.
    cbn [ss_prevctr st_set_sender_chain with_sender with_prevctr] in E. rewrite <- E. destruct (N.ltb_spec 0 (pck_index k)); lia.
Qed.
Lemma session_prev : forall C rnd s m pt s' rest, wf_state s -> decrypt_session C rnd s m = (Ok (pt, s'), rest) ->
  match st_receiver_chain s (sg_ratchet m) with
  | Some _ => ss_prevctr s' = ss_prevctr s
  | None => forall sc k, ss_sender s = Some sc -> pc_key sc = Some k -> ss_prevctr s' = N.pred (pck_index k)
  end.
Proof.
  intros C rnd s m pt s' rest W E. unfold decrypt_session in E. destruct (ss_sender s) as [sc0|] eqn:Es; [|discriminate].
  destruct (negb (N.eqb (sg_version m) (st_version s))); [discriminate|].
  destruct (get_chain_key C rnd s (sg_ratchet m)) as [[[ck s1]| |] rest1] eqn:E1; [|discriminate..].
  pose proof (chain_prev _ _ _ _ _ _ _ W E1) as Q. rewrite Es in Q.
  destruct (get_message_keys C s1 (sg_ratchet m) ck (sg_counter m)) as [[mk s2]| |] eqn:E2; cbn [bind] in E; [|discriminate..].
  apply message_keys_prev in E2.
  destruct (st_remote_identity s2) as [[rid|]| |]; cbn [bind] in E; [|discriminate..].
  destruct (st_local_identity s2) as [lid| |]; cbn [bind] in E; [|discriminate..].
  destruct (verify_mac C m (mk_mac mk) rid lid) as [v| |]; cbn [bind] in E; [|discriminate..].
  destruct (negb v); [discriminate|].
  destruct (cbc_decrypt C (mk_cipher mk) (mk_iv mk) (sg_body m)) as [x| |]; cbn [bind] in E; [|discriminate..].
  assert (Z : ss_prevctr s' = ss_prevctr s1).
  { rewrite <- E2. apply (f_equal (fun x => match x with (Ok (_, y), _) => ss_prevctr y | _ => ss_prevctr s' end)) in E. symmetry. exact E. }
  rewrite Z. exact Q.
Qed.
Lemma alice_prev : forall C rnd ident base ti ts ot tr s rest, init_alice C rnd ident base ti ts ot tr = (Ok s, rest) -> ss_prevctr s = 0%N.
Proof.
  intros C rnd ident base ti ts ot tr s rest E. unfold init_alice in E.
  destruct (gen_keypair C rnd) as [[kp| |] r] eqn:G; [|discriminate..].
  destruct (agreement C (kp_priv ident) ts) as [d1| |]; cbn [bind] in E; [|discriminate..].
  destruct (agreement C (kp_priv base) ti) as [d2| |]; cbn [bind] in E; [|discriminate..].
  destruct (agreement C (kp_priv base) ts) as [d3| |]; cbn [bind] in E; [|discriminate..].
  match goal with H : context [bind ?x _] |- _ => destruct x as [sec| |]; cbn [bind] in H; [|discriminate..] end.
  destruct (derive_keys C sec) as [[root chain]| |] eqn:Dk; cbn [bind] in E; [|discriminate..].
  destruct (create_chain C root (kp_priv kp) tr) as [[sroot schain]| |] eqn:Cc; cbn [bind] in E; [|discriminate..].
  apply (f_equal (fun x => match x with (Ok a, _) => ss_prevctr a | _ => ss_prevctr s end)) in E. symmetry. exact E.
Qed.

(** *** Counting *)
Lemma sent_cons : forall x l k, sent_in (x :: l) k = (sent_in l k + if Nat.eqb (nt_epoch x) k then 1 else 0)%N.
Proof. intros x l k. unfold sent_in. cbn [filter]. destruct (Nat.eqb (nt_epoch x) k); cbn [List.length]; lia. Qed.
Lemma sent_none : forall l k, (forall x, In x l -> nt_epoch x <> k) -> sent_in l k = 0%N.
Proof.
  induction l as [|x l IH]; intros k F; [reflexivity|]. rewrite sent_cons, IH by (intros; apply F; right; assumption).
  destruct (Nat.eqb_spec (nt_epoch x) k) as [E|]; [|reflexivity]. destruct (F x (or_introl eq_refl) E).
Qed.

Section Header.
Variable C : Crypto.
Hypothesis H : CryptoOk C.
Variable b : bundle.
Variable at_ : bool -> addr.

Definition header_ok (keys : list pubkey) (notes : list note) (x : note) : Prop :=
  exists m, inner (nt_cipher x) = Some m /\ sg_version m = 3%N /\ nth_error keys (nt_epoch x) = Some (sg_ratchet m) /\
    sg_counter m = nt_counter x /\ sg_prev m = N.pred (sent_in notes (nt_epoch x - 2)).
Definition headed (dev : bool -> world) (par : bool -> party) (keys : list pubkey) (notes : list note) : Prop :=
  (forall side, Nat.odd (p_epoch (par side)) = side) /\
  (forall side, p_sent (par side) = sent_in notes (p_epoch (par side))) /\
  (forall side : bool, side = true \/ p_epoch (par false) <> 0 -> exists s, current_session (dev side) (at_ side) = Some s /\
     ss_prevctr s = N.pred (sent_in notes (p_epoch (par side) - 2))) /\
  (forall x, In x notes -> nt_from x = Nat.odd (nt_epoch x) /\ nt_epoch x <> 0 /\ nt_epoch x <= p_epoch (par (nt_from x)) /\
     (nt_counter x < sent_in notes (nt_epoch x))%N /\ header_ok keys notes x) /\
  NoDup (map (fun x => (nt_epoch x, nt_counter x)) notes).

(** The session state before and after a message of the conversation is received. *)
Lemma received_state : forall k ks base dev par keys notes side ep n pt c rnd fs pt' w',
  in_step C b at_ k ks base dev par keys notes -> In (mkNote (negb side) ep n pt c) notes -> receivable (par side) ep n ->
  fresh C keys (par side) ep rnd -> run (decrypt_message C (at_ side) rnd c) fs (dev side) = (Ok pt', w') ->
  exists s m s' rest, party_ok C (sroot C k) (schain C k) ks (sid C k side) (sid C k (negb side)) (par side) s /\
    decrypt_session C rnd s m = (Ok (pt, s'), rest) /\ sg_ratchet m = kpub C ks ep /\
    current_session w' (at_ side) = Some s' /\
    (side = true \/ p_epoch (par false) <> 0 -> current_session (dev side) (at_ side) = Some s).
Proof using H.
  intros k ks base dev par keys notes side ep n pt c rnd fs pt' w' (So & Eb & Ek & K & (l & El) & Lk & Ee & E1 & Wd & Pr & Ss & Nb & Nt) I0 Rv Fr E.
  destruct (peer_epochs par side Ee) as [Ee' Em]. rewrite Em in Lk. subst keys.
  rewrite Forall_forall in Nt. destruct (Nt _ I0) as ((Le & Ne) & G & m & Wh & F). cbn [nt_epoch nt_from nt_counter nt_text nt_cipher] in *.
  rewrite Bool.negb_involutive in Wh.
  destruct (note_wf C H b k ks par (mkNote (negb side) ep n pt c) m So) as [Wm Wc]; cbn [nt_epoch nt_from nt_counter nt_text nt_cipher];
    rewrite ?Bool.negb_involutive; auto. cbn [nt_cipher] in Wc. specialize (Wc _ _ _ F).
  assert (Er : sg_ratchet m = kpub C ks ep) by apply (whisper_fields _ _ _ _ _ _ _ _ Wh).
  destruct (Bool.bool_dec side true) as [Sd|Sd]; [|destruct (Nat.eq_dec (p_epoch (par false)) 0) as [Z|Z]].
  2:{ apply Bool.not_true_is_false in Sd. subst side. cbn [negb] in *. destruct (Nb Z) as (Ep & Pub & Un).
    destruct F as [[_ [F _]]|(_ & reg & pm & Gr & -> & Fm)]; [contradiction|].
    destruct (responder_state C H b k (dev false) pm reg m So (Wd false) Pub Gr Fm) as (s & B & P0 & Pn & Ea).
    destruct (slens C H k) as [L1 L2].
    assert (P : party_ok C (sroot C k) (schain C k) ks (sid C k false) (sid C k (negb false)) (par false) s).
    { rewrite Ep, El. change (k_sb k :: l) with ([k_sb k] ++ l). apply (party_ok_app C _ _ L1 L2). exact P0. }
    destruct (advance C H k ks false (par false) (p_epoch (par true)) s ep n pt m rnd K P Lk Ee' Le Rv Fr G Wh) as (K' & s' & rest & D & P' & Kp).
    destruct Fm as (F1 & F2 & F3 & F4 & F5 & F6 & F7).
    assert (Un' : unused_base (dev false) (at_ false) (pm_base pm)) by (rewrite F5, <- Eb; exact Un).
    assert (D' := D). rewrite <- F7 in D'.
    destruct (prekey_new_result C _ _ _ _ _ _ _ _ _ _ _ (Wd false) Wc Un' B D' E) as (_ & r' & Er' & Ec').
    exists s, m, s', rest. split; [exact P|]. split; [exact D|]. split; [exact Er|]. split; [unfold current_session; rewrite Er'; exact Ec'|].
    intros [X|X]; [discriminate|contradiction]. }
  all: destruct (Ss side) as (r & s & Ers & Ec & P & Ea & Pd); [destruct side; [left; reflexivity|right]; congruence|].
  all: destruct (advance C H k ks side (par side) (p_epoch (par (negb side))) s ep n pt m rnd K P Lk Ee' Le Rv Fr G Wh) as (K' & s' & rest & D & P' & Kp).
  all: exists s, m, s', rest; split; [exact P|]; split; [exact D|]; split; [exact Er|].
  all: split; [|intros _; unfold current_session; rewrite Ers; exact Ec].
  all: destruct F as [[-> _]|((Sn & _) & reg & pm & Gr & -> & (F1 & F2 & F3 & F4 & F5 & F6 & F7))].
  all: try (destruct (signal_result C _ _ _ _ _ _ _ _ _ _ _ _ Ers Ec D E) as (_ & Ew); unfold current_session; rewrite Ew; reflexivity).
  all: assert (D' := D); rewrite <- F7 in D'.
  all: assert (Eb' : ss_alice_base s = Byte.x05 :: pm_base pm) by (rewrite F5; exact Ea).
  all: destruct (prekey_known_result C _ _ _ _ _ _ _ _ _ _ _ _ (Wd side) Wc Ers Ec Eb' D' E) as (_ & Ew); unfold current_session; rewrite Ew; reflexivity.
Qed.
Lemma received_prev : forall k ks base dev par keys notes side ep n pt c rnd fs pt' w',
  in_step C b at_ k ks base dev par keys notes -> In (mkNote (negb side) ep n pt c) notes -> receivable (par side) ep n ->
  fresh C keys (par side) ep rnd -> run (decrypt_message C (at_ side) rnd c) fs (dev side) = (Ok pt', w') ->
  exists s', current_session w' (at_ side) = Some s' /\
    if Nat.eqb ep (S (p_epoch (par side))) then ss_prevctr s' = N.pred (p_sent (par side))
    else forall s, current_session (dev side) (at_ side) = Some s -> ss_prevctr s' = ss_prevctr s.
Proof using H.
  intros k ks base dev par keys notes side ep n pt c rnd fs pt' w' St I0 Rv Fr E.
  destruct (received_state _ _ _ _ _ _ _ _ _ _ _ _ _ _ _ _ St I0 Rv Fr E) as (s & m & s' & rest & P & D & Er & Ec & Es).
  destruct St as (So & Eb & Ek & K & (l & El) & Lk & Ee & E1 & Wd & Pr & Ss & Nb & Nt).
  rewrite Forall_forall in Nt. destruct (Nt _ I0) as ((Le & Ne) & _). cbn [nt_epoch nt_from] in Le, Ne.
  exists s'. split; [exact Ec|]. destruct (slens C H k) as [L1 L2].
  pose proof (views_lt_keys C _ _ L1 L2 _ _ _ _ _ P) as VL.
  pose proof P as (W & _ & _ & L & _ & (sc & S1 & S2 & S3 & S4 & _) & Gs & F & ND & Lt).
  pose proof (session_prev _ _ _ _ _ _ _ W D) as Q. unfold st_receiver_chain in Q. rewrite Er in Q.
  destruct (Nat.eqb_spec ep (S (p_epoch (par side)))) as [X|X].
  - rewrite (find_no_view C _ _ ks (p_views (par side)) (ss_receivers s) ep K F VL) in Q.
    + exact (Q _ _ S1 S4).
    + destruct side; cbn [negb] in Le; lia.
    + intro J. apply in_map_iff in J. destruct J as (v & Ev & Iv). rewrite Forall_forall in Lt. specialize (Lt v Iv). lia.
  - assert (Kn : exists v, In v (p_views (par side)) /\ rv_epoch v = ep) by (destruct Rv as [v Iv Ev _|v Iv Ev _ _|Y _]; eauto; contradiction).
    destruct Kn as (v & Iv & Ev). destruct (find_view C _ _ ks _ _ v K F ND VL Iv) as (cc & Fc & _). rewrite Ev in Fc. rewrite Fc in Q.
    intros s0 E0. rewrite Es in E0; [injection E0 as <-; exact Q|].
    destruct side; [left; reflexivity|right]. intro Z. destruct (Nb Z) as (Ep & _). rewrite Ep in Iv. destruct Iv.
Qed.

Lemma sent_header : forall k ks base dev par keys notes side pt fs c w', in_step C b at_ k ks base dev par keys notes ->
  (side = true \/ p_epoch (par false) <> 0) -> run (encrypt_message C (at_ side) pt) fs (dev side) = (Ok c, w') ->
  forall s, current_session (dev side) (at_ side) = Some s ->
  exists m s', inner c = Some m /\ sg_version m = 3%N /\ nth_error keys (p_epoch (par side)) = Some (sg_ratchet m) /\
    sg_counter m = p_sent (par side) /\ sg_prev m = ss_prevctr s /\
    current_session w' (at_ side) = Some s' /\ ss_prevctr s' = ss_prevctr s.
Proof using H.
  intros k ks base dev par keys notes side pt fs c w' (So & Eb & Ek & K & (l & El) & Lk & Ee & E1 & Wd & Pr & Ss & Nb & Nt) Sd E s Es.
  destruct (Ss side Sd) as (r & s0 & Er & Ec & P & _). unfold current_session in Es. rewrite Er, Ec in Es. injection Es as ->.
  pose proof P as (W & _ & _ & L & _ & (sc & S1 & S2 & S3 & S4 & _) & Gs & F & ND & Lt).
  destruct (encrypt_state_exact C s pt H W) as (sc' & k' & rt & lo & rem & m0 & out & X1 & X2 & X3 & X4 & X5 & X6 & X7 & X8 & _ & _ & En).
  destruct (built_from _ _ _ _ _ _ H W En) as (ra & lo' & re & kk & mk & body & m & _ & _ & _ & _ & _ & (sc2 & Y1 & Y2 & Y3) & _ & _ & Em & Frm).
  destruct (encrypt_success _ _ _ _ _ _ _ _ _ _ _ _ Er Ec En E) as (-> & _ & Ew).
  rewrite S1 in Y1. injection Y1 as <-. rewrite S4 in Y2. injection Y2 as <-. rewrite S2 in Y3. apply pub_bytes_inj in Y3. cbn [pck_index] in Em.
  assert (Fm : sg_version m = 3%N /\ sg_ratchet m = ra /\ sg_counter m = p_sent (par side) /\ sg_prev m = ss_prevctr s).
  { unfold new_signal in Em. destruct (mac C _ _ _ _) as [t| |]; cbn [bind] in Em; [|discriminate..]. injection Em as <-. cbn. auto. }
  destruct Fm as (F1 & F2 & F3 & F4).
  eexists m, _. split.
  { unfold framed in Frm. destruct (ss_pending s); [destruct Frm as (bs & _ & _ & ->)|subst out]; reflexivity. }
  split; [exact F1|]. split.
  { rewrite F2, <- Y3, Ek. unfold kpub, kkey. rewrite nth_error_map. rewrite (nth_error_nth' ks [] L). reflexivity. }
  split; [exact F3|]. split; [exact F4|]. split; [unfold current_session; rewrite Ew; cbn [set_sess w_sess]; rewrite addr_eqb_refl; reflexivity|]. reflexivity.
Qed.

Lemma headed_step : forall base dev par keys notes, history C at_ b base dev par keys notes ->
  (exists k ks, in_step C b at_ k ks base dev par keys notes) /\ headed dev par keys notes.
Proof using H.
  intros base dev par keys notes Hy. induction Hy as
    [dev ia ib sb ob rnd fs w' WA WB Wb PA Pub Lr Eb Un Nk E
    |dev par keys notes side pt fs c w' Hy [(k & ks & St) Hd] Sd G E
    |dev par keys notes side ep n pt c rnd fs pt' w' Hy [(k & ks & St) Hd] I0 Rv Fr E
    |dev par keys notes side w' Hy [(k & ks & St) Hd] Al].
  - split; [eexists; eexists; eapply start_step; eauto|]. split; [intros []; reflexivity|]. split; [intros []; reflexivity|].
    split; [|split; [intros x []|constructor]].
    intros [] [Q|Q]; try (cbn in Q; congruence); cbn [upd Bool.eqb start_party p_epoch].
    all: destruct (bundle_success _ _ _ _ _ _ _ E) as (ti & ts & bp & rnd1 & s0 & rest & B1 & B2 & B3 & B4 & B5 & B6 & B7).
    all: eexists; split; [unfold current_session; rewrite B7; unfold bundle_world; cbn; rewrite addr_eqb_refl; reflexivity|].
    all: cbn; exact (alice_prev _ _ _ _ _ _ _ _ _ _ B6).
  - split; [exists k, ks; eapply send_step; eauto|]. destruct Hd as (H1 & H2 & H3 & H4 & H5).
    destruct (H3 side Sd) as (s & Es & Ep). destruct (sent_header _ _ _ _ _ _ _ _ _ _ _ _ St Sd E s Es) as (m & s' & M1 & M2 & M3 & M4 & M5 & M6 & M7).
    assert (Ez : p_epoch (par side) <> 0).
    { destruct side; [|destruct Sd; [discriminate|assumption]]. pose proof (H1 true) as O. intro Z. rewrite Z in O. discriminate. }
    assert (Eu : forall y, p_epoch (upd par side (sent_one (par side)) y) = p_epoch (par y)).
    { intro y. unfold upd. destruct (Bool.eqb y side) eqn:Q; [|reflexivity]. apply Bool.eqb_prop in Q. subst y. reflexivity. }
    set (x0 := mkNote side (p_epoch (par side)) (p_sent (par side)) pt c) in *.
    assert (Lower : forall k0, Nat.odd k0 = side -> k0 <= p_epoch (par side) -> sent_in (x0 :: notes) (k0 - 2) = sent_in notes (k0 - 2)).
    { intros k0 O L. rewrite sent_cons. cbn [nt_epoch x0]. destruct (Nat.eqb_spec (p_epoch (par side)) (k0 - 2)); lia. }
    assert (Other : forall k0, Nat.odd k0 <> side -> sent_in (x0 :: notes) k0 = sent_in notes k0).
    { intros k0 O. rewrite sent_cons. cbn [nt_epoch x0]. destruct (Nat.eqb_spec (p_epoch (par side)) k0) as [Q|]; [|lia]. subst k0. destruct O. apply H1. }
    assert (Odd2 : forall k0, 2 <= k0 -> Nat.odd (k0 - 2) = Nat.odd k0).
    { intros k0 L. destruct k0 as [|[|k0]]; [lia|lia|]. cbn [Nat.sub]. rewrite Nat.sub_0_r. reflexivity. }
    assert (Prev : forall x, nt_epoch x <> 0 -> nt_epoch x <= p_epoch (par (Nat.odd (nt_epoch x))) -> sent_in (x0 :: notes) (nt_epoch x - 2) = sent_in notes (nt_epoch x - 2)).
    { intros x Nz Lx. destruct (Bool.bool_dec (Nat.odd (nt_epoch x)) side) as [Q|Q]; [apply Lower; [exact Q|rewrite Q in Lx; exact Lx]|].
      destruct (le_lt_dec 2 (nt_epoch x)); [apply Other; rewrite Odd2 by assumption; exact Q|].
      rewrite sent_cons. cbn [nt_epoch x0]. destruct (Nat.eqb_spec (p_epoch (par side)) (nt_epoch x - 2)); lia. }
    split; [intro y; rewrite Eu; apply H1|]. split; [|split; [|split]].
    + intro y. rewrite Eu. rewrite sent_cons. cbn [nt_epoch x0]. unfold upd. destruct (Bool.eqb y side) eqn:Q.
      * apply Bool.eqb_prop in Q. subst y. cbn [sent_one p_sent]. rewrite Nat.eqb_refl, H2. reflexivity.
      * destruct (Nat.eqb_spec (p_epoch (par side)) (p_epoch (par y))) as [X|X]; [|rewrite H2; lia].
        pose proof (H1 side). pose proof (H1 y). rewrite X in *. destruct y, side; congruence || discriminate.
    + intros y Sy. rewrite Eu. assert (Sy' : y = true \/ p_epoch (par false) <> 0) by (rewrite Eu in Sy; exact Sy).
      assert (Z : sent_in (x0 :: notes) (p_epoch (par y) - 2) = sent_in notes (p_epoch (par y) - 2)).
      { apply (Prev (mkNote y (p_epoch (par y)) 0 pt c)); cbn [nt_epoch]; [|rewrite H1; lia].
        destruct y; [|destruct Sy'; [discriminate|assumption]]. pose proof (H1 true) as O. intro Z. rewrite Z in O. discriminate. }
      rewrite Z. unfold upd. destruct (Bool.eqb y side) eqn:Q; [|exact (H3 y Sy')]. apply Bool.eqb_prop in Q. subst y.
      exists s'. split; [exact M6|]. rewrite M7. exact Ep.
    + intros x [<-|J].
      * cbn [nt_from nt_epoch nt_counter x0]. split; [symmetry; apply H1|]. split; [exact Ez|]. split; [rewrite Eu; lia|].
        split; [rewrite sent_cons; cbn [nt_epoch x0]; rewrite Nat.eqb_refl, <- H2; lia|].
        exists m. cbn [nt_cipher nt_epoch nt_counter x0]. rewrite (Lower _ (H1 side) (le_n _)), M5, Ep. auto.
      * destruct (H4 x J) as (Q1 & Q2 & Q3 & Q4 & (mm & R1 & R2 & R3 & R4 & R5)). split; [exact Q1|]. split; [exact Q2|]. split; [rewrite Eu; exact Q3|].
        split; [rewrite sent_cons; lia|]. exists mm. rewrite (Prev x Q2) by (rewrite <- Q1; exact Q3). auto.
    + cbn [map]. constructor; [|exact H5]. cbn [nt_epoch nt_counter x0]. intro J. apply in_map_iff in J. destruct J as (x & Ex & J).
      injection Ex as Ex1 Ex2. destruct (H4 x J) as (_ & _ & _ & Q4 & _). rewrite Ex1, Ex2, <- H2 in Q4. lia.
  - destruct (received_prev _ _ _ _ _ _ _ _ _ _ _ _ _ _ _ _ St I0 Rv Fr E) as (s' & Es' & Pv).
    split; [exists k, (grown ks (par side) ep rnd); eapply received_step; eauto|]. destruct Hd as (H1 & H2 & H3 & H4 & H5).
    assert (Ka : exists z, keys_after C keys (par side) ep rnd = keys ++ z).
    { unfold keys_after. destruct (Nat.eqb ep _); [eexists; reflexivity|exists []; rewrite app_nil_r; reflexivity]. }
    destruct Ka as [z Ka]. unfold party_after in *. destruct (Nat.eqb_spec ep (S (p_epoch (par side)))) as [X|X].
    + subst ep.
      assert (Nw : sent_in notes (S (S (p_epoch (par side)))) = 0%N).
      { apply sent_none. intros x J Q. destruct (H4 x J) as (Q1 & _ & Q3 & _). rewrite Q1, Q in Q3. change (Nat.odd (S (S (p_epoch (par side))))) with (Nat.odd (p_epoch (par side))) in Q3.
        rewrite H1 in Q3. lia. }
      split; [|split; [|split; [|split; [|exact H5]]]].
      * intro y. unfold upd. destruct (Bool.eqb y side) eqn:Q; [|apply H1]. apply Bool.eqb_prop in Q. subst y. cbn [p_epoch]. exact (H1 side).
      * intro y. unfold upd. destruct (Bool.eqb y side) eqn:Q; [|apply H2]. cbn [p_epoch p_sent]. symmetry. exact Nw.
      * intros y Sy. unfold upd in *. destruct (Bool.eqb y side) eqn:Q.
        { apply Bool.eqb_prop in Q. subst y. exists s'. split; [exact Es'|]. cbn [p_epoch Nat.sub]. rewrite Nat.sub_0_r, Pv, H2. reflexivity. }
        apply H3. destruct y; [left; reflexivity|right]. destruct side; [|discriminate]. cbn [Bool.eqb] in Sy. destruct Sy; [discriminate|assumption].
      * intros x J. destruct (H4 x J) as (Q1 & Q2 & Q3 & Q4 & (mm & R1 & R2 & R3 & R4)). split; [exact Q1|]. split; [exact Q2|].
        split; [unfold upd; destruct (Bool.eqb (nt_from x) side) eqn:Q; [apply Bool.eqb_prop in Q; rewrite Q in Q3; cbn [p_epoch]; lia|exact Q3]|].
        split; [exact Q4|]. exists mm. split; [exact R1|]. split; [exact R2|]. split; [|exact R4]. rewrite Ka.
        rewrite nth_error_app1; [exact R3|]. apply nth_error_Some. rewrite R3. discriminate.
    + assert (Eu : forall y, p_epoch (upd par side (mkParty (p_epoch (par side)) (p_sent (par side)) (map (fun v => if Nat.eqb (rv_epoch v) ep then view_after n v else v) (p_views (par side)))) y) = p_epoch (par y)
        /\ p_sent (upd par side (mkParty (p_epoch (par side)) (p_sent (par side)) (map (fun v => if Nat.eqb (rv_epoch v) ep then view_after n v else v) (p_views (par side)))) y) = p_sent (par y)).
      { intro y. unfold upd. destruct (Bool.eqb y side) eqn:Q; [|auto]. apply Bool.eqb_prop in Q. subst y. auto. }
      split; [intro y; rewrite (proj1 (Eu y)); apply H1|]. split; [intro y; rewrite (proj1 (Eu y)), (proj2 (Eu y)); apply H2|].
      split; [|split; [|exact H5]].
      * intros y Sy. rewrite (proj1 (Eu y)). rewrite (proj1 (Eu false)) in Sy. destruct (H3 y Sy) as (s & Es & Ep). unfold upd. destruct (Bool.eqb y side) eqn:Q; [|exists s; auto].
        apply Bool.eqb_prop in Q. subst y. exists s'. split; [exact Es'|]. rewrite (Pv s Es). exact Ep.
      * intros x J. rewrite (proj1 (Eu (nt_from x))). destruct (H4 x J) as (Q1 & Q2 & Q3 & Q4 & (mm & R1 & R2 & R3 & R4)). split; [exact Q1|]. split; [exact Q2|]. split; [exact Q3|].
        split; [exact Q4|]. exists mm. split; [exact R1|]. split; [exact R2|]. split; [|exact R4]. rewrite Ka.
        rewrite nth_error_app1; [exact R3|]. apply nth_error_Some. rewrite R3. discriminate.
  - split; [exists k, ks; apply other_step; auto|]. destruct Hd as (H1 & H2 & H3 & H4 & H5).
    split; [exact H1|]. split; [exact H2|]. split; [|auto].
    intros y Sy. destruct (H3 y Sy) as (s & Es & Ep). exists s. split; [|exact Ep]. unfold upd. destruct (Bool.eqb y side) eqn:Q; [|exact Es].
    apply Bool.eqb_prop in Q. subst y. destruct Al as (_ & _ & [[_ Al]|(-> & Z & _)]); [rewrite Al; exact Es|destruct Sy; [discriminate|contradiction]].
Qed.

Theorem headers : forall base dev par keys notes x, history C at_ b base dev par keys notes -> In x notes ->
  exists m, inner (nt_cipher x) = Some m /\ sg_version m = 3%N /\ nth_error keys (nt_epoch x) = Some (sg_ratchet m) /\
    sg_counter m = nt_counter x /\ sg_prev m = N.pred (sent_in notes (nt_epoch x - 2)).
Proof using H. intros base dev par keys notes x Hy J. destruct (headed_step _ _ _ _ _ Hy) as [_ (_ & _ & _ & H4 & _)]. apply (H4 x J). Qed.
Theorem numbered : forall base dev par keys notes, history C at_ b base dev par keys notes ->
  NoDup (map (fun x => (nt_epoch x, nt_counter x)) notes) /\
  forall x, In x notes -> nt_from x = Nat.odd (nt_epoch x) /\ (nt_counter x < sent_in notes (nt_epoch x))%N.
Proof using H.
  intros base dev par keys notes Hy. destruct (headed_step _ _ _ _ _ Hy) as [_ (_ & _ & _ & H4 & H5)]. split; [exact H5|].
  intros x J. destruct (H4 x J) as (A & _ & _ & B & _). auto.
Qed.
End Header.
