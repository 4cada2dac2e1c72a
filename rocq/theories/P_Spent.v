(** A message of a known epoch that is behind the chain and has no saved key (C24). *)
From Verif Require Import M_Base M_Crypto M_Aes M_Curve M_Proto M_Message M_Ratchet M_State M_Store M_Session M_Group
  S_Crypto S_Message S_State S_Shape S_Ratchet S_Session S_Aes S_Api S_Send S_Group S_Curve S_X3dh S_Receive S_Conv S_History S_Atomic S_Spent
  P_Base P_Proto P_Curve P_State P_Shape P_Ratchet P_Message P_Aes P_Chain P_Decrypt P_Receive P_Encrypt P_Record P_Prog P_Api
  P_Init P_Send P_Conv P_X3dh P_Conv2 P_Bundle P_DecApi P_DecTop P_DecMore P_Replay P_Trust P_History.
From Coq Require Import ZifyBool ZifyNat ZifyN.
Local Open Scope nat_scope.

Definition only_writes (a : addr) (r : record) : forall X, op X -> Prop := fun X o =>
  match o with OStoreSession b x | OTouchSession b x => b = a -> x = r | _ => True end.
Lemma only_run : forall a r {A} (p : prog A), pall (only_writes a r) any_ans p -> forall fs w, w_sess w a = Some r ->
  w_sess (snd (run p fs w)) a = Some r /\ forall n, w_sess (crash n p fs w) a = Some r.
Proof.
  intros a r A p P fs w E.
  destruct (pall_rel (fun w1 w2 => w_sess w1 a = Some r -> w_sess w2 a = Some r) (only_writes a r)) with (A := A) (p := p) (fs := fs) (w := w) as [Q1 Q2]; auto.
  intros X o f w0 K E0.
  assert (Z : w_sess (snd (exec o w0)) a = Some r).
  { destruct o; cbn [only_writes] in K; cbn [exec snd]; auto; try (destruct (w_shared w0); auto);
      cbn [w_sess set_sess]; destruct (addr_eqb a a0) eqn:Q; auto; apply addr_eqb_eq in Q; subst a0; rewrite (K eq_refl); reflexivity. }
  unfold exec_f. destruct (exec o w0) as [y w1]. cbn [snd] in Z. destruct (fallible o); [destruct f; auto|auto].
Qed.
Lemma only_rest : forall a pt r, pall (only_writes a r) any_ans (signal_rest a pt r).
Proof.
  intros a pt r. unfold signal_rest. destruct (rc_current r) as [s|]; [|exact I]. destruct (st_remote_identity s) as [[rid|]|e|]; [|exact I..].
  apply pall_do; [exact I|]. intros t _. destruct (negb t); [exact I|].
  apply pall_do; [exact I|]. intros _ _. apply pall_do; [intros _; reflexivity|]. intros _ _. exact I.
Qed.
Lemma rest_answer : forall a pt r fs w x, fst (run (signal_rest a pt r) fs w) = Ok x -> x = pt.
Proof.
  intros a pt r fs w x E. destruct (run (signal_rest a pt r) fs w) as [o w'] eqn:R. cbn [fst] in E. subst o.
  apply signal_rest_inv in R. apply R.
Qed.

Section Spent.
Variable C : Crypto.
Hypothesis H : CryptoOk C.
Lemma signal_refused : forall a rnd m w r e, wf_device w -> wf_signal m -> w_sess w a = Some r -> decrypt_record C rnd r m = Err e ->
  (forall fs, (fst (run (decrypt_message C a rnd (CSignal m)) fs w) = Ok [] \/ exists e', fst (run (decrypt_message C a rnd (CSignal m)) fs w) = Err e') /\
     w_sess (snd (run (decrypt_message C a rnd (CSignal m)) fs w)) a = Some r) /\
  (forall fs n, w_sess (crash n (decrypt_message C a rnd (CSignal m)) fs w) a = Some r).
Proof using H.
  intros a rnd m w r e W Wm Er D.
  pose proof (fun fs => signal_no_panic C a rnd m fs w H W Wm) as Np.
  cbn [decrypt_message] in *. pose proof (fun fs => decrypt_signal_runs C a rnd m fs w) as R.
  split.
  - intro fs. specialize (Np fs). destruct (R fs) as [R1 _]. rewrite R1 in *. destruct (hd_fault fs); [|cbn [fst snd]; split; [right; eexists; reflexivity|exact Er]..].
    rewrite Er in *. unfold signal_body in *. rewrite D in *. split; [|apply only_run; [apply only_rest|exact Er]].
    destruct (fst (run (signal_rest a [] r) (tl fs) w)) as [x|e'|] eqn:F; [left|right; eexists; reflexivity|congruence].
    apply rest_answer in F. subst x. reflexivity.
  - intros fs [|n]; [exact Er|]. destruct (R fs) as [_ R2]. rewrite R2. destruct (hd_fault fs); [|exact Er..].
    rewrite Er. unfold signal_body. rewrite D. apply only_run; [apply only_rest|exact Er].
Qed.
Lemma signal_refused_clean : forall a rnd m w r e s rid, w_sess w a = Some r -> decrypt_record C rnd r m = Err e ->
  rc_current r = Some s -> ss_remote s = pub_bytes rid -> List.length rid = 32 -> w_policy w a (w_ident w a) rid Receiving = true ->
  fst (run0 (decrypt_message C a rnd (CSignal m)) w) = Ok [].
Proof.
  intros a rnd m w r e s rid Er D Ec Es L T. cbn [decrypt_message]. unfold run0. destruct (decrypt_signal_runs C a rnd m [] w) as [-> _].
  cbn [hd_fault tl]. rewrite Er. unfold signal_body. rewrite D. pose proof (signal_rest_completes a [] r w s rid Ec Es L T) as Q. unfold run0 in Q.
  rewrite Q. reflexivity.
Qed.
Lemma prekey_refused : forall a rnd pm w r e, wf_device w -> wf_prekeymsg pm -> w_sess w a = Some r ->
  (exists s, state_in s r /\ ss_alice_base s = Byte.x05 :: pm_base pm) -> decrypt_record C rnd r (pm_message pm) = Err e ->
  (forall fs, (exists e', fst (run (decrypt_message C a rnd (CPreKey pm)) fs w) = Err e') /\
     w_sess (snd (run (decrypt_message C a rnd (CPreKey pm)) fs w)) a = Some r) /\
  (forall fs n, w_sess (crash n (decrypt_message C a rnd (CPreKey pm)) fs w) a = Some r) /\
  (w_policy w a (w_ident w a) (pm_identity pm) Receiving = true -> fst (run0 (decrypt_message C a rnd (CPreKey pm)) w) = Err e).
Proof using H.
  intros a rnd pm w r e W Wm Er Hb D. assert (Wr : wf_record r) by (eapply (proj1 (proj1 W)); exact Er).
  destruct (has_state_spec r pm Wr Wm) as (h & Hh & Hs). assert (h = true) as -> by (apply Hs; exact Hb).
  cbn [decrypt_message]. pose proof (fun fs => decrypt_prekey_runs C a rnd pm fs w) as R.
  assert (P : pall (only_writes a r) any_ans (prekey_body C a rnd pm (w_sess w a)) /\
    forall fs, exists e', fst (run (prekey_body C a rnd pm (w_sess w a)) fs w) = Err e').
  { rewrite Er. unfold prekey_body. cbn [existed loaded]. unfold process_prekey, process_prekey_v3. rewrite Hh. cbn [plift].
    split.
    - unfold pdo at 1. cbn [pbind pall]. split; [exact I|]. intros x _. destruct x as [t|e0|]; [|exact I..]. destruct (negb t); [exact I|].
      cbn [pseq pbind plift]. unfold pdo. cbn [pbind pall]. split; [exact I|]. intros x _. destruct x as [y|e0|]; [|exact I..].
      cbn [pbind plift]. unfold prekey_rest. cbn [fst]. rewrite D. exact I.
    - intro fs. unfold pdo at 1. cbn [pbind run]. destruct (exec_f (OIsTrusted a (pm_identity pm) Receiving) (hd_fault fs) w) as [x w1] eqn:Ex.
      assert (Nx : x <> Panic) by (unfold exec_f in Ex; cbn [fallible exec] in Ex; destruct (hd_fault fs); congruence).
      destruct x as [t|e0|]; [|eexists; reflexivity|congruence]. destruct (negb t); [eexists; reflexivity|].
      cbn [pseq pbind plift]. unfold pdo. cbn [pbind run].
      destruct (exec_f (OStoreIdentity a (pm_identity pm)) (hd_fault (tl fs)) w1) as [y w2] eqn:Ey.
      assert (Ny : y <> Panic) by (unfold exec_f in Ey; cbn [fallible] in Ey; destruct (exec (OStoreIdentity a (pm_identity pm)) w1); destruct (hd_fault (tl fs)); congruence).
      destruct y as [y|e0|]; [|eexists; reflexivity|congruence].
      cbn [pbind plift]. unfold prekey_rest. cbn [fst]. rewrite D. eexists; reflexivity. }
  destruct P as [P1 P2]. split; [|split].
  - intro fs. destruct (R fs) as [-> _]. destruct (hd_fault fs); [|split; [eexists; reflexivity|exact Er]..].
    split; [apply P2|apply only_run; [exact P1|exact Er]].
  - intros fs [|n]; [exact Er|]. destruct (R fs) as [_ ->]. destruct (hd_fault fs); [|exact Er..]. apply only_run; [exact P1|exact Er].
  - intro T. unfold run0. destruct (R []) as [-> _]. cbn [hd_fault tl]. rewrite Er. unfold prekey_body. cbn [existed loaded].
    unfold process_prekey, process_prekey_v3. rewrite Hh. cbn [plift]. unfold pdo at 1. cbn [pbind run exec_f fallible hd_fault exec tl]. rewrite T.
    cbn [negb pseq pbind plift run]. unfold pdo. cbn [pbind run exec_f fallible hd_fault exec tl plift]. unfold prekey_rest. cbn [fst]. rewrite D. reflexivity.
Qed.

Variable b : bundle.
Variable at_ : bool -> addr.
Lemma spent_step : forall k ks base dev par keys notes side ep n pt c rnd,
  in_step C b at_ k ks base dev par keys notes -> In (mkNote (negb side) ep n pt c) notes -> gone (par side) ep n ->
  exists r s m, w_sess (dev side) (at_ side) = Some r /\ rc_current r = Some s /\ ss_remote s = pub_bytes (sid C k (negb side)) /\
    decrypt_record C rnd r m = Err EDuplicate /\ wf_signal m /\ wf_ciphertext c /\
    (c = CSignal m \/ exists pm, c = CPreKey pm /\ pm_message pm = m /\ pm_identity pm = sid C k (negb side) /\ ss_alice_base s = Byte.x05 :: pm_base pm).
Proof using H.
  intros k ks base dev par keys notes side ep n pt c rnd (So & Eb & Ek & K & _ & Lk & Ee & E1 & Wd & Pr & Ss & Nb & Nt) I0 (v & Iv & Ev & Lt & Ns).
  rewrite Forall_forall in Nt. destruct (Nt _ I0) as ((Le & Ne) & G & m & Wh & F). cbn [nt_epoch nt_from nt_counter nt_text nt_cipher] in *.
  rewrite Bool.negb_involutive in Wh.
  destruct (note_wf C H b k ks par (mkNote (negb side) ep n pt c) m So) as [Wm Wc]; cbn [nt_epoch nt_from nt_counter nt_text nt_cipher];
    rewrite ?Bool.negb_involutive; auto. cbn [nt_cipher] in Wc. specialize (Wc _ _ _ F).
  destruct (Ss side) as (r & s & Er & Ec & P & Ea & Pd).
  { destruct side; [left; reflexivity|right]. intro Z. destruct (Nb Z) as (Ep & _). rewrite Ep in Iv. destruct Iv. }
  destruct P as (Ws & _ & Er2 & Lp & _ & _ & _ & Fv & Nd & Vw).
  destruct (find_view C (sroot C k) (schain C k) ks (p_views (par side)) (ss_receivers s) v K Fv Nd) as (x & Fx & Ex & Ex2 & Ex3 & _); [|exact Iv|].
  { eapply Forall_impl; [|exact Vw]. cbv beta. intros. lia. }
  destruct (whisper_fields _ _ _ _ _ _ _ _ Wh) as (Wv & Wr & Wn).
  exists r, s, m. split; [exact Er|]. split; [exact Ec|]. split; [exact Er2|]. split; [|split; [exact Wm|split; [exact Wc|]]].
  - unfold decrypt_record. rewrite Ec.
    rewrite (decrypt_consumed C rnd s x (mkPChainKey (rv_idx v) (chain_at C (kchain C (sroot C k) (schain C k) ks (rv_epoch v)) (N.to_nat (rv_idx v)))) m H Ws Wm); auto.
    + unfold st_receiver_chain. rewrite Wr, <- Ev. exact Fx.
    + rewrite Wn. exact Lt.
    + intros y Iy. rewrite Ex3 in Iy. apply in_map_iff in Iy. destruct Iy as (j & <- & Ij). rewrite Wn. cbn. intro Q. 
      apply Ns. rewrite <- Q. exact Ij.
  - destruct F as [[-> _]|((Sn & _) & reg & pm & Gr & -> & (F1 & F2 & F3 & F4 & F5 & F6 & F7))]; [left; reflexivity|right].
    exists pm. split; [reflexivity|]. split; [exact F7|]. split; [rewrite Sn; exact F6|rewrite F5; exact Ea].
Qed.
Theorem spent_refused : forall base dev par keys notes side ep n pt c rnd,
  history C at_ b base dev par keys notes -> In (mkNote (negb side) ep n pt c) notes -> gone (par side) ep n ->
  (forall fs, fst (run (decrypt_message C (at_ side) rnd c) fs (dev side)) = Ok [] \/
     exists e, fst (run (decrypt_message C (at_ side) rnd c) fs (dev side)) = Err e) /\
  (forall w', leaves (decrypt_message C (at_ side) rnd c) (dev side) w' -> w_sess w' (at_ side) = w_sess (dev side) (at_ side)) /\
  (w_policy (dev side) (at_ side) (w_ident (dev side) (at_ side)) (kp_pub (w_pair (dev (negb side)))) Receiving = true ->
   fst (run0 (decrypt_message C (at_ side) rnd c) (dev side)) =
     match c with CSignal _ => Ok [] | _ => Err EDuplicate end).
Proof using H.
  intros base dev par keys notes side ep n pt c rnd Hy I0 Sp.
  destruct (history_in_step C H b at_ _ _ _ _ _ Hy) as (k & ks & St).
  destruct (spent_step k ks base dev par keys notes side ep n pt c rnd St I0 Sp) as (r & s & m & Er & Ec & Es & D & Wm & Wc & F).
  assert (Wd : wf_device (dev side)) by apply St.
  assert (Kp : kp_pub (w_pair (dev (negb side))) = sid C k (negb side)).
  { destruct St as (_ & _ & _ & _ & _ & _ & _ & _ & _ & Pr & _). pose proof (Pr (negb side)) as (_ & -> & _). unfold sid. destruct (negb side); reflexivity. }
  rewrite Kp. destruct F as [->|(pm & -> & Em & Ei & Eb)].
  - destruct (signal_refused (at_ side) rnd m (dev side) r EDuplicate Wd Wm Er D) as [Q1 Q2]. split; [intro fs; apply Q1|]. split.
    + rewrite Er. intros w' (fs & [-> |(j & ->)]); [apply Q1|apply Q2].
    + intro T. eapply signal_refused_clean; eauto.
  - subst m. destruct (prekey_refused (at_ side) rnd pm (dev side) r EDuplicate Wd Wc Er) as (Q1 & Q2 & Q3); [|exact D|].
    { exists s. split; [left; exact Ec|exact Eb]. }
    split; [intro fs; right; apply Q1|]. split.
    + rewrite Er. intros w' (fs & [-> |(j & ->)]); [apply Q1|apply Q2].
    + intro T. apply Q3. rewrite Ei. exact T.
Qed.
End Spent.
