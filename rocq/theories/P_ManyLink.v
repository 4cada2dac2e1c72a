(** What one session of several needs to know about itself (C85). *)
From Verif Require Import M_Base M_Crypto M_Aes M_Curve M_Proto M_Message M_Ratchet M_State M_Store M_Session M_Group
  S_Crypto S_Message S_State S_Shape S_Ratchet S_Session S_Aes S_Api S_Send S_Group S_Curve S_X3dh S_Receive S_Conv S_History S_Many
  P_Base P_Proto P_Curve P_State P_Shape P_Ratchet P_Message P_Aes P_Chain P_Decrypt P_Receive P_Encrypt P_Record P_Prog P_Api
  P_Init P_Send P_Conv P_X3dh P_Conv2 P_Bundle P_DecApi P_DecTop P_DecMore P_Replay P_Trust P_History P_Archive P_ManyRec P_ManyFail P_ManyApi.
From Coq Require Import ZifyBool ZifyNat ZifyN Permutation.
Local Open Scope nat_scope.

Section Link.
Variable C : Crypto.
Hypothesis H : CryptoOk C.
Variable at_ : bool -> addr.
Variable b : bundle.

(** The session a party has: its base key, its receiving chains, its state. *)
Lemma link_state : forall base v par keys notes side, history C at_ b base v par keys notes -> side = true \/ p_epoch (par false) <> 0 ->
  exists s, current_session (v side) (at_ side) = Some s /\ wf_state s /\ ss_alice_base s = Byte.x05 :: base /\
    ss_remote s = Byte.x05 :: kp_pub (w_pair (v (negb side))) /\ List.length (kp_pub (w_pair (v (negb side)))) = 32 /\
    (forall e, In (Byte.x05 :: e) (map pc_ratchet (ss_receivers s)) -> In e keys).
Proof using H.
  intros base v par keys notes side Hy Sd. destruct (history_in_step C H b at_ _ _ _ _ _ Hy) as (k & ks & (So & Eb & Ek & K & _ & Lk & Ee & _ & _ & Pr & Ss & _)).
  destruct (Ss side Sd) as (r & s & Er & Ec & P & Ea & _). exists s. split; [unfold current_session; rewrite Er; exact Ec|].
  destruct P as (W & _ & Rm & Le & _ & _ & _ & Vs & _ & Lt). destruct (Pr (negb side)) as (_ & Ep & _).
  split; [exact W|]. split; [rewrite Eb; exact Ea|]. assert (Q : sid C k (negb side) = kp_pub (w_pair (v (negb side)))) by (rewrite Ep; reflexivity).
  split; [rewrite Rm, Q; reflexivity|]. split; [rewrite <- Q; apply sid_len|].
  intros e J. apply in_map_iff in J. destruct J as (c & Ec' & J). subst keys.
  assert (X : exists w, In w (p_views (par side)) /\ view_ok C (sroot C k) (schain C k) ks w c).
  { clear - Vs J. induction Vs as [|w c' l l' V Vs IH]; [destruct J|]. destruct J as [->|J]; [exists w; split; [left; reflexivity|exact V]|].
    destruct (IH J) as (w' & Q1 & Q2). exists w'. split; [right; exact Q1|exact Q2]. }
  destruct X as (w & Iw & (Ew & _)). rewrite Ew in Ec'. apply pub_bytes_inj in Ec'. subst e. rewrite Forall_forall in Lt. specialize (Lt w Iw).
  unfold kpub, kkey. apply in_map. apply nth_In. lia.
Qed.

(** The message of a note. *)
Lemma link_note : forall base v par keys notes side k n pt c, history C at_ b base v par keys notes -> In (mkNote side k n pt c) notes ->
  exists m, inner c = Some m /\ wf_signal m /\ wf_ciphertext c /\ In (sg_ratchet m) (tl keys) /\
    (c = CSignal m /\ p_epoch (par false) <> 0 \/
     side = true /\ exists pm, c = CPreKey pm /\ pm_message pm = m /\ pm_base pm = base /\ pm_identity pm = kp_pub (w_pair (v true)) /\ pm_prekey_id pm = bd_prekey_id b).
Proof using H.
  intros base v par keys notes side k n pt c Hy J. destruct (history_in_step C H b at_ _ _ _ _ _ Hy) as (sk & ks & (So & Eb & Ek & K & (l & El) & Lk & Ee & _ & _ & Pr & _ & _ & Nt)).
  rewrite Forall_forall in Nt. destruct (Nt _ J) as ((Le & Ne) & G & m & Wh & F). cbn [nt_epoch nt_from nt_counter nt_text nt_cipher] in *.
  destruct (note_wf C H b sk ks par (mkNote side k n pt c) m So) as [Wm Wc]; cbn [nt_epoch nt_from nt_counter nt_text nt_cipher]; auto. cbn [nt_cipher] in Wc. specialize (Wc _ _ _ F).
  exists m.
  assert (R : sg_ratchet m = kpub C ks k) by apply (whisper_fields _ _ _ _ _ _ _ _ Wh).
  split; [destruct F as [[-> _]|(_ & reg & pm & _ & -> & (_ & _ & _ & _ & _ & _ & F7))]; cbn [inner]; congruence|].
  split; [exact Wm|]. split; [exact Wc|].
  split.
  { rewrite R, Ek, El. cbn [map tl]. destruct k as [|k]; [contradiction|]. unfold kpub, kkey. cbn [nth]. apply in_map. apply nth_In.
    rewrite El in Lk. cbn [List.length] in Lk. destruct side; lia. }
  destruct F as [[-> (F & _)]|((Sd & _) & reg & pm & _ & -> & (F1 & F2 & F3 & F4 & F5 & F6 & F7))]; [left; auto|right]. split; [exact Sd|].
  exists pm. split; [reflexivity|]. split; [exact F7|]. split; [congruence|]. split; [|exact F3]. destruct (Pr true) as (_ & Q & _). rewrite F6, Q. reflexivity.
Qed.

Lemma link_counter : forall base v par keys notes side k n pt c m, history C at_ b base v par keys notes -> In (mkNote side k n pt c) notes -> inner c = Some m -> sg_counter m = n.
Proof using H.
  intros base v par keys notes side k n pt c m Hy J Ei. destruct (history_in_step C H b at_ _ _ _ _ _ Hy) as (sk & ks & (_ & _ & _ & _ & _ & _ & _ & _ & _ & _ & _ & _ & Nt)).
  rewrite Forall_forall in Nt. destruct (Nt _ J) as (_ & G & m' & Wh & F). cbn [nt_epoch nt_from nt_counter nt_text nt_cipher] in *.
  assert (m' = m) as -> by (destruct F as [[-> _]|(_ & reg & pm & _ & -> & (_ & _ & _ & _ & _ & _ & F7))]; cbn [inner] in Ei; congruence).
  apply (whisper_fields _ _ _ _ _ _ _ _ Wh).
Qed.
Lemma link_local : forall base v par keys notes side s, history C at_ b base v par keys notes -> side = true \/ p_epoch (par false) <> 0 ->
  current_session (v side) (at_ side) = Some s -> ss_local s = Byte.x05 :: kp_pub (w_pair (v side)).
Proof using H.
  intros base v par keys notes side s Hy Sd Cu. destruct (history_in_step C H b at_ _ _ _ _ _ Hy) as (k & ks & (_ & _ & _ & _ & _ & _ & _ & _ & _ & Pr & Ss & _)).
  destruct (Ss side Sd) as (r & s0 & Er & Ec & P & _). unfold current_session in Cu. rewrite Er, Ec in Cu. injection Cu as <-.
  destruct P as (_ & E & _). destruct (Pr side) as (_ & Ep & _). rewrite E, Ep. reflexivity.
Qed.

(** The party reads it in its session [s], with any random bytes. *)
Lemma link_reads : forall base v par keys notes side k n pt c m s rnd, history C at_ b base v par keys notes ->
  In (mkNote (negb side) k n pt c) notes -> inner c = Some m -> receivable (par side) k n -> fresh C keys (par side) k rnd ->
  side = true \/ p_epoch (par false) <> 0 -> current_session (v side) (at_ side) = Some s ->
  exists s' rest, decrypt_session C rnd s m = (Ok (pt, s'), rest) /\ ss_alice_base s' = ss_alice_base s /\ ss_remote s' = ss_remote s /\ wf_state s' /\
    (k = S (p_epoch (par side)) -> exists sc, ss_sender s' = Some sc /\ pc_ratchet sc = Byte.x05 :: mont_pub C (firstn 32 rnd)).
Proof using H.
  intros base v par keys notes side k n pt c m s rnd Hy J Ei Rv Fr Sd Cu.
  destruct (history_in_step C H b at_ _ _ _ _ _ Hy) as (sk & ks & (So & Eb & Ek & K & (l & El) & Lk & Ee & _ & _ & Pr & Ss & _ & Nt)).
  destruct (peer_epochs par side Ee) as [Ee' Em]. rewrite Em in Lk. subst keys.
  rewrite Forall_forall in Nt. destruct (Nt _ J) as ((Le & Ne) & G & m' & Wh & F). cbn [nt_epoch nt_from nt_counter nt_text nt_cipher] in *.
  rewrite Bool.negb_involutive in Wh.
  assert (m' = m) as -> by (destruct F as [[-> _]|(_ & reg & pm & _ & -> & (_ & _ & _ & _ & _ & _ & F7))]; cbn [inner] in Ei; congruence).
  destruct (Ss side Sd) as (r & s0 & Er & Ec & P & Ea & _). unfold current_session in Cu. rewrite Er, Ec in Cu. injection Cu as <-.
  destruct (advance C H sk ks side (par side) (p_epoch (par (negb side))) s0 k n pt m rnd K P Lk Ee' Le Rv Fr G Wh) as (K' & s' & rest & D & P' & Kp).
  exists s', rest. split; [exact D|]. split; [exact (proj1 Kp)|]. pose proof P as (_ & _ & R0 & _). pose proof P' as (W' & _ & R1 & _ & _ & (sc & S1 & S2 & _) & _).
  split; [congruence|]. split; [exact W'|]. intro E. exists sc. split; [exact S1|]. rewrite S2. unfold party_after, grown. rewrite (proj2 (Nat.eqb_eq _ _) E). cbn [p_epoch].
  unfold kpub, kkey. rewrite app_nth2 by lia. replace (S k - List.length ks) with 0 by lia. reflexivity.
Qed.
(** Its own ratchet key is the key of its epoch. *)
Lemma link_own : forall base v par keys notes side s, history C at_ b base v par keys notes -> side = true \/ p_epoch (par false) <> 0 ->
  current_session (v side) (at_ side) = Some s ->
  List.length keys = S (Nat.max (p_epoch (par true)) (p_epoch (par false))) /\
  exists sc, ss_sender s = Some sc /\ pc_ratchet sc = Byte.x05 :: nth (p_epoch (par side)) keys [].
Proof using H.
  intros base v par keys notes side s Hy Sd Cu. destruct (history_in_step C H b at_ _ _ _ _ _ Hy) as (k & ks & (So & Eb & Ek & K & _ & Lk & Ee & _ & _ & Pr & Ss & _)).
  destruct (Ss side Sd) as (r & s0 & Er & Ec & P & _). unfold current_session in Cu. rewrite Er, Ec in Cu. injection Cu as <-.
  destruct P as (_ & _ & _ & Le & _ & (sc & S1 & S2 & _) & _). subst keys. split; [rewrite map_length; exact Lk|]. exists sc. split; [exact S1|].
  rewrite S2. unfold pub_bytes, kpub, kkey. f_equal. rewrite (nth_indep (map (mont_pub C) ks) [] (mont_pub C [])) by (rewrite map_length; exact Le). symmetry. apply map_nth.
Qed.
Lemma link_lens : forall base v par keys notes, history C at_ b base v par keys notes ->
  List.length keys = S (Nat.max (p_epoch (par true)) (p_epoch (par false))) /\
  (p_epoch (par true) = S (p_epoch (par false)) \/ p_epoch (par false) = S (p_epoch (par true))) /\
  (forall side, wf_device (v side)) /\
  (forall side k n pt c, In (mkNote side k n pt c) notes -> k <= p_epoch (par side) /\ k <> 0 /\ (side = false -> p_epoch (par false) <> 0)) /\
  (p_epoch (par false) = 0 -> par false = mkParty 0 0 []).
Proof using H.
  intros base v par keys notes Hy. destruct (history_in_step C H b at_ _ _ _ _ _ Hy) as (k & ks & (So & Eb & Ek & K & _ & Lk & Ee & E1 & Wd & Pr & Ss & Nb & Nt)).
  split; [subst keys; rewrite map_length; exact Lk|]. split; [exact Ee|]. split; [exact Wd|]. split; [|intro Z; exact (proj1 (Nb Z))].
  intros side ep n pt c J. rewrite Forall_forall in Nt. destruct (Nt _ J) as ((Le & Ne) & _ & m & _ & F). cbn [nt_epoch nt_from nt_counter nt_text nt_cipher] in *.
  split; [exact Le|]. split; [exact Ne|]. intros ->. destruct F as [(_ & F & _)|((F & _) & _)]; [exact F|discriminate].
Qed.
(** The first message that the responder receives. *)
Lemma link_first : forall base v par keys notes k n pt c rnd, history C at_ b base v par keys notes ->
  p_epoch (par false) = 0 -> In (mkNote true k n pt c) notes -> receivable (par false) k n -> fresh C keys (par false) k rnd ->
  (w_policy (v false) (at_ false) (w_ident (v false) (at_ false)) (kp_pub (w_pair (v true))) Receiving = true ->
   exists w', run0 (decrypt_message C (at_ false) rnd c) (v false) = (Ok pt, w')) /\
  exists s0 s', wf_state s0 /\ forall fs pt' w', run (decrypt_message C (at_ false) rnd c) fs (v false) = (Ok pt', w') ->
    pt' = pt /\ w_sess w' (at_ false) = Some (rc_set_state (rc_promote (loaded (w_sess (v false) (at_ false))) s0) s') /\
    w_signed w' = w_signed (v false) /\ forall id, bd_prekey_id b <> Some id -> w_prekeys w' id = w_prekeys (v false) id.
Proof using H.
  intros base v par keys notes k n pt c rnd Hy Z J Rv Fr.
  destruct (link_note _ _ _ _ _ _ _ _ _ _ Hy J) as (m & Ei & Wm & Wc & _ & _).
  split; [exact (delivered C H b at_ _ _ _ _ _ false _ _ _ _ _ Hy J Rv Fr)|].
  destruct (history_in_step C H b at_ _ _ _ _ _ Hy) as (sk & ks & (So & Eb & Ek & K & (l & El) & Lk & Ee & _ & Wd & Pr & Ss & Nb & Nt)).
  destruct (peer_epochs par false Ee) as [Ee' Em]. rewrite Em in Lk. subst keys.
  rewrite Forall_forall in Nt. destruct (Nt _ J) as ((Le & Ne) & G & m' & Wh & F). cbn [nt_epoch nt_from nt_counter nt_text nt_cipher negb] in *.
  destruct (Nb Z) as (Ep & Pub & Un).
  destruct F as [[_ [F _]]|(_ & reg & pm & Gr & -> & Fm)]; [contradiction|].
  destruct (responder_state C H b sk (v false) pm reg m' So (Wd false) Pub Gr Fm) as (s & B & P0 & Pn & Ea).
  destruct (slens C H sk) as [L1 L2].
  assert (P : party_ok C (sroot C sk) (schain C sk) ks (sid C sk false) (sid C sk (negb false)) (par false) s).
  { rewrite Ep, El. change (k_sb sk :: l) with ([k_sb sk] ++ l). apply (party_ok_app C _ _ L1 L2). exact P0. }
  destruct (advance C H sk ks false (par false) (p_epoch (par true)) s k n pt m' rnd K P Lk Ee' Le Rv Fr G Wh) as (K' & s' & rest & D & P' & Kp).
  destruct Fm as (F1 & F2 & F3 & F4 & F5 & F6 & F7). rewrite <- F7 in D.
  assert (Un' : unused_base (v false) (at_ false) (pm_base pm)) by (rewrite F5, <- Eb; exact Un).
  exists s, s'. split; [exact (proj1 P)|]. intros fs pt' w' E. rewrite <- F3. exact (first_result C _ _ _ _ _ _ _ _ _ _ _ (Wd false) Wc Un' B D E).
Qed.
End Link.
