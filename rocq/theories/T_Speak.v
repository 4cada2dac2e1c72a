(** Who can speak in a conversation: C74. *)
From Verif Require Import M_Base M_Crypto M_Aes M_Curve M_Message M_Ratchet M_State M_Store M_Session
  S_Crypto S_Message S_Shape S_Ratchet S_Session S_Api S_Send S_Group S_X3dh S_Receive S_Conv S_History S_Header S_Size S_Transit S_Schedule S_Speak
  P_History P_Header P_Transit P_Speak P_First K_Toy K_World K_Receive K_Conv K_Cut.
Local Open Scope nat_scope.

(** * C74 *)
(** In every history: a message that the current session of a party opens is one of the
    peer's messages, with the peer's plaintext; or a forgery of the tag. *)
Theorem c74_speaker : forall C b at_ base dev par keys notes side s m pt, CryptoOk C -> history C at_ b base dev par keys notes ->
  (forall x, In x notes -> (size (nt_text x) < 2 ^ 62)%N) ->
  side = true \/ p_epoch (par false) <> 0 -> current_session (dev side) (at_ side) = Some s -> parse_signal (sg_raw m) = Ok m ->
  opens C s m pt ->
  (exists x, In x notes /\ nt_from x = negb side /\ inner (nt_cipher x) = Some m /\ nt_text x = pt) \/
  forgery C s (par side) (kp_pub (w_pair (dev (negb side)))) (kp_pub (w_pair (dev side))) (fun x => In x notes /\ nt_from x = negb side) m.
Proof. intros C b at_ base dev par keys notes side s m pt H. exact (speaker C H b at_ base dev par keys notes side s m pt). Qed.
Print Assumptions c74_speaker.
(** DecryptMessage, on any bytes: whatever it returns without error is the peer's plaintext,
    or a forgery was accepted, or another session with that address opened the message, or
    it is the empty answer of C25. *)
Theorem c74_answers : forall C b at_ base dev par keys notes side x rnd fs pt w', CryptoOk C -> history C at_ b base dev par keys notes ->
  (forall y, In y notes -> (size (nt_text y) < 2 ^ 62)%N) -> side = true \/ p_epoch (par false) <> 0 ->
  run (receive_bytes C (at_ side) rnd x) fs (dev side) = (Ok pt, w') ->
  exists c m, unposted x = Ok c /\ inner c = Some m /\
    ((exists y, In y notes /\ nt_from y = negb side /\ inner (nt_cipher y) = Some m /\ nt_text y = pt) \/
     (exists s, current_session (dev side) (at_ side) = Some s /\
        forgery C s (par side) (kp_pub (w_pair (dev (negb side)))) (kp_pub (w_pair (dev side))) (fun y => In y notes /\ nt_from y = negb side) m) \/
     (exists s, other_session (dev side) (at_ side) c s /\ opens C s m pt) \/
     (exists r e, c = CSignal m /\ w_sess (dev side) (at_ side) = Some r /\ decrypt_record C rnd r m = Err e /\ pt = [])).
Proof. intros C b at_ base dev par keys notes side x rnd fs pt w' H. exact (answered_by C H b at_ base dev par keys notes side x rnd fs pt w'). Qed.
Print Assumptions c74_answers.
(** In the conversation of K_Conv.v the initiator receives "three" (again): the first case. *)
Example c74_case : exists b base dev par keys c1 c2 c3 c4 w' c m,
  let notes := [mkNote true 3 0 (str "four") c4; mkNote false 2 0 (str "three") c3; mkNote true 1 1 (str "two") c2; mkNote true 1 0 (str "one") c1] in
  history toy conv_at b base dev par keys notes /\ (forall y, In y notes -> (size (nt_text y) < 2 ^ 62)%N) /\
  run0 (receive_bytes toy (conv_at true) [] (posted c3)) (dev true) = (Ok (str "three"), w') /\ unposted (posted c3) = Ok c /\ inner c = Some m /\
  exists y, In y notes /\ nt_from y = false /\ inner (nt_cipher y) = Some m /\ nt_text y = str "three".
Proof.
  destruct conversation as (b & base & dev & par & keys & c1 & c2 & c3 & c4 & Hy & Pt & Pf & Op).
  set (notes := [mkNote true 3 0 (str "four") c4; mkNote false 2 0 (str "three") c3; mkNote true 1 1 (str "two") c2; mkNote true 1 0 (str "one") c1]) in *.
  assert (J : In (mkNote false 2 0 (str "three") c3) notes) by (cbn [In notes]; auto).
  destruct (delivered_bytes toy toy_ok b conv_at base dev par keys notes true 2 0 (str "three") c3 [] Hy J) as (w' & E).
  - reflexivity.
  - rewrite Pt. eapply rec_ahead with (v := mkView 2 0 []); [right; left; reflexivity|reflexivity|]. cbn [rv_idx]. split; [apply N.le_refl|discriminate].
  - rewrite Pt. intro Q. discriminate.
  - rewrite Op. reflexivity.
  - pose proof (transit toy b conv_at base dev par keys notes _ toy_ok Hy J eq_refl) as [U _]. cbn [nt_cipher] in U.
    destruct (headers toy toy_ok b conv_at _ _ _ _ _ _ Hy J) as (m & I & _). cbn [nt_cipher] in I.
    exists b, base, dev, par, keys, c1, c2, c3, c4, w', c3, m. cbv zeta. split; [exact Hy|].
    split; [intros y Iy; cbn [In notes] in Iy; decompose [or] Iy; subst; reflexivity || contradiction|].
    split; [exact E|]. split; [exact U|]. split; [exact I|]. exists (mkNote false 2 0 (str "three") c3). auto.
Qed.
(** Before the responder has a session: whatever it makes, without error, of a pre-key message
    that carries the initiator's identity and base keys and the ids of the bundle is the
    initiator's plaintext, or a forgery, or was opened by an older session with that address. *)
Theorem c74_first : forall C b at_ base dev par keys notes x pm rnd fs pt w', CryptoOk C -> history C at_ b base dev par keys notes ->
  (forall y, In y notes -> (size (nt_text y) < 2 ^ 62)%N) -> p_epoch (par false) = 0 ->
  unposted x = Ok (CPreKey pm) -> pm_base pm = base -> pm_identity pm = kp_pub (w_pair (dev true)) ->
  pm_prekey_id pm = bd_prekey_id b -> pm_signed_id pm = bd_signed_id b ->
  run (receive_bytes C (at_ false) rnd x) fs (dev false) = (Ok pt, w') ->
  (exists y, In y notes /\ nt_from y = true /\ inner (nt_cipher y) = Some (pm_message pm) /\ nt_text y = pt) \/
  first_forgery C b (kp_pub (w_pair (dev false))) base (kp_pub (w_pair (dev true))) (fun y => In y notes /\ nt_from y = true) (pm_message pm) \/
  (exists r s, w_sess (dev false) (at_ false) = Some r /\ state_in s r /\ opens C s (pm_message pm) pt).
Proof. intros C b at_ base dev par keys notes x pm rnd fs pt w' H. exact (first_speaker C H b at_ base dev par keys notes x pm rnd fs pt w'). Qed.
Print Assumptions c74_first.
(** The initiator of K_Cut.v has sent "one", and the responder receives it: the first case. *)
Example c74_first_case : exists b base dev par keys c1 pm rnd w',
  history toy conv_at b base dev par keys [mkNote true 1 0 (str "one") c1] /\ p_epoch (par false) = 0 /\
  unposted (posted c1) = Ok (CPreKey pm) /\ pm_base pm = base /\ pm_identity pm = kp_pub (w_pair (dev true)) /\
  pm_prekey_id pm = bd_prekey_id b /\ pm_signed_id pm = bd_signed_id b /\
  run0 (receive_bytes toy (conv_at false) rnd (posted c1)) (dev false) = (Ok (str "one"), w') /\ inner c1 = Some (pm_message pm).
Proof.
  destruct just_sent as (b & base & dev & par & keys & c1 & Hy & P0 & Pf & Op & Fr).
  assert (J : In (mkNote true 1 0 (str "one") c1) [mkNote true 1 0 (str "one") c1]) by (left; reflexivity).
  destruct (delivered_bytes toy toy_ok b conv_at base dev par keys _ false 1 0 (str "one") c1 (b32 Byte.x43) Hy J) as (w' & E).
  - reflexivity.
  - rewrite Pf. apply rec_new; [reflexivity|discriminate].
  - intros _. split; [apply le_n|]. exact Fr.
  - rewrite Op. reflexivity.
  - pose proof (transit toy b conv_at base dev par keys _ _ toy_ok Hy J eq_refl) as [U _]. cbn [nt_cipher] in U.
    destruct (frames toy toy_ok b conv_at _ _ _ _ _ _ _ _ _ _ Hy J) as [(m & _ & X)|(_ & pm & reg & m & -> & F)]; [exfalso; apply X; split; reflexivity|].
    destruct F as (_ & _ & F1 & F2 & F3 & F4 & F5).
    exists b, base, dev, par, keys, (CPreKey pm), pm, (b32 Byte.x43), w'. repeat (split; [assumption|]). reflexivity.
Qed.
