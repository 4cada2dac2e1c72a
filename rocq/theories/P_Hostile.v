(** A network with an attacker on every line (C96). *)
From Verif Require Import M_Base M_Crypto M_Aes M_Curve M_Proto M_Message M_Ratchet M_State M_Store M_Session M_Group
  S_Crypto S_Message S_State S_Shape S_Ratchet S_Session S_Aes S_Api S_Send S_Group S_Curve S_X3dh S_Receive S_Conv S_History S_Size S_Transit S_Schedule S_Speak S_Isolation S_Atomic S_Attack S_Apart S_Many S_Net S_Hostile
  P_Base P_Proto P_Curve P_State P_Shape P_Ratchet P_Message P_Aes P_Chain P_Decrypt P_Receive P_Encrypt P_Record P_Prog P_Api
  P_Init P_Send P_Conv P_X3dh P_Conv2 P_Bundle P_DecApi P_DecTop P_DecMore P_Replay P_Trust P_History P_Header P_Transit P_Used P_Speak P_First P_Isolation P_Apart P_Atomic P_CrashConv P_Attack
  P_ManyRec P_ManyFail P_ManyApi P_ManyLink P_Many P_ManySteps P_ManyTop P_Net P_NetCut.
From Coq Require Import ZifyBool ZifyNat ZifyN Permutation.
Local Open Scope nat_scope.

Section Hostile.
Variable C : Crypto.
Hypothesis H : CryptoOk C.

Lemma role_other : forall l x, role l (negb x) = negb (role l x).
Proof. intros l x. unfold role. destruct x, (ln_from l); reflexivity. Qed.

(** What opens a message, in a pair of devices with several sessions. *)
Lemma many_speaker : forall at_ dev ls x r s m pt, many C at_ dev ls ->
  (forall l y, In l ls -> In y (ln_notes l) -> (size (nt_text y) < 2 ^ 62)%N) ->
  w_sess (dev x) (at_ x) = Some r -> state_in s r -> parse_signal (sg_raw m) = Ok m -> opens C s m pt ->
  exists l, In l ls /\ has_link l x /\ ss_alice_base s = Byte.x05 :: ln_base l /\
    ((exists y, In y (ln_notes l) /\ nt_from y = negb (role l x) /\ inner (nt_cipher y) = Some m /\ nt_text y = pt /\
        (kp_pub (w_pair (dev x)) <> kp_pub (w_pair (dev (negb x))) -> receivable (ln_par l (role l x)) (nt_epoch y) (nt_counter y))) \/
     forgery C s (ln_par l (role l x)) (kp_pub (w_pair (dev (negb x)))) (kp_pub (w_pair (dev x))) (fun y => In y (ln_notes l) /\ nt_from y = negb (role l x)) m).
Proof using H.
  intros at_ dev ls x r s m pt M Sz Er Si Pm O.
  destruct (many_only C H at_ dev ls x r s M Er Si) as (l & Jl & Hl & Eb). exists l. split; [exact Jl|]. split; [exact Hl|]. split; [exact Eb|].
  destruct (many_each C H at_ dev ls l M Jl) as (v & Hy & Ev). destruct (Ev x) as [Px Hx].
  destruct (Hx Hl) as (r0 & s0 & Cs & Er0 & Si0 & Un). assert (r0 = r) by congruence. subst r0. pose proof (Un s Si Eb) as Q. subst s0.
  destruct (Ev (negb x)) as [Pn _]. rewrite role_other in Pn.
  set (at' := fun part => at_ (player l part)) in *.
  assert (Ea : at' (role l x) = at_ x) by (unfold at', player, role; destruct x, (ln_from l); reflexivity).
  rewrite <- Ea in Cs.
  assert (Sd : role l x = true \/ p_epoch (ln_par l false) <> 0) by exact Hl.
  destruct (speaker_reach C H _ at' _ _ _ _ _ _ _ _ _ Hy (fun y J => Sz l y Jl J) Sd Cs Pm O) as [(y & Jy & Fy & Rch & Iy & Ty)|F].
  - left. exists y. repeat (split; [assumption|]). intro Ni.
    destruct (history_in_step C H _ at' _ _ _ _ _ Hy) as (k & ks & St).
    assert (Nid : sid C k true <> sid C k false).
    { assert (Ep : forall q, kp_pub (w_pair (v q)) = sid C k q) by (intro q; destruct St as (_ & _ & _ & _ & _ & _ & _ & _ & _ & Pr & _); destruct (Pr q) as (_ & Q & _); exact Q).
      rewrite <- !Ep. rewrite <- Px, <- Pn in Ni. destruct (role l x); cbn [negb] in Ni; auto. }
    destruct O as (mk & rm & lc & Mk & _). exact (reach_receivable C H _ at' _ _ _ _ _ _ _ _ _ _ _ _ St Sd Cs Nid Jy Iy Rch Mk).
  - right. rewrite Px, Pn in F. exact F.
Qed.

(** No message belongs to two sessions. *)
Lemma many_one : forall at_ dev ls l l' y y' m, many C at_ dev ls -> In l ls -> In l' ls -> In y (ln_notes l) -> In y' (ln_notes l') ->
  inner (nt_cipher y) = Some m -> inner (nt_cipher y') = Some m -> ln_base l = ln_base l'.
Proof using H.
  intros at_ dev ls l l' y y' m M Jl Jl' Jy Jy' I1 I2.
  destruct (many_inv C H at_ dev ls M) as (_ & _ & _ & _ & _ & _ & Dj & _).
  assert (K : forall q z, In q ls -> In z (ln_notes q) -> inner (nt_cipher z) = Some m -> In (sg_ratchet m) (tl (ln_keys q))).
  { intros q z Jq Jz Iz. destruct (many_each C H at_ dev ls q M Jq) as (v & Hy & _). destruct z as [f k n t c].
    destruct (link_note C H _ _ _ _ _ _ _ _ _ _ _ _ Hy Jz) as (m0 & Q & _ & _ & J & _). cbn [nt_cipher] in Iz. assert (m0 = m) by congruence. subst m0. exact J. }
  destruct (list_eq_dec Byte.byte_eq_dec (ln_base l) (ln_base l')) as [E|E]; [exact E|]. exfalso.
  refine (Dj l l' (sg_ratchet m) Jl Jl' E (K l y Jl Jy I1) _). pose proof (K l' y' Jl' Jy' I2) as Q. destruct (ln_keys l'); [destruct Q|right; exact Q].
Qed.

(** From the link back to the cable. *)
Lemma link_cable : forall es d e l, d <> e -> In l (links_between d e es) -> exists c, In c es /\ joins c d e /\ role l true = cb_role c d /\
  (has_link l true <-> has_cable c d) /\ ln_base l = ln_base (cb_link c) /\ ln_par l = ln_par (cb_link c) /\ ln_notes l = ln_notes (cb_link c).
Proof.
  intros es d e l N J. destruct (between_in _ _ _ _ J) as (c & Jc & Q). exists c. split; [exact Jc|].
  assert (Jn : joins c d e) by (unfold joins; cbn [In]; destruct Q as [(-> & -> & _)|(-> & -> & _)]; auto).
  split; [exact Jn|]. destruct Jn as [J1 J2].
  assert (X : role l true = cb_role c d).
  { unfold cb_role, role. destruct Q as [(-> & _ & ->)|(-> & _ & ->)]; cbn [turned ln_from Bool.eqb]; [rewrite addr_eqb_refl; reflexivity|].
    symmetry. apply addr_eqb_neq. exact N. }
  assert (E : ln_base l = ln_base (cb_link c) /\ ln_par l = ln_par (cb_link c) /\ ln_notes l = ln_notes (cb_link c)) by (destruct Q as [(_ & _ & ->)|(_ & _ & ->)]; auto).
  split; [exact X|]. split; [|exact E]. unfold has_link, has_cable. rewrite X, (proj1 (proj2 E)). unfold cb_role. rewrite addr_eqb_eq.
  destruct Q as [(-> & -> & _)|(-> & -> & _)]; clear; tauto.
Qed.

Lemma net_speaker : forall dev es d e r s m pt, net C dev es -> d <> e -> sized es ->
  w_sess (dev d) e = Some r -> state_in s r -> parse_signal (sg_raw m) = Ok m -> opens C s m pt ->
  exists c, In c es /\ joins c d e /\ has_cable c d /\ ss_alice_base s = Byte.x05 :: ln_base (cb_link c) /\
    ((exists y, sent_on c d e y /\ inner (nt_cipher y) = Some m /\ nt_text y = pt /\
        (kp_pub (w_pair (dev d)) <> kp_pub (w_pair (dev e)) -> receivable (ln_par (cb_link c) (cb_role c d)) (nt_epoch y) (nt_counter y))) \/
     net_forgery C dev es d e m).
Proof using H.
  intros dev es d e r s m pt M N Sz Er Si Pm O. destruct (net_pairs C H dev es d e M N) as (dv & K & Ed & Ee).
  destruct (many_speaker (facing d e) dv (links_between d e es) true r s m pt K) as (l & Jl & Hl & Eb & Q); auto.
  - intros l y Jl Jy. destruct (link_cable es d e l N Jl) as (c & Jc & _ & _ & _ & _ & _ & En). apply (Sz c y Jc). rewrite <- En. exact Jy.
  - rewrite Ed. exact Er.
  - destruct (link_cable es d e l N Jl) as (c & Jc & Jn & Rl & Hi & Bl & Pl & Nl). exists c. split; [exact Jc|]. split; [exact Jn|].
    split; [apply Hi; exact Hl|]. rewrite Bl in Eb. split; [exact Eb|]. cbn [negb] in Q. rewrite Ed, Ee, Rl, Pl, Nl in Q. destruct Q as [(y & Jy & Fy & Iy & Ty & Rv)|F].
    + left. exists y. split; [split; auto|auto].
    + right. exists c, r, s. repeat (split; [assumption || (apply Hi; exact Hl)|]). 
      destruct F as (mk & F1 & F2 & F3). exists mk. split; [exact F1|]. split; [exact F2|]. intros y m' (_ & Jy & Fy). apply F3. auto.
Qed.
Lemma net_one : forall dev es d e c c' y y' m, net C dev es -> d <> e -> In c es -> In c' es -> joins c d e -> joins c' d e ->
  In y (ln_notes (cb_link c)) -> In y' (ln_notes (cb_link c')) -> inner (nt_cipher y) = Some m -> inner (nt_cipher y') = Some m ->
  ln_base (cb_link c) = ln_base (cb_link c').
Proof using H.
  intros dev es d e c c' y y' m M N Jc Jc' [A1 A2] [B1 B2] Jy Jy' I1 I2. destruct (net_pairs C H dev es d e M N) as (dv & K & _ & _).
  destruct (net_link es c d e Jc N A1 A2) as (l & Jl & -> & _). destruct (net_link es c' d e Jc' N B1 B2) as (l' & Jl' & -> & _).
  exact (many_one _ _ _ _ _ y y' m K Jl Jl' Jy Jy' I1 I2).
Qed.

(** Whatever a device makes of any bytes, without error. *)
Theorem net_answers : forall dev es d e x rnd fs pt w', net C dev es -> d <> e -> sized es ->
  run (receive_bytes C e rnd x) fs (dev d) = (Ok pt, w') ->
  exists ct m, unposted x = Ok ct /\ inner ct = Some m /\
    ((exists c y, In c es /\ sent_on c d e y /\ inner (nt_cipher y) = Some m /\ nt_text y = pt) \/
     net_forgery C dev es d e m \/
     (exists pm s, ct = CPreKey pm /\ unused_base (dev d) e (pm_base pm) /\ ss_remote s = Byte.x05 :: pm_identity pm /\ ss_local s = Byte.x05 :: kp_pub (w_pair (dev d)) /\
        ss_alice_base s = Byte.x05 :: pm_base pm /\ opens C s m pt) \/
     (exists r err, ct = CSignal m /\ w_sess (dev d) e = Some r /\ decrypt_record C rnd r m = Err err /\ pt = [])).
Proof using H.
  intros dev es d e x rnd fs pt w' M N Sz E. unfold receive_bytes in E.
  destruct (unposted x) as [ct| |] eqn:U; cbn [plift run] in E; [|apply (f_equal fst) in E; discriminate..].
  destruct (carries_wf x ct U) as [Wc Pr]. exists ct.
  destruct (answer_exact C e rnd ct fs (dev d) pt w' H (net_wf C H dev es d M) Wc E) as [(m & s & Im & Sf & O)|(m & r & err & -> & R & D & Ept)].
  - exists m. split; [reflexivity|]. split; [exact Im|].
    assert (Old : forall r s0, w_sess (dev d) e = Some r -> state_in s0 r -> opens C s0 m pt ->
      (exists c y, In c es /\ sent_on c d e y /\ inner (nt_cipher y) = Some m /\ nt_text y = pt) \/ net_forgery C dev es d e m).
    { intros r s0 R Si O0. destruct (net_speaker dev es d e r s0 m pt M N Sz R Si (Pr m Im) O0) as (c & Jc & Jn & Hc & Eb & [(y & Sy & Iy & Ty & _)|F]); [left; exists c, y; auto|right; exact F]. }
    destruct Sf as [(r & R & Si)|(pm & Ec & _)]; [destruct (Old r s R Si O); auto|]. subst ct. cbn [inner] in Im. assert (Em : pm_message pm = m) by congruence. subst m.
    pose proof (net_wf C H dev es d M) as Wd. pose proof (loaded_wf (dev d) e (proj1 Wd)) as Wl.
    cbn [decrypt_message] in E. destruct (decrypt_prekey_inv _ _ _ _ _ _ _ _ E) as (r1 & r2 & id & w4 & T & [(Hs & -> & _)|(Hs & _ & s1 & B1 & -> & _)] & D1 & _).
    + destruct (decrypt_record_opens C rnd _ (pm_message pm) pt r2 H Wl (wf_prekey_inner pm Wc) D1) as (s2 & Si & O2).
      apply state_in_loaded in Si. destruct Si as (r & Er & Si). destruct (Old r s2 Er Si O2); auto.
    + destruct (bob_session_wf C (dev d) pm s1 H (proj1 Wd) Wc B1) as (Ws & F1 & F2 & F3 & _).
      destruct (decrypt_record_opens C rnd _ (pm_message pm) pt r2 H (promote_wf _ s1 Wl Ws) (wf_prekey_inner pm Wc) D1) as (s2 & Si & O2).
      apply state_in_promote in Si; [|exact Wl]. destruct Si as [->|Si].
      * right. right. left. exists pm, s1. split; [reflexivity|]. split; [|auto]. intros r0 s0 Er Si0 Q. rewrite Er in Hs. cbn [loaded] in Hs.
        assert (Wr : wf_record r0) by (eapply (proj1 (proj1 Wd)); exact Er).
        destruct (has_state_spec r0 pm Wr Wc) as (h & Hh & Hi). assert (h = true) by (apply Hi; exists s0; auto). congruence.
      * apply state_in_loaded in Si. destruct Si as (r & Er & Si). destruct (Old r s2 Er Si O2); auto.
  - exists m. split; [reflexivity|]. split; [reflexivity|]. right. right. right. exists r, err. auto.
Qed.

(** Messages of known sessions use up no pre-keys. *)
Lemma known_keeps : forall e rnd ct w w', wf_device w -> wf_ciphertext ct ->
  (forall pm, ct = CPreKey pm -> exists r s, w_sess w e = Some r /\ state_in s r /\ ss_alice_base s = Byte.x05 :: pm_base pm) ->
  leaves (decrypt_message C e rnd ct) w w' -> (forall id, w_prekeys w' id = w_prekeys w id) /\ w_signed w' = w_signed w.
Proof using H.
  intros e rnd ct w w' W Wc Kn Lv. pose proof (leaves_rest C (CDecrypt e rnd ct) w w' Lv) as ((S' & _) & _ & Pk & _). split; [|exact S'].
  intro id. destruct ct as [q|pm|q|q]; try (apply Pk; discriminate).
  assert (Dec : w_prekeys w' id = w_prekeys w id \/ w_prekeys w' id <> w_prekeys w id).
  { assert (D : forall u v : option prekeyrec, u = v \/ u <> v).
    { intros u v. assert (X : {u = v} + {u <> v}) by (decide equality; decide equality; apply (list_eq_dec Byte.byte_eq_dec)). destruct X; auto. } apply D. }
  destruct Dec as [Q|Q]; [exact Q|exfalso].
  destruct (Kn pm eq_refl) as (r & s & Er & Si & Eb).
  assert (Co : consumption C w e pm w').
  { destruct Lv as (fs & [->|(n & ->)]); apply (consumed C e rnd pm fs w H W Wc). }
  destruct (Co id Q) as (_ & _ & _ & Un). exact (Un r s Er Si Eb).
Qed.

Lemma cable_state : forall dev es d e c, net C dev es -> d <> e -> In c es -> joins c d e -> has_cable c d ->
  exists r s, w_sess (dev d) e = Some r /\ state_in s r /\ ss_alice_base s = Byte.x05 :: ln_base (cb_link c).
Proof using H.
  intros dev es d e c M N Jc [J1 J2] Hc. destruct (net_pairs C H dev es d e M N) as (dv & K & Ed & _).
  destruct (net_link es c d e Jc N J1 J2) as (l & Jl & El & _ & Hi).
  pose proof (proj2 Hi Hc) as Hl. pose proof (many_inv C H _ _ _ K) as Iv.
  destruct Iv as (Wd & Rest). pose proof (conj Wd Rest) as Iv. destruct Rest as (_ & _ & Lk & _). destruct (Lk l Jl) as (v & G & St).
  destruct (the_session C H (facing d e) _ dv _ l v true Iv Jl G (St true) Hl) as (s & _ & Is & Eb & _).
  apply sess_in in Is; [|apply Wd]. destruct Is as (r & Er & Si). rewrite Ed in Er. exists r, s. split; [exact Er|]. split; [exact Si|]. rewrite El in Eb. exact Eb.
Qed.
Lemma N_le_dec : forall a b : N, {(a <= b)%N} + {~ (a <= b)%N}.
Proof. intros a b. destruct (N.leb a b) eqn:E; [left; apply N.leb_le; exact E|right; intro X; apply N.leb_le in X; congruence]. Qed.
(** The answer in terms of the record; whether the message was for a known session. *)
Lemma record_known : forall a rnd c m w pt w1, wf_device w -> wf_ciphertext c -> inner c = Some m ->
  run0 (decrypt_message C a rnd c) w = (Ok pt, w1) ->
  (exists r r', w_sess w a = Some r /\ decrypt_record C rnd r m = Ok (pt, r') /\ w_sess w1 a = Some r' /\
     forall pm, c = CPreKey pm -> exists r s, w_sess w a = Some r /\ state_in s r /\ ss_alice_base s = Byte.x05 :: pm_base pm) \/
  (exists r e, c = CSignal m /\ w_sess w a = Some r /\ decrypt_record C rnd r m = Err e /\ w_sess w1 a = Some r) \/
  (exists pm, c = CPreKey pm /\ unused_base w a (pm_base pm)).
Proof using H.
  intros a rnd c m w pt w1 W Wc Ic E.
  destruct (P_Attack.record_result C H _ _ _ _ _ _ _ W Wc Ic E) as [(r & r' & Er & D & Er')|X]; [|right; exact X].
  destruct c as [q|pm|q|q]; try (left; exists r, r'; repeat (split; [assumption|]); intros pm Q; discriminate).
  assert (Wr : wf_record r) by (eapply (proj1 (proj1 W)); exact Er). destruct (has_state_spec r pm Wr Wc) as (h & Hh & Hi). destruct h.
  - left. exists r, r'. repeat (split; [assumption|]). intros pm' Q. assert (pm' = pm) by congruence. subst pm'.
    destruct (proj1 Hi eq_refl) as (s0 & A1 & A2). exists r, s0. auto.
  - right. right. exists pm. split; [reflexivity|]. intros r0 s0 Q Si0 Eb. assert (r0 = r) by congruence. subst r0.
    assert (false = true) by (apply Hi; exists s0; auto). discriminate.
Qed.
Lemma receivable_dec : forall p k n, receivable p k n \/ ~ receivable p k n.
Proof.
  intros p k n.
  set (P := fun v : rview => rv_epoch v = k /\ ((rv_idx v <= n <= rv_idx v + 25000)%N \/ (n < rv_idx v)%N /\ In n (rv_saved v))).
  assert (D : forall v, {P v} + {~ P v}).
  { intro v. unfold P. destruct (Nat.eq_dec (rv_epoch v) k) as [E|E]; [|right; tauto].
    destruct (N_le_dec (rv_idx v) n) as [L|L].
    - destruct (N_le_dec n (rv_idx v + 25000)) as [L2|L2]; [left; auto|right]. intros (_ & [X|[X _]]); lia.
    - destruct (in_dec N.eq_dec n (rv_saved v)) as [J|J]; [left; split; [exact E|right; split; [lia|exact J]]|right; intros (_ & [X|[_ X]]); [lia|contradiction]]. }
  destruct (Exists_dec P (p_views p) D) as [X|X].
  - left. apply Exists_exists in X. destruct X as (v & J & E & [Q|[Q1 Q2]]); [eapply rec_ahead; eauto|eapply rec_saved; eauto].
  - destruct (Nat.eq_dec k (S (p_epoch p))) as [E|E]; [destruct (N_le_dec n 25000) as [L|L]; [left; apply rec_new; auto|]|].
    + right. intros [v J Ev Q|v J Ev Q1 Q2|_ Q]; [apply X, Exists_exists; exists v; unfold P; auto..|contradiction].
    + right. intros [v J Ev Q|v J Ev Q1 Q2|Q _]; [apply X, Exists_exists; exists v; unfold P; auto..|contradiction].
Qed.
(** Is [x] a message that [e] sent and [d] can receive? *)
Lemma posted_search : forall es d e x, (exists c y, In c es /\ sent_on c d e y /\ receivable (ln_par (cb_link c) (cb_role c d)) (nt_epoch y) (nt_counter y) /\ posted (nt_cipher y) = x) \/
  forall c y, In c es -> sent_on c d e y -> receivable (ln_par (cb_link c) (cb_role c d)) (nt_epoch y) (nt_counter y) -> posted (nt_cipher y) <> x.
Proof.
  intros es d e x.
  assert (Da : forall u v : addr, {u = v} + {u <> v}) by (intros u v; destruct (addr_eqb u v) eqn:Q; [left; apply addr_eqb_eq; exact Q|right; apply addr_eqb_neq; exact Q]).
  assert (D : forall c y, let P := joins c d e /\ nt_from y = negb (cb_role c d) /\ receivable (ln_par (cb_link c) (cb_role c d)) (nt_epoch y) (nt_counter y) /\ posted (nt_cipher y) = x in P \/ ~ P).
  { intros c y P. subst P. unfold joins. destruct (in_dec Da d [cb_from c; cb_to c]); [|tauto]. destruct (in_dec Da e [cb_from c; cb_to c]); [|tauto].
    destruct (Bool.bool_dec (nt_from y) (negb (cb_role c d))); [|tauto]. destruct (receivable_dec (ln_par (cb_link c) (cb_role c d)) (nt_epoch y) (nt_counter y)); [|tauto].
    assert (X : {posted (nt_cipher y) = x} + {posted (nt_cipher y) <> x}) by (decide equality; [apply (list_eq_dec Byte.byte_eq_dec)|apply Bool.bool_dec]). destruct X; tauto. }
  assert (S : forall c ys, (exists y, In y ys /\ joins c d e /\ nt_from y = negb (cb_role c d) /\ receivable (ln_par (cb_link c) (cb_role c d)) (nt_epoch y) (nt_counter y) /\ posted (nt_cipher y) = x) \/
    forall y, In y ys -> joins c d e -> nt_from y = negb (cb_role c d) -> receivable (ln_par (cb_link c) (cb_role c d)) (nt_epoch y) (nt_counter y) -> posted (nt_cipher y) <> x).
  { intros c ys. induction ys as [|y ys [(z & J & Q)|IH]]; [right; intros y []|left; exists z; split; [right; exact J|exact Q]|].
    destruct (D c y) as [Q|Q]; [left; exists y; split; [left; reflexivity|exact Q]|]. right. intros z [<-|J]; [tauto|auto]. }
  induction es as [|c es [(c0 & y & J & Q)|IH]]; [right; intros c y []|left; exists c0, y; split; [right; exact J|exact Q]|].
  destruct (S c (ln_notes (cb_link c))) as [(y & J & Jn & F & R & P)|Q]; [left; exists c, y; split; [left; reflexivity|]; split; [split; auto|auto]|].
  right. intros c0 y [<-|J]; [|eauto]. intros (Jn & Jy & F). auto.
Qed.

(** Any bytes may arrive. *)
Theorem net_any_bytes : forall dev es d e x rnd w', net C dev es -> d <> e -> w_shared (dev d) = false ->
  kp_pub (w_pair (dev d)) <> kp_pub (w_pair (dev e)) -> sized es -> new_keys C es d e rnd ->
  (forall m, carries x m -> ~ net_forgery C dev es d e m) ->
  leaves (receive_bytes C e rnd x) (dev d) w' ->
  (exists dev', (forall z, dev' z = dev_set dev d w' z) /\
     (net C dev' es \/
      exists es1 c es2 y m u, es = es1 ++ c :: es2 /\ sent_on c d e y /\ inner (nt_cipher y) = Some m /\ carries x m /\
        receivable (ln_par (cb_link c) (cb_role c d)) (nt_epoch y) (nt_counter y) /\ current_ratchet w' e u /\
        net C dev' (es1 ++ mkCable (cb_from c) (cb_to c) (link_got (cb_link c) (cb_role c d) (nt_epoch y) (nt_counter y) u) :: es2))) \/
  exists ct, unposted x = Ok ct /\ sets_up C (dev d) e rnd ct /\
    forall c y, In c es -> sent_on c d e y -> receivable (ln_par (cb_link c) (cb_role c d)) (nt_epoch y) (nt_counter y) -> posted (nt_cipher y) <> x.
Proof using H.
  intros dev es d e x rnd w' M N Sh Ni Sz Fr Nf Lv. unfold receive_bytes in Lv. pose proof (net_wf C H dev es d M) as Wd.
  assert (Keep : forall w, wf_device w -> w_pair w = w_pair (dev d) -> (forall a, w_sess w a = w_sess (dev d) a) ->
    (forall id, w_prekeys w id = w_prekeys (dev d) id) -> w_signed w = w_signed (dev d) -> net C (dev_set dev d w) es).
  { intros w A1 A2 A3 A4 A5. apply net_other; auto. intros c _ _ _. split; [rewrite A5; reflexivity|auto]. }
  destruct (unposted x) as [ct|err|] eqn:U; cbn [plift] in Lv.
  2,3: left; exists (dev_set dev d w'); split; [reflexivity|]; left;
       assert (w' = dev d) as -> by (destruct Lv as (fs & [-> |(n & ->)]); [reflexivity|apply crash_ret]); apply Keep; auto.
  destruct (carries_wf _ _ U) as [Wc Pc].
  assert (Ps : pall shape_ok shape_ans (decrypt_message C e rnd ct)) by (exact (calls_shape C H (CDecrypt e rnd ct) Wc)).
  destruct (leaves_shape _ _ _ Ps Wd Lv) as [Wd' Wp'].
  pose proof (leaves_rest C (CDecrypt e rnd ct) (dev d) w' Lv) as ((S' & _) & Oth & _). cbn [scope_of] in Oth.
  destruct (leaves_atomic C (CDecrypt e rnd ct) (dev d) w' Sh Lv) as [Un|[(pt & Ok1) Sr]].
  { left. exists (dev_set dev d w'). split; [reflexivity|]. left. apply cut_nothing; auto. }
  assert (Fresh : forall c k, all_fresh C (all_keys (links_between d e es)) (ln_par (cb_link c) (cb_role c d)) k (List.length (links_between d e es)) rnd).
  { intros c k _ j Lj. exact (Fr j Lj). }
  destruct (run0 (decrypt_message C e rnd ct) (dev d)) as [z w1] eqn:E. cbn [fst snd] in *. subst z.
  assert (exists m, inner ct = Some m) as (m & Ic).
  { destruct (answer_exact C _ _ _ _ _ _ _ H Wd Wc E) as [(m & s & Im & _)|(m & r & err & -> & _)]; eauto. exists m. reflexivity. }
  assert (Nf' : ~ net_forgery C dev es d e m) by (apply Nf; exists ct; auto).
  destruct (record_known _ _ _ _ _ _ _ Wd Wc Ic E) as [(r & r' & Er & D & Er' & Knc)|[(r & err & Ec & Er & _ & Er')|(pm & Ec & Ub)]].
  - (* one of the sessions opened it *)
    assert (Wr : wf_record r) by (eapply (proj1 (proj1 Wd)); exact Er).
    assert (Wm : wf_signal m) by (exact (parse_signal_wf _ _ (Pc m Ic))).
    destruct (decrypt_record_opens C rnd r m pt r' H Wr Wm D) as (s & Si & O).
    destruct (net_speaker dev es d e r s m pt M N Sz Er Si (Pc m Ic) O) as (c & Jc & Jn & Hc & Eb & [(y & (_ & Jy & Fy) & Iy & Ty & Rv)|F]); [|contradiction].
    specialize (Rv Ni). left. destruct y as [fy ky ny ty cy]. cbn [nt_from nt_epoch nt_counter nt_text nt_cipher] in *. subst fy.
    destruct (net_cable C H dev es c M Jc) as (at_ & v & Hy). destruct (link_note C H at_ _ _ _ _ _ _ _ _ _ _ _ Hy Jy) as (sg & Is & _ & Wcy & _ & Cs).
    assert (sg = m) by congruence. subst sg.
    assert (Kn : forall pm, cy = CPreKey pm -> exists r s, w_sess (dev d) e = Some r /\ state_in s r /\ ss_alice_base s = Byte.x05 :: pm_base pm).
    { intros pm Q. destruct Cs as [[Q' _]|(_ & pm' & Q' & _ & Bp & _)]; [congruence|]. assert (pm' = pm) by congruence. subst pm'. rewrite Bp. exists r, s. auto. }
    set (w2 := trusting (dev d)).
    assert (M2 : net C (dev_set dev d w2) es) by (apply Keep; auto).
    assert (E2 : dev_set dev d w2 d = w2) by apply set_same.
    assert (Nm : has_cable c d -> ~ misread C (dev_set dev d w2 d) e (ln_base (cb_link c)) cy).
    { intros _ (m' & r0 & s0 & p0 & Im' & Er0 & Si0 & Nb0 & O0). rewrite E2 in Er0. assert (m' = m) by congruence. subst m'.
      assert (r0 = r) by (change (w_sess (dev d) e = Some r0) in Er0; congruence). subst r0.
      destruct (net_speaker dev es d e r s0 m p0 M N Sz Er Si0 (Pc m Ic) O0) as (c0 & Jc0 & Jn0 & _ & Eb0 & [(y0 & (_ & Jy0 & _) & Iy0 & _)|F]); [|contradiction].
      apply Nb0. rewrite Eb0. f_equal. symmetry. refine (net_one dev es d e c c0 _ y0 m M N Jc Jc0 Jn Jn0 Jy Jy0 _ Iy0). exact Iy. }
    pose proof Jn as [Jd Je].
    destruct (net_delivered C H _ _ _ _ _ _ _ _ _ rnd M2 Jc N Jd Je Jy Rv (Fresh c ky) Nm) as (w3 & E3).
    { rewrite E2. reflexivity. }
    destruct (net_answered C H _ _ _ _ _ _ _ _ _ _ _ _ _ M2 Jc N Jd Je Jy Rv (Fresh c ky) Nm E3) as (_ & _ & u & Cr & _).
    rewrite E2 in E3. assert (Wd2 : wf_device w2) by exact Wd.
    assert (Er3 : w_sess w3 e = Some r').
    { destruct (P_Attack.record_result C H _ _ _ _ _ _ _ Wd2 Wcy Is E3) as [(r0 & r3 & A1 & A2 & A3)|[(r0 & err & _ & A1 & A2 & _)|(pm & A1 & A2)]].
      - change (w_sess (dev d) e = Some r0) in A1. assert (r0 = r) by congruence. subst r0. rewrite D in A2. congruence.
      - change (w_sess (dev d) e = Some r0) in A1. assert (r0 = r) by congruence. subst r0. congruence.
      - exfalso. destruct (Kn pm A1) as (r0 & s0 & B1 & B2 & B3). exact (A2 r0 s0 B1 B2 B3). }
    assert (Lv3 : leaves (decrypt_message C e rnd cy) w2 w3) by (exists []; left; unfold run0 in E3; rewrite E3; reflexivity).
    destruct (known_keeps e rnd cy w2 w3 Wd2 Wcy Kn Lv3) as [Pk3 Sg3].
    pose proof (leaves_rest C (CDecrypt e rnd cy) w2 w3 Lv3) as (_ & Oth3 & _). cbn [scope_of] in Oth3.
    destruct (known_keeps e rnd ct (dev d) w' Wd Wc Knc Lv) as [Pk' Sg'].
    destruct (in_split _ _ Jc) as (es1 & es2 & Ees). subst es.
    assert (K3 : net C (dev_set (dev_set dev d w2) d w3) (es1 ++ mkCable (cb_from c) (cb_to c) (link_got (cb_link c) (cb_role c d) ky ny u) :: es2)).
    { eapply (net_receive C _ _ es1 c es2 d e ky ny ty cy rnd [] ty u w3 M2 N Jd Je Jy Rv (Fresh c ky) Nm); [rewrite E2; exact E3|exact Cr]. }
    assert (Sess : forall a, w_sess w' a = w_sess w3 a).
    { intro a. destruct (addr_eqb a e) eqn:Q; [apply addr_eqb_eq in Q; subst a; rewrite (proj1 Sr), Er', Er3; reflexivity|].
      apply addr_eqb_neq in Q. destruct (Oth a Q) as [-> _]. destruct (Oth3 a Q) as [-> _]. reflexivity. }
    exists (dev_set (dev_set (dev_set dev d w2) d w3) d w'). split.
    { intro q. unfold dev_set. destruct (addr_eqb q d); reflexivity. }
    right. exists es1, c, es2, (mkNote (negb (cb_role c d)) ky ny ty cy), m, u. cbn [nt_from nt_epoch nt_counter nt_text nt_cipher].
    split; [reflexivity|]. split; [split; [exact Jn|split; [exact Jy|reflexivity]]|]. split; [exact Is|]. split; [exists ct; auto|]. split; [exact Rv|].
    split.
    { destruct Cr as (s3 & sc & Q & R1). exists s3, sc. split; [|exact R1]. unfold current_session in *. rewrite Sess. exact Q. }
    apply net_other; [exact K3|exact Wd'| | |]; rewrite ?set_same.
    + rewrite Wp'. symmetry. pose proof (run_pair (decrypt_message C e rnd cy) [] w2) as Q. unfold run0 in E3. rewrite E3 in Q. exact Q.
    + exact Sess.
    + intros c' _ _ _. split; [rewrite Sg', Sg3; reflexivity|]. intros id _. rewrite Pk', Pk3. reflexivity.
  - left. exists (dev_set dev d w'). split; [reflexivity|]. left. apply Keep; auto.
    + intro a. destruct (addr_eqb a e) eqn:Q; [apply addr_eqb_eq in Q; subst a; rewrite (proj1 Sr), Er'; symmetry; exact Er|]. apply Oth. apply addr_eqb_neq. exact Q.
    + apply (known_keeps e rnd ct (dev d) w' Wd Wc); [|exact Lv]. intros pm Q. congruence.
  - destruct (posted_search es d e x) as [(c & y & Jc & (Jn & Jy & Fy) & Rv & Px)|No].
    + left. destruct y as [fy ky ny ty cy]. cbn [nt_from nt_epoch nt_counter nt_text nt_cipher] in *. subst fy.
      destruct (net_cable C H dev es c M Jc) as (at_ & v & Hy). destruct (link_note C H at_ _ _ _ _ _ _ _ _ _ _ _ Hy Jy) as (sg & Is & _ & Wcy & _ & Cs).
      assert (Ecy : cy = ct).
      { pose proof (in_transit C H _ at_ _ _ _ _ _ _ Hy Jy (Sz c _ Jc Jy)) as T. cbn [nt_cipher] in T. rewrite Px, U in T. congruence. }
      subst cy. assert (sg = m) by congruence. subst sg.
      assert (Nh : ~ has_cable c d).
      { intro Hc. destruct Cs as [[Q' _]|(_ & pm' & Q' & _ & Bp & _)]; [congruence|]. assert (pm' = pm) by congruence. subst pm'.
        destruct (cable_state dev es d e c M N Jc Jn Hc) as (r & s & Er & Si & Eb). apply (Ub r s Er Si). rewrite Bp. exact Eb. }
      destruct (in_split _ _ Jc) as (es1 & es2 & Ees). subst es. pose proof Jn as [Jd Je].
      destruct (net_receive_cut C H dev es1 c es2 d e ky ny ty ct rnd w' M Sh N Jd Je Jy Rv (Fresh c ky)) as (dev' & Ed & [K|(u & Cr & K)]); [contradiction|exact Lv| |].
      * exists dev'. split; [exact Ed|]. left. exact K.
      * exists dev'. split; [exact Ed|]. right. exists es1, c, es2, (mkNote (negb (cb_role c d)) ky ny ty ct), m, u. cbn [nt_from nt_epoch nt_counter nt_text nt_cipher].
        split; [reflexivity|]. split; [split; [exact Jn|split; [exact Jy|reflexivity]]|]. split; [exact Ic|]. split; [exists ct; auto|]. split; [exact Rv|]. split; [exact Cr|exact K].
    + right. exists ct. split; [reflexivity|]. split; [|exact No]. exists pm. split; [exact Ec|]. split; [exact Ub|]. unfold run0 in E |- *. rewrite E. exists pt. reflexivity.
Qed.

Lemma published_kept : forall w w' b ib sb ob, published C w b ib sb ob -> w_pair w' = w_pair w -> prekeys_kept w w' b -> published C w' b ib sb ob.
Proof.
  intros w w' b ib sb ob (P1 & P2 & P3 & P4 & P5) E [K1 K2]. unfold published. rewrite E, K1. repeat (split; [assumption|]).
  destruct ob as [o|]; [|exact P5]. destruct P5 as (P5 & id & x & p & Q1 & Q2 & Q3 & Q4). split; [exact P5|]. exists id, x, p. rewrite (K2 id Q1). auto.
Qed.
(** What a fresh session for the frame of a session begun by the peer opens. *)
Lemma fresh_speaker : forall at_ b base dev par keys notes w pm s pt, history C at_ b base dev par keys notes ->
  (forall y, In y notes -> (size (nt_text y) < 2 ^ 62)%N) -> p_epoch (par false) = 0 ->
  wf_device w -> w_pair w = w_pair (dev false) -> prekeys_kept (dev false) w b ->
  wf_prekeymsg pm -> parse_signal (sg_raw (pm_message pm)) = Ok (pm_message pm) ->
  pm_base pm = base -> pm_identity pm = kp_pub (w_pair (dev true)) -> pm_prekey_id pm = bd_prekey_id b -> pm_signed_id pm = bd_signed_id b ->
  bob_session C w pm s -> opens C s (pm_message pm) pt ->
  (exists y, In y notes /\ nt_from y = true /\ inner (nt_cipher y) = Some (pm_message pm) /\ nt_text y = pt) \/
  first_forgery C b (kp_pub (w_pair (dev false))) base (kp_pub (w_pair (dev true))) (fun y => In y notes /\ nt_from y = true) (pm_message pm).
Proof using H.
  intros at_ b base dev par keys notes w pm s0 pt Hy Sz Z Ww Wp0 Kp Wp Pp Fb Fi Fp Fs B0 O.
  destruct (history_in_step C H b at_ _ _ _ _ _ Hy) as (k & ks & St).
  pose proof St as (So & Eb & Eks & Ko & (l & El) & Lk & Adj & _ & Wd & Pr & _ & Nb & Nt).
  destruct (Nb Z) as (Ep & Pub & Un).
  assert (Ei : forall y, kp_pub (w_pair (dev y)) = sid C k y) by (intro y; destruct (Pr y) as (_ & Q & _); exact Q).
  rewrite Ei in Fi.
  assert (Fm : prekey_frame pm (pm_reg pm) (bd_prekey_id b) (bd_signed_id b) (mont_pub C (k_e k)) (sid C k true) (pm_message pm)).
  { unfold prekey_frame. rewrite <- Eb. destruct Wp as (V & _). auto 10. }
  destruct (responder_state C H b k w pm (pm_reg pm) (pm_message pm) So Ww (published_kept _ _ _ _ _ _ Pub Wp0 Kp)) as (s & B & P0 & _ & _); [unfold wf_prekeymsg in Wp; tauto|exact Fm|].
  assert (s0 = s) by (exact (bob_session_fun C _ _ _ _ B0 B)). subst s0.
  pose proof P0 as (Ws & P2 & P3 & _ & P5 & (sc & C1 & C2 & C3 & C4) & _ & P7 & _). cbn [p_views p_epoch] in *.
  destruct O as (mk & remote & local & Mk & Er & Elc & Tg & Dc).
  rewrite P3 in Er. rewrite P2 in Elc. apply pub_bytes_inj in Er. apply pub_bytes_inj in Elc. subst remote local.
  assert (Rv0 : ss_receivers s = []) by (inversion P7; congruence).
  destruct Mk as [(c & ck & Ic & _)|(_ & _ & sc' & root' & ck & Sc & _ & Hk & L1 & L2 & Ka)]; [rewrite Rv0 in Ic; destruct Ic|].
  assert (sc' = sc) by congruence. subst sc'.
  set (m := pm_message pm) in *.
  assert (Ls : List.length (k_sb k) = 32) by (unfold secrets_ok in So; tauto).
  rewrite C3 in Hk. change (kkey [k_sb k] 0) with (k_sb k) in Hk. rewrite (ok_x_clamp C H) in Hk by exact Ls. rewrite P5 in Hk.
  change (kroot C (sroot C k) (schain C k) [k_sb k] 0) with (sroot C k) in Hk.
  assert (Ec : ck = snd (ratchet_step C (sroot C k) (c_x25519 C (k_sb k) (sg_ratchet m)))).
  { unfold ratchet_step. cbn [snd]. rewrite <- Hk. rewrite <- L1 at 1. rewrite skipn_app_exact. reflexivity. }
  assert (Gen : forall y m', In y notes -> nt_from y = true -> inner (nt_cipher y) = Some m' -> sg_ratchet m' = sg_ratchet m -> sg_counter m' = sg_counter m ->
    tagged C (mk_mac mk) (sid C k true) (sid C k false) (sg_raw m') /\ cbc_decrypt C (mk_cipher mk) (mk_iv mk) (sg_body m') = Ok (nt_text y)).
  { intros y m' J Fy Im E1 E2. destruct (note_whisper C H b at_ _ _ _ _ _ _ _ _ _ St J Im) as (Lx & G & Wh). rewrite Fy in Wh.
    destruct (whisper_fields _ _ _ _ _ _ _ _ Wh) as (_ & W1 & W2).
    rewrite Forall_forall in Nt. destruct (Nt _ J) as ((Le & Ne) & _). rewrite Fy in Le. rewrite Z in Adj, Lk.
    assert (Ey : nt_epoch y = 1) by lia. rewrite Ey in *. cbn [negb] in Wh.
    assert (K : keys_at C (chain_at C (kchain C (sroot C k) (schain C k) ks 1) (N.to_nat (nt_counter y))) (nt_counter y) mk).
    { rewrite Ec, <- E1, <- E2, W1, W2 in Ka.
      replace (kchain C (sroot C k) (schain C k) ks 1) with (snd (ratchet_step C (sroot C k) (c_x25519 C (k_sb k) (kpub C ks 1)))); [exact Ka|].
      unfold kchain. cbn [sched snd fst]. unfold kpub, ratchet_step. cbn [snd].
      assert (Lx1 : List.length (kkey ks 1) = 32) by (apply (kkey_len C); auto).
      assert (Lx0 : kkey ks 0 = k_sb k) by (rewrite El; reflexivity). rewrite Lx0.
      rewrite (ok_dh C H (k_sb k) (kkey ks 1)) by auto. reflexivity. }
    destruct (whisper_opens _ _ _ _ _ _ _ _ _ H Wh K) as [V Dd]. split; [|exact Dd].
    apply (verify_mac_tagged C m' (mk_mac mk) _ _ H); [apply K|exact V]. }
  rewrite !Ei.
  destruct (repeats_search m notes) as [(y & J & Fy & m' & Im & E1 & E2 & E3)|No].
  - left. destruct (Gen y m' J Fy Im E1 E2) as [T' D']. pose proof (same_text_raw _ _ _ _ _ _ H Tg T' E3) as Raw.
    pose proof (note_parses C H b at_ _ _ _ _ _ _ _ Hy J (Sz y J) Im) as Pm'. rewrite Raw, Pp in Pm'.
    assert (Mm : m' = m) by (apply (f_equal (fun y => match y with Ok a => a | _ => m end)) in Pm'; symmetry; exact Pm').
    exists y. split; [exact J|]. split; [exact Fy|]. split; [congruence|]. rewrite Mm, Dc in D'.
    apply (f_equal (fun y => match y with Ok a => a | _ => pt end)) in D'. symmetry. exact D'.
  - right. exists (k_ia k), (k_e k), (k_ib k), (k_sb k), (k_ob k), mk. split; [reflexivity|]. split; [exact Eb|]. split; [reflexivity|].
    split; [|split; [rewrite Ec in Ka; exact Ka|]].
    + destruct Pub as (_ & Q1 & Q2 & _ & Q3). split; [exact Q1|]. split; [exact Q2|]. destruct (k_ob k); apply Q3.
    + split; [exact Tg|]. intros y m' [J Fy] Im E1 E2. split; [exact (proj1 (Gen y m' J Fy Im E1 E2))|].
      intro E3. apply (No y J). split; [exact Fy|]. exists m'. auto.
Qed.

Theorem net_first : forall dev es c d e x pm rnd fs pt w', net C dev es -> sized es -> In c es -> cb_from c = e -> cb_to c = d -> ~ has_cable c d ->
  unposted x = Ok (CPreKey pm) -> pm_base pm = ln_base (cb_link c) -> pm_identity pm = kp_pub (w_pair (dev e)) ->
  pm_prekey_id pm = bd_prekey_id (ln_bundle (cb_link c)) -> pm_signed_id pm = bd_signed_id (ln_bundle (cb_link c)) ->
  run (receive_bytes C e rnd x) fs (dev d) = (Ok pt, w') ->
  (exists c' y, In c' es /\ sent_on c' d e y /\ inner (nt_cipher y) = Some (pm_message pm) /\ nt_text y = pt) \/
  first_forgery C (ln_bundle (cb_link c)) (kp_pub (w_pair (dev d))) (ln_base (cb_link c)) (kp_pub (w_pair (dev e))) (sent_on c d e) (pm_message pm) \/
  net_forgery C dev es d e (pm_message pm).
Proof using H.
  intros dev es c d e x pm rnd fs pt w' M Sz Jc Ef Et Nh U Fb Fi Fp Fs E.
  assert (N : d <> e). { intro Q. apply Nh. left. congruence. }
  assert (Jn : joins c d e) by (unfold joins; cbn [In]; auto).
  destruct (carries_wf x _ U) as [Wc Pc]. pose proof (Pc _ eq_refl) as Pm.
  unfold receive_bytes in E. rewrite U in E. cbn [plift decrypt_message] in E.
  pose proof (net_wf C H dev es d M) as Wd.
  destruct (net_pairs C H dev es d e M N) as (dv & K & Ed & Ee). pose proof (many_inv C H _ _ _ K) as Iv.
  destruct (net_link es c d e Jc N (proj1 Jn) (proj2 Jn)) as (l & Jl & El & Rl & Hi).
  assert (Rd : cb_role c d = false) by (unfold cb_role; apply addr_eqb_neq; congruence).
  destruct Iv as (_ & _ & _ & Lk & _). destruct (Lk l Jl) as (v & G & St). pose proof (gh_hist _ _ _ _ _ G) as Hy.
  destruct (St true) as (Pv & _ & Nl). destruct (St false) as (Pe & _ & _). rewrite Rl, Rd in Pv, Nl. rewrite Ed in Pv, Nl.
  assert (Re : role l false = true) by (change false with (negb true); rewrite role_other, Rl, Rd; reflexivity).
  rewrite Re, Ee in Pe.
  destruct Nl as [Ub Kp]; [intro Q; apply Nh, Hi; exact Q|].
  assert (Sig : ln_base l = ln_base (cb_link c) /\ ln_par l = ln_par (cb_link c) /\ ln_notes l = ln_notes (cb_link c) /\ ln_bundle l = ln_bundle (cb_link c)) by (rewrite El; auto).
  destruct Sig as (Bl & Pl & Nol & Bul). rewrite Bl, Pl, Nol, Bul in Hy. rewrite Bl in Ub. rewrite Bul in Kp.
  assert (Z : p_epoch (ln_par (cb_link c) false) = 0).
  { destruct (Nat.eq_dec (p_epoch (ln_par (cb_link c) false)) 0) as [Z|Z]; [exact Z|]. exfalso. apply Nh. right. auto. }
  destruct (decrypt_prekey_inv _ _ _ _ _ _ _ _ E) as (r1 & r2 & id & w2 & T & Br & D & _).
  assert (Ub' : unused_base (dev d) e (ln_base (cb_link c))) by exact Ub.
  assert (Hs : rc_has_state (loaded (w_sess (dev d) e)) (pm_version pm) (pub_bytes (pm_base pm)) = Ok false).
  { apply no_state; [apply Wd|exact Wc|rewrite Fb; exact Ub']. }
  destruct Br as [(Hs' & _)|(_ & _ & s1 & B1 & Er1 & _)]; [congruence|].
  pose proof (loaded_wf (dev d) e (proj1 Wd)) as Wl. subst r1.
  assert (Ws : wf_state s1).
  { apply (bob_session_wf C (dev d) pm s1 H (proj1 Wd) Wc B1). }
  destruct (decrypt_record_opens C rnd _ (pm_message pm) pt r2 H (promote_wf _ s1 Wl Ws) (wf_prekey_inner pm Wc) D) as (s2 & Si & O).
  apply state_in_promote in Si; [|exact Wl]. destruct Si as [->|Si].
  - assert (Fi' : pm_identity pm = kp_pub (w_pair (v true))) by (rewrite Fi, Pe; reflexivity).
    destruct (fresh_speaker _ _ _ _ _ _ _ (dev d) pm s1 pt Hy (fun y J => Sz c y Jc J) Z Wd (eq_sym Pv) Kp Wc Pm Fb Fi' Fp Fs B1 O) as [(y & Jy & Fy & Iy & Ty)|F].
    + left. exists c, y. split; [exact Jc|]. split; [split; [exact Jn|split; [exact Jy|rewrite Rd; exact Fy]]|auto].
    + right. left. rewrite Pv, Pe in F. destruct F as (ia & ee & ib & sb & ob & mk & F1 & F2 & F3 & F4 & F5 & F6 & F7).
      exists ia, ee, ib, sb, ob, mk. repeat (split; [assumption|]). intros y m' (_ & Jy & Fy). rewrite Rd in Fy. apply F7. auto.
  - apply state_in_loaded in Si. destruct Si as (r & Er & Si).
    destruct (net_speaker dev es d e r s2 _ pt M N Sz Er Si Pm O) as (c' & Jc' & Jn' & _ & _ & [(y & Sy & Iy & Ty & _)|F]); [left; exists c', y; auto|right; right; exact F].
Qed.
End Hostile.
