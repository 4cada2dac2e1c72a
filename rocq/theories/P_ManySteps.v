(** Several sessions at the same time: the steps (C85). *)
From Verif Require Import M_Base M_Crypto M_Aes M_Curve M_Proto M_Message M_Ratchet M_State M_Store M_Session M_Group
  S_Crypto S_Message S_State S_Shape S_Ratchet S_Session S_Aes S_Api S_Send S_Group S_Curve S_X3dh S_Receive S_Conv S_History S_Secrecy S_Many
  P_Base P_Proto P_Curve P_State P_Shape P_Ratchet P_Message P_Aes P_Chain P_Decrypt P_Receive P_Encrypt P_Record P_Prog P_Api
  P_Init P_Send P_Conv P_X3dh P_Conv2 P_Bundle P_DecApi P_DecTop P_DecMore P_Replay P_Trust P_History P_Archive P_ManyRec P_ManyFail P_ManyApi P_ManyLink P_Many.
From Coq Require Import ZifyBool ZifyNat ZifyN Permutation.
Local Open Scope nat_scope.

Section Steps.
Variable C : Crypto.
Hypothesis H : CryptoOk C.
Variable at_ : bool -> addr.
Notation sess_list := P_Many.sess_list.
Notation at_l := (P_Many.at_l at_).
Notation stands := (P_Many.stands at_).
Variable G : ghost C at_.
Notation inv := (P_Many.inv C at_ G).

Lemma perm_facts : forall (S t : list state) s B, NoDup (map ss_alice_base S) -> Permutation S (s :: t) -> ss_alice_base s = B ->
  NoDup (map ss_alice_base t) /\ forall z, In z t <-> In z S /\ ss_alice_base z <> B.
Proof.
  intros S t s B ND P E. pose proof (Permutation_NoDup (Permutation_map ss_alice_base P) ND) as N. cbn [map] in N. inversion N as [|? ? N1 N2]; subst.
  split; [exact N2|]. intro z. split.
  - intro J. split; [apply (Permutation_in _ (Permutation_sym P)); right; exact J|]. intro X. apply N1. rewrite <- X. apply in_map. exact J.
  - intros [J X]. apply (Permutation_in _ P) in J. destruct J as [->|J]; [destruct X; reflexivity|exact J].
Qed.
Lemma moved : forall dev l v x, wf_device (dev x) -> G l v -> (forall y, stands dev l v y) ->
  (has_link l x -> current_session (dev x) (at_ x) = current_session (v (role l x)) (at_ x)) ->
  G l (upd v (role l x) (dev x)) /\ forall y, stands dev l (upd v (role l x) (dev x)) y.
Proof.
  intros dev l v x W Hy St Cu. destruct (St x) as (S1 & S2 & S3). split.
  - apply (gh_later C at_ G l v); auto. apply l_other; [apply l_now|]. split; [exact W|]. split; [congruence|]. rewrite at_role. destruct (has_dec l x) as [Q|Q]; [left; auto|right].
    destruct (S3 Q) as [U K]. split; [|split; [|auto]].
    + destruct (role l x) eqn:R; [destruct Q; left; exact R|reflexivity].
    + destruct (Nat.eq_dec (p_epoch (ln_par l false)) 0) as [Z|Z]; [exact Z|destruct Q; right; exact Z].
  - intro y. destruct (Bool.bool_dec y x) as [->|Ny]; unfold P_Many.stands.
    + rewrite upd_same. split; [reflexivity|]. split.
      * intro Q. rewrite (Cu Q). exact (S2 Q).
      * intro Q. split; [exact (proj1 (S3 Q))|]. split; [reflexivity|]. intros; reflexivity.
    + rewrite upd_other; [exact (St y)|]. intro Q. apply Ny. unfold role in Q. destruct x, y, (ln_from l); try reflexivity; discriminate.
Qed.
Lemma owner : forall dev ls l x s, inv dev ls -> In l ls -> In s (sess_list (dev x) (at_ x)) -> ss_alice_base s = Byte.x05 :: ln_base l -> has_link l x.
Proof.
  intros dev ls l x s (_ & Nb & _ & _ & _ & Ow & _) Jl J E. destruct (Ow x s J) as (m & Jm & Hm & Em). rewrite E in Em. injection Em as Em.
  rewrite (map_inj_in ln_base ls l m Nb Jl Jm Em). exact Hm.
Qed.
Lemma here : forall l1 (l : link) l2, In l (l1 ++ l :: l2).
Proof. intros. apply in_or_app. right. left. reflexivity. Qed.
Lemma role_neg : forall l x, role l (negb x) = negb (role l x).
Proof. intros l x. unfold role. destruct x, (ln_from l); reflexivity. Qed.

Lemma send_inv : forall dev l1 l l2 x pt fs c w', inv dev (l1 ++ l :: l2) -> current_base (dev x) (at_ x) (ln_base l) ->
  (p_sent (ln_par l (role l x)) + 1 < 4294967296)%N -> run (encrypt_message C (at_ x) pt) fs (dev x) = (Ok c, w') ->
  inv (upd dev x w') (l1 ++ link_sent l (role l x) pt c :: l2).
Proof using H.
  intros dev l1 l l2 x pt fs c w' Iv (s0 & Cu0 & Eb0) Gt E. pose proof Iv as (Wd & _ & _ & Lk & ND & _).
  destruct (w_sess (dev x) (at_ x)) as [r|] eqn:Er; [|unfold current_session in Cu0; rewrite Er in Cu0; discriminate].
  assert (Ec : rc_current r = Some s0) by (unfold current_session in Cu0; rewrite Er in Cu0; exact Cu0).
  assert (J0 : In s0 (sess_list (dev x) (at_ x))) by (apply sess_in; [apply Wd|]; exists r; split; [exact Er|left; exact Ec]).
  pose proof (owner _ _ _ _ _ Iv (here l1 l l2) J0 Eb0) as Hl.
  destruct (Lk l (here l1 l l2)) as (v & Hy & St). destruct (the_session C H at_ G _ _ l v x Iv (here l1 l l2) Hy (St x) Hl) as (s & Cu & J & Eb & Ws & _ & _ & _ & Un).
  assert (s0 = s) as -> by (apply Un; assumption).
  destruct (moved dev l v x (Wd x) Hy St) as [Hy' St']; [intros _; rewrite Cu0, Cu; reflexivity|].
  assert (Wd' : wf_device w').
  { replace w' with (snd (run (encrypt_message C (at_ x) pt) fs (dev x))) by (rewrite E; reflexivity).
    apply run_shape; [exact (calls_shape C H (CEncrypt (at_ x) pt) I)|apply Wd]. }
  assert (Wp' : w_pair w' = w_pair (dev x)).
  { replace w' with (snd (run (encrypt_message C (at_ x) pt) fs (dev x))) by (rewrite E; reflexivity). apply run_pair. }
  assert (Wr : wf_record r) by (eapply (proj1 (proj1 (Wd x))); exact Er).
  destruct (encrypt_state_exact C s pt H Ws) as (sc0 & k & ratchet & local & remote & m & out' & Es & Ek & _ & _ & _ & _ & _ & _ & _ & _ & X).
  set (s' := with_sender s _) in X. destruct (encrypt_state_wf _ _ _ _ _ _ H Ws X) as (Ws' & Sm & _).
  destruct (encrypt_success _ _ _ _ _ _ _ _ _ _ _ _ Er Ec X E) as (Ecc & _ & Ew).
  destruct (sessions_set r s s' Ec) as (t & Q1 & Q2).
  assert (Er' : w_sess w' (at_ x) = Some (rc_set_state r s')) by (rewrite Ew; cbn; rewrite addr_eqb_refl; reflexivity).
  assert (Sl : sess_list (dev x) (at_ x) = s :: t) by (unfold P_Many.sess_list; rewrite Er; exact Q1).
  destruct (perm_facts (sess_list (dev x) (at_ x)) t s _ (ND x) ltac:(rewrite Sl; apply Permutation_refl) Eb) as [T1 T2].
  apply (step_inv C H at_ G dev l1 l l2 _ x w' (rc_set_state r s') s' t w' (upd v (role l x) (dev x))); auto.
  - intro Z. cbn [link_sent ln_par]. unfold upd. destruct (Bool.eqb false (role l x)) eqn:Q; [apply Bool.eqb_prop in Q; rewrite <- Q; cbn [sent_one p_epoch]; exact Z|exact Z].
  - destruct Hl as [Q|Q]; [left; exact Q|right]. cbn [link_sent ln_par]. unfold upd. destruct (Bool.eqb false (role l x)) eqn:Z; [apply Bool.eqb_prop in Z; rewrite <- Z; cbn [sent_one p_epoch]; exact Q|exact Q].
  - intros [Q|Q]; [left; exact Q|]. cbn [link_sent ln_par] in Q. unfold upd in Q. destruct (Bool.eqb false (role l x)) eqn:Z; [apply Bool.eqb_prop in Z; rewrite <- Z in Q; right; exact Q|right; exact Q].
  - rewrite Q2. apply Permutation_refl.
  - rewrite Ew. destruct (w_shared (dev x)); reflexivity.
  - intro id. left. rewrite Ew. destruct (w_shared (dev x)); reflexivity.
  - cbn [link_sent ln_par ln_keys ln_notes]. eapply (gh_later C at_ G); [exact Hy'|reflexivity..|]. cbn [link_sent ln_par ln_keys ln_notes]. eapply l_send; [apply l_now|exact Hl|exact Gt|]. rewrite at_role, upd_same. exact E.
  - unfold current_session. rewrite Er'. reflexivity.
Qed.

(** What receiving does in a session that the device has. *)
Lemma reads : forall dev ls l v x k n pt c rnd, inv dev ls -> In l ls -> G l v -> (forall y, stands dev l v y) -> has_link l x ->
  In (mkNote (negb (role l x)) k n pt c) (ln_notes l) -> receivable (ln_par l (role l x)) k n ->
  all_fresh C (all_keys ls) (ln_par l (role l x)) k (List.length ls) rnd -> ~ misread C (dev x) (at_ x) (ln_base l) c ->
  exists m r s s' r' t rnd' rest, inner c = Some m /\ wf_signal m /\ wf_ciphertext c /\ w_sess (dev x) (at_ x) = Some r /\ framed_for r m c /\
    current_session (v (role l x)) (at_ x) = Some s /\ fresh C (ln_keys l) (ln_par l (role l x)) k rnd' /\
    (k = S (p_epoch (ln_par l (role l x))) -> ~ In (mont_pub C (firstn 32 rnd')) (all_keys ls)) /\
    decrypt_session C rnd' s m = (Ok (pt, s'), rest) /\ decrypt_record C rnd r m = Ok (pt, r') /\ rc_current r' = Some s' /\
    Permutation (sess_list (dev x) (at_ x)) (s :: t) /\ Permutation (sessions_of r') (s' :: t) /\
    ss_alice_base s = Byte.x05 :: ln_base l /\ ss_alice_base s' = Byte.x05 :: ln_base l /\
    ss_remote s' = Byte.x05 :: kp_pub (w_pair (dev (negb x))) /\ List.length (kp_pub (w_pair (dev (negb x)))) = 32 /\
    (forall pm, c = CPreKey pm -> pm_identity pm = kp_pub (w_pair (dev (negb x))) /\ pm_base pm = ln_base l) /\
    (k = S (p_epoch (ln_par l (role l x))) -> exists sc j, ss_sender s' = Some sc /\ pc_ratchet sc = Byte.x05 :: mont_pub C (firstn 32 rnd') /\
      j < List.length ls /\ rnd' = skipn (32 * j) rnd).
Proof using H.
  intros dev ls l v x k n pt c rnd Iv Jl Hy St Hl Jn Rv Fr Nm. pose proof Iv as (Wd & Nb & _ & Lk & ND & Ow & Ks & _).
  destruct (the_session C H at_ G _ _ l v x Iv Jl Hy (St x) Hl) as (s & Cu & J & Eb & Ws & Em & Lm & _ & Un).
  destruct (link_note C H _ _ _ _ _ _ _ _ _ _ _ _ (gh_hist _ _ G _ _ Hy) Jn) as (m & Ei & Wm & Wc & Kt & Fm).
  apply sess_in in J; [|apply Wd]. destruct J as (r & Er & J). assert (Wr : wf_record r) by (eapply (proj1 (proj1 (Wd x))); exact Er).
  assert (Sl : sess_list (dev x) (at_ x) = sessions_of r) by (unfold P_Many.sess_list; rewrite Er; reflexivity).
  assert (Js : In s (sessions_of r)) by (apply sessions_in; assumption).
  assert (Ep : kp_pub (w_pair (v (negb (role l x)))) = kp_pub (w_pair (dev (negb x)))) by (rewrite <- role_neg; destruct (St (negb x)) as (Q & _); rewrite Q; reflexivity).
  pose proof (sess_len C at_ G dev ls x Iv) as Ll. rewrite Sl in Ll.
  assert (Frj : forall j, j < List.length (sessions_of r) -> fresh C (ln_keys l) (ln_par l (role l x)) k (skipn (32 * j) rnd) /\
    (k = S (p_epoch (ln_par l (role l x))) -> ~ In (mont_pub C (firstn 32 (skipn (32 * j) rnd))) (all_keys ls))).
  { intros j Lj. split; [intro E|intro E; exact (proj2 (Fr E j ltac:(lia)))]. destruct (Fr E j ltac:(lia)) as [F1 F2]. split; [rewrite skipn_length; lia|].
    intro Q. apply F2. exact (keys_in_all _ _ _ Jl Q). }
  assert (Rd : forall j, j < List.length (sessions_of r) -> exists s' rest, decrypt_session C (skipn (32 * j) rnd) s m = (Ok (pt, s'), rest) /\
    ss_alice_base s' = ss_alice_base s /\ ss_remote s' = ss_remote s /\ wf_state s' /\
    (k = S (p_epoch (ln_par l (role l x))) -> exists sc, ss_sender s' = Some sc /\ pc_ratchet sc = Byte.x05 :: mont_pub C (firstn 32 (skipn (32 * j) rnd)))).
  { intros j Lj. exact (link_reads C H _ _ _ _ _ _ _ (role l x) k n pt c m s _ (gh_hist _ _ G _ _ Hy) Jn Ei Rv (proj1 (Frj j Lj)) Hl ltac:(rewrite at_role; exact Cu)). }
  assert (Ot : forall z rnd', In z (sessions_of r) -> ss_alice_base z <> ss_alice_base s -> exists e, fst (decrypt_session C rnd' z m) = Err e /\ e <> EDuplicate).
  { intros z rnd' Jz Nz. rewrite <- Sl in Jz. destruct (Ow x z Jz) as (l' & Jl' & Hl' & Ez).
    destruct (Lk l' Jl') as (v' & Hy' & St'). destruct (the_session C H at_ G _ _ l' v' x Iv Jl' Hy' (St' x) Hl') as (z2 & _ & _ & _ & Wz & _ & _ & Rz & Uz).
    rewrite <- (Uz z Jz Ez) in *. apply others_fail; auto.
    - intro Q. refine (Ks l l' _ Jl Jl' _ Kt (Rz _ Q)). congruence.
    - intros p O. apply Nm. exists m, r, z, p. split; [exact Ei|]. split; [exact Er|].
      split; [apply sessions_in; [exact Wr|rewrite <- Sl; exact Jz]|]. split; [congruence|]. auto. }
  destruct (record_reads C H rnd r m s pt Wr Wm Js ltac:(rewrite <- Sl; apply ND) Ot) as (j & s' & rest & r' & Lj & D & Dr & Ec & t & P1 & P2).
  { intros j Lj. destruct (Rd j Lj) as (s' & rest & D & _). eauto. }
  destruct (Rd j Lj) as (s2 & rest2 & D2 & B2 & R2 & _ & K2). rewrite D in D2. injection D2 as <- <-.
  exists m, r, s, s', r', t, (skipn (32 * j) rnd), rest. split; [exact Ei|]. split; [exact Wm|]. split; [exact Wc|]. split; [exact Er|].
  split.
  { destruct Fm as [[-> _]|(_ & pm & -> & F1 & F2 & _)]; [left; reflexivity|right]. exists pm, s. split; [reflexivity|]. split; [exact F1|]. split; [exact J|]. rewrite F2. exact Eb. }
  split; [exact Cu|]. split; [exact (proj1 (Frj j Lj))|]. split; [exact (proj2 (Frj j Lj))|]. split; [exact D|]. split; [exact Dr|]. split; [exact Ec|]. rewrite Sl. split; [exact P1|]. split; [exact P2|].
  split; [exact Eb|]. split; [congruence|]. split; [congruence|]. split; [rewrite <- Ep; exact Lm|].
  split; [|intro Q; destruct (K2 Q) as (sc & Q1 & Q2); exists sc, j; split; [exact Q1|]; split; [exact Q2|]; split; [lia|reflexivity]].
  intros pm Epm. destruct Fm as [[E2 _]|(Sd & pm' & E2 & _ & F2 & F3 & _)]; [congruence|]. rewrite E2 in Epm. injection Epm as ->. split; [|exact F2].
  rewrite F3, <- Ep. rewrite <- Sd. reflexivity.
Qed.
End Steps.
