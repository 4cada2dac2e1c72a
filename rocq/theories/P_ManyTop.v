(** Several sessions at the same time: C85. *)
From Verif Require Import M_Base M_Crypto M_Aes M_Curve M_Proto M_Message M_Ratchet M_State M_Store M_Session M_Group
  S_Crypto S_Message S_State S_Shape S_Ratchet S_Session S_Aes S_Api S_Send S_Group S_Curve S_X3dh S_Receive S_Conv S_History S_Secrecy S_Many
  P_Base P_Proto P_Curve P_State P_Shape P_Ratchet P_Message P_Aes P_Chain P_Decrypt P_Receive P_Encrypt P_Record P_Prog P_Api
  P_Init P_Send P_Conv P_X3dh P_Conv2 P_Bundle P_DecApi P_DecTop P_DecMore P_Replay P_Trust P_History P_Archive P_ManyRec P_ManyFail P_ManyApi P_ManyLink P_Many P_ManySteps P_Captured.
From Coq Require Import ZifyBool ZifyNat ZifyN Permutation.
Local Open Scope nat_scope.

Section Invariant.
Variable C : Crypto.
Hypothesis H : CryptoOk C.
Variable at_ : bool -> addr.
Notation sess_list := P_Many.sess_list.
Notation at_l := (P_Many.at_l at_).
Notation stands := (P_Many.stands at_).
Variable G : ghost C at_.
Notation inv := (P_Many.inv C at_ G).
Notation hist l v := (history C (at_l l) (ln_bundle l) (ln_base l) v (ln_par l) (ln_keys l) (ln_notes l)).

Lemma got_epoch : forall l part k n u, p_epoch (ln_par l false) <> 0 -> p_epoch (ln_par (link_got l part k n u) false) <> 0.
Proof.
  intros l part k n u Z. cbn [link_got ln_par]. unfold upd. destruct (Bool.eqb false part) eqn:Q; [|exact Z]. apply Bool.eqb_prop in Q. subst part.
  pose proof (after_epoch (ln_par l false) k n). lia.
Qed.
Lemma got_other : forall l x k n u, has_link (link_got l (role l x) k n u) (negb x) -> has_link l (negb x).
Proof.
  intros l x k n u [Q|Q]; [left; exact Q|]. destruct (role l (negb x)) eqn:R; [left; exact R|right]. rewrite role_neg in R.
  cbn [link_got ln_par] in Q. rewrite upd_other in Q; [exact Q|]. destruct (role l x); discriminate.
Qed.
Lemma got_keys : forall l part k n u e, ln_keys l <> [] ->
  (In e (ln_keys (link_got l part k n u)) -> In e (ln_keys l) \/ k = S (p_epoch (ln_par l part)) /\ e = u) /\
  (In e (tl (ln_keys (link_got l part k n u))) -> In e (tl (ln_keys l)) \/ k = S (p_epoch (ln_par l part)) /\ e = u).
Proof.
  intros l part k n u e N. cbn [link_got ln_keys]. destruct (Nat.eqb_spec k (S (p_epoch (ln_par l part)))) as [E|E]; [|auto].
  destruct (ln_keys l) as [|a t]; [contradiction|]. cbn [app tl]. split; intro J.
  - destruct J as [J|J]; [left; left; exact J|]. apply in_app_or in J. destruct J as [J|[J|[]]]; [left; right; exact J|right; auto].
  - apply in_app_or in J. destruct J as [J|[J|[]]]; [left; exact J|right; auto].
Qed.
Definition trusting (w : world) : world :=
  mkWorld (w_sess w) (w_ident w) (w_prekeys w) (w_signed w) (w_groups w) (w_pair w) (w_reg w) (fun _ _ _ _ => true) (w_shared w).
Lemma received_has : forall dev l1 l l2 v x k n pt c rnd fs pt' u w', inv dev (l1 ++ l :: l2) -> G l v -> (forall y, stands dev l v y) -> has_link l x ->
  In (mkNote (negb (role l x)) k n pt c) (ln_notes l) -> receivable (ln_par l (role l x)) k n ->
  all_fresh C (all_keys (l1 ++ l :: l2)) (ln_par l (role l x)) k (List.length (l1 ++ l :: l2)) rnd -> ~ misread C (dev x) (at_ x) (ln_base l) c ->
  run (decrypt_message C (at_ x) rnd c) fs (dev x) = (Ok pt', w') -> current_ratchet w' (at_ x) u ->
  inv (upd dev x w') (l1 ++ link_got l (role l x) k n u :: l2).
Proof using H.
  intros dev l1 l l2 v x k n pt c rnd fs pt' u w' Iv Hy St Hl Jn Rv Fr Nm E (sr & sc & Cr & Sr & Pr).
  destruct (reads C H at_ G dev (l1 ++ l :: l2) l v x k n pt c rnd Iv (here l1 l l2) Hy St Hl Jn Rv Fr Nm)
    as (m & r & s & s' & r' & t & rnd' & rest & Ei & Wm & Wc & Er & Ff & Cu & Fr' & Fa & D & Dr & Ec & P1 & P2 & Bs & Bs' & Rm & Lm & Pk & Ku).
  pose proof Iv as (Wd & _ & _ & _ & ND & _).
  destruct (record_result C _ _ _ _ _ _ _ _ _ _ _ (Wd x) Wc Er Ff Dr E) as (-> & Er' & [Sg Pk']).
  destruct (perm_facts _ t s _ (ND x) P1 Bs) as [T1 T2].
  assert (Wd' : wf_device w').
  { replace w' with (snd (run (decrypt_message C (at_ x) rnd c) fs (dev x))) by (rewrite E; reflexivity).
    apply run_shape; [exact (calls_shape C H (CDecrypt (at_ x) rnd c) Wc)|apply Wd]. }
  assert (Wp' : w_pair w' = w_pair (dev x)).
  { replace w' with (snd (run (decrypt_message C (at_ x) rnd c) fs (dev x))) by (rewrite E; reflexivity). apply run_pair. }
  assert (Eu : k = S (p_epoch (ln_par l (role l x))) -> mont_pub C (firstn 32 rnd') = u).
  { intro Ek. destruct (Ku Ek) as (sc' & j0 & S1 & S2 & _). unfold current_session in Cr. rewrite Er', Ec in Cr. injection Cr as <-. rewrite Sr in S1. injection S1 as <-.
    rewrite Pr in S2. injection S2 as S2. congruence. }
  (* the session on its own *)
  destruct (link_lens C H _ _ _ _ _ _ _ (gh_hist _ _ G _ _ Hy)) as (Lk & _ & Wv & _).
  assert (Hy1 : G l (upd v (role l x) (trusting (v (role l x))))).
  { apply (gh_later C at_ G l v); auto. apply l_other; [apply l_now|]. split; [exact (Wv (role l x))|]. split; [reflexivity|]. left. split; [exact Hl|reflexivity]. }
  destruct (delivered C H _ _ _ _ _ _ _ (role l x) k n pt c rnd' (gh_hist _ _ G _ _ Hy1) Jn Rv Fr') as (v2 & E2); [rewrite upd_same; reflexivity|].
  pose proof E2 as E2'. rewrite at_role, upd_same in E2.
  assert (Cu2 : current_session v2 (at_ x) = Some s').
  { unfold current_session in Cu. destruct (w_sess (v (role l x)) (at_ x)) as [rv|] eqn:Erv; [|discriminate].
    assert (Ffv : framed_for rv m c).
    { destruct Ff as [->|(pm & z & -> & F1 & _ & _)]; [left; reflexivity|right]. exists pm, s. split; [reflexivity|]. split; [exact F1|]. split; [left; exact Cu|].
      rewrite (proj2 (Pk pm eq_refl)). exact Bs. }
    destruct (record_result C (at_ x) rnd' c [] (trusting (v (role l x))) rv m pt _ pt v2 (Wv (role l x)) Wc Erv Ffv (record_current C _ _ _ _ _ _ _ Cu D) E2) as (_ & Q & _).
    unfold current_session. rewrite Q. reflexivity. }
  assert (Pv2 : w_pair v2 = w_pair (dev x)).
  { replace v2 with (snd (run (decrypt_message C (at_ x) rnd' c) [] (trusting (v (role l x))))) by (unfold run0 in E2; rewrite E2; reflexivity).
    rewrite run_pair. destruct (St x) as (Q & _). exact Q. }
  assert (Nk : ln_keys l <> []) by (intro Q; rewrite Q in Lk; discriminate).
  apply (step_inv C H at_ G dev l1 l l2 _ x w' r' s' t v2 (upd v (role l x) (trusting (v (role l x))))); auto.
  - intros e J. destruct (proj1 (got_keys _ _ _ _ _ _ Nk) J) as [Q|[Ek ->]]; [left; exact Q|right]. rewrite <- (Eu Ek). exact (Fa Ek).
  - intros e J. destruct (proj2 (got_keys _ _ _ _ _ _ Nk) J) as [Q|[Ek ->]]; [left; exact Q|right]. rewrite <- (Eu Ek). exact (Fa Ek).
  - apply got_epoch.
  - destruct Hl as [Q|Q]; [left; exact Q|right; apply got_epoch; exact Q].
  - apply got_other.
  - intro id. left. rewrite Pk'. reflexivity.
  - intro y. destruct (Bool.bool_dec y x) as [->|Ny]; unfold P_Many.stands.
    + rewrite upd_same. destruct (St x) as (S1 & S2 & S3). split; [exact S1|]. split; [exact S2|]. exact S3.
    + rewrite upd_other; [exact (St y)|]. intro Q. apply Ny. unfold role in Q. destruct x, y, (ln_from l); try reflexivity; discriminate.
  - match goal with |- gh _ _ _ _ (upd ?v0 _ _) => apply (gh_later C at_ G l v0) end; [assumption|reflexivity..|]. cbn [link_got ln_par ln_keys ln_notes].
    replace (if Nat.eqb k (S (p_epoch (ln_par l (role l x)))) then ln_keys l ++ [u] else ln_keys l) with (keys_after C (ln_keys l) (ln_par l (role l x)) k rnd');
      [exact (l_receive C (at_l l) (ln_bundle l) (ln_base l) _ _ _ _ _ _ _ _ (role l x) k n pt c rnd' [] pt v2 (l_now _ _ _ _ _ _ _ _) Jn Rv Fr' E2')|].
    unfold keys_after. destruct (Nat.eqb_spec k (S (p_epoch (ln_par l (role l x))))) as [Ek|Ek]; [rewrite (Eu Ek)|]; reflexivity.
Qed.

Lemma first_fresh : forall ls l p k rnd, In l ls -> all_fresh C (all_keys ls) p k (List.length ls) rnd -> fresh C (ln_keys l) p k rnd /\ (k = S (p_epoch p) -> ~ In (mont_pub C (firstn 32 rnd)) (all_keys ls)).
Proof.
  intros ls l p k rnd Jl Fr. assert (L : 0 < List.length ls) by (destruct ls; [destruct Jl|cbn; lia]).
  split; intro E; destruct (Fr E 0 L) as [F1 F2]; change (skipn (32 * 0) rnd) with rnd in F2; [|exact F2]. split; [lia|]. intro Q. apply F2. exact (keys_in_all _ _ _ Jl Q).
Qed.
Lemma no_link : forall l x, ~ has_link l x -> role l x = false /\ p_epoch (ln_par l false) = 0 /\ ln_from l = negb x.
Proof.
  intros l x N. assert (R : role l x = false) by (destruct (role l x) eqn:R; [destruct N; left; exact R|reflexivity]). split; [exact R|]. split.
  - destruct (Nat.eq_dec (p_epoch (ln_par l false)) 0) as [Z|Z]; [exact Z|destruct N; right; exact Z].
  - unfold role in R. destruct x, (ln_from l); try reflexivity; discriminate.
Qed.
Lemma received_first : forall dev l1 l l2 v x k n pt c rnd fs pt' u w', inv dev (l1 ++ l :: l2) -> G l v -> (forall y, stands dev l v y) -> ~ has_link l x ->
  In (mkNote (negb (role l x)) k n pt c) (ln_notes l) -> receivable (ln_par l (role l x)) k n ->
  all_fresh C (all_keys (l1 ++ l :: l2)) (ln_par l (role l x)) k (List.length (l1 ++ l :: l2)) rnd ->
  run (decrypt_message C (at_ x) rnd c) fs (dev x) = (Ok pt', w') -> current_ratchet w' (at_ x) u ->
  inv (upd dev x w') (l1 ++ link_got l (role l x) k n u :: l2).
Proof using H.
  intros dev l1 l l2 v x k n pt c rnd fs pt' u w' Iv Hy St Hl Jn Rv Fr E (sr & sc & Cr & Sr & Pr).
  pose proof Iv as (Wd & _ & Ln & _ & ND & _). destruct (no_link l x Hl) as (Rx & Z & Fl).
  destruct (first_fresh _ _ _ _ _ (here l1 l l2) Fr) as [Fr' Fa].
  destruct (moved C at_ G dev l v x (Wd x) Hy St) as [Hy' St']; [intro Q; contradiction|].
  destruct (link_note C H _ _ _ _ _ _ _ _ _ _ _ _ (gh_hist _ _ G _ _ Hy') Jn) as (m & Ei & Wm & Wc & _ & _).
  assert (Wd' : wf_device w').
  { replace w' with (snd (run (decrypt_message C (at_ x) rnd c) fs (dev x))) by (rewrite E; reflexivity).
    apply run_shape; [exact (calls_shape C H (CDecrypt (at_ x) rnd c) Wc)|apply Wd]. }
  assert (Wp' : w_pair w' = w_pair (dev x)).
  { replace w' with (snd (run (decrypt_message C (at_ x) rnd c) fs (dev x))) by (rewrite E; reflexivity). apply run_pair. }
  assert (E' : run (decrypt_message C (at_l l (role l x)) rnd c) fs (upd v (role l x) (dev x) (role l x)) = (Ok pt', w')) by (rewrite at_role, upd_same; exact E).
  pose proof (h_receive C _ _ _ _ _ _ _ (role l x) k n pt c rnd fs pt' w' (gh_hist _ _ G _ _ Hy') Jn Rv Fr' E') as Hy2.
  assert (F : exists s0 s', wf_state s0 /\ pt' = pt /\ w_sess w' (at_ x) = Some (rc_set_state (rc_promote (loaded (w_sess (dev x) (at_ x))) s0) s') /\
    w_signed w' = w_signed (dev x) /\ forall id, bd_prekey_id (ln_bundle l) <> Some id -> w_prekeys w' id = w_prekeys (dev x) id).
  { pose proof (gh_hist _ _ G _ _ Hy') as Hh. rewrite Rx in Jn, Rv, Fr', E', Hh. cbn [negb] in Jn.
    destruct (link_first C H _ _ _ _ _ _ _ k n pt c rnd Hh Z Jn Rv Fr') as (_ & s0 & s' & W0 & Q). exists s0, s'. split; [exact W0|].
    pose proof (Q _ _ _ E') as Q'. rewrite upd_same in Q'. pose proof (at_role at_ l x) as A. rewrite Rx in A. rewrite A in Q'. exact Q'. }
  destruct F as (s0 & s' & W0 & -> & Er' & Sg & Pk).
  assert (Wl : wf_record (loaded (w_sess (dev x) (at_ x)))) by (apply loaded_wf; apply Wd).
  pose proof (sess_len_free C at_ G _ _ x l Iv (here l1 l l2) Hl) as Ll.
  pose proof (sessions_promote _ s0 Wl W0 ltac:(unfold P_Many.sess_list in Ll; lia)) as P0.
  destruct (sessions_set (rc_promote (loaded (w_sess (dev x) (at_ x))) s0) s0 s' eq_refl) as (t & Q1 & Q2).
  rewrite Q1 in P0. apply Permutation_cons_inv in P0.
  assert (Cu : current_session w' (at_ x) = Some s') by (unfold current_session; rewrite Er'; reflexivity).
  destruct (link_lens C H _ _ _ _ _ _ _ (gh_hist _ _ G _ _ Hy)) as (Lk & Ee & _ & Nts & Em). destruct (Nts _ _ _ _ _ Jn) as (Lek & Nek & _).
  assert (Ek : k = S (p_epoch (ln_par l (role l x)))).
  { rewrite Rx in *. rewrite (Em Z) in Rv |- *. destruct Rv as [q Iq _ _|q Iq _ _ _|Q _]; [destruct Iq|destruct Iq|exact Q]. }
  assert (Nz : p_epoch (ln_par (link_got l (role l x) k n u) false) <> 0).
  { cbn [link_got ln_par]. rewrite Rx, upd_same. unfold party_after. rewrite Rx in Ek. rewrite (proj2 (Nat.eqb_eq _ _) Ek). cbn [p_epoch]. lia. }
  assert (Hl' : has_link (link_got l (role l x) k n u) x) by (right; exact Nz).
  assert (Cu' : current_session (upd (upd v (role l x) (dev x)) (role l x) w' (role l x)) (at_l l (role l x)) = Some s') by (rewrite upd_same, at_role; exact Cu).
  destruct (link_own C H _ _ _ _ _ _ _ (role l x) s' Hy2 (or_intror Nz) Cu') as (_ & sc' & S1 & S2).
  assert (Eu : mont_pub C (firstn 32 rnd) = u).
  { rewrite Cu in Cr. injection Cr as <-. rewrite Sr in S1. injection S1 as <-. rewrite Pr in S2. injection S2 as S2. rewrite S2.
    rewrite upd_same. unfold party_after, keys_after. rewrite (proj2 (Nat.eqb_eq _ _) Ek). cbn [p_epoch]. rewrite app_nth2 by (rewrite Rx in Ek; lia).
    replace (S k - List.length (ln_keys l)) with 0 by (rewrite Rx in Ek; lia). reflexivity. }
  destruct (link_state C H _ _ _ _ _ _ _ (role l x) Hy2 (or_intror Nz)) as (s2 & Cu2 & _ & Bs & _). rewrite Cu' in Cu2. injection Cu2 as <-.
  assert (Nk : ln_keys l <> []) by (intro Q; rewrite Q in Lk; discriminate).
  destruct (St' x) as (_ & _ & S3). destruct (S3 Hl) as [Un _].
  apply (step_inv C H at_ G dev l1 l l2 _ x w' (rc_set_state (rc_promote (loaded (w_sess (dev x) (at_ x))) s0) s') s' t w' (upd v (role l x) (dev x)) Iv Wd' Wp'); auto.
  - intros e J. destruct (proj1 (got_keys _ _ _ _ _ _ Nk) J) as [Q|[_ ->]]; [left; exact Q|right]. rewrite <- Eu. exact (Fa Ek).
  - intros e J. destruct (proj2 (got_keys _ _ _ _ _ _ Nk) J) as [Q|[_ ->]]; [left; exact Q|right]. rewrite <- Eu. exact (Fa Ek).
  - apply got_other.
  - rewrite Q2. apply Permutation_refl.
  - apply (Permutation_NoDup (Permutation_map ss_alice_base (Permutation_sym P0))). apply ND.
  - intro z. split.
    + intro J. apply (Permutation_in _ P0) in J. split; [exact J|]. change (In z (sess_list (dev x) (at_ x))) in J. apply sess_in in J; [|apply Wd].
      destruct J as (r & Er & J). exact (Un r z Er J).
    + intros [J _]. exact (Permutation_in _ (Permutation_sym P0) J).
  - intro id. assert (Q : bd_prekey_id (ln_bundle l) = Some id \/ bd_prekey_id (ln_bundle l) <> Some id).
    { destruct (bd_prekey_id (ln_bundle l)) as [i|]; [|right; discriminate]. destruct (N.eq_dec i id) as [->|Q]; [left; reflexivity|right; congruence]. }
    destruct Q as [Q|Q]; [right; auto|left; exact (Pk id Q)].
  - match goal with |- gh _ _ _ _ (upd ?v0 _ _) => apply (gh_later C at_ G l v0) end; [assumption|reflexivity..|]. cbn [link_got ln_par ln_keys ln_notes].
    replace (if Nat.eqb k (S (p_epoch (ln_par l (role l x)))) then ln_keys l ++ [u] else ln_keys l) with (keys_after C (ln_keys l) (ln_par l (role l x)) k rnd);
      [exact (l_receive C (at_l l) (ln_bundle l) (ln_base l) _ _ _ _ _ _ _ _ (role l x) k n pt c rnd fs pt w' (l_now _ _ _ _ _ _ _ _) Jn Rv Fr' E')|].
    unfold keys_after. rewrite Eu. reflexivity.
Qed.

Lemma begin_inv : forall dev ls x b ia ib sb ob rnd fs w', inv dev ls -> List.length ls <= 40 -> wf_bundle b ->
    pair_for C ia (w_pair (dev x)) -> published C (dev (negb x)) b ib sb ob -> 64 <= List.length rnd ->
    ~ In (mont_pub C (firstn 32 rnd)) (bases ls) ->
    ~ In (mont_pub C (firstn 32 (skipn 32 rnd))) (mont_pub C sb :: all_keys ls) ->
    (forall l, In l ls -> ~ In (mont_pub C sb) (tl (ln_keys l))) ->
    (forall l id, In l ls -> ln_from l = x -> bd_prekey_id (ln_bundle l) = Some id -> bd_prekey_id b <> Some id) ->
    run (process_bundle C (at_ x) rnd b) fs (dev x) = (Ok tt, w') ->
    (forall v, hist (mkLink x b (mont_pub C (firstn 32 rnd)) start_party [mont_pub C sb; mont_pub C (firstn 32 (skipn 32 rnd))] []) v ->
       G (mkLink x b (mont_pub C (firstn 32 rnd)) start_party [mont_pub C sb; mont_pub C (firstn 32 (skipn 32 rnd))] []) v) ->
    inv (upd dev x w') (mkLink x b (mont_pub C (firstn 32 rnd)) start_party [mont_pub C sb; mont_pub C (firstn 32 (skipn 32 rnd))] [] :: ls).
Proof using H.
  intros dev ls x b ia ib sb ob rnd fs w' Iv L40 Wb Pa Pub Lr Nb0 Nk Nsb Nid E Gn. pose proof Iv as (Wd & Nb & _ & Lk & ND & Ow & Ks & Ids).
  set (base := mont_pub C (firstn 32 rnd)) in *. set (a1 := mont_pub C (firstn 32 (skipn 32 rnd))) in *. set (sbp := mont_pub C sb) in *.
  set (ln := mkLink x b base start_party [sbp; a1] []).
  assert (Pt : player ln true = x) by (unfold player, ln; cbn; destruct x; reflexivity).
  assert (Pf : player ln false = negb x) by (unfold player, ln; cbn; destruct x; reflexivity).
  assert (Rt : role ln x = true) by (unfold role, ln; cbn; destruct x; reflexivity).
  assert (Rf : role ln (negb x) = false) by (unfold role, ln; cbn; destruct x; reflexivity).
  set (v := fun part => dev (player ln part)).
  assert (Un : unused_base (dev (negb x)) (at_ (negb x)) base).
  { intros r s Er J Eb. assert (Js : In s (sess_list (dev (negb x)) (at_ (negb x)))) by (apply sess_in; [apply Wd|eauto]).
    destruct (Ow _ s Js) as (l & Jl & _ & El). rewrite El in Eb. injection Eb as Eb. apply Nb0. rewrite <- Eb. apply bases_in. exact Jl. }
  assert (Hy : history C (at_l ln) b base (upd v true w') start_party [sbp; a1] []).
  { unfold a1, sbp. eapply (h_start C (at_l ln) b base v ia ib sb ob rnd fs w'); unfold v, P_Many.at_l; rewrite ?Pt, ?Pf; auto; try apply Wd; try reflexivity.
    fold a1 sbp. intro Q. apply Nk. left. symmetry. exact Q. }
  assert (Wd' : wf_device w').
  { destruct (link_lens C H _ _ _ _ _ _ _ Hy) as (_ & _ & Q & _). specialize (Q true). rewrite upd_same in Q. exact Q. }
  assert (Wp' : w_pair w' = w_pair (dev x)).
  { replace w' with (snd (run (process_bundle C (at_ x) rnd b) fs (dev x))) by (rewrite E; reflexivity). apply run_pair. }
  destruct (bundle_success _ _ _ _ _ _ _ E) as (ti & ts & kp & rnd1 & s0 & rest & _ & _ & _ & _ & _ & _ & Ew).
  set (s1 := bundle_state b s0 (kp_pub kp) (w_reg (dev x))) in *.
  assert (Er' : w_sess w' (at_ x) = Some (rc_promote (loaded (w_sess (dev x) (at_ x))) s1)) by (rewrite Ew; unfold bundle_world; cbn; rewrite addr_eqb_refl; reflexivity).
  assert (Cu : current_session w' (at_ x) = Some s1) by (unfold current_session; rewrite Er'; reflexivity).
  destruct (link_state C H _ _ _ _ _ _ _ true Hy (or_introl eq_refl)) as (s2 & Cu2 & W1 & Bs & _). rewrite upd_same in Cu2. unfold P_Many.at_l in Cu2. rewrite Pt, Cu in Cu2. injection Cu2 as <-.
  assert (Wl : wf_record (loaded (w_sess (dev x) (at_ x)))) by (apply loaded_wf; apply Wd).
  pose proof (sess_len C at_ G _ _ x Iv) as Ll.
  pose proof (sessions_promote _ s1 Wl W1 ltac:(unfold P_Many.sess_list in Ll; lia)) as P0.
  assert (Ix : forall z, In z (sess_list w' (at_ x)) <-> z = s1 \/ In z (sess_list (dev x) (at_ x))).
  { intro z. unfold P_Many.sess_list at 1. rewrite Er'. cbn [loaded]. split; [intro J; apply (Permutation_in _ P0) in J; destruct J as [<-|J]; auto|].
    intro J. apply (Permutation_in _ (Permutation_sym P0)). destruct J as [->|J]; [left; reflexivity|right; exact J]. }
  assert (Bz : forall y z, In z (sess_list (dev y) (at_ y)) -> ss_alice_base z <> Byte.x05 :: base).
  { intros y z J Q. destruct (Ow y z J) as (l & Jl & _ & El). rewrite El in Q. injection Q as Q. apply Nb0. rewrite <- Q. apply bases_in. exact Jl. }
  assert (Nl : forall l, In l ls -> ln_base l <> base) by (intros l Jl Q; apply Nb0; rewrite <- Q; apply bases_in; exact Jl).
  split; [intro y; unfold upd; destruct (Bool.eqb y x); [exact Wd'|apply Wd]|].
  split; [constructor; [exact Nb0|exact Nb]|]. split; [cbn; lia|]. split; [|split; [|split; [|split]]].
  - intros m [<-|Jm].
    + exists (upd v true w'). split; [exact (Gn _ Hy)|]. intro y. destruct (Bool.bool_dec y x) as [->|Ny]; unfold P_Many.stands.
      * rewrite Rt, !upd_same. split; [reflexivity|]. split; [|intro Q; destruct Q; left; exact Rt]. intros _. exists s1. split; [exact Cu|]. apply Ix. left. reflexivity.
      * assert (y = negb x) as -> by (destruct x, y; try reflexivity; destruct Ny; reflexivity). rewrite Rf, !upd_other by (try discriminate; destruct x; discriminate).
        unfold v. rewrite Pf. split; [reflexivity|]. split.
        { intros [Q|Q]; [rewrite Rf in Q; discriminate|]. destruct Q. reflexivity. }
        intros _. split; [exact Un|]. split; [reflexivity|intros; reflexivity].
    + destruct (Lk m Jm) as (vm & Hm & Sm). exists vm. split; [exact Hm|]. intro y. destruct (Sm y) as (S1 & S2 & S3).
      destruct (Bool.bool_dec y x) as [->|Ny]; unfold P_Many.stands; [rewrite !upd_same|rewrite !upd_other by assumption; exact (Sm y)].
      split; [congruence|]. split.
      * intro Q. destruct (S2 Q) as (z & Cz & Jz). exists z. split; [exact Cz|]. apply Ix. right. exact Jz.
      * intro Q. destruct (S3 Q) as [U [K1 K2]]. split.
        { intros r z Ez Jz Q2. assert (J : In z (sess_list w' (at_ x))) by (apply sess_in; [exact Wd'|eauto]). apply Ix in J.
          destruct J as [->|J]; [rewrite Bs in Q2; injection Q2 as Q2; exact (Nl m Jm (eq_sym Q2))|]. apply sess_in in J; [|apply Wd]. destruct J as (r0 & E0 & J0). exact (U r0 z E0 J0 Q2). }
        rewrite Ew. unfold bundle_world, prekeys_kept. destruct (existed (w_sess (dev x) (at_ x)) && w_shared (dev x))%bool; split; [exact K1|exact K2|exact K1|exact K2].
  - intro y. destruct (Bool.bool_dec y x) as [->|Ny]; [rewrite upd_same|rewrite upd_other by assumption; apply ND].
    unfold P_Many.sess_list. rewrite Er'. cbn [loaded]. apply (Permutation_NoDup (l := map ss_alice_base (s1 :: sess_list (dev x) (at_ x)))); [apply Permutation_map, Permutation_sym; exact P0|].
    cbn [map]. constructor; [|apply ND]. intro J. apply in_map_iff in J. destruct J as (z & Ez & J). apply (Bz x z J). congruence.
  - intros y z. destruct (Bool.bool_dec y x) as [->|Ny]; [rewrite upd_same|rewrite upd_other by assumption]; intro J.
    + apply Ix in J. destruct J as [->|J]; [exists ln; split; [left; reflexivity|]; split; [left; exact Rt|exact Bs]|].
      destruct (Ow x z J) as (l & Jl & Q). exists l. split; [right; exact Jl|exact Q].
    + destruct (Ow y z J) as (l & Jl & Q). exists l. split; [right; exact Jl|exact Q].
  - intros m m' e Jm Jm' N Je Je'. destruct Jm as [<-|Jm], Jm' as [<-|Jm']; [contradiction| | |exact (Ks m m' e Jm Jm' N Je Je')].
    + cbn in Je. destruct Je as [<-|[]]. apply Nk. right. exact (keys_in_all _ _ _ Jm' Je').
    + cbn in Je'. destruct Je' as [<-|[<-|[]]]; [exact (Nsb m Jm Je)|]. apply Nk. right. exact (keys_in_all _ _ _ Jm (tl_in _ _ Je)).
  - intros m m' id Jm Jm' N Ef Ei. destruct Jm as [<-|Jm], Jm' as [<-|Jm']; [contradiction| | |exact (Ids m m' id Jm Jm' N Ef Ei)].
    + cbn in Ef, Ei. intro Q. exact (Nid m' id Jm' (eq_sym Ef) Q Ei).
    + cbn in Ef |- *. exact (Nid m id Jm Ef Ei).
Qed.

Lemma other_inv : forall dev ls x w', inv dev ls -> wf_device w' -> w_pair w' = w_pair (dev x) -> w_sess w' (at_ x) = w_sess (dev x) (at_ x) ->
    (forall l, In l ls -> ~ has_link l x -> prekeys_kept (dev x) w' (ln_bundle l)) -> inv (upd dev x w') ls.
Proof using Type.
  intros dev ls x w' (Wd & Nb & Ln & Lk & ND & Ow & Ks & Ids) Wd' Wp' Es Pk.
  assert (Sl : forall y, sess_list (upd dev x w' y) (at_ y) = sess_list (dev y) (at_ y)).
  { intro y. destruct (Bool.bool_dec y x) as [->|Ny]; [rewrite upd_same|rewrite upd_other by assumption; reflexivity]. unfold P_Many.sess_list. rewrite Es. reflexivity. }
  split; [intro y; unfold upd; destruct (Bool.eqb y x); [exact Wd'|apply Wd]|]. split; [exact Nb|]. split; [exact Ln|]. split; [|split; [|split; [|auto]]].
  - intros m Jm. destruct (Lk m Jm) as (v & Hy & St). exists v. split; [exact Hy|]. intro y. destruct (St y) as (S1 & S2 & S3). unfold P_Many.stands. rewrite Sl.
    destruct (Bool.bool_dec y x) as [->|Ny]; [rewrite upd_same|rewrite !upd_other by assumption; exact (St y)].
    split; [congruence|]. split; [exact S2|]. intro Q. destruct (S3 Q) as [U [K1 K2]]. destruct (Pk m Jm Q) as [P1 P2]. split.
    + unfold unused_base. rewrite Es. exact U.
    + split; [congruence|]. intros id Ei. rewrite (P2 id Ei). exact (K2 id Ei).
  - intro y. rewrite Sl. apply ND.
  - intros y z. rewrite Sl. apply Ow.
Qed.

Lemma receive_inv : forall dev l1 l l2 x k n pt c rnd fs pt' u w', inv dev (l1 ++ l :: l2) ->
  In (mkNote (negb (role l x)) k n pt c) (ln_notes l) -> receivable (ln_par l (role l x)) k n ->
  all_fresh C (all_keys (l1 ++ l :: l2)) (ln_par l (role l x)) k (List.length (l1 ++ l :: l2)) rnd ->
  (has_link l x -> ~ misread C (dev x) (at_ x) (ln_base l) c) ->
  run (decrypt_message C (at_ x) rnd c) fs (dev x) = (Ok pt', w') -> current_ratchet w' (at_ x) u ->
  inv (upd dev x w') (l1 ++ link_got l (role l x) k n u :: l2).
Proof using H.
  intros dev l1 l l2 x k n pt c rnd fs pt' u w' IH Jn Rv Fr Nm E Cr.
  pose proof IH as (_ & _ & _ & Lk & _). destruct (Lk l (here l1 l l2)) as (v & Hy & St). destruct (has_dec l x) as [Q|Q].
  - eapply received_has; eauto.
  - eapply received_first; eauto.
Qed.
Lemma start_inv : forall dev, (forall x, wf_device (dev x)) -> (forall x, w_sess (dev x) (at_ x) = None) -> inv dev [].
Proof using Type.
  intros dev Wd Ns. assert (Sl : forall x, sess_list (dev x) (at_ x) = []) by (intro x; unfold P_Many.sess_list; rewrite Ns; reflexivity).
  split; [exact Wd|]. split; [constructor|]. split; [cbn; lia|]. split; [intros l []|]. split; [intro x; rewrite Sl; constructor|].
  split; [intros x s; rewrite Sl; intros []|]. split; [intros l l' e []|intros l l' id []].
Qed.
End Invariant.

(** Nothing but the histories. *)
Lemma plain_later : forall C at_ l v l' v', history C (P_Many.at_l at_ l) (ln_bundle l) (ln_base l) v (ln_par l) (ln_keys l) (ln_notes l) ->
  ln_from l' = ln_from l -> ln_bundle l' = ln_bundle l -> ln_base l' = ln_base l ->
  later C (P_Many.at_l at_ l) (ln_bundle l) (ln_base l) v (ln_par l) (ln_keys l) (ln_notes l) v' (ln_par l') (ln_keys l') (ln_notes l') ->
  history C (P_Many.at_l at_ l') (ln_bundle l') (ln_base l') v' (ln_par l') (ln_keys l') (ln_notes l').
Proof.
  intros C at_ l v l' v' Hy E1 E2 E3 L. rewrite E2, E3. unfold P_Many.at_l, player. rewrite E1. exact (later_history C _ _ _ _ _ _ _ _ _ _ _ Hy L).
Qed.
Definition plain (C : Crypto) (at_ : bool -> addr) : ghost C at_ :=
  mkGhost C at_ (fun l v => history C (P_Many.at_l at_ l) (ln_bundle l) (ln_base l) v (ln_par l) (ln_keys l) (ln_notes l)) (fun _ _ h => h) (plain_later C at_).

Section Top.
Variable C : Crypto.
Hypothesis H : CryptoOk C.
Variable at_ : bool -> addr.
Notation sess_list := P_Many.sess_list.
Notation at_l := (P_Many.at_l at_).
Notation stands := (P_Many.stands at_).
Notation G := (plain C at_).
Notation inv := (P_Many.inv C at_ G).

Theorem many_inv : forall dev ls, many C at_ dev ls -> inv dev ls.
Proof using H.
  intros dev ls M. induction M as
    [dev Wd Ns
    |dev ls x b ia ib sb ob rnd fs w' _ IH L40 Wb Pa Pub Lr Nb Nk Nsb Nid E
    |dev l1 l l2 x pt fs c w' _ IH Cb G E
    |dev l1 l l2 x k n pt c rnd fs pt' u w' _ IH Jn Rv Fr Nm E Cr
    |dev ls x w' _ IH Wd' Wp' Es Pk].
  - apply start_inv; auto.
  - eapply begin_inv; eauto.
  - eapply send_inv; eauto.
  - eapply receive_inv; eauto.
  - apply other_inv; auto.
Qed.

(** *** Consequences *)
(** Every session is a conversation of its own. *)
Theorem many_each : forall dev ls l, many C at_ dev ls -> In l ls ->
  exists v, history C (fun part => at_ (player l part)) (ln_bundle l) (ln_base l) v (ln_par l) (ln_keys l) (ln_notes l) /\
    forall x, w_pair (v (role l x)) = w_pair (dev x) /\
      (has_link l x -> exists r s, current_session (v (role l x)) (at_ x) = Some s /\ w_sess (dev x) (at_ x) = Some r /\ state_in s r /\
         forall z, state_in z r -> ss_alice_base z = Byte.x05 :: ln_base l -> z = s).
Proof using H.
  intros dev ls l M Jl. pose proof (many_inv _ _ M) as Iv. pose proof Iv as (Wd & _ & _ & Lk & _). destruct (Lk l Jl) as (v & Hy & St). exists v.
  split; [exact Hy|]. intro x. split; [exact (proj1 (St x))|]. intro Hl.
  destruct (the_session C H at_ G _ _ l v x Iv Jl Hy (St x) Hl) as (s & Cu & J & _ & _ & _ & _ & _ & Un).
  apply sess_in in J; [|apply Wd]. destruct J as (r & Er & J). exists r, s. split; [exact Cu|]. split; [exact Er|]. split; [exact J|].
  intros z Jz Ez. apply Un; [|exact Ez]. apply sess_in; [apply Wd|eauto].
Qed.
(** A device has no other sessions. *)
Theorem many_only : forall dev ls x r s, many C at_ dev ls -> w_sess (dev x) (at_ x) = Some r -> state_in s r ->
  exists l, In l ls /\ has_link l x /\ ss_alice_base s = Byte.x05 :: ln_base l.
Proof using H.
  intros dev ls x r s M Er J. pose proof (many_inv _ _ M) as (Wd & _ & _ & _ & _ & Ow & _). apply (Ow x s). apply sess_in; [apply Wd|eauto].
Qed.
(** A message more than 25000 positions into its chain is never misread. *)
Lemma many_far : forall dev ls l x k n pt c, many C at_ dev ls -> In l ls -> In (mkNote (negb (role l x)) k n pt c) (ln_notes l) -> (25000 < n)%N ->
  kp_pub (w_pair (dev x)) <> kp_pub (w_pair (dev (negb x))) -> ~ misread C (dev x) (at_ x) (ln_base l) c.
Proof using H.
  intros dev ls l x k n pt c M Jl Jn Far Ne (m & r & s & p & Ei & Er & J & Nb & (mk & remote & local & K & _)). pose proof (many_inv _ _ M) as Iv.
  pose proof Iv as (Wd & Nbs & _ & Lk & _ & Ow & Ks & _). destruct (Lk l Jl) as (v & Hy & St).
  destruct (link_note C H _ _ _ _ _ _ _ _ _ _ _ _ Hy Jn) as (m' & Ei' & _ & _ & Kt & _). rewrite Ei in Ei'. injection Ei' as <-.
  assert (Js : In s (sess_list (dev x) (at_ x))) by (apply sess_in; [apply Wd|eauto]). destruct (Ow x s Js) as (l' & Jl' & Hl' & Eb).
  destruct (Lk l' Jl') as (v' & Hy' & St'). destruct (the_session C H at_ G _ _ l' v' x Iv Jl' Hy' (St' x) Hl') as (s' & Cu & _ & _ & _ & Rm & _ & Rk & Un).
  rewrite <- (Un s Js Eb) in *. destruct K as [(ch & ck & Jc & Ec & _)|(_ & [Q|Q] & _)].
  - refine (Ks l l' _ Jl Jl' _ Kt (Rk (sg_ratchet m) _)); [congruence|]. rewrite <- Ec. apply in_map. exact Jc.
  - rewrite (link_counter C H _ _ _ _ _ _ _ _ _ _ _ _ _ Hy Jn Ei) in Q. lia.
  - rewrite (link_local C H _ _ _ _ _ _ _ (role l' x) s Hy' Hl' ltac:(rewrite at_role; exact Cu)), Rm in Q. injection Q as Q. apply Ne. rewrite <- role_neg in Q.
    destruct (St' x) as (Q1 & _). destruct (St' (negb x)) as (Q2 & _). rewrite <- Q1, <- Q2. symmetry. exact Q.
Qed.
Theorem many_delivered : forall dev ls l x k n pt c rnd, many C at_ dev ls -> In l ls ->
  In (mkNote (negb (role l x)) k n pt c) (ln_notes l) -> receivable (ln_par l (role l x)) k n ->
  all_fresh C (all_keys ls) (ln_par l (role l x)) k (List.length ls) rnd -> (has_link l x -> ~ misread C (dev x) (at_ x) (ln_base l) c) ->
  w_policy (dev x) (at_ x) (w_ident (dev x) (at_ x)) (kp_pub (w_pair (dev (negb x)))) Receiving = true ->
  exists w', run0 (decrypt_message C (at_ x) rnd c) (dev x) = (Ok pt, w').
Proof using H.
  intros dev ls l x k n pt c rnd M Jl Jn Rv Fr Nm T. pose proof (many_inv _ _ M) as Iv. pose proof Iv as (Wd & _ & _ & Lk & _).
  destruct (Lk l Jl) as (v & Hy & St). destruct (has_dec l x) as [Q|Q].
  - destruct (reads C H at_ G dev ls l v x k n pt c rnd Iv Jl Hy St Q Jn Rv Fr (Nm Q))
      as (m & r & s & s' & r' & t & rnd' & rest & Ei & Wm & Wc & Er & Ff & Cu & Fr' & Fa & D & Dr & Ec & P1 & P2 & Bs & Bs' & Rm & Lm & Pk & Ku).
    eapply record_completes; eauto. intros pm Ep. exact (proj1 (Pk pm Ep)).
  - destruct (no_link l x Q) as (Rx & Z & _). destruct (first_fresh C _ _ _ _ _ Jl Fr) as [Fr' _].
    destruct (moved C at_ G dev l v x (Wd x) Hy St) as [Hy' St']; [intro Q'; contradiction|].
    assert (Ep : w_pair (upd v (role l x) (dev x) true) = w_pair (dev (negb x))).
    { destruct (St' (negb x)) as (Q1 & _). rewrite role_neg in Q1. rewrite Rx in Q1 |- *. exact Q1. }
    rewrite <- Ep in T. cbn [gh plain] in Hy'. rewrite Rx in Jn, Rv, Fr', Hy', T. cbn [negb] in Jn.
    destruct (link_first C H _ _ _ _ _ _ _ k n pt c rnd Hy' Z Jn Rv Fr') as (De & _). pose proof (at_role at_ l x) as A. rewrite Rx in A. rewrite upd_same, A in De. apply De. exact T.
Qed.
Theorem many_answered : forall dev ls l x k n pt c rnd fs pt' w', many C at_ dev ls -> In l ls ->
  In (mkNote (negb (role l x)) k n pt c) (ln_notes l) -> receivable (ln_par l (role l x)) k n ->
  all_fresh C (all_keys ls) (ln_par l (role l x)) k (List.length ls) rnd -> (has_link l x -> ~ misread C (dev x) (at_ x) (ln_base l) c) ->
  run (decrypt_message C (at_ x) rnd c) fs (dev x) = (Ok pt', w') ->
  pt' = pt /\ current_base w' (at_ x) (ln_base l) /\
  exists u, current_ratchet w' (at_ x) u /\ (k = S (p_epoch (ln_par l (role l x))) -> drawn C (List.length ls) rnd u).
Proof using H.
  intros dev ls l x k n pt c rnd fs pt' w' M Jl Jn Rv Fr Nm E. pose proof (many_inv _ _ M) as Iv. pose proof Iv as (Wd & _ & _ & Lk & _).
  destruct (Lk l Jl) as (v & Hy & St). destruct (has_dec l x) as [Q|Q].
  - destruct (reads C H at_ G dev ls l v x k n pt c rnd Iv Jl Hy St Q Jn Rv Fr (Nm Q))
      as (m & r & s & s' & r' & t & rnd' & rest & Ei & Wm & Wc & Er & Ff & Cu & Fr' & Fa & D & Dr & Ec & P1 & P2 & Bs & Bs' & Rm & Lm & Pk & Ku).
    destruct (record_result C _ _ _ _ _ _ _ _ _ _ _ (Wd x) Wc Er Ff Dr E) as (-> & Er' & _). split; [reflexivity|].
    assert (Cu' : current_session w' (at_ x) = Some s') by (unfold current_session; rewrite Er'; exact Ec).
    split; [exists s'; split; [exact Cu'|exact Bs']|].
    assert (Wd' : wf_device w').
    { replace w' with (snd (run (decrypt_message C (at_ x) rnd c) fs (dev x))) by (rewrite E; reflexivity).
      apply run_shape; [exact (calls_shape C H (CDecrypt (at_ x) rnd c) Wc)|apply Wd]. }
    assert (Ws' : wf_state s') by (eapply (proj1 (proj1 (proj1 Wd') _ _ Er')); exact Ec).
    destruct (encrypt_state_exact C s' [] H Ws') as (sc & _ & u & _ & _ & _ & _ & S1 & _ & S2 & _). exists u. split; [exists s', sc; auto|].
    intro Ek. destruct (Ku Ek) as (sc' & j & S3 & S4 & Lj & Ej). exists j. split; [exact Lj|]. rewrite <- Ej. rewrite S1 in S3. injection S3 as <-. rewrite S2 in S4. injection S4 as S4. exact S4.
  - destruct (no_link l x Q) as (Rx & Z & _). destruct (first_fresh C _ _ _ _ _ Jl Fr) as [Fr' _].
    destruct (moved C at_ G dev l v x (Wd x) Hy St) as [Hy' St']; [intro Q'; contradiction|].
    assert (E' : run (decrypt_message C (at_l l (role l x)) rnd c) fs (upd v (role l x) (dev x) (role l x)) = (Ok pt', w')) by (rewrite at_role, upd_same; exact E).
    pose proof (h_receive C _ _ _ _ _ _ _ (role l x) k n pt c rnd fs pt' w' Hy' Jn Rv Fr' E') as Hy2.
    split; [exact (answered C H _ _ _ _ _ _ _ (role l x) k n pt c rnd fs pt' w' Hy' Jn Rv Fr' E')|].
    destruct (link_lens C H _ _ _ _ _ _ _ Hy) as (_ & _ & _ & _ & Em).
    assert (Ek : k = S (p_epoch (ln_par l false))).
    { rewrite Rx in Rv. rewrite (Em Z) in Rv |- *. destruct Rv as [q Iq _ _|q Iq _ _ _|Q' _]; [destruct Iq|destruct Iq|exact Q']. }
    assert (Nz : p_epoch (upd (ln_par l) (role l x) (party_after (ln_par l (role l x)) k n) false) <> 0).
    { rewrite Rx, upd_same. unfold party_after. rewrite (proj2 (Nat.eqb_eq _ _) Ek). cbn [p_epoch]. lia. }
    destruct (link_state C H _ _ _ _ _ _ _ (role l x) Hy2 (or_intror Nz)) as (s' & Cu & Ws' & Bs & _). rewrite at_role, upd_same in Cu.
    split; [exists s'; auto|]. destruct (encrypt_state_exact C s' [] H Ws') as (sc & _ & u & _ & _ & _ & _ & S1 & _ & S2 & _). exists u. split; [exists s', sc; auto|].
    intros _. exists 0. split; [destruct ls; [destruct Jl|cbn; lia]|]. change (skipn (32 * 0) rnd) with rnd.
    assert (Cu' : current_session (upd (upd v (role l x) (dev x)) (role l x) w' (role l x)) (at_l l (role l x)) = Some s') by (rewrite upd_same, at_role; exact Cu).
    destruct (link_own C H _ _ _ _ _ _ _ (role l x) s' Hy2 (or_intror Nz) Cu') as (Ln & sc' & S3 & S4). rewrite S1 in S3. injection S3 as <-. rewrite S2 in S4. injection S4 as S4. rewrite S4.
    destruct (link_lens C H _ _ _ _ _ _ _ Hy) as (Lk' & Ee & _ & Nts & _). destruct (Nts _ _ _ _ _ Jn) as (Lek & Nek & _).
    rewrite upd_same. unfold party_after, keys_after. rewrite Rx in *. rewrite (proj2 (Nat.eqb_eq _ _) Ek). cbn [p_epoch]. rewrite app_nth2 by lia.
    replace (S k - List.length (ln_keys l)) with 0 by lia. reflexivity.
Qed.
(** A device that has a session can send in its current one. *)
Lemma many_current : forall dev ls, many C at_ dev ls -> forall x, w_sess (dev x) (at_ x) = None \/ exists s, current_session (dev x) (at_ x) = Some s.
Proof using H.
  intros dev ls M. induction M as
    [dev Wd Ns
    |dev ls x b ia ib sb ob rnd fs w' M IH L40 Wb Pa Pub Lr Nb Nk Nsb Nid E
    |dev l1 l l2 x pt fs c w' M IH Cb G E
    |dev l1 l l2 x k n pt c rnd fs pt' u w' M IH Jn Rv Fr Nm E Cr
    |dev ls x w' M IH Wd' Wp' Es Pk]; intro y.
  - left. apply Ns.
  - destruct (Bool.bool_dec y x) as [->|Ny]; [rewrite upd_same|rewrite upd_other by assumption; apply IH]. right.
    destruct (bundle_success _ _ _ _ _ _ _ E) as (ti & ts & kp & rnd1 & s0 & rest & _ & _ & _ & _ & _ & _ & Ew). eexists. unfold current_session. rewrite Ew. unfold bundle_world. cbn. rewrite addr_eqb_refl. reflexivity.
  - destruct (Bool.bool_dec y x) as [->|Ny]; [rewrite upd_same|rewrite upd_other by assumption; apply IH]. right.
    destruct Cb as (s & Cu & _). pose proof (many_inv _ _ M) as (Wd & _). unfold current_session in Cu. destruct (w_sess (dev x) (at_ x)) as [r|] eqn:Er; [|discriminate].
    assert (Ws : wf_state s) by (eapply (proj1 (proj1 (proj1 (Wd x)) _ _ Er)); exact Cu).
    destruct (encrypt_state_exact C s pt H Ws) as (sc0 & k & ratchet & local & remote & m & out' & _ & _ & _ & _ & _ & _ & _ & _ & _ & _ & X).
    destruct (encrypt_success _ _ _ _ _ _ _ _ _ _ _ _ Er Cu X E) as (_ & _ & Ew). eexists. unfold current_session. rewrite Ew. cbn. rewrite addr_eqb_refl. reflexivity.
  - destruct (Bool.bool_dec y x) as [->|Ny]; [rewrite upd_same|rewrite upd_other by assumption; apply IH]. right.
    destruct Cr as (s & sc & Cu & _). exists s. exact Cu.
  - destruct (Bool.bool_dec y x) as [->|Ny]; [rewrite upd_same|rewrite upd_other by assumption; apply IH]. unfold current_session. rewrite Es. apply IH.
Qed.
Theorem many_sendable : forall dev ls x l pt, many C at_ dev ls -> In l ls -> has_link l x ->
  w_policy (dev x) (at_ x) (w_ident (dev x) (at_ x)) (kp_pub (w_pair (dev (negb x)))) Sending = true ->
  exists l' c w', In l' ls /\ has_link l' x /\ current_base (dev x) (at_ x) (ln_base l') /\ run0 (encrypt_message C (at_ x) pt) (dev x) = (Ok c, w').
Proof using H.
  intros dev ls x l pt M Jl Hl T. pose proof (many_inv _ _ M) as Iv. pose proof Iv as (Wd & _ & _ & Lk & _ & Ow & _).
  destruct (many_each _ _ _ M Jl) as (v & _ & St). destruct (St x) as (_ & S2). destruct (S2 Hl) as (r & s0 & _ & Er & _).
  destruct (many_current _ _ M x) as [Q|[s Cu]]; [congruence|]. assert (Ec : rc_current r = Some s) by (unfold current_session in Cu; rewrite Er in Cu; exact Cu).
  assert (J : In s (sess_list (dev x) (at_ x))) by (apply sess_in; [apply Wd|]; exists r; split; [exact Er|left; exact Ec]).
  destruct (Ow x s J) as (l' & Jl' & Hl' & Eb). destruct (Lk l' Jl') as (v' & Hy' & St').
  destruct (the_session C H at_ G _ _ l' v' x Iv Jl' Hy' (St' x) Hl') as (s' & _ & _ & _ & Ws & Rm & _ & _ & Un). rewrite <- (Un s J Eb) in *.
  destruct (encrypt_state_exact C s pt H Ws) as (sc0 & k & ratchet & local & remote & m & out' & _ & _ & _ & _ & _ & Rm' & _ & _ & _ & _ & X).
  exists l'. eexists. eexists. split; [exact Jl'|]. split; [exact Hl'|]. split; [exists s; auto|]. eapply encrypt_completes; eauto.
  rewrite Rm in Rm'. apply pub_bytes_inj in Rm'. rewrite <- Rm'. rewrite <- role_neg. destruct (St' (negb x)) as (Q & _). rewrite Q. exact T.
Qed.
(** Sending several messages. *)
Lemma many_sends : forall x pt n dev l1 l l2, many C at_ dev (l1 ++ l :: l2) -> current_base (dev x) (at_ x) (ln_base l) ->
  w_policy (dev x) = (fun _ _ _ _ => true) -> (p_sent (ln_par l (role l x)) + N.of_nat n < 4294967296)%N ->
  exists dev' l', many C at_ dev' (l1 ++ l' :: l2) /\ dev' (negb x) = dev (negb x) /\ current_base (dev' x) (at_ x) (ln_base l) /\ w_policy (dev' x) = w_policy (dev x) /\
    w_pair (dev' x) = w_pair (dev x) /\ w_signed (dev' x) = w_signed (dev x) /\
    ln_from l' = ln_from l /\ ln_bundle l' = ln_bundle l /\ ln_base l' = ln_base l /\ ln_keys l' = ln_keys l /\
    p_epoch (ln_par l' (role l x)) = p_epoch (ln_par l (role l x)) /\ ln_par l' (negb (role l x)) = ln_par l (negb (role l x)) /\
    incl (ln_notes l) (ln_notes l') /\
    forall i, (i < N.of_nat n)%N -> exists c, In (mkNote (role l x) (p_epoch (ln_par l (role l x))) (p_sent (ln_par l (role l x)) + i)%N pt c) (ln_notes l').
Proof using H.
  intros x pt n. induction n as [|n IH]; intros dev l1 l l2 M Cb Po G.
  - exists dev, l. split; [exact M|]. split; [reflexivity|]. split; [exact Cb|]. repeat (split; [reflexivity|]). split; [apply incl_refl|]. intros i Li; lia.
  - destruct Cb as (s & Cu & Eb). pose proof (many_inv _ _ M) as (Wd & _). unfold current_session in Cu. destruct (w_sess (dev x) (at_ x)) as [r|] eqn:Er; [|discriminate].
    assert (Ws : wf_state s) by (eapply (proj1 (proj1 (proj1 (Wd x)) _ _ Er)); exact Cu).
    destruct (encrypt_state_exact C s pt H Ws) as (sc0 & k & ratchet & local & remote & m & out & _ & _ & _ & _ & _ & _ & _ & _ & _ & _ & X).
    pose proof (encrypt_completes _ _ _ _ _ _ _ _ _ Er Cu X ltac:(rewrite Po; reflexivity)) as E.
    set (s' := with_sender s _) in *. set (w1 := set_sess _ _ _) in E.
    assert (Cb1 : current_base w1 (at_ x) (ln_base l)) by (exists s'; split; [unfold current_session, w1; cbn; rewrite addr_eqb_refl; reflexivity|exact Eb]).
    assert (F1 : w_policy w1 = w_policy (dev x) /\ w_pair w1 = w_pair (dev x) /\ w_signed w1 = w_signed (dev x)) by (unfold w1; destruct (w_shared (dev x)); auto).
    destruct F1 as (F1 & F2 & F3).
    assert (M1 : many C at_ (upd dev x w1) (l1 ++ link_sent l (role l x) pt out :: l2)).
    { eapply many_send; [exact M| |lia|exact E]. exists s. split; [unfold current_session; rewrite Er; exact Cu|exact Eb]. }
    destruct (IH (upd dev x w1) l1 (link_sent l (role l x) pt out) l2 M1) as (dev' & l' & M2 & Q0 & Q1 & Q2 & Q3 & Q4 & Q5 & Q6 & Q7 & Q8 & Q9 & Q10 & Q11 & Q12).
    + rewrite upd_same. exact Cb1.
    + rewrite upd_same. congruence.
    + change (role (link_sent l (role l x) pt out) x) with (role l x). cbn [link_sent ln_par]. rewrite upd_same. cbn [sent_one p_sent]. lia.
    + change (role (link_sent l (role l x) pt out) x) with (role l x) in *. rewrite upd_same in *. cbn [link_sent ln_par ln_from ln_bundle ln_base ln_keys ln_notes] in *. rewrite upd_same in *. cbn [sent_one p_sent p_epoch] in *.
      exists dev', l'. split; [exact M2|]. split; [rewrite Q0; apply upd_other; destruct x; discriminate|].
      split; [exact Q1|]. split; [congruence|]. split; [congruence|]. split; [congruence|].
      split; [exact Q5|]. split; [exact Q6|]. split; [exact Q7|]. split; [exact Q8|]. split; [exact Q9|].
      split; [rewrite Q10; apply upd_other; destruct (role l x); discriminate|].
      split; [intros z Jz; apply Q11; right; exact Jz|].
      intros i Li. destruct (N.eq_dec i 0) as [->|Ni].
      * exists out. apply Q11. left. f_equal. lia.
      * destruct (Q12 (i - 1)%N ltac:(lia)) as (c & J). exists c. replace (p_sent (ln_par l (role l x)) + i)%N with (p_sent (ln_par l (role l x)) + 1 + (i - 1))%N by lia. exact J.
Qed.
End Top.
