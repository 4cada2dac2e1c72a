(** A network survives failures and crashes of any call (C91). *)
From Verif Require Import M_Base M_Crypto M_Aes M_Curve M_Proto M_Message M_Ratchet M_State M_Store M_Session M_Group
  S_Crypto S_Message S_State S_Shape S_Ratchet S_Session S_Aes S_Api S_Send S_Group S_Curve S_X3dh S_Receive S_Conv S_History S_Isolation S_Atomic S_Apart S_Spent S_Many S_Net
  P_Base P_State P_Shape P_Ratchet P_Chain P_Decrypt P_Receive P_Encrypt P_Record P_Prog P_Api
  P_Init P_Send P_Conv P_X3dh P_Conv2 P_Bundle P_DecApi P_DecMore P_History P_Isolation P_Apart P_Atomic P_CrashConv P_Redeliver P_ManyRec P_ManyFail P_ManyApi P_ManyLink P_Many P_ManySteps P_ManyTop P_Net.
From Coq Require Import ZifyBool ZifyNat ZifyN Permutation.
Local Open Scope nat_scope.

(** No one-time pre-key is given out twice. *)
Definition given (c : cable) : list (addr * N) :=
  match bd_prekey_id (ln_bundle (cb_link c)) with Some i => [(cb_to c, i)] | None => [] end.
Lemma given_in : forall c d i, In (d, i) (given c) <-> cb_to c = d /\ bd_prekey_id (ln_bundle (cb_link c)) = Some i.
Proof.
  intros c d i. unfold given. destruct (bd_prekey_id (ln_bundle (cb_link c))) as [j|]; cbn [In]; split.
  - intros [E|[]]. injection E as -> ->. auto.
  - intros [-> E]. injection E as ->. auto.
  - intros [].
  - intros [_ E]. discriminate.
Qed.
Lemma nodup_app_disjoint : forall {A} (l1 l2 : list A) x, NoDup (l1 ++ l2) -> In x l1 -> In x l2 -> False.
Proof.
  intros A l1. induction l1 as [|y l1 IH]; intros l2 x N J1 J2; [destruct J1|]. cbn [app] in N. inversion N; subst. destruct J1 as [->|J1]; [|eauto].
  match goal with X : ~ In _ _ |- _ => apply X end. apply in_or_app. auto.
Qed.
Lemma nodup_mid : forall {A} (l1 l2 l3 : list A) x, NoDup (l1 ++ l2 ++ l3) -> In x l2 -> In x (l1 ++ l3) -> False.
Proof.
  intros A l1 l2 l3 x N J J'. apply in_app_or in J'. destruct J' as [J'|J'].
  - apply (nodup_app_disjoint l1 (l2 ++ l3) x N J'). apply in_or_app. auto.
  - induction l1 as [|y l1 IH]; [exact (nodup_app_disjoint l2 l3 x N J J')|]. inversion N; subst. auto.
Qed.

Lemma leaves_rest : forall C c w w', let '@Thread A p := start C c in leaves p w w' -> rest_same c w w'.
Proof.
  intros C c w w'. pose proof (calls_own C c) as P. destruct (start C c) as [A p]. intros (fs & Lv).
  destruct (pall_rel (rest_same c) (own_op c) (rest_refl c) (rest_trans c)) with (A := A) (p := p) (fs := fs) (w := w) as [Q1 Q2]; auto.
  - intros X o f w0 K. pose proof (exec_rest c X o w0 K) as Z. unfold exec_f. destruct (exec o w0) as [y w1]. cbn [snd] in Z.
    destruct (fallible o); [destruct f; auto; apply rest_refl|auto].
  - destruct Lv as [->|(n & ->)]; auto.
Qed.

Section Cut.
Variable C : Crypto.
Hypothesis H : CryptoOk C.

Lemma net_given : forall dev es, net C dev es -> NoDup (flat_map given es).
Proof.
  intros dev es M. unfold net in M. induction M as [dev es (-> & _)|dev es d e b ia ib sb ob rnd fs w' M IH N L40 Wb Pa Pub Lr Nb Nk Nsb Nid E|dev es1 c es2 d e pt fs m w' M IH N Jd Je Cb Gs E
    |dev es1 c es2 d e k n pt m rnd fs pt' u w' M IH N Jd Je Jn Rv Fr Nm E Cr|dev es d c A p w' M IH G Es Lv|dev es d c A p w' M IH Sh Wc Es Nok Lv|dev es d w' M IH W' P' Se Pk]; auto.
  - constructor.
  - cbn [flat_map]. unfold given at 1. cbn [cb_link cb_to ln_bundle]. destruct (bd_prekey_id b) as [i|] eqn:Ei; [|exact IH]. cbn [app]. constructor; [|exact IH].
    intro J. apply in_flat_map in J. destruct J as (c & Jc & J). apply given_in in J. destruct J as [Et Eb]. exact (Nid c i Jc Et Eb eq_refl).
  - rewrite flat_map_app in *. exact IH.
  - rewrite flat_map_app in *. exact IH.
Qed.
Lemma net_cable : forall dev es c, net C dev es -> In c es -> exists at_ v,
  history C at_ (ln_bundle (cb_link c)) (ln_base (cb_link c)) v (ln_par (cb_link c)) (ln_keys (cb_link c)) (ln_notes (cb_link c)).
Proof using H.
  intros dev es c M J. destruct (net_inv C H dev es M) as (_ & _ & _ & Ns & _). pose proof (Ns c J) as N.
  destruct (net_pairs C H dev es _ _ M N) as (dv & K & _). pose proof (many_inv C H _ _ _ K) as Iv.
  destruct (net_link es c _ _ J N) as (l & Jl & -> & _); [left; reflexivity|right; left; reflexivity|].
  destruct Iv as (_ & _ & _ & Lk & _). destruct (Lk _ Jl) as (v & Hy & _). apply gh_hist in Hy. eexists _, v. exact Hy.
Qed.
Lemma net_wf : forall dev es d, net C dev es -> wf_device (dev d).
Proof using H. intros dev es d M. destruct (net_inv C H dev es M) as (_ & Wd & _). apply Wd. Qed.
Lemma set_twice : forall dev d w1 w2 x, dev_set (dev_set dev d w1) d w2 x = dev_set dev d w2 x.
Proof. intros. unfold dev_set. destruct (addr_eqb x d); reflexivity. Qed.

(** A call that has no effect on sessions and pre-keys. *)
Lemma cut_nothing : forall dev es d w', net C dev es -> wf_device w' -> w_pair w' = w_pair (dev d) -> untouched (dev d) w' -> net C (dev_set dev d w') es.
Proof. intros dev es d w' M W P ((U1 & _) & U2 & U3). apply net_other; auto. intros. split; [apply U3|intros; apply U2]. Qed.

Lemma net_send_cut : forall dev es1 c es2 d e pt w', net C dev (es1 ++ c :: es2) -> w_shared (dev d) = false ->
  d <> e -> In d [cb_from c; cb_to c] -> In e [cb_from c; cb_to c] -> current_base (dev d) e (ln_base (cb_link c)) ->
  (p_sent (ln_par (cb_link c) (cb_role c d)) + 1 < 4294967296)%N -> leaves (encrypt_message C e pt) (dev d) w' ->
  exists dev', (forall x, dev' x = dev_set dev d w' x) /\
    (net C dev' (es1 ++ c :: es2) \/
     exists m, net C dev' (es1 ++ mkCable (cb_from c) (cb_to c) (link_sent (cb_link c) (cb_role c d) pt m) :: es2)).
Proof using H.
  intros dev es1 c es2 d e pt w' M Sh N Jd Je Cb G Lv. pose proof (net_wf dev _ d M) as Wd.
  destruct (leaves_shape _ _ _ (calls_shape C H (CEncrypt e pt) I) Wd Lv) as [W' P'].
  destruct (leaves_atomic C (CEncrypt e pt) (dev d) w' Sh Lv) as [U|[(m & Ok1) Sr]].
  - exists (dev_set dev d w'). split; [reflexivity|]. left. apply cut_nothing; assumption.
  - pose proof (leaves_rest C (CEncrypt e pt) (dev d) w' Lv) as (_ & (_ & Pk & _)).
    destruct (run0 (encrypt_message C e pt) (dev d)) as [x w1] eqn:E. cbn [fst snd] in *. subst x.
    exists (dev_set (dev_set dev d w1) d w'). split; [intro x; apply set_twice|]. right. exists m.
    apply net_other; [eapply net_send; eauto|exact W'| | |]; rewrite ?set_same.
    + rewrite P'. symmetry. pose proof (run_pair (encrypt_message C e pt) [] (dev d)) as Q. unfold run0 in E. rewrite E in Q. exact Q.
    + apply Sr.
    + intros c' _ _ _. destruct (send_prekeys C H _ _ _ _ _ _ _ Wd Cb E) as [S1 S2].
      pose proof (leaves_rest C (CEncrypt e pt) (dev d) w' Lv) as ((S3 & _) & _). split; [congruence|]. intros id _. rewrite S2. apply Pk. discriminate.
Qed.
Lemma run0_leaves : forall {A} (p : prog A) w, leaves p w (snd (run0 p w)).
Proof. intros. exists []. left. reflexivity. Qed.

Lemma net_begin_cut : forall dev es d e b ia ib sb ob rnd w', net C dev es -> w_shared (dev d) = false -> d <> e ->
  List.length (links_between d e es) <= 40 -> wf_bundle b ->
  pair_for C ia (w_pair (dev d)) -> published C (dev e) b ib sb ob -> 64 <= List.length rnd ->
  ~ In (mont_pub C (firstn 32 rnd)) (bases (links_between d e es)) ->
  ~ In (mont_pub C (firstn 32 (skipn 32 rnd))) (mont_pub C sb :: all_keys (links_between d e es)) ->
  (forall l, In l (links_between d e es) -> ~ In (mont_pub C sb) (tl (ln_keys l))) ->
  (forall c id, In c es -> cb_to c = e -> bd_prekey_id (ln_bundle (cb_link c)) = Some id -> bd_prekey_id b <> Some id) ->
  leaves (process_bundle C e rnd b) (dev d) w' ->
  exists dev', (forall x, dev' x = dev_set dev d w' x) /\
    (net C dev' es \/
     net C dev' (mkCable d e (mkLink true b (mont_pub C (firstn 32 rnd)) start_party [mont_pub C sb; mont_pub C (firstn 32 (skipn 32 rnd))] []) :: es)).
Proof using H.
  intros dev es d e b ia ib sb ob rnd w' M Sh N L40 Wb Pa Pub Lr Nb Nk Nsb Nid Lv. pose proof (net_wf dev _ d M) as Wd.
  destruct (leaves_shape _ _ _ (calls_shape C H (CBundle e rnd b) Wb) Wd Lv) as [W' P'].
  destruct (leaves_atomic C (CBundle e rnd b) (dev d) w' Sh Lv) as [U|[([] & Ok1) Sr]].
  - exists (dev_set dev d w'). split; [reflexivity|]. left. apply cut_nothing; assumption.
  - pose proof (leaves_rest C (CBundle e rnd b) (dev d) w' Lv) as ((S' & _) & _ & Pk' & _).
    pose proof (leaves_rest C (CBundle e rnd b) (dev d) _ (run0_leaves _ (dev d))) as ((S1 & _) & _ & Pk1 & _).
    destruct (run0 (process_bundle C e rnd b) (dev d)) as [x w1] eqn:E. cbn [fst snd] in *. subst x.
    exists (dev_set (dev_set dev d w1) d w'). split; [intro x; apply set_twice|]. right.
    apply net_other; [eapply net_begin; eauto|exact W'| | |]; rewrite ?set_same.
    + rewrite P'. symmetry. pose proof (run_pair (process_bundle C e rnd b) [] (dev d)) as Q. unfold run0 in E. rewrite E in Q. exact Q.
    + apply Sr.
    + intros c' _ _ _. split; [congruence|]. intros id _. rewrite Pk1 by discriminate. apply Pk'. discriminate.
Qed.

Lemma net_receive_cut : forall dev es1 c es2 d e k n pt m rnd w', net C dev (es1 ++ c :: es2) -> w_shared (dev d) = false ->
  d <> e -> In d [cb_from c; cb_to c] -> In e [cb_from c; cb_to c] ->
  In (mkNote (negb (cb_role c d)) k n pt m) (ln_notes (cb_link c)) -> receivable (ln_par (cb_link c) (cb_role c d)) k n ->
  all_fresh C (all_keys (links_between d e (es1 ++ c :: es2))) (ln_par (cb_link c) (cb_role c d)) k (List.length (links_between d e (es1 ++ c :: es2))) rnd ->
  (has_cable c d -> ~ misread C (dev d) e (ln_base (cb_link c)) m) ->
  leaves (decrypt_message C e rnd m) (dev d) w' ->
  exists dev', (forall x, dev' x = dev_set dev d w' x) /\
    (net C dev' (es1 ++ c :: es2) \/
     exists u, current_ratchet w' e u /\ net C dev' (es1 ++ mkCable (cb_from c) (cb_to c) (link_got (cb_link c) (cb_role c d) k n u) :: es2)).
Proof using H.
  intros dev es1 c es2 d e k n pt m rnd w' M Sh N Jd Je Jn Rv Fr Nm Lv. pose proof (net_wf dev _ d M) as Wd.
  assert (Jc : In c (es1 ++ c :: es2)) by (apply in_or_app; right; left; reflexivity).
  destruct (net_cable dev _ c M Jc) as (at_ & v & Hy). destruct (link_note C H at_ _ _ _ _ _ _ _ _ _ _ _ Hy Jn) as (sg & _ & _ & Wm & _ & Cs).
  destruct (leaves_shape _ _ _ (calls_shape C H (CDecrypt e rnd m) Wm) Wd Lv) as [W' P'].
  destruct (leaves_atomic C (CDecrypt e rnd m) (dev d) w' Sh Lv) as [U|[(pt' & Ok1) Sr]].
  - exists (dev_set dev d w'). split; [reflexivity|]. left. apply cut_nothing; assumption.
  - pose proof (leaves_rest C (CDecrypt e rnd m) (dev d) w' Lv) as ((S' & _) & _ & Pk' & _).
    pose proof (leaves_rest C (CDecrypt e rnd m) (dev d) _ (run0_leaves _ (dev d))) as ((S1 & _) & _ & Pk1 & _).
    destruct (run0 (decrypt_message C e rnd m) (dev d)) as [x w1] eqn:E. cbn [fst snd] in *. subst x.
    destruct (net_answered C H _ _ _ _ _ _ _ _ _ _ _ _ _ M Jc N Jd Je Jn Rv Fr Nm E) as (_ & _ & u & Cr & _).
    assert (K : net C (dev_set dev d w1) (es1 ++ mkCable (cb_from c) (cb_to c) (link_got (cb_link c) (cb_role c d) k n u) :: es2)) by (eapply net_receive; eauto).
    exists (dev_set (dev_set dev d w1) d w'). split; [intro x; apply set_twice|]. right. exists u. split.
    { destruct Cr as (s & sc & Q & R1). exists s, sc. split; [|exact R1]. unfold current_session in *. destruct Sr as (Sr & _). rewrite Sr. exact Q. }
    apply net_other; [exact K|exact W'| | |]; rewrite ?set_same.
    + rewrite P'. symmetry. pose proof (run_pair (decrypt_message C e rnd m) [] (dev d)) as Q. unfold run0 in E. rewrite E in Q. exact Q.
    + apply Sr.
    + intros c' Jc' Ec' Nh. split; [congruence|]. intros id Eid.
      assert (Nn : prekey_named (CDecrypt e rnd m) <> Some id).
      { destruct Cs as [[-> _]|[Sd (pm & -> & _ & _ & _ & Ep)]]; [discriminate|]. cbn [prekey_named]. rewrite Ep. intro Eq.
        destruct (cb_role c d) eqn:Rd; [discriminate|]. unfold cb_role in Rd.
        assert (Et : cb_to c = d). { destruct Jd as [X|[X|[]]]; [|exact X]. rewrite X in Rd. rewrite addr_eqb_refl in Rd. discriminate. }
        pose proof (net_given _ _ M) as G. rewrite flat_map_app in G. cbn [flat_map] in G.
        apply in_app_or in Jc'. destruct Jc' as [J|[<-|J]].
        - apply (nodup_mid _ _ _ (d, id) G); [apply given_in; auto|]. apply in_or_app. left. apply in_flat_map. exists c'. split; [exact J|apply given_in; auto].
        - apply Nh. right. split; [exact (eq_sym Et)|]. cbn [cb_link link_got ln_par]. unfold upd. cbn [eqb]. 
          unfold party_after. destruct (Nat.eqb k (S (p_epoch (ln_par (cb_link c) false)))) eqn:Ek; [discriminate|]. cbn [p_epoch]. intro Z0.
          assert (V : p_views (ln_par (cb_link c) false) = []). { destruct (history_in_step C H _ at_ _ _ _ _ _ Hy) as (k0 & ks0 & _ & _ & _ & _ & _ & _ & _ & _ & _ & _ & _ & Z1 & _). destruct (Z1 Z0) as [-> _]. reflexivity. }
          destruct Rv as [w0 J0 _ _|w0 J0 _ _ _|X _]; [rewrite V in J0; destruct J0|rewrite V in J0; destruct J0|]. apply Nat.eqb_neq in Ek. congruence.
        - apply (nodup_mid _ _ _ (d, id) G); [apply given_in; auto|]. apply in_or_app. right. apply in_flat_map. exists c'. split; [exact J|apply given_in; auto]. }
      rewrite Pk1 by exact Nn. apply Pk'. exact Nn.
Qed.

Theorem net_redelivered : forall dev es c d e k n pt m rnd w' rnd2, net C dev es -> In c es -> w_shared (dev d) = false ->
  d <> e -> In d [cb_from c; cb_to c] -> In e [cb_from c; cb_to c] ->
  In (mkNote (negb (cb_role c d)) k n pt m) (ln_notes (cb_link c)) -> ahead (ln_par (cb_link c) (cb_role c d)) k n ->
  all_fresh C (all_keys (links_between d e es)) (ln_par (cb_link c) (cb_role c d)) k (List.length (links_between d e es)) rnd ->
  (has_cable c d -> ~ misread C (dev d) e (ln_base (cb_link c)) m) ->
  leaves (decrypt_message C e rnd m) (dev d) w' ->
  all_fresh C (all_keys (links_between d e es)) (ln_par (cb_link c) (cb_role c d)) k (List.length (links_between d e es)) rnd2 ->
  ~ misread C w' e (ln_base (cb_link c)) m -> w_policy w' e (w_ident w' e) (kp_pub (w_pair (dev e))) Receiving = true ->
  exists w'', run0 (decrypt_message C e rnd2 m) w' = (Ok pt, w'').
Proof using H.
  intros dev es c d e k n pt m rnd w' rnd2 M Jc Sh N Jd Je Jn Ah Fr Nm Lv Fr2 Nm2 T.
  destruct (in_split _ _ Jc) as (es1 & es2 & ->).
  destruct (net_receive_cut _ _ _ _ _ _ _ _ _ _ _ _ M Sh N Jd Je Jn (ahead_receivable _ _ _ Ah) Fr Nm Lv) as (dev' & Ed & K).
  assert (E1 : dev' d = w') by (rewrite Ed; apply set_same).
  assert (E2 : dev' e = dev e) by (rewrite Ed; apply set_other; auto).
  destruct K as [K|(u & _ & K)].
  - rewrite <- E1. eapply (net_delivered C H dev' _ c d e k n pt m rnd2 K); auto; rewrite ?E1, ?E2; auto. exact (ahead_receivable _ _ _ Ah).
  - destruct (net_cable dev _ c M Jc) as (at_ & v & Hy).
    destruct (ahead_again _ _ _ (views_behind C H _ at_ _ _ _ _ _ Hy (cb_role c d)) Ah) as [R N0].
    rewrite <- E1. set (c1 := mkCable (cb_from c) (cb_to c) (link_got (cb_link c) (cb_role c d) k n u)) in *.
    assert (Pa : ln_par (cb_link c1) (cb_role c1 d) = party_after (ln_par (cb_link c) (cb_role c d)) k n).
    { unfold c1, cb_role. cbn [cb_link cb_from link_got ln_par]. apply upd_same. }
    eapply (net_delivered C H dev' _ c1 d e k n pt m rnd2 K); auto; rewrite ?E1, ?E2, ?Pa; auto.
    + apply in_or_app. right. left. reflexivity.
    + intro Q. contradiction.
Qed.
End Cut.
