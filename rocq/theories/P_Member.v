(** Group receiving over whole histories. *)
From Verif Require Import M_Base M_Crypto M_Aes M_Curve M_Proto M_Uuid M_Message M_Ratchet M_State M_Store M_Session M_Group
  S_Crypto S_Message S_State S_Shape S_Ratchet S_Session S_Curve S_Aes S_Wire S_Uuid S_Api S_Group S_GroupMsg
  P_Base P_Proto P_Curve P_State P_Shape P_Ratchet P_Message P_Aes P_Chain P_Decrypt P_Init P_Record P_Verify P_CryptoTop P_Prog P_Group P_Api P_Isolation P_Bundle
  P_History P_GroupMsg.
From Coq Require Import ZifyBool ZifyNat ZifyN.
Local Open Scope nat_scope.

(** * Processing a distribution message *)
(** The record afterwards. *)
Definition told (m : distmsg) : gstate :=
  new_gstate (dm_version m) (dm_chain m) (dm_iter m) (dm_chainkey m) (dm_signing m) None.
Definition after_dist (m : distmsg) (r : grecord) : grecord :=
  keep_last 4 (others (dm_chain m) r) ++
    [match gr_find (dm_chain m) r with
     | Some e => if pub_equal (dm_signing m) (skipn 1 (gs_pub e)) then e else told m
     | None => told m
     end].
Lemma told_public : forall m, wf_dist m -> gs_public (told m) = Ok (dm_signing m).
Proof.
  intros m (_ & _ & _ & L & _). unfold gs_public, told, new_gstate. cbn [gs_pub].
  apply new_public_key_bytes. exact L.
Qed.
Lemma gr_add_dist : forall m r, wf_dist m -> wf_grecord r -> gr_add (told m) r = Ok (after_dist m r).
Proof.
  intros m r Wm Wr. rewrite (gr_add_exact (told m) r _ Wr (told_public m Wm)). unfold after_dist. cbn [told new_gstate gs_chain].
  do 3 f_equal. destruct (gr_find (dm_chain m) r) as [e|] eqn:F; [|reflexivity].
  apply gr_find_spec in F; [|apply Wr]. destruct F as [J _]. destruct Wr as (_ & _ & Fw). rewrite Forall_forall in Fw.
  destruct (gs_public_wf e (Fw e J)) as (k & L & Ep & Er). rewrite Er, Ep. reflexivity.
Qed.

Lemma process_dist_runs : forall a m fs w, wf_device w -> wf_dist m ->
  run (process_dist a m) fs w =
    match hd_fault fs with
    | FNone =>
        let r := match w_groups w a (dm_dist m) with Some r => r | None => [] end in
        let r' := after_dist m r in
        let known := match w_groups w a (dm_dist m) with Some _ => true | None => false end in
        let w1 := if known && w_shared w then set_group w a (dm_dist m) r' else w in
        match hd_fault (if known then tl (tl fs) else tl fs) with
        | FNone => (Ok tt, set_group w1 a (dm_dist m) r')
        | FBefore => (Err EStore, w1)
        | FAfter => (Err EStore, set_group w1 a (dm_dist m) r')
        end
    | _ => (Err EStore, w)
    end.
Proof.
  intros a m fs w W Wm. unfold process_dist. unfold pdo at 1. cbn [run exec_f fallible].
  destruct (hd_fault fs); [|reflexivity..]. cbn [exec]. fold (told m).
  assert (Wr : wf_grecord match w_groups w a (dm_dist m) with Some r => r | None => [] end).
  { destruct (w_groups w a (dm_dist m)) eqn:E; [eapply (proj2 W); eauto|exact wf_grecord_nil]. }
  rewrite (gr_add_dist m _ Wm Wr). cbn [plift].
  destruct (w_groups w a (dm_dist m)) as [r|]; cbn [andb].
  - unfold pdo. cbn [run exec_f fallible exec]. destruct (hd_fault (tl (tl fs))); reflexivity.
  - unfold pdo. cbn [run exec_f fallible exec]. destruct (hd_fault (tl fs)); reflexivity.
Qed.

(** * Mailbox and state *)
Lemma nodup_app : forall {A} (l k : list A), NoDup l -> NoDup k -> (forall x, In x l -> In x k -> False) -> NoDup (l ++ k).
Proof.
  intros A l k N1 N2 D. induction N1 as [|x l J N1 IH]; cbn [app]; [exact N2|]. constructor.
  - rewrite in_app_iff. intros [Q|Q]; [auto|]. exact (D x (or_introl eq_refl) Q).
  - apply IH. intros y Q1 Q2. exact (D y (or_intror Q1) Q2).
Qed.
Section Channel.
Variable C : Crypto.
Variable H : CryptoOk C.
Variable c : channel.

Definition ckey (n : N) : bytes := chain_at C (cn_key c) (N.to_nat (n - cn_first c)).
Definition rel (b : mailbox) (s : gstate) : Prop :=
  wf_gstate s /\ gs_chain s = cn_chain c /\ gs_pub s = Byte.x05 :: cn_signing c /\
  (cn_first c <= mb_next b)%N /\ gs_iter s = mb_next b /\ gs_seed s = ckey (mb_next b) /\
  map gm_iter (gs_keys s) = mb_open b /\ NoDup (mb_open b) /\
  Forall (fun k => (cn_first c <= gm_iter k < mb_next b)%N /\ gm_seed k = c_hmac C (ckey (gm_iter k)) [Byte.x01]) (gs_keys s).

Lemma chain_at_add : forall k i j, chain_at C k (i + j) = chain_at C (chain_at C k i) j.
Proof.
  intros k i j. unfold chain_at. rewrite Nat.add_comm. induction j as [|j IH]; [reflexivity|].
  cbn [Nat.add]. simpl. f_equal. exact IH.
Qed.
Lemma gkeys_unique : forall k i m1 m2, gkeys_at C k i m1 -> gkeys_at C k i m2 -> m1 = m2.
Proof.
  intros k i [c1 v1 s1 i1] [c2 v2 s2 i2] (E1 & L1 & V1 & S1 & I1) (E2 & L2 & V2 & S2 & I2). cbn in *.
  rewrite <- E2 in E1. apply app_inj_len in E1; [|congruence]. destruct E1. congruence.
Qed.
Lemma derive_at : forall k i, gkeys_at C k i (derive_gmsgkey C (c_hmac C k [Byte.x01]) i).
Proof. intros k i. exact (derive_gmsgkey_at C (mkGChainKey i k) H). Qed.

Lemma opens_body : forall n pt m mk, genuine C c n pt m -> gkeys_at C (ckey n) n mk ->
  cbc_decrypt C (gk_cipher mk) (gk_iv mk) (sm_body m) = Ok pt.
Proof.
  intros n pt m mk (_ & _ & _ & _ & _ & _ & mk' & K & E) K'. rewrite (gkeys_unique _ _ _ _ K' K). clear K' mk.
  destruct K as (_ & Lc & Lv & _). assert (Lg : legal_key (gk_cipher mk')) by (unfold legal_key; rewrite Lc; auto).
  destruct (cbc_inverse C _ _ pt H Lg Lv) as (ct & pd & E1 & _ & _ & _ & E2). congruence.
Qed.

Lemma count_up_iters : forall n x s, go_u32 (gc_iter s) -> gc_iter s = x -> (x + N.of_nat n < 4294967296)%N ->
  map gm_iter (gsaved_from C n s) = count_up x n.
Proof.
  induction n as [|n IH]; intros x s G E B; [reflexivity|]. rewrite gsaved_from_S. cbn [map count_up]. f_equal; [exact E|].
  cbn [gc_next gc_iter] in *. assert (u32 (gc_iter s + 1) = x + 1)%N as U by (rewrite E; apply N.mod_small; unfold two32; lia).
  apply IH; [cbn [gc_next gc_iter]; rewrite U; unfold go_u32; lia|exact U|lia].
Qed.
Lemma count_up_in : forall n x y, In y (count_up x n) <-> (x <= y < x + N.of_nat n)%N.
Proof.
  induction n as [|n IH]; intros x y; cbn [count_up In]; [split; [tauto|lia]|]. rewrite IH. lia.
Qed.
Lemma count_up_nodup : forall n x, NoDup (count_up x n).
Proof. induction n as [|n IH]; intro x; cbn; constructor; auto. rewrite count_up_in. lia. Qed.

Lemma saved_entries : forall n s b, rel b s -> (mb_next b + N.of_nat n < 4294967296)%N ->
  Forall (fun k => (cn_first c <= gm_iter k < mb_next b + N.of_nat n)%N /\ gm_seed k = c_hmac C (ckey (gm_iter k)) [Byte.x01]) (gsaved_from C n (gs_chainkey s)).
Proof.
  intros n s b (Ws & _ & _ & Lf & Ei & Es & _) B. unfold gsaved_from. apply Forall_forall. intros k J. apply in_map_iff in J.
  destruct J as (i & <- & J). apply in_seq in J. cbn [gsaved gm_iter gm_seed].
  assert (Ek : gc_iter (gc_iter_n C i (gs_chainkey s)) = (mb_next b + N.of_nat i)%N).
  { rewrite gc_iter_index by apply Ws. cbn [gs_chainkey gc_iter]. rewrite Ei. apply N.mod_small. unfold two32. lia. }
  rewrite Ek. split; [lia|]. rewrite gc_iter_key. cbn [gs_chainkey gc_key]. rewrite Es. unfold ckey. rewrite <- chain_at_add.
  do 3 f_equal. lia.
Qed.
Lemma take_filter : forall i l k l', NoDup (map gm_iter l) -> take_gmk i l = Some (k, l') ->
  map gm_iter l' = filter (fun x => negb (N.eqb x i)) (map gm_iter l).
Proof.
  intros i l k l' ND T. apply take_gmk_some in T. destruct T as (a & b & -> & -> & E & Na).
  rewrite !map_app, filter_app in *. cbn [map filter] in *. rewrite E, N.eqb_refl. cbn [negb]. f_equal.
  - symmetry. apply filter_ext_all. intros x J. apply in_map_iff in J. destruct J as (y & <- & J). apply Na in J.
    destruct (N.eqb_spec (gm_iter y) i); auto.
  - symmetry. apply filter_ext_all. intros x J. apply nodup_app_r in ND. inversion ND as [|? ? N1 _]; subst.
    destruct (N.eqb_spec x (gm_iter k)); [subst; contradiction|reflexivity].
Qed.

(** One arrival. *)
Lemma arrive_state : forall b s n pt m, rel b s -> genuine C c n pt m -> (n + 1 < 4294967296)%N ->
  answer (fst (arrive b n)) pt (gresult C s m) /\ rel (snd (arrive b n)) (gnext C s m) /\
  (fst (arrive b n) <> Fresh -> gnext C s m = s).
Proof.
  intros b s n pt m R G B. pose proof G as (Lf & _ & _ & _ & Ei & _).
  pose proof R as (Ws & Ec & Ep & Lb & Es & Ed & Eo & ND & F).
  unfold gresult, gnext, arrive. rewrite Ei, gmessage_key_exact by exact Ws. rewrite Es.
  destruct (N.ltb_spec n (mb_next b)) as [L|L].
  - destruct (take_gmk n (gs_keys s)) as [[k l]|] eqn:T.
    + assert (J : existsb (N.eqb n) (mb_open b) = true).
      { apply existsb_exists. exists n. split; [|apply N.eqb_refl]. apply take_gmk_some in T. destruct T as (x & y & E & _ & Ek & _).
        rewrite <- Eo, E, map_app. apply in_or_app. right. left. exact Ek. }
      rewrite J. cbn [fst snd bind answer]. pose proof T as T'. apply take_gmk_some in T'. destruct T' as (x & y & E & E' & Ek & _).
      assert (Hk : gm_seed k = c_hmac C (ckey n) [Byte.x01]).
      { rewrite E in F. apply Forall_app in F. destruct F as [_ F]. inversion F as [|? ? [_ Q] _]; subst. rewrite <- Ek. exact Q. }
      split.
      * rewrite Hk, Ek. eapply opens_body; [exact G|]. apply derive_at.
      * split; [|congruence]. split; [|split; [exact Ec|split; [exact Ep|split; [exact Lb|split; [exact Es|split; [exact Ed|]]]]]].
        { pose proof (gmessage_key_wf C s n (Ok (derive_gmsgkey C (gm_seed k) (gm_iter k))) (gs_with_keys s l) H Ws) as Q. apply Q.
          rewrite gmessage_key_exact by exact Ws. rewrite Es, (proj2 (N.ltb_lt _ _) L), T. reflexivity. }
        cbn [gs_with_keys gs_keys mb_open mb_next]. split; [|split].
        -- rewrite <- Eo. apply (take_filter _ _ _ _ (eq_rect_r _ ND Eo) T).
        -- apply NoDup_filter. exact ND.
        -- rewrite E in F. apply Forall_app in F. destruct F as [F1 F2]. inversion F2; subst. apply Forall_app. auto.
    + assert (J : existsb (N.eqb n) (mb_open b) = false).
      { destruct (existsb (N.eqb n) (mb_open b)) eqn:Q; [|reflexivity]. exfalso. apply existsb_exists in Q. destruct Q as (y & J & E).
        apply N.eqb_eq in E. subst y. rewrite <- Eo in J. apply in_map_iff in J. destruct J as (k & E & J).
        apply (proj1 (take_gmk_none _ _) T k J E). }
      rewrite J. split; [reflexivity|]. split; [exact R|reflexivity].
  - destruct (N.ltb_spec 25000 (n - mb_next b)) as [L2|L2].
    + destruct (N.ltb_spec (mb_next b + 25000) n); [|lia]. split; [reflexivity|]. split; [exact R|reflexivity].
    + destruct (N.ltb_spec (mb_next b + 25000) n); [lia|]. cbn [fst snd bind answer]. set (k := N.to_nat (n - mb_next b)).
      assert (Bk : (mb_next b + N.of_nat k = n)%N) by lia.
      assert (Ek : gc_iter (gc_iter_n C k (gs_chainkey s)) = n).
      { rewrite gc_iter_index by apply Ws. cbn [gs_chainkey gc_iter]. rewrite Es, Bk. apply N.mod_small. unfold two32. lia. }
      assert (Kk : gc_key (gc_iter_n C k (gs_chainkey s)) = ckey n).
      { rewrite gc_iter_key. cbn [gs_chainkey gc_key]. rewrite Ed. unfold ckey. rewrite <- chain_at_add. f_equal. lia. }
      split.
      * eapply opens_body; [exact G|]. rewrite <- Kk, <- Ek at 1. apply derive_gmsgkey_at. exact H.
      * split; [|congruence]. assert (Em : map gm_iter (gs_keys s ++ gsaved_from C k (gs_chainkey s)) = mb_open b ++ count_up (mb_next b) k).
        { rewrite map_app, Eo. f_equal. apply count_up_iters; [apply Ws|exact Es|lia]. }
        assert (Eo' : map gm_iter (gs_keys (gafter_ahead C s n)) =
                  skipn (List.length (mb_open b ++ count_up (mb_next b) k) - 2000) (mb_open b ++ count_up (mb_next b) k)).
        { unfold gafter_ahead. rewrite Es. fold k. cbn [gs_set_chainkey gs_with_keys gs_keys]. unfold keep_last.
          rewrite <- skipn_map, Em. f_equal. f_equal. rewrite <- Em. symmetry. apply map_length. }
        split; [apply gafter_ahead_wf; auto|]. split; [exact Ec|]. split; [exact Ep|]. cbn [mb_next mb_open]. split; [lia|].
        unfold gafter_ahead in *. rewrite Es in *. fold k in Eo' |- *. cbn [gs_set_chainkey gs_with_keys gs_iter gs_seed gs_keys gc_next gc_iter gc_key] in *.
        rewrite Ek, Kk. split; [apply N.mod_small; unfold two32; lia|]. split.
        { unfold ckey. replace (N.to_nat (n + 1 - cn_first c)) with (S (N.to_nat (n - cn_first c))) by lia. reflexivity. }
        split; [exact Eo'|]. split.
        { apply nodup_skipn. apply nodup_app; [exact ND|apply count_up_nodup|]. intros x J1 J2. apply count_up_in in J2.
          rewrite <- Eo in J1. apply in_map_iff in J1. destruct J1 as (y & <- & J1). rewrite Forall_forall in F. destruct (F y J1). lia. }
        apply keep_last_forall. apply Forall_app. split.
        -- eapply Forall_impl; [|exact F]. intros y [Q1 Q2]. split; [lia|exact Q2].
        -- pose proof (saved_entries k s b R ltac:(lia)) as Q. eapply Forall_impl; [|exact Q]. intros y [Q1 Q2]. split; [lia|exact Q2].
Qed.

(** Whole histories. *)
Variable a : addr.
Local Notation box := (box c).
Lemma arrivals_app : forall l b n, arrivals b (l ++ [n]) = snd (arrive (arrivals b l) n).
Proof. induction l as [|x l IH]; intros b n; cbn [arrivals app]; [reflexivity|apply IH]. Qed.
Lemma box_snoc : forall l n pt r, box (l ++ [(n, pt, r)]) = snd (arrive (box l) n).
Proof. intros. unfold box. rewrite map_app. apply arrivals_app. Qed.

Lemma gr_set_follows : forall w wt chain d r s s', w_groups w a d = Some r -> gr_find chain r = Some s -> gs_chain s' = chain ->
  follows (set_group wt a d (gr_set chain s' r)) a d chain s'.
Proof.
  intros w wt chain d r s s' E F Ec. eexists. split; [apply group_set_same|]. split; [eapply gr_set_in; eauto|exact Ec].
Qed.
Lemma gdecrypt_dev : forall m fs w, wf_device w -> wf_device (snd (run (gdecrypt C a m) fs w)).
Proof. intros m fs w W. apply run_shape; [|exact W]. apply gdecrypt_shape. exact H. Qed.

(** An arrival, given the state. *)
Lemma arrival_runs : forall b s n pt m w r w', wf_device w -> follows w a (cn_dist c) (cn_chain c) s -> rel b s ->
  genuine C c n pt m -> (n + 1 < 4294967296)%N -> run0 (gdecrypt C a m) w = (r, w') ->
  answer (fst (arrive b n)) pt r /\
  exists s', follows w' a (cn_dist c) (cn_chain c) s' /\ rel (snd (arrive b n)) s'.
Proof.
  intros b s n pt m w r w' W Fo R G B E. pose proof G as (_ & V & Ed & Ec & _ & Sg & _).
  destruct (follows_find _ _ _ _ _ W Fo) as (rc & Er & Wr & Ef & Ws).
  rewrite <- Ed in Er. rewrite <- Ec in Ef. pose proof R as (_ & Ecs & Ep & _).
  unfold run0 in E. rewrite (gdecrypt_runs C a m [] w rc s _ Wr Er Ef Ws Ep Sg V eq_refl) in E. cbv zeta in E.
  cbn [hd_fault tl] in E. pose proof (arrive_state b s n pt m R G B) as (An & Rn & Sn).
  assert (Ecn : gs_chain (gnext C s m) = sm_chain m) by (rewrite Ec; apply Rn).
  assert (Fn : forall wt, follows (set_group wt a (sm_dist m) (gr_set (sm_chain m) (gnext C s m) rc)) a (cn_dist c) (cn_chain c) (gnext C s m)).
  { intro wt. rewrite <- Ed, <- Ec. eapply gr_set_follows; eauto. }
  assert (Fail : forall e, fst (arrive b n) <> Fresh -> gresult C s m = Err e -> r = Err e /\
    exists s', follows w' a (cn_dist c) (cn_chain c) s' /\ rel (snd (arrive b n)) s').
  { intros e Nf Eg. rewrite Eg in E. specialize (Sn Nf). injection E as <- <-. split; [reflexivity|].
    exists s. rewrite Sn in *. split; [|exact Rn]. destruct (w_shared w); [apply Fn|exact Fo]. }
  destruct (fst (arrive b n)) eqn:V1; cbn [answer] in An |- *; rewrite An in E.
  - injection E as <- <-. split; [reflexivity|]. exists (gnext C s m). split; [apply Fn|exact Rn].
  - apply Fail; [discriminate|exact An].
  - apply Fail; [discriminate|exact An].
Qed.

Lemma start_state : forall m w w', wf_device w -> wf_dist m ->
  tells m (cn_dist c) (cn_chain c) (cn_signing c) (cn_first c) (cn_key c) ->
  (forall s, follows w a (cn_dist c) (cn_chain c) s -> gs_pub s <> Byte.x05 :: cn_signing c) ->
  run0 (process_dist a m) w = (Ok tt, w') ->
  wf_device w' /\ exists s, follows w' a (cn_dist c) (cn_chain c) s /\ rel (mkMailbox (cn_first c) []) s.
Proof.
  intros m w w' W Wm (V & Ed & Ec & Es & Ei & Ek) New E.
  assert (W' : wf_device w').
  { replace w' with (snd (run (process_dist a m) [] w)) by (unfold run0 in E; rewrite E; reflexivity).
    apply run_shape; [|exact W]. apply process_dist_shape. exact Wm. }
  split; [exact W'|]. unfold run0 in E. rewrite (process_dist_runs a m [] w W Wm) in E. cbv zeta in E. cbn [hd_fault tl] in E.
  set (r0 := match w_groups w a (dm_dist m) with Some r => r | None => [] end) in *.
  assert (E' : w' = set_group (if (match w_groups w a (dm_dist m) with Some _ => true | None => false end) && w_shared w
                               then set_group w a (dm_dist m) (after_dist m r0) else w) a (dm_dist m) (after_dist m r0)).
  { destruct (w_groups w a (dm_dist m)); cbn [hd_fault] in E; injection E as <-; reflexivity. }
  assert (Wr : wf_grecord r0).
  { unfold r0. destruct (w_groups w a (dm_dist m)) eqn:Q; [eapply (proj2 W); eauto|exact wf_grecord_nil]. }
  assert (Last : exists l, after_dist m r0 = l ++ [told m]).
  { unfold after_dist. eexists. f_equal. f_equal. destruct (gr_find (dm_chain m) r0) as [e|] eqn:F; [|reflexivity].
    destruct (pub_equal (dm_signing m) (skipn 1 (gs_pub e))) eqn:Q; [|reflexivity]. exfalso.
    apply gr_find_spec in F; [|apply Wr]. destruct F as [J Ech]. pose proof Wr as (_ & _ & Fw). rewrite Forall_forall in Fw.
    destruct (gs_public_wf e (Fw e J)) as (k & L & Ep & _). apply (New e).
    - exists r0. rewrite <- Ed. unfold r0 in *. destruct (w_groups w a (dm_dist m)); [|destruct J]. split; [reflexivity|]. rewrite <- Ec. auto.
    - rewrite Ep in *. cbn [skipn pub_bytes] in Q. apply pub_equal_iff in Q. rewrite <- Es. symmetry. exact Q. }
  destruct Last as (l & El). exists (told m). split.
  - rewrite E'. eexists. rewrite <- Ed. split; [apply group_set_same|]. rewrite El. split; [apply in_or_app; right; left; reflexivity|exact Ec].
  - destruct Wm as (G1 & G2 & L1 & L2 & _). split; [unfold told; rewrite V; apply new_gstate_wf; auto; discriminate|]. cbn [told new_gstate gs_chain gs_pub gs_iter gs_seed gs_keys mb_next mb_open].
    split; [exact Ec|]. split; [rewrite Es; reflexivity|]. split; [lia|]. split; [exact Ei|]. split.
    + unfold ckey. rewrite N.sub_diag. exact Ek.
    + split; [reflexivity|]. split; [constructor|constructor].
Qed.

Lemma member_state : forall l w, member C a c l w ->
  wf_device w /\ exists s, follows w a (cn_dist c) (cn_chain c) s /\ rel (box l) s.
Proof.
  intros l w M. induction M as [w m w' W Wm T New E|l w n pt m r w' M IH G B E|l w w' M IH W' K].
  - eapply start_state; eauto.
  - destruct IH as (W & s & Fo & R). split.
    + replace w' with (snd (run (gdecrypt C a m) [] w)) by (unfold run0 in E; rewrite E; reflexivity). apply gdecrypt_dev. exact W.
    + rewrite box_snoc. eapply arrival_runs; eauto.
  - destruct IH as (W & s & Fo & R). split; [exact W'|]. exists s. auto.
Qed.
(** C44, exactly. *)
Lemma member_answer : forall l w n pt m r w', member C a c l w -> genuine C c n pt m -> (n + 1 < 4294967296)%N ->
  run0 (gdecrypt C a m) w = (r, w') -> answer (fst (arrive (box l) n)) pt r.
Proof.
  intros l w n pt m r w' M G B E. destruct (member_state l w M) as (W & s & Fo & R). eapply arrival_runs; eauto.
Qed.
(** Each recorded answer. *)
Lemma member_recorded : forall l w, member C a c l w -> forall l1 n pt r l2, l = l1 ++ (n, pt, r) :: l2 ->
  answer (fst (arrive (box l1) n)) pt r.
Proof.
  intros l w M. induction M as [w m w' W Wm T New E|l w n pt m r w' M IH G B E|l w w' M IH W' K]; intros l1 n0 pt0 r0 l2 Q.
  - destruct l1; discriminate.
  - destruct l2 as [|x l2].
    + apply app_inj_tail in Q. destruct Q as [<- Q]. injection Q as <- <- <-. eapply member_answer; eauto.
    + destruct (@exists_last _ (x :: l2) ltac:(discriminate)) as (l3 & y & Ey). rewrite Ey in Q.
      change (l1 ++ (n0, pt0, r0) :: l3 ++ [y]) with (l1 ++ ((n0, pt0, r0) :: l3) ++ [y]) in Q. rewrite app_assoc in Q.
      apply app_inj_tail in Q. destruct Q as [Q _]. eapply IH. exact Q.
  - eapply IH. exact Q.
Qed.
End Channel.
