(** Which keys a session holds (C73). *)
From Verif Require Import M_Base M_Crypto M_Aes M_Curve M_Proto M_Message M_Ratchet M_State M_Store M_Session M_Group
  S_Crypto S_Message S_State S_Shape S_Ratchet S_Session S_Aes S_Api S_Send S_Group S_GroupMsg S_Curve S_X3dh S_Receive S_Conv S_History S_Header S_Used
  P_Base P_Proto P_Curve P_State P_Shape P_Ratchet P_Message P_Aes P_Chain P_Decrypt P_Receive P_Encrypt P_Record P_Prog P_Api
  P_Init P_Send P_Conv P_X3dh P_Conv2 P_Bundle P_DecApi P_DecTop P_DecMore P_Replay P_Trust P_History P_Size P_Header P_Member P_Mailbox.
From Coq Require Import ZifyBool ZifyNat ZifyN.
Local Open Scope nat_scope.

(** *** Reading in order *)
Lemma skip_list_add : forall C n m ck l, skip_list C (n + m) ck l = skip_list C m (ck_iter C n ck) (skip_list C n ck l).
Proof.
  intros C n m. induction n as [|n IH]; intros ck l; [reflexivity|]. cbn [Nat.add skip_list]. rewrite IH. f_equal.
  rewrite ck_iter_swap. reflexivity.
Qed.
Lemma iter_mk : forall C key i n, go_u32 (i + N.of_nat n) -> ck_iter C n (mkChainKey key i) = mkChainKey (chain_at C key n) (i + N.of_nat n).
Proof.
  intros C key i n G. pose proof (ck_iter_key C n (mkChainKey key i)) as E1. pose proof (ck_iter_index C n (mkChainKey key i)) as E2.
  destruct (ck_iter C n _) as [k x]. cbn [ck_key ck_index] in *. rewrite E1, E2 by (unfold go_u32 in *; lia). rewrite u32_small by exact G. reflexivity.
Qed.
Lemma in_order : forall C a l w w2, CryptoOk C -> all_read C a w l w2 -> l <> [] ->
  forall s ratchet key i ks local remote d, wf_device w -> session_at w a s local remote -> receiving_at s ratchet key i ks -> trusts w a remote ->
  d <= 1 -> go_u32 (i + N.of_nat (d + List.length l)) ->
  (forall j pt m, nth_error l j = Some (pt, m) -> exists pt', whisper C (chain_at C key (d + j)) (i + N.of_nat (d + j)) ratchet remote local pt' m) ->
  let e := d + List.length l - 1 in
  exists s', session_at w2 a s' local remote /\
    receiving_at s' ratchet (chain_at C key e) (i + N.of_nat e) (skip_list C e (mkChainKey key i) ks).
Proof.
  intros C a l w w2 H R. induction R as [w|w rnd pt m w1 l w2 E R IH]; intros Ne s ratchet key i ks local remote d W Sa Ra T D G F e; [contradiction|].
  cbn [List.length] in *. destruct (F 0 pt m eq_refl) as [pt' W0]. rewrite Nat.add_0_r in W0.
  assert (Ed : N.to_nat (i + N.of_nat d - i) = d) by lia.
  destruct (deliver_ahead C a rnd m w s ratchet key i ks local remote (i + N.of_nat d) pt' H W Sa Ra T) as (w1' & s1 & E' & Sa1 & Ra1 & W1 & T1).
  { unfold go_u32 in *. lia. }
  { lia. }
  { rewrite Ed. exact W0. }
  rewrite E' in E. apply (f_equal snd) in E. cbn [snd] in E. subst w1'. rewrite Ed in Ra1.
  destruct l as [|y l].
  - inversion R; subst. exists s1. split; [exact Sa1|]. unfold e. cbn [List.length]. replace (d + 1 - 1) with d by lia. exact Ra1.
  - destruct (IH ltac:(discriminate) s1 ratchet _ _ _ local remote 1 W1 Sa1 Ra1 T1 (le_n _)) as (s' & Sa' & Ra').
    { unfold go_u32 in *. cbn [List.length] in *. lia. }
    { intros j q n Ej. destruct (F (S j) q n Ej) as [q' Wq]. exists q'. rewrite P_Conv.chain_at_add. 
      replace (d + (1 + j)) with (d + S j) by lia. replace (i + N.of_nat d + N.of_nat (1 + j))%N with (i + N.of_nat (d + S j))%N by lia. exact Wq. }
    exists s'. split; [exact Sa'|]. unfold e. cbn [List.length] in *. rewrite P_Conv.chain_at_add in Ra'.
    replace (d + S (S (List.length l)) - 1) with (d + (1 + S (List.length l) - 1)) by lia.
    replace (i + N.of_nat (d + (1 + S (List.length l) - 1)))%N with (i + N.of_nat d + N.of_nat (1 + S (List.length l) - 1))%N by lia.
    rewrite skip_list_add, iter_mk by (unfold go_u32 in *; lia). exact Ra'.
Qed.
Lemma in_order_kept : forall C a l w w2 s ratchet key i ks local remote, CryptoOk C -> wf_device w ->
  session_at w a s local remote -> receiving_at s ratchet key i ks -> trusts w a remote ->
  List.length l <= 2001 -> go_u32 (i + N.of_nat (List.length l)) ->
  (forall j pt m, nth_error l j = Some (pt, m) -> whisper C (chain_at C key j) (i + N.of_nat j) ratchet remote local pt m) ->
  all_read C a w l w2 ->
  forall pt m, In (pt, m) l -> exists s', session_at w2 a s' local remote /\ can_read C s' m pt.
Proof.
  intros C a l w w2 s ratchet key i ks local remote H W Sa Ra T Ll G F R pt m J.
  assert (Lk : List.length ks <= 2000).
  { destruct Ra as (l1 & c & l2 & E1 & _ & _ & _ & <-). destruct Sa as (r & E2 & E3 & _).
    pose proof (proj1 (proj1 (proj1 W) a r E2) s E3) as (_ & _ & _ & _ & _ & _ & (_ & Fc) & _).
    rewrite Forall_forall in Fc. apply (Fc c). rewrite E1. apply in_elt. }
  destruct (in_order C a l w w2 H R ltac:(destruct l; [destruct J|discriminate]) s ratchet key i ks local remote 0 W Sa Ra T (Nat.le_0_l _) G) as (s' & Sa' & Ra').
  { intros j q n E. exists q. exact (F j q n E). }
  exists s'. split; [exact Sa'|]. apply In_nth_error in J. destruct J as [j J].
  assert (Lj : j < List.length l) by (apply nth_error_Some; rewrite J; discriminate).
  pose proof (F j pt m J) as Wh. destruct (whisper_fields _ _ _ _ _ _ _ _ Wh) as (_ & Fr & Fn).
  cbn [Nat.add] in Ra'. set (e := List.length l - 1) in *.
  destruct Ra' as (l1 & c & l2 & E1 & _ & E2 & E3 & E4).
  assert (Ic : In c (ss_receivers s')) by (rewrite E1; apply in_elt).
  assert (Gj : go_u32 (i + N.of_nat j)) by (unfold go_u32 in *; lia).
  destruct (Nat.eq_dec j e) as [->|Nj].
  - set (mk := ck_message_keys C (mkChainKey (chain_at C key e) (i + N.of_nat e))).
    assert (K : keys_at C (chain_at C key e) (i + N.of_nat e) mk) by exact (derive_message_keys_at C (mkChainKey (chain_at C key e) (i + N.of_nat e)) H).
    exists mk. split; [|exact (proj2 (whisper_opens _ _ _ _ _ _ _ _ _ H Wh K))].
    left. exists c. eexists. rewrite Fr, Fn. split; [right; exact Ic|]. split; [exact E2|]. split; [exact E3|]. cbn [pck_index pck_key].
    split; [lia|]. rewrite N.sub_diag. exact K.
  - rewrite skip_list_keep in E4 by (rewrite max_keys_2000; exact Lk).
    destruct (keep_last_app_ge max_message_keys ks (map (fun j => saved C (ck_iter C j (mkChainKey key i))) (seq 0 e))) as (l0 & El).
    { rewrite map_length, seq_length, max_keys_2000. unfold e. lia. }
    rewrite El in E4. set (ck := mkChainKey (chain_at C key j) (i + N.of_nat j)).
    assert (Is : In (saved C ck) (pc_msgkeys c)).
    { rewrite E4. apply in_or_app. right. apply in_map_iff. exists j. split; [rewrite iter_mk by exact Gj; reflexivity|]. apply in_seq. lia. }
    pose proof (derive_message_keys_at C ck H) as K. cbn [ck_key ck_index ck] in K.
    exists (mkMsgKeys (pmk_cipher (saved C ck)) (pmk_mac (saved C ck)) (pmk_iv (saved C ck)) (i + N.of_nat j)).
    assert (Em : mkMsgKeys (pmk_cipher (saved C ck)) (pmk_mac (saved C ck)) (pmk_iv (saved C ck)) (i + N.of_nat j) = ck_message_keys C ck).
    { unfold saved. cbn [pmk_cipher pmk_mac pmk_iv]. destruct K as (_ & _ & _ & _ & K5). destruct (ck_message_keys C ck). cbn in *. subst. reflexivity. }
    split; [|rewrite Em; exact (proj2 (whisper_opens _ _ _ _ _ _ _ _ _ H Wh K))].
    right. exists c, (saved C ck). rewrite Fr, Fn. split; [exact Ic|]. split; [exact E2|]. split; [exact Is|]. split; [|reflexivity].
    exact (proj2 (proj2 (proj2 (proj2 K)))).
Qed.

Lemma in_order_runs : forall C a l w s ratchet key i ks local remote d, CryptoOk C -> wf_device w ->
  session_at w a s local remote -> receiving_at s ratchet key i ks -> trusts w a remote -> d <= 1 -> go_u32 (i + N.of_nat (d + List.length l)) ->
  (forall j pt m, nth_error l j = Some (pt, m) -> whisper C (chain_at C key (d + j)) (i + N.of_nat (d + j)) ratchet remote local pt m) ->
  exists w2, all_read C a w l w2.
Proof.
  intros C a l. induction l as [|[pt m] l IH]; intros w s ratchet key i ks local remote d H W Sa Ra T D G F; [eexists; constructor|].
  pose proof (F 0 pt m eq_refl) as W0. rewrite Nat.add_0_r in W0. cbn [List.length] in G.
  assert (Ed : N.to_nat (i + N.of_nat d - i) = d) by lia.
  destruct (deliver_ahead C a [] m w s ratchet key i ks local remote (i + N.of_nat d) pt H W Sa Ra T) as (w1 & s1 & E & Sa1 & Ra1 & W1 & T1).
  { unfold go_u32 in *. lia. }
  { lia. }
  { rewrite Ed. exact W0. }
  rewrite Ed in Ra1.
  destruct (IH w1 s1 ratchet _ _ _ local remote 1 H W1 Sa1 Ra1 T1 (le_n _)) as (w2 & R2).
  { unfold go_u32 in *. lia. }
  { intros j q n Ej. pose proof (F (S j) q n Ej) as Wq. rewrite P_Conv.chain_at_add.
    replace (d + (1 + j)) with (d + S j) by lia. replace (i + N.of_nat d + N.of_nat (1 + j))%N with (i + N.of_nat (d + S j))%N by lia. exact Wq. }
  exists w2. econstructor; eauto.
Qed.
Theorem in_order_all : forall C a l w s ratchet key i ks local remote, CryptoOk C -> wf_device w ->
  session_at w a s local remote -> receiving_at s ratchet key i ks -> trusts w a remote ->
  List.length l <= 2001 -> go_u32 (i + N.of_nat (List.length l)) ->
  (forall j pt m, nth_error l j = Some (pt, m) -> whisper C (chain_at C key j) (i + N.of_nat j) ratchet remote local pt m) ->
  (exists w2, all_read C a w l w2) /\
  forall w2, all_read C a w l w2 -> forall pt m, In (pt, m) l -> exists s', session_at w2 a s' local remote /\ can_read C s' m pt.
Proof.
  intros C a l w s ratchet key i ks local remote H W Sa Ra T L G F. split.
  - eapply in_order_runs with (d := 0); eauto.
  - intros w2 R. eapply in_order_kept; eauto.
Qed.

(** *** Histories *)
Section Used.
Variable C : Crypto.
Hypothesis H : CryptoOk C.
Variable b : bundle.
Variable at_ : bool -> addr.

Lemma after_views : forall p k n v, In v (p_views (party_after p k n)) -> rv_epoch v = S (p_epoch p) /\ k = S (p_epoch p) \/ exists v', In v' (p_views p) /\ rv_epoch v = rv_epoch v'.
Proof.
  intros p k n v. unfold party_after. destruct (Nat.eqb_spec k (S (p_epoch p))) as [->|]; cbn [p_views].
  - unfold last_n. intro J. assert (J' : In v (p_views p ++ [mkView (S (p_epoch p)) n (skipn (List.length (positions 0 n) - 2000) (positions 0 n))])).
    { revert J. apply skipn_in. }
    apply in_app_or in J'. destruct J' as [J'|[<-|[]]]; [right; exists v; auto|left; auto].
  - intro J. apply in_map_iff in J. destruct J as (v' & E & J). right. exists v'. split; [exact J|]. subst v.
    destruct (Nat.eqb (rv_epoch v') k); [|reflexivity]. unfold view_after. destruct (n <? rv_idx v')%N; reflexivity.
Qed.
Lemma views_of_peer : forall base dev par keys notes, history C at_ b base dev par keys notes ->
  forall side v, In v (p_views (par side)) -> Nat.odd (rv_epoch v) = negb side.
Proof using H.
  intros base dev par keys notes Hy. induction Hy as
    [dev ia ib sb ob rnd fs w' WA WB Wb PA Pub Lr Eb Un Nk E
    |dev par keys notes side pt fs c w' Hy IH Sd G E
    |dev par keys notes side ep n pt c rnd fs pt' w' Hy IH I0 Rv Fr E
    |dev par keys notes side w' Hy IH Al]; intros y v J.
  - destruct y; cbn in J; [destruct J as [<-|[]]; reflexivity|destruct J].
  - unfold upd in J. destruct (Bool.eqb y side) eqn:Q; [|auto]. apply Bool.eqb_prop in Q. subst y. apply IH. exact J.
  - unfold upd in J. destruct (Bool.eqb y side) eqn:Q; [|auto]. apply Bool.eqb_prop in Q. subst y.
    destruct (after_views _ _ _ _ J) as [[-> _]|(v' & J' & ->)]; [|auto].
    destruct (headed_step C H b at_ _ _ _ _ _ Hy) as [_ (H1 & _)]. rewrite Nat.odd_succ, <- Nat.negb_odd, H1. reflexivity.
  - auto.
Qed.

Lemma forall2_in_l : forall {A B} (P : A -> B -> Prop) l k x, Forall2 P l k -> In x l -> exists y, In y k /\ P x y.
Proof. intros A B P l k x F. induction F as [|x0 y0 l k P0 F IH]; intros J; [destruct J|]. destruct J as [<-|J]; [exists y0; split; [left; reflexivity|exact P0]|]. destruct (IH J) as (y & Jy & Py). exists y. split; [right|]; assumption. Qed.
Lemma forall2_in_r : forall {A B} (P : A -> B -> Prop) l k y, Forall2 P l k -> In y k -> exists x, In x l /\ P x y.
Proof. intros A B P l k y F. induction F as [|x0 y0 l k P0 F IH]; intros J; [destruct J|]. destruct J as [<-|J]; [exists x0; split; [left; reflexivity|exact P0]|]. destruct (IH J) as (x & Jx & Px). exists x. split; [right|]; assumption. Qed.

(** What a party's current session holds, by positions. *)
Lemma held_positions : forall base dev par keys notes side s ratchet ep n, history C at_ b base dev par keys notes ->
  side = true \/ p_epoch (par false) <> 0 -> current_session (dev side) (at_ side) = Some s -> nth_error keys ep = Some ratchet ->
  ((exists mk, has_keys C s ratchet n mk) <->
   (ep = p_epoch (par side) /\ (p_sent (par side) <= n)%N) \/
   exists v, In v (p_views (par side)) /\ rv_epoch v = ep /\ ((rv_idx v <= n)%N \/ In n (rv_saved v))).
Proof using H.
  intros base dev par keys notes side s ratchet ep n Hy Sd Es Ek.
  destruct (history_in_step C H b at_ _ _ _ _ _ Hy) as (k & ks & So & _ & Eks & Ko & _ & Lk & _ & _ & _ & _ & Ss & _).
  destruct (Ss side Sd) as (r & s0 & R1 & R2 & (P1 & P2 & P3 & P4 & P5 & (sc & C1 & C2 & C3 & C4 & C5) & P6 & P7 & P8 & P9) & _).
  unfold current_session in Es. rewrite R1 in Es. assert (s0 = s) by congruence. subst s0. clear Es.
  subst keys. assert (Lep : ep < List.length ks).
  { assert (Z : nth_error (map (mont_pub C) ks) ep <> None) by (intro Q; pose proof (eq_trans (eq_sym Ek) Q); discriminate).
    apply nth_error_Some in Z. rewrite map_length in Z. exact Z. }
  assert (Er : ratchet = kpub C ks ep).
  { rewrite nth_error_map in Ek. unfold kpub, kkey. rewrite (nth_error_nth' ks [] Lep) in Ek. cbn [option_map] in Ek. congruence. }
  subst ratchet. rewrite Forall_forall in P9.
  assert (At : forall e, e < List.length ks -> pub_bytes (kpub C ks e) = Byte.x05 :: kpub C ks ep -> e = ep).
  { intros e Le Q. apply pub_bytes_inj in Q. eapply kpub_inj; eauto. }
  split.
  - intros (mk & [(c & ck & [Is|Ir] & Rt & Kc & Li & _)|(c & x & Ir & Rt & Ix & Xi & _)]).
    + left. assert (c = sc) by congruence. subst c. rewrite C2 in Rt. rewrite C4 in Kc. apply At in Rt; [|exact P4].
      split; [auto|]. apply (f_equal (fun z => match z with Some q => pck_index q | None => 0%N end)) in Kc. cbn [pck_index] in Kc. lia.
    + right. destruct (forall2_in_r _ _ _ _ P7 Ir) as (v & Iv & (V1 & V2 & V3 & V4 & V5)). exists v. split; [exact Iv|].
      rewrite V1 in Rt. rewrite V2 in Kc. apply At in Rt; [|specialize (P9 v Iv); cbn in P9; lia]. split; [exact Rt|]. left.
      apply (f_equal (fun z => match z with Some q => pck_index q | None => 0%N end)) in Kc. cbn [pck_index] in Kc. lia.
    + right. destruct (forall2_in_r _ _ _ _ P7 Ir) as (v & Iv & (V1 & V2 & V3 & V4 & V5)). exists v. split; [exact Iv|].
      rewrite V1 in Rt. apply At in Rt; [|specialize (P9 v Iv); cbn in P9; lia]. split; [exact Rt|]. right.
      rewrite V3 in Ix. apply in_map_iff in Ix. destruct Ix as (q & <- & Iq). change (pmk_index (pos_saved C (kchain C (sroot C k) (schain C k) ks (rv_epoch v)) q)) with q in Xi.
      subst q. exact Iq.
  - intros [[-> Ln]|(v & Iv & Ev & Hn)].
    + pose proof (derive_message_keys_at C (mkChainKey (chain_at C (chain_at C (kchain C (sroot C k) (schain C k) ks (p_epoch (par side))) (N.to_nat (p_sent (par side)))) (N.to_nat (n - p_sent (par side)))) n) H) as K.
      eexists. left. exists sc. eexists. split; [left; exact C1|]. split; [exact C2|]. split; [exact C4|]. cbn [pck_index pck_key]. split; [exact Ln|exact K].
    + destruct (forall2_in_l _ _ _ _ P7 Iv) as (c & Ic & (V1 & V2 & V3 & V4 & V5)). rewrite Ev in *. destruct Hn as [Ln|Jn].
      * pose proof (derive_message_keys_at C (mkChainKey (chain_at C (chain_at C (kchain C (sroot C k) (schain C k) ks ep) (N.to_nat (rv_idx v))) (N.to_nat (n - rv_idx v))) n) H) as K.
        eexists. left. exists c. eexists. split; [right; exact Ic|]. split; [exact V1|]. split; [exact V2|]. cbn [pck_index pck_key]. split; [exact Ln|exact K].
      * eexists. right. exists c, (pos_saved C (kchain C (sroot C k) (schain C k) ks ep) n). split; [exact Ic|]. split; [exact V1|].
        split; [rewrite V3; apply in_map; exact Jn|]. split; reflexivity.
Qed.

Lemma held_keys : forall k ks base dev par keys notes side s ep n mk, in_step C b at_ k ks base dev par keys notes ->
  side = true \/ p_epoch (par false) <> 0 -> current_session (dev side) (at_ side) = Some s -> ep < List.length ks ->
  has_keys C s (kpub C ks ep) n mk -> keys_at C (chain_at C (kchain C (sroot C k) (schain C k) ks ep) (N.to_nat n)) n mk.
Proof using H.
  intros k ks base dev par keys notes side s ep n mk (So & _ & Eks & Ko & _ & Lk & _ & _ & _ & _ & Ss & _) Sd Es Lep Hk.
  destruct (Ss side Sd) as (r & s0 & R1 & R2 & (P1 & P2 & P3 & P4 & P5 & (sc & C1 & C2 & C3 & C4 & C5) & P6 & P7 & P8 & P9) & _).
  unfold current_session in Es. rewrite R1 in Es. assert (s0 = s) by congruence. subst s0. clear Es.
  rewrite Forall_forall in P9.
  assert (At : forall e, e < List.length ks -> pub_bytes (kpub C ks e) = Byte.x05 :: kpub C ks ep -> e = ep).
  { intros e Le Q. apply pub_bytes_inj in Q. eapply kpub_inj; eauto. }
  assert (Key : forall c ck i chain, pc_key c = Some (mkPChainKey i (chain_at C chain (N.to_nat i))) -> pc_key c = Some ck -> (pck_index ck <= n)%N ->
    keys_at C (chain_at C (pck_key ck) (N.to_nat (n - pck_index ck))) n mk -> keys_at C (chain_at C chain (N.to_nat n)) n mk).
  { intros c ck i chain E1 E2 L K. rewrite E1 in E2.
    apply (f_equal (fun z => match z with Some q => q | None => ck end)) in E2. subst ck. cbn [pck_key pck_index] in *.
    rewrite P_Conv.chain_at_add in K. replace (N.to_nat i + N.to_nat (n - i)) with (N.to_nat n) in K by lia. exact K. }
  destruct Hk as [(c & ck & [Is|Ir] & Rt & Kc & Li & K)|(c & x & Ir & Rt & Ix & Xi & ->)].
  - assert (c = sc) by congruence. subst c. rewrite C2 in Rt. apply At in Rt; [|exact P4]. rewrite Rt in C4. exact (Key sc ck _ _ C4 Kc Li K).
  - destruct (forall2_in_r _ _ _ _ P7 Ir) as (v & Iv & (V1 & V2 & V3 & V4 & V5)).
    rewrite V1 in Rt. apply At in Rt; [|specialize (P9 v Iv); cbn in P9; lia]. rewrite Rt in V2. exact (Key c ck _ _ V2 Kc Li K).
  - destruct (forall2_in_r _ _ _ _ P7 Ir) as (v & Iv & (V1 & V2 & V3 & V4 & V5)).
    rewrite V1 in Rt. apply At in Rt; [|specialize (P9 v Iv); cbn in P9; lia]. rewrite Rt in V3.
    rewrite V3 in Ix. apply in_map_iff in Ix. destruct Ix as (q & <- & Iq). change (pmk_index (pos_saved C (kchain C (sroot C k) (schain C k) ks ep) q)) with q in Xi.
    subst q. apply pos_saved_keys. exact H.
Qed.

Theorem read_exact : forall base dev par keys notes x m s, history C at_ b base dev par keys notes -> In x notes -> inner (nt_cipher x) = Some m ->
  nt_from x = false \/ p_epoch (par false) <> 0 -> current_session (dev (negb (nt_from x))) (at_ (negb (nt_from x))) = Some s ->
  (can_read C s m (nt_text x) <->
   exists v, In v (p_views (par (negb (nt_from x)))) /\ rv_epoch v = nt_epoch x /\ ((rv_idx v <= nt_counter x)%N \/ In (nt_counter x) (rv_saved v))).
Proof using H.
  intros base dev par keys notes x m s Hy J Im Sd Es.
  destruct (headed_step C H b at_ _ _ _ _ _ Hy) as [(k & ks & St) (H1 & H2 & _ & H4 & _)].
  destruct (H4 x J) as (Q1 & Q2 & Q3 & Q4 & (m' & I1 & I2 & I3 & I4 & _)). rewrite Im in I1. assert (m' = m) by congruence. subst m'.
  assert (Sd' : negb (nt_from x) = true \/ p_epoch (par false) <> 0) by (destruct Sd as [->|]; auto).
  pose proof (held_positions base dev par keys notes (negb (nt_from x)) s (sg_ratchet m) (nt_epoch x) (nt_counter x) Hy Sd' Es I3) as Hp.
  assert (Np : nt_epoch x <> p_epoch (par (negb (nt_from x)))).
  { intro Q. pose proof (H1 (negb (nt_from x))) as O. rewrite <- Q, <- Q1 in O. destruct (nt_from x); discriminate. }
  split.
  - intros (mk & Hk & _). rewrite I4 in Hk. destruct (proj1 Hp (ex_intro _ mk Hk)) as [[Q _]|Q]; [contradiction|exact Q].
  - intro Q. destruct (proj2 Hp (or_intror Q)) as (mk & Hk). exists mk. rewrite I4. split; [exact Hk|].
    pose proof St as (So & _ & Eks & Ko & _ & Lk & _ & _ & _ & _ & _ & _ & Fn). rewrite Forall_forall in Fn.
    destruct (Fn x J) as (_ & G & m1 & Wh & Fo).
    assert (m1 = m).
    { destruct Fo as [[E _]|(_ & reg & pm & _ & E & (_ & _ & _ & _ & _ & _ & E7))]; rewrite E in Im; cbn [inner] in Im; congruence. }
    subst m1. destruct (whisper_fields _ _ _ _ _ _ _ _ Wh) as (_ & Er & _). rewrite Er in Hk.
    assert (Lep : nt_epoch x < List.length ks) by (destruct (nt_from x); lia).
    pose proof (held_keys _ _ _ _ _ _ _ _ _ _ _ _ St Sd' Es Lep Hk) as K.
    exact (proj2 (whisper_opens _ _ _ _ _ _ _ _ _ H Wh K)).
Qed.
Theorem sent_gone : forall base dev par keys notes x m s, history C at_ b base dev par keys notes -> In x notes -> inner (nt_cipher x) = Some m ->
  current_session (dev (nt_from x)) (at_ (nt_from x)) = Some s -> forall mk, ~ has_keys C s (sg_ratchet m) (sg_counter m) mk.
Proof using H.
  intros base dev par keys notes x m s Hy J Im Es mk Hk.
  destruct (headed_step C H b at_ _ _ _ _ _ Hy) as [(k & ks & St) (H1 & H2 & _ & H4 & _)].
  destruct (H4 x J) as (Q1 & Q2 & Q3 & Q4 & (m' & I1 & I2 & I3 & I4 & _)). rewrite Im in I1. assert (m' = m) by congruence. subst m'.
  assert (Sd : nt_from x = true \/ p_epoch (par false) <> 0) by (destruct (nt_from x); [left; reflexivity|right; lia]).
  rewrite I4 in Hk.
  destruct (proj1 (held_positions base dev par keys notes (nt_from x) s (sg_ratchet m) (nt_epoch x) (nt_counter x) Hy Sd Es I3) (ex_intro _ mk Hk)) as [[E L]|(v & Iv & Ev & _)].
  - rewrite H2, <- E in L. lia.
  - pose proof (views_of_peer _ _ _ _ _ Hy _ v Iv) as O. rewrite Ev, <- Q1 in O. destruct (nt_from x); discriminate.
Qed.
(** A message that was overtaken is not readable once it has been read. *)
Theorem late_gone : forall base dev par keys notes side ep n pt c m rnd fs pt' w' v s, history C at_ b base dev par keys notes ->
  In (mkNote (negb side) ep n pt c) notes -> inner c = Some m -> In v (p_views (par side)) -> rv_epoch v = ep -> (n < rv_idx v)%N ->
  In n (rv_saved v) -> run (decrypt_message C (at_ side) rnd c) fs (dev side) = (Ok pt', w') -> current_session w' (at_ side) = Some s ->
  forall mk, ~ has_keys C s (sg_ratchet m) (sg_counter m) mk.
Proof using H.
  intros base dev par keys notes side ep n pt c m rnd fs pt' w' v s Hy J Im Iv Ev Ln Sv E Es mk Hk.
  destruct (headed_step C H b at_ _ _ _ _ _ Hy) as [(k & ks & St) (H1 & H2 & _ & H4 & _)].
  destruct (H4 _ J) as (Q1 & Q2 & Q3 & Q4 & (m' & I1 & I2 & I3 & I4 & _)). cbn [nt_cipher nt_epoch nt_counter nt_from] in *.
  rewrite Im in I1. assert (m' = m) by congruence. subst m'.
  assert (Sd : side = true \/ p_epoch (par false) <> 0).
  { destruct side; [left; reflexivity|right]. intro Z. pose proof St as (_ & _ & _ & _ & _ & _ & _ & _ & _ & _ & _ & Em & _).
    destruct (Em Z) as (Ep & _). rewrite Ep in Iv. destruct Iv. }
  pose proof St as (So & _ & Eks & Ko & _ & Lk & _ & _ & _ & _ & Ss & _).
  destruct (Ss side Sd) as (r & s0 & R1 & R2 & (P1 & P2 & P3 & P4 & P5 & _ & P6 & P7 & P8 & P9) & _).
  rewrite Forall_forall in P9. pose proof (P9 v Iv) as Lv. cbn in Lv.
  assert (Fr : fresh C keys (par side) ep rnd) by (intro Q; lia).
  assert (Rv : receivable (par side) ep n) by (eapply rec_saved; eauto).
  pose proof (h_receive C at_ b base dev par keys notes side ep n pt c rnd fs pt' w' Hy J Rv Fr E) as Hy'.
  assert (Ka : keys_after C keys (par side) ep rnd = keys) by (unfold keys_after; destruct (Nat.eqb_spec ep (S (p_epoch (par side)))); [lia|reflexivity]).
  assert (Pa : party_after (par side) ep n = mkParty (p_epoch (par side)) (p_sent (par side)) (map (fun v => if Nat.eqb (rv_epoch v) ep then view_after n v else v) (p_views (par side)))).
  { unfold party_after. destruct (Nat.eqb_spec ep (S (p_epoch (par side)))); [lia|reflexivity]. }
  rewrite Ka, Pa in Hy'. rewrite I4 in Hk.
  assert (Up : forall A (f : bool -> A) z, upd f side z side = z) by (intros; unfold upd; rewrite Bool.eqb_reflx; reflexivity).
  destruct (proj1 (held_positions base _ _ _ notes side s (sg_ratchet m) ep n Hy'
    ltac:(destruct Sd as [->|Sd]; [left; reflexivity|right; unfold upd; destruct (Bool.eqb false side) eqn:Q; [apply Bool.eqb_prop in Q; subst side; exact Sd|exact Sd]])
    ltac:(rewrite Up; exact Es) I3) (ex_intro _ mk Hk)) as [[Q _]|(v' & Jv & Ev' & Hn)]; rewrite Up in *; cbn [p_epoch p_views] in *.
  - lia.
  - apply in_map_iff in Jv. destruct Jv as (u & <- & Ju). destruct (Nat.eqb_spec (rv_epoch u) ep) as [Eu|Eu]; [|contradiction].
    assert (u = v).
    { clear - P8 Ju Iv Eu Ev. revert P8 Ju Iv. induction (p_views (par side)) as [|y l IH]; intros Nd Ju Iv; [destruct Ju|].
      inversion Nd as [|? ? N1 N2]; subst. destruct Ju as [<-|Ju], Iv as [<-|Iv]; auto; exfalso; apply N1.
      - rewrite Eu. apply in_map. exact Iv.
      - rewrite <- Eu. apply in_map. exact Ju. }
    subst u. unfold view_after in Hn. destruct (N.ltb_spec n (rv_idx v)); [|lia]. cbn [rv_idx rv_saved] in Hn. destruct Hn as [Hn|Hn]; [lia|].
    apply filter_In in Hn. rewrite N.eqb_refl in Hn. destruct Hn. discriminate.
Qed.
End Used.

(** *** Sender keys *)
Lemma follows_unique : forall w a d chain s1 s2, wf_device w -> follows w a d chain s1 -> follows w a d chain s2 -> s1 = s2.
Proof.
  intros w a d chain s1 s2 [_ W] (r & R1 & J1 & E1) (r2 & R2 & J2 & E2). rewrite R1 in R2. assert (r2 = r) by congruence. subst r2.
  destruct (W a d r R1) as (_ & Nd & _). clear R1 R2. assert (E : gs_chain s1 = gs_chain s2) by congruence. clear E1 E2. induction r as [|y r IH]; [destruct J1|]. inversion Nd as [|? ? N1 N2]; subst.
  destruct J1 as [<-|J1], J2 as [<-|J2]; auto; exfalso; apply N1.
  - rewrite E. apply in_map. exact J2.
  - rewrite <- E. apply in_map. exact J1.
Qed.
Theorem group_gone : forall C a c l w n s, CryptoOk C -> member C a c l w -> accepted l n -> follows w a (cn_dist c) (cn_chain c) s -> ~ has_seed s n.
Proof.
  intros C a c l w n s H M A F. destruct (member_state C H c a l w M) as (W & s' & F' & R).
  rewrite (follows_unique _ _ _ _ _ _ W F F'). destruct R as (_ & _ & _ & _ & R1 & _ & R2 & _).
  destruct (member_binv C H c a l w M) as [B1 B2 B3 B4 B5 B6]. intros [L|(x & J & E)].
  - specialize (B4 n A). lia.
  - assert (J' : In n (mb_open (box c l))) by (rewrite <- R2, <- E; apply in_map; exact J). exact (proj2 (B2 n J') A).
Qed.
