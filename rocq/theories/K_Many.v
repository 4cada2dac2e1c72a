(** Two sessions between the same two devices. *)
From Verif Require Import M_Base M_Crypto M_Aes M_Curve M_Uuid M_Message M_Ratchet M_State M_Store M_Session M_Group
  S_Crypto S_Message S_State S_Shape S_Ratchet S_Session S_Api S_Send S_Group S_Curve S_X3dh S_Receive S_Conv S_History S_Bundle S_Many
  P_Base P_Curve P_Shape P_Ratchet P_Chain P_Encrypt P_Send P_X3dh P_CryptoTop P_History P_Establish P_Bundle P_Atomic P_Cross P_History
  P_ManyLink P_Many P_ManySteps P_ManyTop K_Toy K_World K_Receive K_Conv K_Cross.
Local Open Scope nat_scope.

Lemma exec_signed : forall X (o : op X) w, w_signed (snd (exec o w)) = w_signed w.
Proof. intros X o w. destruct o; cbn; try reflexivity; repeat (match goal with |- context[match ?z with _ => _ end] => destruct z end; cbn); reflexivity. Qed.
Lemma run_signed : forall A (p : prog A) fs w, w_signed (snd (run p fs w)) = w_signed w.
Proof.
  intros A p. induction p as [x|X o k IH]; intros fs w; [reflexivity|]. cbn [run].
  assert (Q : w_signed (snd (exec_f o (hd_fault fs) w)) = w_signed w).
  { pose proof (exec_signed X o w) as Q. unfold exec_f. destruct (fallible o), (hd_fault fs); try destruct (exec o w); first [exact Q|reflexivity]. }
  destruct (exec_f o (hd_fault fs) w) as [x w']. rewrite IH. exact Q.
Qed.
Lemma plain_still : forall x y sig sh w, w_pair w = w_pair (plain_device x y sh) -> w_signed w = w_signed (plain_device x y sh) ->
  published toy w (plain_bundle x y sig) (b32 x) (b32 y) None.
Proof.
  intros x y sig sh w E1 E2. unfold published. rewrite E1, E2. exact (plain_published x y sig sh).
Qed.
Lemma pubs : forall l x, forallb (fun y => negb (N.eqb (scalar_of (b32 x)) (scalar_of (b32 y)))) l = true -> ~ In (mont_pub toy (b32 x)) (map (fun y => mont_pub toy (b32 y)) l).
Proof.
  intros l x E J. apply in_map_iff in J. destruct J as (y & E2 & J). rewrite forallb_forall in E. specialize (E y J). apply negb_true_iff in E. apply toy_pub_neq in E. congruence.
Qed.

(** Device [true] begins a session and sends 25002 messages; device [false] receives the second one, then begins a
    session of its own. The last message of the first session, now archived, is still to come. *)
Lemma many_case : forall sh : bool, exists dev ls l c, many toy conv_at dev ls /\ List.length ls = 2 /\ In l ls /\ has_link l false /\
  In (mkNote (negb (role l false)) 1 25001 (str "hello") c) (ln_notes l) /\ receivable (ln_par l (role l false)) 1 25001 /\
  all_fresh toy (all_keys ls) (ln_par l (role l false)) 1 (List.length ls) [] /\ ~ misread toy (dev false) (conv_at false) (ln_base l) c /\
  w_policy (dev false) = all_trusted /\ ~ current_base (dev false) (conv_at false) (ln_base l).
Proof.
  intro sh. destruct (plain_signed Byte.x31 Byte.x32) as [sA SA]. destruct (plain_signed Byte.x33 Byte.x34) as [sB SB].
  assert (F1 : forall e r, firstn 32 (b32 e ++ b32 r) = b32 e) by (intros; rewrite firstn_app, b32_len, Nat.sub_diag, firstn_all2 by (rewrite b32_len; apply le_n); apply app_nil_r).
  assert (F2 : forall e r, firstn 32 (skipn 32 (b32 e ++ b32 r)) = b32 r).
  { intros. rewrite skipn_app, b32_len, Nat.sub_diag, skipn_all2 by (rewrite b32_len; apply le_n). reflexivity. }
  assert (F3 : forall e, firstn 32 (b32 e) = b32 e) by (intro; apply firstn_all2; rewrite b32_len; apply le_n).
  assert (Lr : forall e r, 64 <= List.length (b32 e ++ b32 r)) by (intros; rewrite app_length, !b32_len; apply le_n).
  set (dev0 := fun x : bool => if x then plain_device Byte.x31 Byte.x32 sh else plain_device Byte.x33 Byte.x34 sh).
  assert (M0 : many toy conv_at dev0 []) by (apply many_start; intros [|]; try reflexivity; apply plain_wf).
  (* the first session *)
  destruct (bundle_works toy toy_ok (plain_bundle Byte.x33 Byte.x34 sB) (conv_at true) (dev0 true) (dev0 false) (b32 Byte.x31) (b32 Byte.x33) (b32 Byte.x34) None (b32 Byte.x41 ++ b32 Byte.x42)
    (plain_wf _ _ _) (pair_of_for toy (b32 Byte.x31) (b32_len _)) (plain_published _ _ sB sh) SB (Lr _ _) eq_refl) as (w1 & E1 & _ & Po1).
  pose proof (many_begin toy conv_at dev0 [] true (plain_bundle Byte.x33 Byte.x34 sB) (b32 Byte.x31) (b32 Byte.x33) (b32 Byte.x34) None (b32 Byte.x41 ++ b32 Byte.x42) [] w1
    M0 (Nat.le_0_l _) (plain_bundle_wf _ _ _) (pair_of_for toy (b32 Byte.x31) (b32_len _)) (plain_published _ _ sB sh) (Lr _ _) (fun z => z)) as M1.
  rewrite F1, F2 in M1. specialize (M1 ltac:(cbn [all_keys flat_map]; exact (pubs [Byte.x34] Byte.x42 eq_refl)) ltac:(intros l []) ltac:(intros l id []) E1).
  set (b1 := mont_pub toy (b32 Byte.x41)) in *. set (l0 := mkLink true _ b1 _ _ _) in M1.
  assert (C1 : current_base w1 (conv_at true) b1).
  { destruct (link_state toy toy_ok conv_at (plain_bundle Byte.x33 Byte.x34 sB) b1 (upd dev0 true w1) start_party [mont_pub toy (b32 Byte.x34); mont_pub toy (b32 Byte.x42)] [] true) as (s & Q1 & _ & Q2 & _); [|left; reflexivity|].
    - pose proof (h_start toy conv_at (plain_bundle Byte.x33 Byte.x34 sB) b1 dev0 (b32 Byte.x31) (b32 Byte.x33) (b32 Byte.x34) None (b32 Byte.x41 ++ b32 Byte.x42) [] w1 (plain_wf _ _ _) (plain_wf _ _ _)
        (plain_bundle_wf _ _ _) (pair_of_for toy (b32 Byte.x31) (b32_len _)) (plain_published _ _ sB sh) (Lr _ _)) as Q. rewrite F1, F2 in Q.
      apply Q; [reflexivity|apply none_unused; reflexivity|apply toy_pub_neq; vm_compute; reflexivity|exact E1].
    - exists s. rewrite upd_same in Q1. auto. }
  (* 25002 messages *)
  destruct (many_sends toy toy_ok conv_at true (str "hello") (N.to_nat 25002) (upd dev0 true w1) [] l0 [] M1)
    as (dev2 & l2 & M2 & D2 & C2 & P2 & K2 & G2 & Lf & Lb & Lba & Lks & Le & Lo & _ & Nt).
  { rewrite upd_same. exact C1. }
  { rewrite upd_same, Po1. reflexivity. }
  { rewrite N2Nat.id. reflexivity. }
  rewrite N2Nat.id in Nt. change (role l0 true) with true in *. change (ln_par l0 true) with (mkParty 1 0 [mkView 0 0 []]) in *. change (ln_par l0 (negb true)) with (mkParty 0 0 []) in Lo.
  cbn [p_epoch p_sent negb] in Nt, Le, Lo, D2. change (ln_keys l0) with [mont_pub toy (b32 Byte.x34); mont_pub toy (b32 Byte.x42)] in Lks. change (ln_base l0) with b1 in *. cbn [app] in M2.
  rewrite upd_same in *. rewrite upd_other in D2 by discriminate.
  destruct (Nt 1%N eq_refl) as (c1 & J1). destruct (Nt 25001%N eq_refl) as (c2 & J2). change (0 + 1)%N with 1%N in J1. change (0 + 25001)%N with 25001%N in J2. clear Nt.
  assert (Ro : role l2 false = false) by (unfold role; rewrite Lf; reflexivity).
  assert (Nl : ~ has_link l2 false) by (intros [Q|Q]; [congruence|rewrite Lo in Q; apply Q; reflexivity]).
  (* the second message arrives first *)
  assert (R1 : receivable (ln_par l2 (role l2 false)) 1 1) by (rewrite Ro, Lo; apply rec_new; [reflexivity|discriminate]).
  assert (A1 : all_fresh toy (all_keys [l2]) (ln_par l2 (role l2 false)) 1 1 (b32 Byte.x62)).
  { intros _ j Lj. destruct j as [|j]; [|lia]. change (skipn (32 * 0) (b32 Byte.x62)) with (b32 Byte.x62). rewrite F3, b32_len. split; [lia|].
    cbn [all_keys flat_map]. rewrite Lks. exact (pubs [Byte.x34; Byte.x42] Byte.x62 eq_refl). }
  assert (J1' : In (mkNote (negb (role l2 false)) 1 1 (str "hello") c1) (ln_notes l2)) by (rewrite Ro; exact J1).
  destruct (many_delivered toy toy_ok conv_at dev2 [l2] l2 false 1 1%N (str "hello") c1 (b32 Byte.x62) M2 (or_introl eq_refl) J1' R1 A1) as (w3 & E3);
    [intro Q; contradiction|rewrite D2; reflexivity|].
  destruct (many_answered toy toy_ok conv_at dev2 [l2] l2 false 1 1%N (str "hello") c1 (b32 Byte.x62) [] (str "hello") w3 M2 (or_introl eq_refl) J1' R1 A1 ltac:(intro Q; contradiction) E3) as (_ & _ & u & Cu & Du).
  destruct Du as (j & Lj & Eu); [rewrite Ro, Lo; reflexivity|]. destruct j as [|j]; [|cbn [List.length] in Lj; lia]. change (skipn (32 * 0) (b32 Byte.x62)) with (b32 Byte.x62) in Eu. rewrite F3 in Eu.
  pose proof (many_receive toy conv_at dev2 [] l2 [] false 1 1%N (str "hello") c1 (b32 Byte.x62) [] _ u w3 M2 J1' R1 A1 ltac:(intro Q; contradiction) E3 Cu) as M3. cbn [app] in M3.
  set (l3 := link_got l2 (role l2 false) 1 1 u) in M3.
  assert (K3 : ln_keys l3 = [mont_pub toy (b32 Byte.x34); mont_pub toy (b32 Byte.x42); mont_pub toy (b32 Byte.x62)]).
  { unfold l3, link_got. cbn [ln_keys]. rewrite Ro, Lo, Lks, Eu. reflexivity. }
  assert (B3 : ln_base l3 = b1) by exact Lba.
  assert (V3 : ln_par l3 false = mkParty 2 0 [mkView 1 1 [0%N]]).
  { unfold l3, link_got. cbn [ln_par]. rewrite Ro, upd_same, Lo. reflexivity. }
  assert (H3 : has_link l3 false) by (right; rewrite V3; discriminate).
  assert (Ro3 : role l3 false = false) by exact Ro.
  assert (Po3 : w_policy w3 = all_trusted).
  { pose proof (run_policy (decrypt_message toy (conv_at false) (b32 Byte.x62) c1) [] (dev2 false)) as Q. unfold run0 in E3. rewrite E3 in Q. cbn [snd] in Q. rewrite Q, D2. reflexivity. }
  assert (Pa3 : w_pair w3 = pair_of toy (b32 Byte.x33)).
  { pose proof (P_History.run_pair (decrypt_message toy (conv_at false) (b32 Byte.x62) c1) [] (dev2 false)) as Q. unfold run0 in E3. rewrite E3 in Q. cbn [snd] in Q. rewrite Q, D2. reflexivity. }
  assert (PA : published toy (dev2 true) (plain_bundle Byte.x31 Byte.x32 sA) (b32 Byte.x31) (b32 Byte.x32) None).
  { unfold run0 in E1. apply (plain_still _ _ _ sh).
    - rewrite K2. pose proof (P_History.run_pair (process_bundle toy (conv_at true) (b32 Byte.x41 ++ b32 Byte.x42) (plain_bundle Byte.x33 Byte.x34 sB)) [] (dev0 true)) as Q. rewrite E1 in Q. exact Q.
    - rewrite G2. pose proof (run_signed _ (process_bundle toy (conv_at true) (b32 Byte.x41 ++ b32 Byte.x42) (plain_bundle Byte.x33 Byte.x34 sB)) [] (dev0 true)) as Q. rewrite E1 in Q. exact Q. }
  assert (PB : pair_for toy (b32 Byte.x33) (w_pair w3)) by (rewrite Pa3; apply pair_of_for, b32_len).
  pose proof (many_inv toy toy_ok conv_at _ _ M3) as (Wd3 & _). pose proof (Wd3 false) as W3. pose proof (Wd3 true) as W3'. rewrite upd_same in W3. rewrite upd_other in W3' by discriminate.
  (* the second session *)
  destruct (bundle_works toy toy_ok (plain_bundle Byte.x31 Byte.x32 sA) (conv_at false) w3 (dev2 true) (b32 Byte.x33) (b32 Byte.x31) (b32 Byte.x32) None (b32 Byte.x51 ++ b32 Byte.x52)
    W3 PB PA SA (Lr _ _)) as (w4 & E4 & _ & Po4); [rewrite Po3; reflexivity|].
  pose proof (many_begin toy conv_at (upd dev2 false w3) [l3] false (plain_bundle Byte.x31 Byte.x32 sA) (b32 Byte.x33) (b32 Byte.x31) (b32 Byte.x32) None (b32 Byte.x51 ++ b32 Byte.x52) [] w4
    M3 ltac:(cbn [List.length]; lia) (plain_bundle_wf _ _ _)) as M4.
  rewrite upd_same in M4. cbn [negb] in M4. rewrite upd_other in M4 by discriminate. rewrite F1, F2 in M4. cbn [bases map all_keys flat_map app] in M4. rewrite K3, B3 in M4.
  specialize (M4 PB PA (Lr _ _) (pubs [Byte.x41] Byte.x51 eq_refl) (pubs [Byte.x32; Byte.x34; Byte.x42; Byte.x62] Byte.x52 eq_refl)).
  specialize (M4 ltac:(intros l [<-|[]]; rewrite K3; exact (pubs [Byte.x42; Byte.x62] Byte.x32 eq_refl)) ltac:(intros; discriminate) E4).
  set (b2 := mont_pub toy (b32 Byte.x51)) in *. set (l4 := mkLink false _ b2 _ _ _) in M4.
  assert (C4 : current_base w4 (conv_at false) b2).
  { set (devh := fun x : bool => if x then w3 else dev2 true).
    destruct (link_state toy toy_ok (fun x => conv_at (negb x)) (plain_bundle Byte.x31 Byte.x32 sA) b2 (upd devh true w4) start_party [mont_pub toy (b32 Byte.x32); mont_pub toy (b32 Byte.x52)] [] true) as (s & Q1 & _ & Q2 & _); [|left; reflexivity|].
    - pose proof (h_start toy (fun x => conv_at (negb x)) (plain_bundle Byte.x31 Byte.x32 sA) b2 devh (b32 Byte.x33) (b32 Byte.x31) (b32 Byte.x32) None (b32 Byte.x51 ++ b32 Byte.x52) [] w4 W3 W3'
        (plain_bundle_wf _ _ _) PB PA (Lr _ _)) as Q. rewrite F1, F2 in Q.
      apply Q; [reflexivity| |apply toy_pub_neq; vm_compute; reflexivity|exact E4].
      intros r s Er J Eb. destruct (many_only toy toy_ok conv_at _ _ true r s M3) as (l & [<-|[]] & _ & Eb'); [rewrite upd_other by discriminate; exact Er|exact J|].
      rewrite Eb', B3 in Eb. apply (f_equal (@tl Byte.byte)) in Eb. change (b1 = b2) in Eb. revert Eb. apply toy_pub_neq. vm_compute. reflexivity.
    - exists s. rewrite upd_same in Q1. auto. }
  exists (upd (upd dev2 false w3) false w4), [l4; l3], l3, c2. rewrite upd_same. split; [exact M4|]. split; [reflexivity|]. split; [right; left; reflexivity|]. split; [exact H3|].
  split; [rewrite Ro3; exact J2|]. rewrite Ro3, V3.
  split; [apply (rec_ahead _ _ _ (mkView 1 1 [0%N])); [left; reflexivity|reflexivity|cbn; split; discriminate]|].
  split; [intro Q; discriminate|].
  split.
  { pose proof (many_far toy toy_ok conv_at _ _ l3 false 1 25001%N (str "hello") c2 M4 (or_intror (or_introl eq_refl)) ltac:(rewrite Ro3; exact J2) eq_refl) as Q. rewrite upd_same in Q. apply Q.
    cbn [negb]. rewrite !upd_other by discriminate.
    pose proof (P_History.run_pair (process_bundle toy (conv_at false) (b32 Byte.x51 ++ b32 Byte.x52) (plain_bundle Byte.x31 Byte.x32 sA)) [] w3) as Q1. unfold run0 in E4. rewrite E4 in Q1. cbn [snd] in Q1. rewrite Q1, Pa3.
    destruct PA as ((_ & Q2 & _) & _). rewrite Q2. change (kp_pub (pair_of toy (b32 Byte.x33))) with (mont_pub toy (b32 Byte.x33)). apply toy_pub_neq. vm_compute. reflexivity. }
  split; [rewrite Po4; exact Po3|].
  intros (s & Q1 & Q2). destruct C4 as (s' & Q3 & Q4). rewrite Q1 in Q3. injection Q3 as ->. rewrite Q4, B3 in Q2. apply (f_equal (@tl Byte.byte)) in Q2. change (b2 = b1) in Q2. revert Q2. apply toy_pub_neq. vm_compute. reflexivity.
Qed.
