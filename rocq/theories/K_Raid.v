(** Thefts in the network of K_Net.v. *)
From Verif Require Import M_Base M_Crypto M_Aes M_Curve M_Uuid M_Message M_Ratchet M_State M_Store M_Session M_Group
  S_Crypto S_Message S_State S_Shape S_Ratchet S_Session S_Api S_Send S_Group S_Curve S_X3dh S_Receive S_Conv S_History S_Secrecy S_Thefts S_Isolation S_Atomic S_Bundle S_Many S_Net S_Raid
  P_Base P_Shape P_Prog P_History P_Net P_RaidTerms P_Raid P_X3dh K_Toy K_World K_Receive K_Conv K_Cross K_Many K_Net.
Local Open Scope nat_scope.

Lemma plain_key : forall x y sh id z p, w_signed (plain_device x y sh) id = Some z -> prekeyrec_pair toy z = Ok p -> kp_pub p = mont_pub toy (b32 y).
Proof.
  intros x y sh id z p E P. cbn [plain_device w_signed] in E. destruct (N.eqb id 3); [|discriminate]. injection E as <-.
  destruct (pair_stored toy (b32 y) (pair_of toy (b32 y))) as (q & E & (_ & K & _)); [apply pair_of_for, b32_len|]. rewrite E in P. injection P as <-. exact K.
Qed.
Lemma signed_pub : forall sh d id x p, w_signed (three sh d) id = Some x -> prekeyrec_pair toy x = Ok p -> d <> at_b -> kp_pub p <> mont_pub toy (b32 Byte.x34).
Proof.
  intros sh d id x p E P N. unfold three in E. destruct (addr_eqb d at_a) eqn:Ea; [|destruct (addr_eqb d at_b) eqn:Eb; [apply addr_eqb_eq in Eb; contradiction|]].
  - rewrite (plain_key _ _ _ _ _ _ E P). apply toy_pub_neq. reflexivity.
  - rewrite (plain_key _ _ _ _ _ _ E P). apply toy_pub_neq. reflexivity.
Qed.
Lemma story_bases : forall sig m, NoDup (map cb_base [alice_cable sig m; carol_cable sig]).
Proof.
  intros sig m. assert (N : mont_pub toy (b32 Byte.x43) <> mont_pub toy (b32 Byte.x41)) by (apply toy_pub_neq; reflexivity).
  constructor; [intros [Q|[]]; exact (N Q)|]. constructor; [intros []|constructor].
Qed.
Definition nothing (a : nkey) : Prop := False.

(** Alice's device is copied at the beginning and Carol's at the end: the thieves have both identity
    keys, and Carol's session with Bob. Alice's message to Bob is safe. *)
Lemma raid_case : forall sh : bool, exists dev sig m L, let c := alice_cable sig m in let es := [c; carol_cable sig] in let x := mkNote true 1 0 (str "hello") m in
  raid toy dev es L /\ NoDup (map cb_base es) /\ In c es /\ In x (ln_notes (cb_link c)) /\ List.length L = 2 /\
  known toy dev nothing L (NIdent at_a) /\ known toy dev nothing L (NIdent at_c) /\ robbed L (cb_base (carol_cable sig)) <> [] /\
  (forall r c', In r L -> In c' (rd_cables r) -> cb_base c' = cb_base c -> rd_who r <> cb_from c /\ rd_who r <> cb_to c) /\
  ~ known toy dev nothing L (key_of c (ARatchet 0)) /\ ~ taken toy dev nothing L es c x.
Proof.
  intro sh. destruct (net_story sh) as (dev & sig & m & M & Pa & Sg & _).
  set (LA := [mkRaided at_a (three sh at_a) []]). set (c := alice_cable sig m). set (es := [c; carol_cable sig]).
  assert (R0 : raid toy (three sh) [] []) by (apply r_none, net_start, three_fresh).
  assert (R1 : raid toy dev es LA) by (eapply r_later; [exact (r_steal _ _ _ _ at_a R0)|exact M]).
  pose proof (r_steal _ _ _ _ at_c R1) as R2. set (L := _ :: LA) in R2.
  assert (Un : forall r c', In r L -> In c' (rd_cables r) -> cb_base c' = cb_base c -> rd_who r <> cb_from c /\ rd_who r <> cb_to c).
  { intros r c' [<-|[<-|[]]] J _; [split; discriminate|destruct J]. }
  assert (Ks : ~ known toy dev nothing L (key_of c (ARatchet 0))).
  { intros [[]|(r & [<-|[<-|[]]] & (id & z & p & E1 & E2 & E3))].
    - cbn [rd_device] in E1. rewrite Sg in E1. apply (signed_pub _ _ _ _ _ E1 E2); [discriminate|]. symmetry. exact E3.
    - cbn [rd_device] in E1. apply (signed_pub _ _ _ _ _ E1 E2); [discriminate|]. symmetry. exact E3. }
  assert (Ic : In c es) by (left; reflexivity). assert (Ix : In (mkNote true 1 0 (str "hello") m) (ln_notes (cb_link c))) by (left; reflexivity).
  exists dev, sig, m, L. cbv zeta. fold c. fold es. split; [exact R2|]. split; [apply story_bases|]. split; [exact Ic|]. split; [exact Ix|]. split; [reflexivity|].
  split; [right; eexists; split; [right; left; reflexivity|]; cbn [loses rd_device]; rewrite Pa; reflexivity|].
  split; [right; eexists; split; [left; reflexivity|]; reflexivity|].
  split.
  { assert (J : In (start_party true) (robbed L (cb_base (carol_cable sig)))).
    { apply (proj2 (robbed_in L _ _)). eexists _, (carol_cable sig), true. split; [left; reflexivity|]. cbn [rd_cables rd_who]. split; [right; left; reflexivity|]. split; [reflexivity|]. split; reflexivity. }
    intro Q. rewrite Q in J. destruct J. }
  split; [exact Un|]. split; [exact Ks|]. apply (raid_untouched toy toy_ok dev es L nothing c _ R2 (story_bases sig m) Ic Ix Un); [intros []|exact Ks].
Qed.

(** Bob's device is copied before it has received Alice's message: the thief can read it with Bob's
    signed pre-key, but not Bob's answer. *)
Lemma raid_before : forall sh : bool, exists dev sig m u m2 L, let c := mkCable at_a at_b (link_sent (link_got (cb_link (alice_cable sig m)) false 1 0 u) false (str "hi") m2) in
  let es := [c; carol_cable sig] in let x := mkNote true 1 0 (str "hello") m in let y := mkNote false 2 0 (str "hi") m2 in
  raid toy dev es L /\ NoDup (map cb_base es) /\ In c es /\ In x (ln_notes (cb_link c)) /\ In y (ln_notes (cb_link c)) /\
  (forall p, In p (robbed L (cb_base c)) -> p_epoch p <= 0) /\ taken toy dev nothing L es c x /\ ~ taken toy dev nothing L es c y.
Proof.
  intro sh. destruct (net_story sh) as (dev & sig & m & M & Pa & Sg & Po). set (c0 := alice_cable sig m) in *. set (es0 := [c0; carol_cable sig]) in *.
  assert (M0 : net toy dev es0) by (apply (net_more toy (at_first sh)); [intros d e [-> ->]; apply three_fresh|exact M]).
  pose proof (r_steal _ _ _ _ at_b (r_none _ _ _ M0)) as R1. set (L := [_]) in R1.
  assert (Nba : at_b <> at_a) by discriminate. assert (Jb : In at_b [cb_from c0; cb_to c0]) by (right; left; reflexivity). assert (Ja : In at_a [cb_from c0; cb_to c0]) by (left; reflexivity).
  destruct (story_ready sig m) as (Q1 & Q2 & Q3 & Q4). fold c0 in Q1, Q2, Q3, Q4. fold es0 in Q3.
  assert (Nm : has_cable c0 at_b -> ~ misread toy (dev at_b) at_a (ln_base (cb_link c0)) m) by (intro Z; contradiction).
  destruct (net_delivered toy toy_ok dev es0 c0 at_b at_a 1 0 (str "hello") m (b32 Byte.x62) M0 (or_introl eq_refl) Nba Jb Ja Q1 Q2 Q3 Nm) as (w5 & E5); [rewrite Po; reflexivity|].
  destruct (net_answered toy toy_ok dev es0 c0 at_b at_a 1 0 (str "hello") m (b32 Byte.x62) [] _ w5 M0 (or_introl eq_refl) Nba Jb Ja Q1 Q2 Q3 Nm E5) as (_ & Cb & u & Cu & _).
  assert (Step : forall init, net_from toy init dev es0 -> net_from toy init (dev_set dev at_b w5) ([] ++ mkCable at_a at_b (link_got (cb_link c0) false 1 0 u) :: [carol_cable sig])).
  { intros init Mi. exact (net_receive toy init dev [] c0 [carol_cable sig] at_b at_a 1 0 (str "hello") m (b32 Byte.x62) [] _ u w5 Mi Nba Jb Ja Q1 Q2 Q3 Nm E5 Cu). }
  set (dev5 := dev_set dev at_b w5) in *. set (c5 := mkCable at_a at_b (link_got (cb_link c0) false 1 0 u)) in *. cbn [app] in Step. pose proof (Step _ M0) as M5. change (net_from toy fresh_net) with (net toy) in M5.
  assert (Ep : p_epoch (ln_par (cb_link c5) false) = 2) by reflexivity.
  assert (D5 : dev5 at_b = w5) by apply set_same.
  assert (Po5 : w_policy w5 = all_trusted) by (rewrite <- (Po at_b), <- (run_policy (decrypt_message toy at_a (b32 Byte.x62) m) [] (dev at_b)); unfold run0 in E5; rewrite E5; reflexivity).
  destruct (net_sendable toy toy_ok dev5 [c5; carol_cable sig] c5 at_b at_a (str "hi") M5 (or_introl eq_refl) Nba Jb Ja) as (_ & m2 & w6 & _ & _ & _ & _ & _ & E6).
  { right. split; [reflexivity|]. rewrite Ep. discriminate. }
  { rewrite D5, Po5. reflexivity. }
  set (c6 := mkCable at_a at_b (link_sent (link_got (cb_link c0) false 1 0 u) false (str "hi") m2)).
  assert (Step2 : forall init, net_from toy init dev es0 -> net_from toy init (dev_set dev5 at_b w6) [c6; carol_cable sig]).
  { intros init Mi. refine (net_send toy init dev5 [] c5 [carol_cable sig] at_b at_a (str "hi") [] m2 w6 (Step _ Mi) Nba Jb Ja _ _ E6); [rewrite D5; exact Cb|reflexivity]. }
  set (dev6 := dev_set dev5 at_b w6) in *. set (es6 := [c6; carol_cable sig]) in *.
  assert (R6 : raid toy dev6 es6 L) by (eapply r_later; [exact R1|]; apply Step2, net_start; split; reflexivity).
  assert (Nd : NoDup (map cb_base es6)) by exact (story_bases sig m).
  assert (Ic : In c6 es6) by (left; reflexivity).
  assert (Ix : In (mkNote true 1 0 (str "hello") m) (ln_notes (cb_link c6))) by (right; left; reflexivity).
  assert (Iy : In (mkNote false 2 0 (str "hi") m2) (ln_notes (cb_link c6))) by (left; reflexivity).
  assert (Rb : forall p, In p (robbed L (cb_base c6)) -> p_epoch p <= 0).
  { intros p Ip. apply (proj1 (robbed_in L _ _)) in Ip. destruct Ip as (r & c' & part & [<-|[]] & Jc & _ & Ew & ->). cbn [rd_cables rd_who] in Jc, Ew.
    destruct Jc as [<-|[<-|[]]]; destruct part; try discriminate Ew; apply le_n. }
  exists dev6, sig, m, u, m2, L. cbv zeta. fold c0. fold c6. fold es6. split; [exact R6|]. split; [exact Nd|]. split; [exact Ic|]. split; [exact Ix|]. split; [exact Iy|]. split; [exact Rb|]. split.
  - apply (taken_iff toy toy_ok _ _ _ _ _ _ R6 Nd Ic Ix). right. right. exists 0. split; [reflexivity|].
    assert (K0 : known toy dev6 nothing L (key_of c6 (ARatchet 0))).
    { right. eexists. split; [left; reflexivity|]. destruct (plain_published Byte.x33 Byte.x34 sig sh) as (_ & _ & _ & (z & p & Z1 & Z2 & (_ & Z3 & _)) & _).
      exists 3%N, z, p. split; [cbn [rd_device]; rewrite Sg; exact Z1|]. split; [exact Z2|]. symmetry. exact Z3. }
    assert (K1 : known toy dev6 nothing L (key_of c6 (AIdent false))).
    { right. eexists. split; [left; reflexivity|]. cbn [loses key_of cb_end rd_device]. change (cb_to c6) with at_b. unfold dev6. rewrite set_same.
      pose proof (run_pair (encrypt_message toy at_a (str "hi")) [] (dev5 at_b)) as Z1. unfold run0 in E6. rewrite E6, D5 in Z1.
      pose proof (run_pair (decrypt_message toy at_a (b32 Byte.x62) m) [] (dev at_b)) as Z2. unfold run0 in E5. rewrite E5 in Z2. cbn [snd] in Z1, Z2. rewrite Z1, Z2. reflexivity. }
    split; [|left; left; exact K0]. apply ro_setup; [right; left; exact K0|right; left; exact K1|right; left; exact K0|intro Z; discriminate Z].
  - apply (raid_healed toy toy_ok dev6 es6 L nothing c6 _ 0 R6 Nd Ic Iy Rb); [intros j []|apply le_n].
Qed.
