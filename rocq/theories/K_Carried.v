(** A sender key sent through the network of K_Net.v. *)
From Verif Require Import M_Base M_Crypto M_Aes M_Curve M_Uuid M_Message M_Ratchet M_State M_Store M_Session M_Group
  S_Crypto S_Message S_State S_Shape S_Ratchet S_Session S_Api S_Send S_Group S_GroupMsg S_GroupSecrecy S_Curve S_X3dh S_Receive S_Conv S_History S_Secrecy S_Thefts S_Isolation S_Atomic S_Bundle
  S_Many S_Net S_Raid S_Carried
  P_Base P_Shape P_Prog P_History P_Group P_GroupMsg P_GroupSend P_GroupTop P_GroupSecrecy P_Net P_RaidTerms P_Raid P_X3dh P_Carried K_Toy K_World K_Receive K_Conv K_Group K_Cross K_Many K_Net K_Raid.
From Coq Require Import ZifyBool ZifyNat ZifyN.
Local Open Scope nat_scope.

(** A sender creates a key, sends "one", makes a distribution message, sends "two". *)
Lemma chain_case : exists m m1 x0 x1, let c := channel_of m in let sent := [(0%N, str "one", x0); (1%N, str "two", x1)] in
  (forall n pt x, In (n, pt, x) sent -> genuine toy c n pt x) /\ NoDup (map (fun x : N * bytes * senderkeymsg => fst (fst x)) sent) /\ invitation toy c m1 /\ dm_iter m1 = 1%N.
Proof.
  destruct gx_created as (m & w1 & E & Sd). destruct (dist_describes _ _ _ _ _ _ _ _ _ toy_ok (alice_own true) E) as (O1 & T & Sp & New & _). destruct (New eq_refl) as [_ Ei].
  destruct (gx_send toy gx_addr gx_dist gx_rnd [str "one"; str "two"] w1 toy_ok (proj1 O1) Sd gx_rnd_len) as (l0 & w2 & G & Em).
  assert (L : List.length l0 = 2) by (rewrite <- (map_length fst), Em; reflexivity).
  assert (Gn : forall j pt x, nth_error l0 j = Some (pt, x) -> genuine toy (channel_of m) (N.of_nat j) pt x).
  { intros j pt x Q. assert (B : (dm_iter m + N.of_nat (List.length l0) < 2 ^ 32)%N) by (rewrite Ei, L; reflexivity).
    destruct (sent_genuine _ _ _ _ _ _ _ _ _ _ _ toy_ok (alice_own true) E G B _ _ _ Q) as [Gn _]. rewrite Ei, N.add_0_l in Gn. exact Gn. }
  destruct l0 as [|[p0 x0] [|[p1 x1] [|? ?]]]; try discriminate. cbn [map fst] in Em. assert (Ep : p0 = str "one" /\ p1 = str "two") by (split; congruence). destruct Ep as [-> ->].
  inversion G as [|w rnd pt fs q wa l wb G1 G2]; subst. clear G2.
  pose proof (gsends_cons toy gx_addr gx_dist w1 _ _ _ _ _ [] wa G1 (gsends_nil toy gx_addr gx_dist wa)) as Ga.
  pose proof (gsends_own _ _ _ _ _ _ toy_ok O1 Ga) as Oa.
  assert (Ba : (dm_iter m + N.of_nat (List.length [(str "one", x0)]) < 2 ^ 32)%N) by (rewrite Ei; reflexivity).
  destruct (gconsecutive _ _ _ _ _ _ Ga _ _ _ _ toy_ok O1 Sp Ba) as [_ Spa]. destruct (dist_again toy _ _ _ _ _ _ _ (proj1 Oa) Spa) as (m1 & _ & E1). specialize (E1 [] []).
  destruct (later_dist _ _ _ _ _ _ _ _ _ _ _ _ _ _ _ _ toy_ok (alice_own true) E Ga Ba E1) as [Sc Ei1].
  exists m, m1, x0, x1. cbv zeta. split; [|split; [|split; [split; [exact Sc|split]|]]].
  - intros n pt x [Q|[Q|[]]]; [specialize (Gn 0 _ _ eq_refl)|specialize (Gn 1 _ _ eq_refl)]; injection Q as <- <- <-; exact Gn.
  - cbn. repeat constructor; cbn [In]; intuition discriminate.
  - destruct (dist_describes _ _ _ _ _ _ _ _ _ toy_ok Oa E1) as (_ & (_ & -> & _) & _). reflexivity.
  - exists gx_addr, gx_dist, [], [], [], wa, wa. split; [exact Oa|exact E1].
  - rewrite Ei1, Ei. reflexivity.
Qed.
(** After the story of K_Net.v Alice sends Bob one more message with any text. *)
Definition told_cable (sig : bytes) (m : ciphertext) (pt : bytes) (m2 : ciphertext) : cable := mkCable at_a at_b (link_sent (cb_link (alice_cable sig m)) true pt m2).
Lemma told_story : forall (sh : bool) pt, exists dev sig m m2, net_from toy (at_first sh) dev [told_cable sig m pt m2; carol_cable sig] /\
  (forall d, w_pair (dev d) = w_pair (three sh d)) /\ (forall d, w_signed (dev d) = w_signed (three sh d)).
Proof.
  intros sh pt. destruct (net_story sh) as (dev & sig & m & M & Pa & Sg & Po). set (c := alice_cable sig m) in *.
  assert (M0 : net toy dev [c; carol_cable sig]) by (apply (net_more toy (at_first sh)); [intros d e [-> ->]; apply three_fresh|exact M]).
  assert (Nab : at_a <> at_b) by discriminate.
  destruct (net_sendable toy toy_ok dev [c; carol_cable sig] c at_a at_b pt M0 (or_introl eq_refl) Nab ltac:(left; reflexivity) ltac:(right; left; reflexivity) (or_introl eq_refl)) as (c' & m2 & w3 & Jc & Ja & _ & _ & Cb & E3).
  { rewrite Po. reflexivity. }
  assert (c' = c) by (destruct Jc as [<-|[<-|[]]]; [reflexivity|destruct Ja as [Q|[Q|[]]]; discriminate Q]). subst c'.
  pose proof (net_send toy _ dev [] c [carol_cable sig] at_a at_b pt [] m2 w3 M Nab ltac:(left; reflexivity) ltac:(right; left; reflexivity) Cb ltac:(reflexivity) E3) as M3. cbn [app] in M3.
  exists (dev_set dev at_a w3), sig, m, m2. split; [exact M3|].
  assert (K : forall X (g : world -> X), (forall A (p : prog A) fs w, g (snd (run p fs w)) = g w) -> forall d, g (dev_set dev at_a w3 d) = g (dev d)).
  { intros X g Hg d. unfold dev_set. destruct (addr_eqb d at_a) eqn:Q; [|reflexivity]. apply addr_eqb_eq in Q. subst d.
    rewrite <- (Hg _ (encrypt_message toy at_b pt) [] (dev at_a)). unfold run0 in E3. rewrite E3. reflexivity. }
  split; intro d; [rewrite (K _ w_pair (@run_pair)); apply Pa|rewrite (K _ w_signed (@run_signed)); apply Sg].
Qed.
Lemma told_bases : forall sig m pt m2, NoDup (map cb_base [told_cable sig m pt m2; carol_cable sig]).
Proof. intros. exact (story_bases sig m). Qed.
Lemma told_carried : forall c i sig m m2, invitation toy c i -> let e := told_cable sig m (dm_raw i) m2 in
  carried toy c [e; carol_cable sig] [(e, mkNote true 1 1 (dm_raw i) m2, i)].
Proof.
  intros c i sig m m2 Vi e e' x i'. split.
  - intros [Q|[]]. injection Q as <- <- <-. split; [left; reflexivity|]. split; [left; reflexivity|]. split; [exact Vi|reflexivity].
  - intros (Ie & Ix & Vi' & Et). destruct Ie as [<-|[<-|[]]]; [|destruct Ix]. destruct Ix as [<-|[<-|[]]].
    + left. f_equal. exact (invitation_same toy c i i' toy_ok Vi Vi' Et).
    + exfalso. cbn [nt_text] in Et. pose proof (dist_cut toy c i' toy_ok Vi') as Q. cbv zeta in Q. destruct (invitation_new toy c i' toy_ok Vi') as (_ & _ & _ & _ & L4 & _).
      apply (f_equal (@List.length Byte.byte)) in Q. rewrite !app_length, L4, <- Et in Q. change (List.length (str "hello")) with 5 in Q. lia.
Qed.

(** The distribution message goes to Bob, whose device is copied before it has come: "two" can be
    read, "one" can not. *)
Lemma carried_read : forall sh : bool, exists c dev sig m i m2 L x0 x1, let e := told_cable sig m (dm_raw i) m2 in let es := [e; carol_cable sig] in
  let inv := [(e, mkNote true 1 1 (dm_raw i) m2, i)] in let sent := [(0%N, str "one", x0); (1%N, str "two", x1)] in
  raid toy dev es L /\ NoDup (map cb_base es) /\ carried toy c es inv /\
  (forall n pt x, In (n, pt, x) sent -> genuine toy c n pt x) /\ NoDup (map (fun x : N * bytes * senderkeymsg => fst (fst x)) sent) /\
  group_taken toy dev nothing L es c inv [] [0%N; 1%N] 1 /\ ~ group_taken toy dev nothing L es c inv [] [0%N; 1%N] 0.
Proof.
  intro sh. destruct chain_case as (gm & i & x0 & x1 & Gn & Ns & Vi & Ei). set (c := channel_of gm) in *.
  destruct (told_story sh (dm_raw i)) as (dev & sig & m & m2 & M & Pa & Sg). set (e := told_cable sig m (dm_raw i) m2) in *. set (es := [e; carol_cable sig]) in *.
  assert (M0 : net toy dev es) by (apply (net_more toy (at_first sh)); [intros d z [-> ->]; apply three_fresh|exact M]).
  pose proof (r_steal _ _ _ _ at_b (r_none _ _ _ M0)) as R. set (L := [_]) in R. pose proof (told_carried c i sig m m2 Vi) as Vc. cbv zeta in Vc. fold e in Vc. fold es in Vc.
  set (inv := [_]) in Vc. set (sent := [(0%N, str "one", x0); (1%N, str "two", x1)]) in *.
  pose proof (told_bases sig m (dm_raw i) m2) as Nd. fold e in Nd. fold es in Nd.
  destruct (carried_exact toy dev es L c inv sent [] toy_ok R Nd Vc Gn Ns) as (pr & tx & gx & _ & _ & _ & _ & _ & Q); [intros b s []|].
  exists c, dev, sig, m, i, m2, L, x0, x1. cbv zeta. fold e. fold es. fold inv. fold sent. split; [exact R|]. split; [exact Nd|]. split; [exact Vc|]. split; [exact Gn|]. split; [exact Ns|]. split.
  - apply (Q nothing 1%N (str "two") x1); [right; left; reflexivity|]. right. exists e, (mkNote true 1 1 (dm_raw i) m2), i. split; [left; reflexivity|]. split; [|rewrite Ei; reflexivity].
    apply (taken_iff toy toy_ok _ _ _ _ _ _ R Nd (or_introl eq_refl) (or_introl eq_refl)). right. right. exists 0. split; [reflexivity|].
    assert (K0 : known toy dev nothing L (key_of e (ARatchet 0))).
    { right. eexists. split; [left; reflexivity|]. destruct (plain_published Byte.x33 Byte.x34 sig sh) as (_ & _ & _ & (z & p & Z1 & Z2 & (_ & Z3 & _)) & _).
      exists 3%N, z, p. split; [cbn [rd_device]; rewrite Sg; exact Z1|]. split; [exact Z2|]. symmetry. exact Z3. }
    assert (K1 : known toy dev nothing L (key_of e (AIdent false))) by (right; eexists; split; [left; reflexivity|]; reflexivity).
    split; [|left; left; exact K0]. apply ro_setup; [right; left; exact K0|right; left; exact K1|right; left; exact K0|intro Z; discriminate Z].
  - intro D. apply (Q nothing 0%N (str "one") x0 (or_introl eq_refl)) in D. destruct D as [D|(e' & x' & i' & [J|[]] & _ & D)].
    + destruct (group_captured toy c sent [] toy_ok Gn Ns) as (gx' & _ & _ & G); [intros b s []|]. apply (G 0%N (str "one") x0 (or_introl eq_refl)) in D. destruct D as (b & s & [] & _).
    + injection J as <- <- <-. rewrite Ei in D. lia.
Qed.
(** The same with the thefts of K_Raid.v, Alice's device before and Carol's after: both messages are safe. *)
Lemma carried_safe_case : forall sh : bool, exists c dev sig m i m2 L x0 x1, let e := told_cable sig m (dm_raw i) m2 in let es := [e; carol_cable sig] in
  let inv := [(e, mkNote true 1 1 (dm_raw i) m2, i)] in let sent := [(0%N, str "one", x0); (1%N, str "two", x1)] in
  raid toy dev es L /\ NoDup (map cb_base es) /\ carried toy c es inv /\
  (forall n pt x, In (n, pt, x) sent -> genuine toy c n pt x) /\ NoDup (map (fun x : N * bytes * senderkeymsg => fst (fst x)) sent) /\ List.length L = 2 /\
  (forall e x i, In (e, x, i) inv -> (dm_iter i <= 1)%N ->
     (forall r e', In r L -> In e' (rd_cables r) -> cb_base e' = cb_base e -> rd_who r <> cb_from e /\ rd_who r <> cb_to e) /\
     ~ nothing (NBase (cb_base e)) /\ ~ known toy dev nothing L (key_of e (ARatchet 0))) /\
  ~ group_taken toy dev nothing L es c inv [] [0%N; 1%N] 1.
Proof.
  intro sh. destruct chain_case as (gm & i & x0 & x1 & Gn & Ns & Vi & Ei). set (c := channel_of gm) in *.
  destruct (told_story sh (dm_raw i)) as (dev & sig & m & m2 & M & Pa & Sg). set (e := told_cable sig m (dm_raw i) m2) in *. set (es := [e; carol_cable sig]) in *.
  set (LA := [mkRaided at_a (three sh at_a) []]).
  assert (R0 : raid toy (three sh) [] []) by (apply r_none, net_start, three_fresh).
  assert (R1 : raid toy dev es LA) by (eapply r_later; [exact (r_steal _ _ _ _ at_a R0)|exact M]).
  pose proof (r_steal _ _ _ _ at_c R1) as R. set (L := _ :: LA) in R.
  pose proof (told_carried c i sig m m2 Vi) as Vc. cbv zeta in Vc. fold e in Vc. fold es in Vc. set (inv := [_]) in Vc. set (sent := [(0%N, str "one", x0); (1%N, str "two", x1)]) in *.
  pose proof (told_bases sig m (dm_raw i) m2) as Nd. fold e in Nd. fold es in Nd.
  assert (U : forall e x i, In (e, x, i) inv -> (dm_iter i <= 1)%N ->
     (forall r e', In r L -> In e' (rd_cables r) -> cb_base e' = cb_base e -> rd_who r <> cb_from e /\ rd_who r <> cb_to e) /\
     ~ nothing (NBase (cb_base e)) /\ ~ known toy dev nothing L (key_of e (ARatchet 0))).
  { intros e' x' i' [Q|[]] _. injection Q as <- _ _. split; [intros r e' [<-|[<-|[]]] J _; [split; discriminate|destruct J]|]. split; [intros []|].
    intros [[]|(r & [<-|[<-|[]]] & (id & z & p & E1 & E2 & E3))].
    - cbn [rd_device] in E1. rewrite Sg in E1. apply (signed_pub _ _ _ _ _ E1 E2); [discriminate|]. symmetry. exact E3.
    - cbn [rd_device] in E1. apply (signed_pub _ _ _ _ _ E1 E2); [discriminate|]. symmetry. exact E3. }
  exists c, dev, sig, m, i, m2, L, x0, x1. cbv zeta. fold e. fold es. fold inv. fold sent. split; [exact R|]. split; [exact Nd|]. split; [exact Vc|]. split; [exact Gn|]. split; [exact Ns|]. split; [reflexivity|]. split; [exact U|].
  exact (carried_untouched toy dev es L c inv sent nothing 1%N (str "two") x1 toy_ok R Nd Vc Gn Ns (or_intror (or_introl eq_refl)) U).
Qed.
