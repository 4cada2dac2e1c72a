(** C80: what stolen sender keys give away. *)
From Verif Require Import M_Base M_Crypto M_Aes M_Curve M_Uuid M_Message M_Ratchet M_State M_Store M_Session M_Group
  S_Crypto S_Message S_State S_Shape S_Ratchet S_Session S_Curve S_Api S_Group S_GroupMsg S_Isolation S_Used S_GroupSecrecy
  P_Base P_Group P_GroupMsg P_Mailbox P_Member P_Keep P_GroupSend P_GroupTop P_Used P_GroupSecrecy K_Toy K_World K_Receive K_Conv K_Group.
Local Open Scope nat_scope.

(** Of a sender's messages, the thieves of any number of states of its key, the members' and
    the sender's own, can compute exactly those that come after the position of one of the
    states and those that one of the states still waits for. The stored bytes and the messages
    are the values of the terms. *)
Theorem c80_exact : forall C c sent (thefts : list (mailbox * gstate)), CryptoOk C ->
  (forall n pt m, In (n, pt, m) sent -> genuine C c n pt m) -> NoDup (map (fun x => fst (fst x)) sent) ->
  (forall b s, In (b, s) thefts -> group_theft C c b s) ->
  exists tx, (forall b s, In (b, s) thefts -> group_secrets s = map (gvalue C (cn_key c) tx) (gheld c b)) /\
    (forall n pt m, In (n, pt, m) sent -> tx n = pt /\ sm_body m = gvalue C (cn_key c) tx (gbody_of c n)) /\
    (forall n pt m, In (n, pt, m) sent -> (group_stolen c (map fst thefts) (map (fun x => fst (fst x)) sent) n <->
       exists b s, In (b, s) thefts /\ ((mb_next b <= n)%N \/ In n (mb_open b)))).
Proof. exact group_captured. Qed.
Print Assumptions c80_exact.
(** A member's state gives away no message it has read, and none from before it joined. *)
Theorem c80_read_safe : forall C c a c' l w s sent n pt m, CryptoOk C -> same_channel C c c' -> member C a c' l w -> follows w a (cn_dist c') (cn_chain c') s ->
  (forall n pt m, In (n, pt, m) sent -> genuine C c n pt m) -> NoDup (map (fun x => fst (fst x)) sent) -> In (n, pt, m) sent ->
  accepted l n \/ (n < cn_first c')%N -> ~ group_stolen c [box c' l] (map (fun x => fst (fst x)) sent) n.
Proof. exact group_read_safe. Qed.
Print Assumptions c80_read_safe.
(** What was sent before any of the robbed members joined stays closed to all of them together. *)
Theorem c80_joiners : forall C c sent (thefts : list (mailbox * gstate)) n pt m, CryptoOk C ->
  (forall n pt m, In (n, pt, m) sent -> genuine C c n pt m) -> NoDup (map (fun x => fst (fst x)) sent) -> In (n, pt, m) sent ->
  (forall b s, In (b, s) thefts -> exists a c' l w, same_channel C c c' /\ member C a c' l w /\ follows w a (cn_dist c') (cn_chain c') s /\ b = box c' l /\ (n < cn_first c')%N) ->
  ~ group_stolen c (map fst thefts) (map (fun x => fst (fst x)) sent) n.
Proof. exact group_joiners. Qed.
Print Assumptions c80_joiners.
(** The distribution message a sender makes after having sent [l] opens the same channel
    behind [l]. *)
Theorem c80_later_dist : forall C a d sysrnd rnd fs w m w1 l w2 sysrnd' rnd' fs' m' w3, CryptoOk C -> own_device C w ->
  run (new_sender_dist C a d sysrnd rnd) fs w = (Ok m, w1) -> gsends C a d w1 l w2 ->
  (dm_iter m + N.of_nat (List.length l) < 2 ^ 32)%N -> run (new_sender_dist C a d sysrnd' rnd') fs' w2 = (Ok m', w3) ->
  same_channel C (channel_of m) (channel_of m') /\ dm_iter m' = (dm_iter m + N.of_nat (List.length l))%N.
Proof. exact later_dist. Qed.
Print Assumptions c80_later_dist.
(** The sender's own state gives away nothing it has sent. *)
Theorem c80_sent_safe : forall C a d sysrnd rnd fs w m w1 l w2 s r sent n pt x, CryptoOk C -> own_device C w -> w_groups w a d = None ->
  run (new_sender_dist C a d sysrnd rnd) fs w = (Ok m, w1) -> gsends C a d w1 l w2 ->
  (dm_iter m + N.of_nat (List.length l) < 2 ^ 32)%N -> w_groups w2 a d = Some (s :: r) ->
  (forall n pt x, In (n, pt, x) sent -> genuine C (channel_of m) n pt x) -> NoDup (map (fun x => fst (fst x)) sent) -> In (n, pt, x) sent ->
  (n < dm_iter m + N.of_nat (List.length l))%N ->
  let b := mkMailbox (dm_iter m + N.of_nat (List.length l)) [] in
  group_theft C (channel_of m) b s /\ ~ group_stolen (channel_of m) [b] (map (fun x => fst (fst x)) sent) n.
Proof. exact group_sent_safe. Qed.
Print Assumptions c80_sent_safe.

(** Four messages are sent. The member has got 2, 0, 2 again and 3; a second member joined
    afterwards. From the sender's and both members' states together message 1 can be read,
    and 0, 2 and 3 can not. *)
Example c80_case : exists m sent l w s ws rs l' w' s' m', let c := channel_of m in let c' := channel_of m' in
  map (fun x => fst (fst x)) sent = [0; 1; 2; 3]%N /\ map (fun x => snd (fst x)) sent = [str "one"; []; str "three"; str "four"] /\
  (forall n pt x, In (n, pt, x) sent -> genuine toy c n pt x) /\
  member toy gx_addr c l w /\ accepted l 2 /\ follows w gx_addr (cn_dist c) (cn_chain c) s /\ w_groups ws gx_addr gx_dist = Some rs /\
  same_channel toy c c' /\ cn_first c' = 4%N /\ member toy gx_addr c' l' w' /\ follows w' gx_addr (cn_dist c') (cn_chain c') s' /\
  let b := box c l in let b' := box c' l' in let bs := mkMailbox 4 [] in let it := map (fun x => fst (fst x)) sent in
  (exists o r, rs = o :: r /\ group_theft toy c bs o) /\ group_theft toy c b s /\ group_theft toy c b' s' /\
  group_stolen c [b; bs; b'] it 1 /\ (forall n, In n [0; 2; 3]%N -> ~ group_stolen c [b; bs; b'] it n) /\ ~ group_stolen c [bs; b'] it 1.
Proof.
  destruct gx_created as (m & w1 & E & Sd). destruct (dist_describes _ _ _ _ _ _ _ _ _ toy_ok (alice_own true) E) as (O1 & T & Sp & New & _).
  destruct (New eq_refl) as [_ Ei].
  destruct (gx_send toy gx_addr gx_dist gx_rnd [str "one"; []; str "three"; str "four"] w1 toy_ok (proj1 O1) Sd gx_rnd_len) as (l0 & w2 & G & Em).
  pose proof (told_wf _ _ _ _ _ _ _ _ _ toy_ok (alice_own true) E) as Wm.
  destruct (process_ok gx_addr m (bob_world 3 true) (bob_wf 3 true) Wm) as (wb & Eb).
  assert (M0 : member toy gx_addr (channel_of m) [] wb).
  { eapply mem_start; [apply (bob_wf 3 true)|exact Wm| | |exact Eb].
    - cbn [channel_of cn_dist cn_chain cn_signing cn_first cn_key]. destruct T as (T1 & T2 & T3). split; [exact T1|]. split; [reflexivity|]. auto.
    - intros s (r & Q & _). discriminate. }
  assert (L : List.length l0 = 4) by (rewrite <- (map_length fst), Em; reflexivity).
  assert (B : (dm_iter m + N.of_nat (List.length l0) < 2 ^ 32)%N) by (rewrite Ei, L; reflexivity).
  assert (Gn : forall j pt x, nth_error l0 j = Some (pt, x) -> genuine toy (channel_of m) (N.of_nat j) pt x).
  { intros j pt x Q. destruct (sent_genuine _ _ _ _ _ _ _ _ _ _ _ toy_ok (alice_own true) E G B _ _ _ Q) as [Gn _]. rewrite Ei, N.add_0_l in Gn. exact Gn. }
  destruct l0 as [|[p0 x0] [|[p1 x1] [|[p2 x2] [|[p3 x3] [|? ?]]]]]; try discriminate. cbn [map fst] in Em.
  set (sent := [(0%N, p0, x0); (1%N, p1, x1); (2%N, p2, x2); (3%N, p3, x3)]).
  assert (Gs : forall n pt x, In (n, pt, x) sent -> genuine toy (channel_of m) n pt x).
  { intros n pt x [Q|[Q|[Q|[Q|[]]]]].
    - specialize (Gn 0 _ _ eq_refl). injection Q as <- <- <-. exact Gn.
    - specialize (Gn 1 _ _ eq_refl). injection Q as <- <- <-. exact Gn.
    - specialize (Gn 2 _ _ eq_refl). injection Q as <- <- <-. exact Gn.
    - specialize (Gn 3 _ _ eq_refl). injection Q as <- <- <-. exact Gn. }
  assert (Nd : NoDup (map (fun x => fst (fst x)) sent)) by (cbn; repeat constructor; cbn [In]; intuition discriminate).
  destruct (gx_member toy gx_addr (channel_of m) wb [] [2; 0; 2; 3]%N toy_ok M0) as (l & w & M & Ns).
  { intros n J. split; [cbn in J; intuition (subst; reflexivity)|]. destruct J as [<-|[<-|[<-|[<-|[]]]]]; do 2 eexists; apply Gs; cbn [sent In]; eauto. }
  cbn [map app] in Ns.
  destruct l as [|[[n1 q1] r1] [|[[n2 q2] r2] [|[[n3 q3] r3] [|[[n4 q4] r4] [|? ?]]]]]; try discriminate.
  cbn [map fst] in Ns. assert (Hn : n1 = 2%N /\ n2 = 0%N /\ n3 = 2%N /\ n4 = 3%N) by (split; [|split; [|split]]; congruence).
  destruct Hn as (-> & -> & -> & ->). destruct (member_state toy toy_ok _ _ _ _ M) as (_ & s & F & _).
  pose proof (member_recorded toy toy_ok _ _ _ _ M [] _ _ _ _ eq_refl) as A. unfold box in A. cbn [channel_of cn_first] in A. rewrite Ei in A. cbn in A.
  assert (Ac : accepted [(2%N, q1, r1); (0%N, q2, r2); (2%N, q3, r3); (3%N, q4, r4)] 2) by (exists q1, q1; left; rewrite A; reflexivity).
  set (l := [(2%N, q1, r1); (0%N, q2, r2); (2%N, q3, r3); (3%N, q4, r4)]) in *.
  (* the sender's state, and the later distribution message *)
  assert (Sg : exists o r, w_groups w2 gx_addr gx_dist = Some (o :: r)).
  { destruct (gconsecutive _ _ _ _ _ _ G _ _ _ _ toy_ok O1 Sp B) as [_ (o & r & Q & _)]. eauto. }
  destruct Sg as (o & r & Sg).
  pose proof (gt_sender toy (channel_of m) _ _ _ _ _ _ m w1 _ w2 o r (alice_own true) eq_refl E eq_refl G B Sg) as Ts.
  rewrite Ei, L in Ts. change (0 + N.of_nat 4)%N with 4%N in Ts.
  assert (D : exists m', run0 (new_sender_dist toy gx_addr gx_dist [] []) w2 = (Ok m', w2)).
  { pose proof (gsends_own _ _ _ _ _ _ toy_ok O1 G) as O2.
    destruct (proj2 (proj1 O2) _ _ _ Sg) as (_ & _ & Fo). inversion Fo as [|? ? Ws _]; subst. destruct Ws as (_ & _ & _ & _ & K & _). destruct (P_Shape.key33_parse _ K) as (k & _ & _ & Ek).
    unfold run0, new_sender_dist, pdo. cbn [run exec_f fallible hd_fault tl exec]. rewrite Sg. unfold dist_of_state. cbn [gr_state bind plift]. unfold gs_public. rewrite Ek.
    cbn [bind plift run]. eauto. }
  destruct D as (m' & E'). destruct (later_dist _ _ _ _ _ _ _ _ _ _ _ _ _ _ _ _ toy_ok (alice_own true) E G B E') as [Sc Ei']. rewrite Ei, L in Ei'. change (0 + N.of_nat 4)%N with 4%N in Ei'.
  pose proof (gsends_own _ _ _ _ _ _ toy_ok O1 G) as O2.
  pose proof (told_wf _ _ _ _ _ _ _ _ _ toy_ok O2 E') as Wm'. destruct (dist_describes _ _ _ _ _ _ _ _ _ toy_ok O2 E') as (_ & T' & _).
  destruct (process_ok gx_addr m' (bob_world 3 true) (bob_wf 3 true) Wm') as (w' & Eb').
  assert (M' : member toy gx_addr (channel_of m') [] w').
  { eapply mem_start; [apply (bob_wf 3 true)|exact Wm'| | |exact Eb'].
    - cbn [channel_of cn_dist cn_chain cn_signing cn_first cn_key]. destruct T' as (T1 & T2 & T3). split; [exact T1|]. split; [reflexivity|]. auto.
    - intros s0 (r0 & Q & _). discriminate. }
  destruct (member_state toy toy_ok _ _ _ _ M') as (_ & s' & F' & _).
  assert (S0 : same_channel toy (channel_of m) (channel_of m)).
  { unfold same_channel. rewrite N.sub_diag. repeat split; reflexivity || apply N.le_refl. }
  pose proof (gt_member toy (channel_of m) _ _ _ _ _ S0 M F) as Tb. pose proof (gt_member toy (channel_of m) _ _ _ _ _ Sc M' F') as Tb'.
  assert (Ebox : box (channel_of m) l = mkMailbox 4 [1]%N) by (unfold box, l; cbn [channel_of cn_first]; rewrite Ei; reflexivity).
  assert (Ebox' : box (channel_of m') [] = mkMailbox 4 []) by (unfold box; cbn [channel_of cn_first]; rewrite Ei'; reflexivity).
  destruct (group_captured toy (channel_of m) sent [(box (channel_of m) l, s); (mkMailbox 4 [], o); (box (channel_of m') [], s')] toy_ok Gs Nd) as (tx & _ & _ & Q).
  { intros b0 s0 [X|[X|[X|[]]]]; injection X as <- <-; assumption. }
  destruct (group_captured toy (channel_of m) sent [(mkMailbox 4 [], o); (box (channel_of m') [], s')] toy_ok Gs Nd) as (tx2 & _ & _ & Q2).
  { intros b0 s0 [X|[X|[]]]; injection X as <- <-; assumption. }
  exists m, sent, l, w, s, w2, (o :: r), [], w', s', m'. cbv zeta.
  split; [reflexivity|]. split; [cbn [map sent fst snd]; exact Em|]. split; [exact Gs|]. split; [exact M|]. split; [exact Ac|]. split; [exact F|]. split; [exact Sg|].
  split; [exact Sc|]. split; [exact Ei'|]. split; [exact M'|]. split; [exact F'|]. split; [exists o, r; auto|]. split; [exact Tb|]. split; [exact Tb'|].
  split; [|split].
  - apply (Q 1%N p1 x1); [cbn [sent In]; auto|]. eexists. eexists. split; [left; reflexivity|]. right. rewrite Ebox. left. reflexivity.
  - intros n J X. assert (Jn : exists pt x, In (n, pt, x) sent) by (destruct J as [<-|[<-|[<-|[]]]]; do 2 eexists; cbn [sent In]; eauto).
    destruct Jn as (pt & x & Jn). apply (Q n pt x Jn) in X. destruct X as (b0 & s0 & J0 & X).
    assert (Nx : forall i, In i [0; 2; 3]%N -> ~ (4 <= i)%N /\ i <> 1%N) by (intros i [<-|[<-|[<-|[]]]]; split; (discriminate || (intro Y; apply Y; reflexivity))).
    destruct (Nx n J) as [N1 N2].
    destruct J0 as [J0|[J0|[J0|[]]]]; injection J0 as <- <-; rewrite ?Ebox, ?Ebox' in X; cbn [mb_next mb_open In] in X; intuition congruence.
  - intro X. apply (Q2 1%N p1 x1) in X; [|cbn [sent In]; auto]. destruct X as (b0 & s0 & J0 & X).
    assert (N1 : ~ (4 <= 1)%N) by (intro Y; apply Y; reflexivity).
    destruct J0 as [J0|[J0|[]]]; injection J0 as <- <-; rewrite ?Ebox' in X; cbn [mb_next mb_open In] in X; intuition congruence.
Qed.
