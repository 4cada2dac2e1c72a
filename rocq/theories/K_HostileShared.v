(** A network with an attacker, on stores that share what they hold: a case. *)
From Verif Require Import M_Base M_Crypto M_Aes M_Curve M_Message M_Ratchet M_State M_Store M_Session
  S_Crypto S_Send S_Session S_X3dh S_Receive S_Conv S_History S_Header S_Spent S_Atomic S_Size S_Transit S_Speak S_Attack S_Many S_Net S_Hostile
  P_Shape P_History P_Header P_Transit P_DecApi P_ManyLink P_Many P_ManyTop P_Net P_NetCut P_Hostile P_NetShared K_Toy K_World K_Conv K_Many K_Net.
From Coq Require Import Lia.
Local Open Scope nat_scope.

(** Bob has received Alice's first message and gets it again, from the attacker. *)
Lemma shared_case : exists dev es c m pm rnd, net toy dev es /\ List.length es = 2 /\ In c es /\ cb_from c = at_a /\ cb_to c = at_b /\ has_cable c at_b /\
  w_shared (dev at_b) = true /\ kp_pub (w_pair (dev at_b)) <> kp_pub (w_pair (dev at_a)) /\ sized es /\ new_keys toy es at_b at_a rnd /\
  (forall m', carries (posted m) m' -> ~ net_forgery toy dev es at_b at_a m') /\
  unposted (posted m) = Ok (CPreKey pm) /\ ~ unused_base (dev at_b) at_a (pm_base pm) /\
  exists y, sent_on c at_b at_a y /\ nt_cipher y = m.
Proof.
  destruct (net_story_stores true) as (dev & sig & m & M & Pa & _ & Po & Sh & _ & Em). set (c0 := alice_cable sig m) in *. set (es0 := [c0; carol_cable sig]) in *.
  assert (M0 : net toy dev es0) by (apply (net_more toy (at_first true)); [intros d e [-> ->]; apply three_fresh|exact M]).
  assert (Nba : at_b <> at_a) by discriminate. assert (Jb : In at_b [cb_from c0; cb_to c0]) by (right; left; reflexivity). assert (Ja : In at_a [cb_from c0; cb_to c0]) by (left; reflexivity).
  destruct (story_ready sig m) as (Q1 & Q2 & Q3 & Q4). fold c0 in Q1, Q2, Q3, Q4. fold es0 in Q3.
  assert (Nm : has_cable c0 at_b -> ~ misread toy (dev at_b) at_a (ln_base (cb_link c0)) m) by (intro Z; contradiction).
  destruct (net_delivered toy toy_ok dev es0 c0 at_b at_a 1 0 (str "hello") m (b32 Byte.x62) M0 (or_introl eq_refl) Nba Jb Ja Q1 Q2 Q3 Nm) as (w5 & E5); [rewrite Po; reflexivity|].
  destruct (net_answered toy toy_ok dev es0 c0 at_b at_a 1 0 (str "hello") m (b32 Byte.x62) [] _ w5 M0 (or_introl eq_refl) Nba Jb Ja Q1 Q2 Q3 Nm E5) as (_ & Cb & u & Cu & Dr).
  specialize (Dr eq_refl).
  pose proof (net_receive toy fresh_net dev [] c0 [carol_cable sig] at_b at_a 1 0 (str "hello") m (b32 Byte.x62) [] _ u w5 M0 Nba Jb Ja Q1 Q2 Q3 Nm E5 Cu) as M5.
  set (dev5 := dev_set dev at_b w5) in *. cbn [app] in M5. change (net_from toy fresh_net) with (net toy) in M5.
  set (c5 := mkCable (cb_from c0) (cb_to c0) (link_got (cb_link c0) (cb_role c0 at_b) 1 0 u)) in *. set (es5 := [c5; carol_cable sig]) in *.
  assert (D5 : dev5 at_b = w5) by apply set_same. assert (A5 : dev5 at_a = dev at_a) by (apply set_other; discriminate).
  assert (P5 : w_pair w5 = w_pair (dev at_b)).
  { pose proof (run_pair (decrypt_message toy at_a (b32 Byte.x62) m) [] (dev at_b)) as Z. unfold run0 in E5. rewrite E5 in Z. exact Z. }
  assert (S5 : w_shared w5 = true).
  { pose proof (run_store (decrypt_message toy at_a (b32 Byte.x62) m) [] (dev at_b)) as Z. unfold run0 in E5. rewrite E5 in Z. rewrite <- (Sh at_b). exact Z. }
  assert (Jc5 : In c5 es5) by (left; reflexivity). assert (Hc5 : has_cable c5 at_b) by (right; split; [reflexivity|discriminate]).
  assert (J1 : In (mkNote true 1 0 (str "hello") m) (ln_notes (cb_link c5))) by (left; reflexivity).
  assert (Sz : sized es5) by (intros q y [<-|[<-|[]]] Jy; [destruct Jy as [<-|[]]; reflexivity|destruct Jy]).
  destruct (net_cable toy toy_ok dev5 es5 c5 M5 Jc5) as (at_ & v & Hy).
  pose proof (transit toy _ _ _ _ _ _ _ _ toy_ok Hy J1 eq_refl) as [U _]. cbn [nt_cipher] in U.
  assert (X : exists pm, m = CPreKey pm /\ pm_base pm = ln_base (cb_link c5)).
  { destruct (frames toy toy_ok _ _ _ _ _ _ _ _ _ _ _ _ Hy J1) as [(m0 & _ & X)|(_ & pm & reg & m0 & E & F)]; [exfalso; apply X; split; reflexivity|].
    destruct F as (_ & _ & F1 & F2 & F3 & F4 & F5). exists pm. auto. }
  destruct X as (pm & Emp & X1).
  destruct (P_NetShared.cable_state toy toy_ok dev5 es5 c5 at_b at_a M5 Jc5 Nba Jb Ja Hc5) as (r & s & Er & Js & Eb).
  exists dev5, es5, c5, m, pm, (b32 Byte.x63). split; [exact M5|]. split; [reflexivity|]. split; [exact Jc5|]. split; [reflexivity|]. split; [reflexivity|]. split; [exact Hc5|].
  split; [rewrite D5; exact S5|]. split; [rewrite D5, A5, P5, !Pa; apply (toy_pub_neq Byte.x33 Byte.x31); reflexivity|]. split; [exact Sz|]. split.
  { intros j Lj. change (List.length _) with 1 in Lj. destruct j as [|j]; [|lia]. change (skipn (32 * 0) (b32 Byte.x63)) with (b32 Byte.x63).
    assert (F3 : forall e, firstn 32 (b32 e) = b32 e) by (intro; apply firstn_all2; rewrite b32_len; apply le_n). rewrite F3, b32_len. split; [lia|].
    assert (Eu : u = mont_pub toy (b32 Byte.x62)).
    { destruct Dr as (j & Lj' & ->). change (List.length _) with 1 in Lj'. destruct j as [|j]; [|lia]. change (skipn (32 * 0) (b32 Byte.x62)) with (b32 Byte.x62). rewrite F3. reflexivity. }
    intro Q. change (In (mont_pub toy (b32 Byte.x63)) [mont_pub toy (b32 Byte.x34); mont_pub toy (b32 Byte.x42); u]) in Q. rewrite Eu in Q.
    exact (pubs [Byte.x34; Byte.x42; Byte.x62] Byte.x63 eq_refl Q). }
  assert (So : sent_on c5 at_b at_a (mkNote true 1 0 (str "hello") m)) by (split; [split; assumption|split; [exact J1|reflexivity]]).
  split.
  { intros m' (ct & Uc & Ic) (q & r0 & s0 & Jq & [Jq1 Jq2] & _ & _ & _ & _ & mk & _ & _ & F). rewrite U in Uc. injection Uc as <-.
    destruct Jq as [<-|[<-|[]]]; [|destruct Jq2 as [Z|[Z|[]]]; discriminate Z].
    destruct (F _ m' So) as [_ Z]; [left; left; reflexivity|exact Ic|reflexivity|reflexivity|]. apply Z. reflexivity. }
  split; [rewrite Emp in U at 2; exact U|]. split; [intro Z; apply (Z r s Er Js); rewrite X1; exact Eb|].
  eexists. split; [exact So|reflexivity].
Qed.
