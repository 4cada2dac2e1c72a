(** A network with an attacker: a case. *)
From Verif Require Import M_Base M_Crypto M_Aes M_Curve M_Message M_Ratchet M_State M_Store M_Session
  S_Crypto S_Send S_Session S_X3dh S_Receive S_Conv S_History S_Header S_Spent S_Atomic S_Size S_Transit S_Speak S_Attack S_Many S_Net S_Hostile
  P_Shape P_History P_Header P_Transit P_DecApi P_ManyLink P_Many P_ManyTop P_Net P_NetCut P_Hostile K_Toy K_World K_Conv K_Net.
Local Open Scope nat_scope.

Lemma hostile_case : exists dev es c m pm rnd w', net toy dev es /\ List.length es = 2 /\ In c es /\ cb_from c = at_a /\ cb_to c = at_b /\ ~ has_cable c at_b /\
  w_shared (dev at_b) = false /\ kp_pub (w_pair (dev at_b)) <> kp_pub (w_pair (dev at_a)) /\ sized es /\ new_keys toy es at_b at_a rnd /\
  (forall m', carries (posted m) m' -> ~ net_forgery toy dev es at_b at_a m') /\
  unposted (posted m) = Ok (CPreKey pm) /\ pm_base pm = ln_base (cb_link c) /\ pm_identity pm = kp_pub (w_pair (dev at_a)) /\
  pm_prekey_id pm = bd_prekey_id (ln_bundle (cb_link c)) /\ pm_signed_id pm = bd_signed_id (ln_bundle (cb_link c)) /\
  run0 (receive_bytes toy at_a rnd (posted m)) (dev at_b) = (Ok (str "hello"), w') /\
  exists y, sent_on c at_b at_a y /\ inner (nt_cipher y) = Some (pm_message pm) /\ nt_text y = str "hello".
Proof.
  destruct (net_story_stores false) as (dev & sig & m & M0 & Pa & _ & Po & Sh & _ & Em). destruct (story_ready sig m) as (R1 & R2 & R3 & R4).
  assert (M : net toy dev [alice_cable sig m; carol_cable sig]) by (apply (net_more toy (at_first false)); [intros d e [-> ->]; apply three_fresh|exact M0]).
  set (es := [alice_cable sig m; carol_cable sig]) in *. set (c := alice_cable sig m) in *.
  assert (Jc : In c es) by (left; reflexivity).
  assert (N : at_b <> at_a) by discriminate.
  assert (Sz : sized es) by (intros q y [<-|[<-|[]]] Jy; [destruct Jy as [<-|[]]; reflexivity|destruct Jy]).
  assert (Jd : In at_b [cb_from c; cb_to c]) by (right; left; reflexivity).
  assert (Je : In at_a [cb_from c; cb_to c]) by (left; reflexivity).
  destruct (net_pairs toy toy_ok dev es at_b at_a M N) as (dv & K & Ed & Ee). pose proof (many_inv toy toy_ok _ _ _ K) as Iv.
  destruct (net_link es c at_b at_a Jc N Jd Je) as (l & Jl & El & Rl & Hi).
  destruct Iv as (_ & _ & _ & Lk & _). destruct (Lk l Jl) as (v & G & St). pose proof (gh_hist _ _ _ _ _ G) as Hy.
  destruct (St false) as (Pe & _ & _). assert (Re : role l false = true) by (rewrite El; reflexivity). rewrite Re, Ee in Pe.
  assert (J1 : In (mkNote true 1 0 (str "hello") m) (ln_notes l)) by (rewrite El; left; reflexivity).
  pose proof (transit toy _ _ _ _ _ _ _ _ toy_ok Hy J1 eq_refl) as [U _]. cbn [nt_cipher] in U.
  assert (X : exists pm, m = CPreKey pm /\ pm_base pm = ln_base l /\ pm_identity pm = kp_pub (w_pair (v true)) /\ pm_prekey_id pm = bd_prekey_id (ln_bundle l) /\ pm_signed_id pm = bd_signed_id (ln_bundle l)).
  { destruct (frames toy toy_ok _ _ _ _ _ _ _ _ _ _ _ _ Hy J1) as [(m0 & _ & X)|(_ & pm & reg & m0 & E & F)]; [exfalso; apply X; clear - El; try rewrite El; split; reflexivity|].
    destruct F as (_ & _ & F1 & F2 & F3 & F4 & F5). exists pm. auto. }
  destruct X as (pm & Emp & X1 & X2 & X3 & X4).
  destruct (net_delivered toy toy_ok dev es c at_b at_a 1 0 (str "hello") m (b32 Byte.x62) M Jc N Jd Je R1 R2 R3) as (w' & E); [intro Q; contradiction|rewrite Po; reflexivity|].
  exists dev, es, c, m, pm, (b32 Byte.x62), w'. split; [exact M|]. split; [reflexivity|]. split; [exact Jc|]. split; [reflexivity|]. split; [reflexivity|]. split; [exact R4|].
  split; [apply Sh|]. split; [rewrite !Pa; apply (toy_pub_neq Byte.x33 Byte.x31); reflexivity|]. split; [exact Sz|].
  split; [intros j Lj; exact (R3 eq_refl j Lj)|]. split.
  { intros m' _ (q & r & s & _ & _ & _ & Q & _). rewrite Em in Q. discriminate. }
  rewrite Emp in U at 2. split; [exact U|]. rewrite El in X1, X3, X4. split; [exact X1|]. split; [rewrite <- Pe; exact X2|]. split; [exact X3|]. split; [exact X4|].
  split; [unfold receive_bytes; rewrite U, <- Emp; exact E|]. exists (mkNote true 1 0 (str "hello") m). split; [split; [split; assumption|split; [left; reflexivity|reflexivity]]|].
  split; [cbn [nt_cipher]; rewrite Emp; reflexivity|reflexivity].
Qed.
