(** Concrete cases for calls that are cut off, on a store that copies. *)
From Verif Require Import M_Base M_Crypto M_Aes M_Curve M_Proto M_Message M_Ratchet M_State M_Store M_Session M_Group
  S_Crypto S_Message S_State S_Shape S_Ratchet S_Session S_Api S_Send S_Group S_X3dh S_Receive S_Conv S_History S_Bundle S_Atomic S_Spent
  P_Base P_History P_Bundle P_Establish P_Redeliver K_Toy K_World K_Receive K_Conv.
Local Open Scope nat_scope.

Lemma run_shared : forall {A} (p : prog A) fs w, w_shared (snd (run p fs w)) = w_shared w.
Proof.
  intros A p. induction p as [r|X o k IH]; intros fs w; cbn [run]; [reflexivity|].
  destruct (exec_f o (hd_fault fs) w) as [x w'] eqn:E. rewrite IH.
  replace w' with (snd (exec_f o (hd_fault fs) w)) by (rewrite E; reflexivity). unfold exec_f.
  assert (Q : w_shared (snd (exec o w)) = w_shared w) by (destruct o; cbn [exec snd]; try reflexivity; destruct (w_shared w) eqn:Z; rewrite <- ?Z; reflexivity).
  destruct (exec o w) as [y w2]. cbn [snd] in *. destruct (fallible o), (hd_fault fs); auto.
Qed.
Definition copying (dev : bool -> world) : Prop := forall side, w_shared (dev side) = false.
Lemma copying_run : forall dev side {A} (p : prog A), copying dev -> copying (upd dev side (snd (run0 p (dev side)))).
Proof. intros dev side A p Cp y. unfold upd. destruct (Bool.eqb y side); [unfold run0; rewrite run_shared|]; apply Cp. Qed.
Definition same_pairs (dev dev' : bool -> world) : Prop := forall y, w_pair (dev' y) = w_pair (dev y).
Lemma pairs_run : forall dev side {A} (p : prog A) r w', run0 p (dev side) = (r, w') -> same_pairs dev (upd dev side w').
Proof.
  intros dev side A p r w' E y. pose proof (run_pair p [] (dev side)) as Q. unfold run0 in E. rewrite E in Q. cbn [snd] in Q.
  unfold upd. destruct (Bool.eqb y side) eqn:Z; [apply Bool.eqb_prop in Z; subst y; exact Q|reflexivity].
Qed.
Lemma copy_send : forall b base dev par keys notes side pt, history toy conv_at b base dev par keys notes -> open_policy dev -> copying dev ->
  (side = true \/ p_epoch (par false) <> 0) -> (p_sent (par side) + 1 < 4294967296)%N ->
  exists c dev', same_pairs dev dev' /\ open_policy dev' /\ copying dev' /\ history toy conv_at b base dev' (upd par side (sent_one (par side))) keys
    (mkNote side (p_epoch (par side)) (p_sent (par side)) pt c :: notes).
Proof.
  intros b base dev par keys notes side pt Hy O Cp Sd G.
  destruct (sendable toy toy_ok b conv_at _ _ _ _ _ side pt Hy Sd G) as (c & w' & E); [rewrite O; reflexivity|].
  exists c, (upd dev side w'). split; [exact (pairs_run _ _ _ _ _ E)|]. split; [|split; [|eapply h_send; eauto]].
  - apply open_upd; [exact O|]. pose proof (run_policy (encrypt_message toy (conv_at side) pt) [] (dev side)) as Q. unfold run0 in E. rewrite E, O in Q. exact Q.
  - pose proof (copying_run dev side (encrypt_message toy (conv_at side) pt) Cp) as Q. rewrite E in Q. exact Q.
Qed.
Lemma copy_receive : forall b base dev par keys notes side k n pt c rnd, history toy conv_at b base dev par keys notes -> open_policy dev -> copying dev ->
  In (mkNote (negb side) k n pt c) notes -> receivable (par side) k n -> fresh toy keys (par side) k rnd ->
  exists dev', same_pairs dev dev' /\ open_policy dev' /\ copying dev' /\ history toy conv_at b base dev' (upd par side (party_after (par side) k n)) (keys_after toy keys (par side) k rnd) notes.
Proof.
  intros b base dev par keys notes side k n pt c rnd Hy O Cp I0 Rv Fr.
  destruct (delivered toy toy_ok b conv_at _ _ _ _ _ side k n pt c rnd Hy I0 Rv Fr) as (w' & E); [rewrite O; reflexivity|].
  exists (upd dev side w'). split; [exact (pairs_run _ _ _ _ _ E)|]. split; [|split; [|eapply h_receive; eauto]].
  - apply open_upd; [exact O|]. pose proof (run_policy (decrypt_message toy (conv_at side) rnd c) [] (dev side)) as Q. unfold run0 in E. rewrite E, O in Q. exact Q.
  - pose proof (copying_run dev side (decrypt_message toy (conv_at side) rnd c) Cp) as Q. rewrite E in Q. exact Q.
Qed.
(** The initiator has processed the bundle. *)
Lemma begun : exists b base dev,
  history toy conv_at b base dev start_party [mont_pub toy bob_signed_key; mont_pub toy (b32 Byte.x42)] [] /\ open_policy dev /\ copying dev /\
  kp_pub (w_pair (dev true)) = mont_pub toy alice_key /\ kp_pub (w_pair (dev false)) = mont_pub toy bob_key.
Proof.
  destruct (bob_bundle_signed (Some 7%N)) as [sig Sg]. set (b := bob_bundle (Some 7%N) sig) in *.
  set (dev := fun y : bool => if y then alice_world false else bob_world 7 false).
  assert (Pub : published toy (dev false) b bob_key bob_signed_key (Some bob_once_key)).
  { apply (bob_published 7 (Some 7%N) sig false); [right; reflexivity|discriminate]. }
  assert (PA : pair_for toy alice_key (w_pair (dev true))) by (apply pair_of_for, b32_len).
  assert (Wb : wf_bundle b) by (apply bob_bundle_wf; intros i E; injection E as <-; apply small_u32; reflexivity).
  assert (Lr : 64 <= List.length alice_rnd) by (unfold alice_rnd; rewrite app_length, !b32_len; apply le_n).
  destruct (bundle_works toy toy_ok b (conv_at true) (dev true) (dev false) alice_key bob_key bob_signed_key (Some bob_once_key) alice_rnd
    (alice_wf false) PA Pub Sg Lr eq_refl) as (w1 & E1 & _ & Po1).
  assert (H1 : history toy conv_at b (mont_pub toy (firstn 32 alice_rnd)) (upd dev true w1) start_party
     [mont_pub toy bob_signed_key; mont_pub toy (firstn 32 (skipn 32 alice_rnd))] []).
  { eapply (h_start toy conv_at b _ dev alice_key bob_key bob_signed_key (Some bob_once_key) alice_rnd [] w1); eauto.
    - apply alice_wf.
    - apply bob_wf.
    - apply none_unused. reflexivity.
    - rewrite alice_rnd_ratchet. apply toy_pub_neq. vm_compute. reflexivity. }
  assert (O1 : open_policy (upd dev true w1)) by (intros []; [exact Po1|reflexivity]).
  assert (S1 : copying (upd dev true w1)).
  { pose proof (copying_run dev true (process_bundle toy (conv_at true) alice_rnd b)) as Q. rewrite E1 in Q. apply Q. intros []; reflexivity. }
  assert (Q1 : same_pairs dev (upd dev true w1)) by (exact (pairs_run dev true _ _ _ E1)).
  rewrite alice_rnd_ratchet in H1. revert H1 O1 S1 Q1. generalize (mont_pub toy (firstn 32 alice_rnd)) (upd dev true w1). intros base d1 H1 O1 S1 Q1.
  exists b, base, d1. split; [exact H1|]. split; [exact O1|]. split; [exact S1|]. rewrite (Q1 true), (Q1 false). split; reflexivity.
Qed.
(** One message sent, nothing delivered. *)
Lemma just_sent : exists b base dev par keys c1,
  history toy conv_at b base dev par keys [mkNote true 1 0 (str "one") c1] /\ p_epoch (par false) = 0 /\ par false = mkParty 0 0 [] /\ open_policy dev /\
  ~ In (mont_pub toy (b32 Byte.x43)) keys.
Proof.
  destruct begun as (b & base & d1 & H1 & O1 & S1 & _).
  destruct (copy_send _ _ _ _ _ _ true (str "one") H1 O1 S1 (or_introl eq_refl) ltac:(reflexivity)) as (c1 & d2 & Q2 & O2 & S2 & H2).
  exists b, base, d2. eexists. eexists. exists c1. split; [exact H2|]. split; [reflexivity|]. split; [reflexivity|]. split; [exact O2|].
  pose proof conv_fresh as Nd. inversion Nd as [|? ? N1 N2]; subst. inversion N2 as [|? ? N3 _]; subst.
  intros [E|[E|[]]]; [apply N1; right; left; symmetry; exact E|apply N3; left; symmetry; exact E].
Qed.
(** Two messages sent, the second one delivered: the first is kept back, the second is at
    the position of the chain. *)
Lemma half_way_more : exists b base dev par keys c1 c2,
  history toy conv_at b base dev par keys [mkNote true 1 1 (str "two") c2; mkNote true 1 0 (str "one") c1] /\
  par true = mkParty 1 2 [mkView 0 0 []] /\ par false = mkParty 2 0 [mkView 1 1 [0%N]] /\ open_policy dev /\ copying dev /\
  kp_pub (w_pair (dev true)) <> kp_pub (w_pair (dev false)) /\ keys = [mont_pub toy bob_signed_key; mont_pub toy (b32 Byte.x42); mont_pub toy (b32 Byte.x43)].
Proof.
  destruct begun as (b & base & d1 & H1 & O1 & S1 & I1 & I2). pose proof conv_fresh as Nd.
  destruct (copy_send _ _ _ _ _ _ true (str "one") H1 O1 S1 (or_introl eq_refl) ltac:(reflexivity)) as (c1 & d2 & Q2 & O2 & S2 & H2).
  destruct (copy_send _ _ _ _ _ _ true (str "two") H2 O2 S2 (or_introl eq_refl) ltac:(reflexivity)) as (c2 & d3 & Q3 & O3 & S3 & H3).
  destruct (copy_receive _ _ _ _ _ _ false 1 1 (str "two") c2 (b32 Byte.x43) H3 O3 S3) as (d4 & Q4 & O4 & S4 & H4).
  { left. reflexivity. }
  { apply rec_new; [reflexivity|discriminate]. }
  { intros _. split; [rewrite b32_len; apply le_n|]. change (firstn 32 (b32 Byte.x43)) with (b32 Byte.x43). inversion Nd as [|? ? N1 N2]; subst. inversion N2 as [|? ? N3 _]; subst.
    intros [E|[E|[]]]; [apply N1; right; left; symmetry; exact E|apply N3; left; symmetry; exact E]. }
  exists b, base, d4. eexists. eexists. exists c1, c2. split; [exact H4|]. split; [reflexivity|]. split; [reflexivity|]. split; [exact O4|]. split; [exact S4|].
  split; [|reflexivity]. rewrite (Q4 true), (Q4 false), (Q3 true), (Q3 false), (Q2 true), (Q2 false), I1, I2. apply toy_pub_neq. vm_compute. reflexivity.
Qed.
Lemma half_way : exists b base dev par keys c1 c2,
  history toy conv_at b base dev par keys [mkNote true 1 1 (str "two") c2; mkNote true 1 0 (str "one") c1] /\
  par true = mkParty 1 2 [mkView 0 0 []] /\ par false = mkParty 2 0 [mkView 1 1 [0%N]] /\ open_policy dev /\ copying dev.
Proof.
  destruct half_way_more as (b & base & dev & par & keys & c1 & c2 & Hy & Pt & Pf & O & Cp & _). exists b, base, dev, par, keys, c1, c2. auto.
Qed.
(** Delivering the kept-back message, completely and with the last store call failing. *)
Lemma cut_case : exists w c w1 fs, w_shared w = false /\
  run0 (decrypt_message toy (conv_at false) [] c) w = (Ok (str "one"), w1) /\
  run (decrypt_message toy (conv_at false) [] c) fs w = (Err EStore, w1).
Proof.
  destruct half_way as (b & base & dev & par & keys & c1 & c2 & Hy & _ & Pf & O & Cp).
  destruct (delivered toy toy_ok b conv_at _ _ _ _ _ false 1 0 (str "one") c1 [] Hy) as (w1 & E).
  - right. left. reflexivity.
  - rewrite Pf. eapply rec_saved with (v := mkView 1 1 [0%N]); [left; reflexivity|reflexivity|reflexivity|left; reflexivity].
  - rewrite Pf. intro Q. discriminate Q.
  - rewrite O. reflexivity.
  - destruct (decrypt_late toy (conv_at false) [] c1 _ _ _ E) as (fs & F). exists (dev false), c1, w1, fs. auto.
Qed.
