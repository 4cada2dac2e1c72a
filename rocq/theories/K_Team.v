(** Alice starts a conversation with Bob, sends the distribution message of her sender key
    over it, and four messages to the group. *)
From Verif Require Import M_Base M_Crypto M_Aes M_Curve M_Proto M_Uuid M_Message M_Ratchet M_State M_Store M_Session M_Group
  S_Crypto S_Message S_State S_Shape S_Ratchet S_Session S_Aes S_Api S_Send S_Group S_Curve S_X3dh S_Bundle S_Receive S_Conv S_History S_GroupMsg S_Size S_Wire S_Uuid S_Transit S_Team
  P_Base P_History P_GroupMsg P_GroupTop P_Establish P_Mailbox P_Team K_Toy K_World K_Receive K_Conv K_Group.
From Coq Require Import Permutation.
Local Open Scope nat_scope.

Lemma sends_tries : forall C a d w l w', gsends C a d w l w' -> gtries C a d (List.length l) w l w'.
Proof. intros C a d w l w' G. induction G; [constructor|]. cbn [List.length]. eapply gtries_ok; eauto. Qed.
Lemma team_case : exists b base dev par keys dm c w1 l w2,
  history toy conv_at b base dev par keys [mkNote true 1 0 (dm_raw dm) c] /\ receivable (par false) 1 0 /\ fresh toy keys (par false) 1 (b32 Byte.x43) /\
  w_policy (dev false) (conv_at false) (w_ident (dev false) (conv_at false)) (kp_pub (w_pair (dev true))) Receiving = true /\
  own_device toy (alice_world true) /\ run (new_sender_dist toy gx_addr gx_dist gx_sys gx_rnd) [] (alice_world true) = (Ok dm, w1) /\
  (forall s, follows (dev false) (conv_at false) gx_dist (dm_chain dm) s -> gs_pub s <> Byte.x05 :: dm_signing dm) /\
  gtries toy gx_addr gx_dist 4 w1 l w2 /\ (dm_iter dm + N.of_nat 4 < 4294967296)%N /\ (forall pt x, In (pt, x) l -> (size pt < 2 ^ 62)%N) /\
  map fst (rev l) = [str "four"; str "three"; []; str "one"] /\ Permutation (rev l) l.
Proof.
  destruct gx_created as (dm & g1 & Eg & Sd). destruct (dist_describes _ _ _ _ _ _ _ _ _ toy_ok (alice_own true) Eg) as (O1 & T & Sp & New & _).
  destruct (New eq_refl) as [_ Ei].
  destruct (gx_send toy gx_addr gx_dist gx_rnd [str "one"; []; str "three"; str "four"] g1 toy_ok (proj1 O1) Sd gx_rnd_len) as (sent & g2 & G & Em).
  assert (L : List.length sent = 4) by (rewrite <- (map_length fst), Em; reflexivity).
  destruct (bob_bundle_signed (Some 7%N)) as [sig Sg]. set (b := bob_bundle (Some 7%N) sig) in *.
  set (dev := fun y : bool => if y then alice_world true else bob_world 7 true).
  assert (Pub : published toy (dev false) b bob_key bob_signed_key (Some bob_once_key)).
  { apply (bob_published 7 (Some 7%N) sig true); [right; reflexivity|discriminate]. }
  assert (PA : pair_for toy alice_key (w_pair (dev true))) by (apply pair_of_for, b32_len).
  assert (Wb : wf_bundle b) by (apply bob_bundle_wf; intros i E; injection E as <-; apply small_u32; reflexivity).
  assert (Lr : 64 <= List.length alice_rnd) by (unfold alice_rnd; rewrite app_length, !b32_len; apply le_n).
  destruct (bundle_works toy toy_ok b (conv_at true) (dev true) (dev false) alice_key bob_key bob_signed_key (Some bob_once_key) alice_rnd
    (alice_wf true) PA Pub Sg Lr eq_refl) as (w1 & E1 & _ & Po1).
  assert (H1 : history toy conv_at b (mont_pub toy (firstn 32 alice_rnd)) (upd dev true w1) start_party
     [mont_pub toy bob_signed_key; mont_pub toy (firstn 32 (skipn 32 alice_rnd))] []).
  { eapply (h_start toy conv_at b _ dev alice_key bob_key bob_signed_key (Some bob_once_key) alice_rnd [] w1); eauto.
    - apply alice_wf.
    - apply bob_wf.
    - apply none_unused. reflexivity.
    - rewrite alice_rnd_ratchet. apply toy_pub_neq. vm_compute. reflexivity. }
  rewrite alice_rnd_ratchet in H1.
  destruct (sendable toy toy_ok b conv_at _ _ _ _ _ true (dm_raw dm) H1 (or_introl eq_refl) ltac:(reflexivity)) as (c & w' & E); [cbn [upd Bool.eqb]; rewrite Po1; reflexivity|].
  pose proof (h_send _ _ _ _ _ _ _ _ _ _ _ _ _ H1 (or_introl eq_refl) ltac:(reflexivity) E) as H2.
  eexists b, _, _, _, _, dm, c, g1, sent, g2. split; [exact H2|].
  split; [apply rec_new; [reflexivity|discriminate]|]. split.
  { intros _. split; [rewrite b32_len; apply le_n|]. change (firstn 32 (b32 Byte.x43)) with (b32 Byte.x43).
    pose proof conv_fresh as Nd. inversion Nd as [|? ? N1 N2]; subst. inversion N2 as [|? ? N3 _]; subst.
    intros [Q|[Q|[]]]; [apply N1; right; left; symmetry; exact Q|apply N3; left; symmetry; exact Q]. }
  split; [reflexivity|]. split; [apply alice_own|]. split; [exact Eg|]. split; [intros s (r & Q & _); discriminate|].
  split; [rewrite <- L; apply sends_tries; exact G|]. split; [rewrite Ei; reflexivity|]. split; [|split].
  - intros pt x J. apply (in_map fst) in J. rewrite Em in J. cbn [fst In] in J. intuition (subst; reflexivity).
  - rewrite map_rev, Em. reflexivity.
  - apply Permutation_sym, Permutation_rev.
Qed.
