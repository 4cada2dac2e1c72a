(** Two messages of different length sent from the same session. *)
From Verif Require Import M_Base M_Crypto M_Curve M_Message M_State M_Store M_Session
  S_Crypto S_Shape S_Session S_Group S_Send S_Receive S_Bundle S_Size P_Shape P_Bundle P_Frames P_Size K_Toy K_World K_Receive K_Conv K_Cross.
Local Open Scope nat_scope.

Lemma sized_case : forall sh : bool, exists w a c1 c2 w1 w2, wf_device w /\ run0 (encrypt_message toy a (str "hello")) w = (Ok c1, w1) /\
  run0 (encrypt_message toy a (str "bye")) w = (Ok c2, w2) /\ looks_same c1 c2 /\ exists m, inner c1 = Some m /\ size (sg_raw m) = whisper_size (sg_counter m) (sg_prev m) 5.
Proof.
  intro sh. destruct (plain_signed Byte.x33 Byte.x34) as [sB SB].
  assert (Nk : mont_pub toy (b32 Byte.x42) <> mont_pub toy (b32 Byte.x34)) by (apply toy_pub_neq; vm_compute; reflexivity).
  destruct (plain_begins (conv_at true) Byte.x31 Byte.x32 Byte.x33 Byte.x34 Byte.x41 Byte.x42 sh sB (str "hello") SB Nk) as (w & c1 & w1 & E & E1).
  destruct (plain_begins (conv_at true) Byte.x31 Byte.x32 Byte.x33 Byte.x34 Byte.x41 Byte.x42 sh sB (str "bye") SB Nk) as (w' & c2 & w2 & E' & E2).
  rewrite E in E'. apply (f_equal snd) in E'. cbn [snd] in E'. subst w'.
  assert (W : wf_device w).
  { exact (proj1 (bundle_awaiting toy _ _ _ [] _ _ toy_ok (plain_wf _ _ _) (plain_bundle_wf _ _ _) E)). }
  exists w, (conv_at true), c1, c2, w1, w2. split; [exact W|]. split; [exact E1|]. split; [exact E2|].
  split; [refine (sent_looks toy _ (str "hello") (str "bye") [] [] w _ _ _ _ toy_ok W _ E1 E2 _); reflexivity|].
  destruct (sent_size toy _ (str "hello") [] w _ _ toy_ok W eq_refl E1) as (m & Q1 & Q2 & _). exists m. split; [exact Q1|exact Q2].
Qed.
