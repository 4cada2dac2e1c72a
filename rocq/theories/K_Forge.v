(** 41 made-up messages on a device with a session (C71). *)
From Verif Require Import M_Base M_Crypto M_Aes M_Curve M_Proto M_Message M_Ratchet M_State M_Store M_Session M_Group
  S_Crypto S_Message S_State S_Shape S_Ratchet S_Session S_Receive S_Forge P_Base P_Curve P_Init P_DecMore P_X3dh K_Toy K_World K_Receive K_RecvCases.
From Coq Require Import List Lia.
Local Open Scope nat_scope.

Definition flood_key (i : nat) : bytes := n2le 32 (256 * N.of_nat i).
Definition flood_msg (i : nat) : prekeymsg := mkPreKeyMsg 3 9 None 5 (mont_pub toy (flood_key i)) (mont_pub toy rx_peer) junk [].
Definition flood_msgs : list (bytes * prekeymsg) := map (fun i => ([], flood_msg i)) (seq 0 41).
Lemma toy_pub_inj : forall a b, List.length a = 32 -> List.length b = 32 -> mont_pub toy a = mont_pub toy b -> scalar_of a = scalar_of b.
Proof.
  intros a b La Lb E. unfold mont_pub in E. cbn [c_edbase toy] in E. destruct (scalar_range a La) as [_ Ha]. destruct (scalar_range b Lb) as [_ Hb].
  pose proof (toy_utoy _ Ha) as Ua. pose proof (toy_utoy _ Hb) as Ub. rewrite E, Ub in Ua. apply (f_equal (fun x => match x with Ok y => le2n y | _ => 0%N end)) in Ua. rewrite !toy_edbase_le2n in Ua by assumption. lia.
Qed.
Lemma flood_scalar : forall i, i < 41 -> scalar_of (flood_key i) = (scalar_of (flood_key 0) + 256 * N.of_nat i)%N.
Proof.
  intros i L. do 41 (destruct i as [|i]; [vm_compute; reflexivity|]). lia.
Qed.
Lemma flood_distinct : NoDup (map (fun x => pm_base (snd x)) flood_msgs).
Proof.
  unfold flood_msgs. rewrite map_map. cbn [snd flood_msg pm_base].
  assert (Q : forall l, NoDup l -> (forall i, In i l -> i < 41) -> NoDup (map (fun i => mont_pub toy (flood_key i)) l)).
  { intros l Nd. induction Nd as [|i l Ni Nd IH]; intro B; [constructor|]. cbn [map]. constructor; [|apply IH; intros; apply B; right; assumption].
    intro J. apply in_map_iff in J. destruct J as (j & E & Jj). apply toy_pub_inj in E; [|apply n2le_length..].
    rewrite (flood_scalar j), (flood_scalar i) in E by (apply B; cbn; auto). assert (j = i) by lia. subst j. contradiction. }
  apply Q; [apply seq_NoDup|]. intros i J. apply in_seq in J. lia.
Qed.
Lemma flood_made_up : forall rnd m, In (rnd, m) flood_msgs -> made_up toy bob_shared (mont_pub toy rx_peer) m /\
  forall s, state_in s (mkRecord (Some bob_current) []) -> ss_alice_base s <> Byte.x05 :: pm_base m.
Proof.
  intros rnd m J. unfold flood_msgs in J. apply in_map_iff in J. destruct J as (i & E & _). apply (f_equal snd) in E. change (flood_msg i = m) in E. subst m. split; [split; [|split; [|split]]|].
  - split; [reflexivity|]. split; [apply ed_to_mont_length|]. split; [apply ed_to_mont_length|].
    split; [apply small_u32; reflexivity|]. split; [apply small_u32; reflexivity|]. split; [discriminate|]. apply junk_wf.
  - reflexivity.
  - destruct (pair_stored toy bob_signed_key (pair_of toy bob_signed_key)) as (p & E & P); [apply pair_of_for, b32_len|].
    exists rx_peer, (flood_key i), bob_key, bob_signed_key. eexists. exists p. split; [apply b32_len|]. split; [apply n2le_length|]. split; [reflexivity|]. split; [reflexivity|].
    split; [apply pair_of_for, b32_len|]. split; [reflexivity|]. auto.
  - discriminate.
  - intros s [E|(b & [] & _)]. cbn in E. injection E as <-. change (Byte.x05 :: b32 Byte.xff <> Byte.x05 :: mont_pub toy (flood_key i)).
    intro E. apply (f_equal (@tl byte)) in E. change (b32 Byte.xff = mont_pub toy (flood_key i)) in E. exact (mont_small (flood_key i) (eq_sym E)).
Qed.
