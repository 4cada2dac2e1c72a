(** A concrete device and a pre-key message that crashes it (C82). *)
From Verif Require Import M_Base M_Crypto M_Aes M_Curve M_Proto M_Message M_Ratchet M_State M_Store M_Session M_Group
  S_Crypto S_Message S_State S_Shape S_Session S_Api S_Group S_Edwards S_SmallKeys R_Curve R_Real
  S_Send S_X3dh S_Curve S_Receive S_Conv S_Isolation S_Bundle S_History S_GroupMsg P_Base P_Curve P_X3dh P_CryptoTop P_Keep P_Establish P_LowKeys P_Real P_SmallKeys P_SmallSess K_World K_Receive K_Conv K_Group.
From Coq Require Import ZArith String.
Local Open Scope nat_scope.

Definition peer : addr := mkAddr "+14151111111"%string 1%N.
Definition victim_pair : keypair := mkPair (mkPriv (clamp (b32 Byte.x23)) (b32 Byte.x31) 1 (b32 Byte.x23)) (b32 Byte.x31).
(** Signed pre-key 5 and nothing else. *)
Definition victim : world :=
  mkWorld (fun _ => None) (fun _ => None) (fun _ => None)
    (fun i => if N.eqb i 5 then Some (mkPreKeyRec (Byte.x05 :: b32 Byte.x32) (b32 Byte.x24)) else None)
    (fun _ _ => None) victim_pair 12 inmem_policy true.
Definition zero_base : prekeymsg := mkPreKeyMsg 3 9 None 5 (repeat Byte.x00 32) (b32 Byte.x09) junk [].
Lemma victim_wf : wf_device victim.
Proof. split; [split; [cbn; discriminate|split; [reflexivity|apply small_u32; reflexivity]]|cbn; discriminate]. Qed.
Lemma zero_base_wf : wf_prekeymsg zero_base.
Proof.
  split; [reflexivity|]. split; [reflexivity|]. split; [reflexivity|].
  split; [apply small_u32; reflexivity|]. split; [apply small_u32; reflexivity|]. split; [discriminate|]. apply junk_wf.
Qed.
Lemma zero_small : small_key (repeat Byte.x00 32).
Proof. left. reflexivity. Qed.
Lemma nine_full : ~ small_key (Byte.x09 :: repeat Byte.x00 31).
Proof. rewrite small_key_n. change (fe_of_bytes (Byte.x09 :: repeat Byte.x00 31)) with (9 mod p25519)%N. rewrite N.mod_small by reflexivity.
  unfold small_n. intros [Q|[Q|[Q|[Q|Q]]]]; discriminate Q. Qed.
Lemma small_case : small_key (repeat Byte.x00 32) /\ (exists k, List.length k = 32 /\ ~ small_key k) /\
  wf_device victim /\ wf_prekeymsg zero_base /\ fst (run0 (decrypt_message real peer [] (CPreKey zero_base)) victim) = Panic.
Proof.
  split; [exact zero_small|]. split; [exists (Byte.x09 :: repeat Byte.x00 31); split; [reflexivity|exact nine_full]|].
  split; [exact victim_wf|]. split; [exact zero_base_wf|]. apply prekey_crash; [exact victim_wf|exact zero_base_wf|reflexivity|].
  split; [reflexivity|]. split; [discriminate|]. split; [|split; [discriminate|right; right; exact zero_small]].
  intros x E. apply (f_equal (fun o => match o with Some y => y | None => x end)) in E. cbn in E. subst x. unfold prekeyrec_pair, new_keypair, new_private_key.
  cbn [pr_priv pr_pub]. change (List.length (b32 Byte.x24)) with 32. cbn [Nat.eqb negb bind]. change (new_public_key (Byte.x05 :: b32 Byte.x32)) with (Ok (b32 Byte.x32) : res pubkey).
  cbn [bind]. eexists. reflexivity.
Qed.

(** A session set up from a bundle, for any lawful primitives. *)
Section Gen.
Variables (C : Crypto) (H : CryptoOk C).
Definition gen_alice : world :=
  mkWorld (fun _ => None) (fun _ => None) (fun _ => None) (fun _ => None) (fun _ _ => None) (pair_of C alice_key) 12%N all_trusted true.
Definition gen_bob : world :=
  mkWorld (fun _ => None) (fun _ => None) (fun _ => None)
    (fun i => if N.eqb i 4294967295%N then Some (new_prekeyrec (pair_of C bob_signed_key)) else None)
    (fun _ _ => None) (pair_of C bob_key) 13%N all_trusted true.
Definition gen_bundle (sig : bytes) : bundle :=
  mkBundle 13%N None None 4294967295%N (Some (mont_pub C bob_signed_key)) sig (Some (mont_pub C bob_key)).
Lemma gen_session : exists w r, reachable C ([], w) /\ w_sess w peer = Some r /\ rc_current r <> None.
Proof.
  assert (Sg : exists sig, bundle_signed C (gen_bundle sig)).
  { destruct (signatures C H) as (Sg & V & _).
    assert (E : exists k, new_private_key C bob_key = Ok k /\ sk_pub k = mont_pub C bob_key) by (eexists; split; reflexivity).
    destruct E as (k & E & Ep). destruct (Sg bob_key k (repeat Byte.x55 64) [Byte.x05 :: mont_pub C bob_signed_key] E) as (sig & _ & _ & Vs);
      [rewrite repeat_length; apply le_n|]. exists sig. specialize (Vs _ eq_refl). rewrite Ep in Vs. apply V in Vs. destruct Vs as (r & t & y & Q1 & Q2 & Q3 & Q4).
    cbn [List.concat] in Q4. rewrite app_nil_r in Q4. exists (mont_pub C bob_key), (mont_pub C bob_signed_key), r, t, y. auto 10. }
  destruct Sg as (sig & Sg). set (b := gen_bundle sig) in *.
  assert (Wa : wf_device gen_alice) by (split; [split; [cbn; discriminate|split; [apply ed_to_mont_length|apply small_u32; reflexivity]]|cbn; discriminate]).
  assert (Pb : published C gen_bob b bob_key bob_signed_key None).
  { split; [apply pair_of_for, b32_len|]. split; [reflexivity|]. split; [reflexivity|]. split.
    - destruct (pair_stored C bob_signed_key (pair_of C bob_signed_key)) as (p & E & P); [apply pair_of_for, b32_len|].
      eexists. exists p. split; [reflexivity|]. auto.
    - split; reflexivity. }
  destruct (bundle_works C H b peer gen_alice gen_bob alice_key bob_key bob_signed_key None alice_rnd Wa) as (w & E & _).
  - apply pair_of_for. apply b32_len.
  - exact Pb.
  - exact Sg.
  - apply le_n.
  - reflexivity.
  - exists w. destruct (P_Bundle.bundle_success _ _ _ _ _ _ _ E) as (ti & ts & base & rnd1 & s0 & rest & _ & _ & _ & _ & _ & _ & Ew).
    assert (Es : w_sess w peer = Some (rc_promote (P_Bundle.loaded None) (P_Bundle.bundle_state b s0 (kp_pub base) 12))).
    { rewrite Ew. unfold P_Bundle.bundle_world. cbn. reflexivity. }
    eexists. split; [|split; [exact Es|discriminate]].
    assert (R : reachable_with C (fun _ => True) ([], snd (run0 (process_bundle C peer alice_rnd b) gen_alice))).
    { apply (call_reach C (fun _ => True) (CBundle peer alice_rnd b) [] gen_alice []); [|exact I|apply rw_init].
      - unfold wf_call, wf_bundle, wf_key. cbn [b gen_bundle bd_reg bd_prekey_id bd_prekey bd_signed_id bd_signed bd_identity].
        split; [apply small_u32; reflexivity|]. split; [discriminate|]. split; [discriminate|]. split; [apply small_u32; reflexivity|].
        split; intros k Ek; injection Ek as <-; apply ed_to_mont_length.
      - split; [reflexivity|]. split; [reflexivity|]. split; [apply ed_to_mont_length|apply small_u32; reflexivity]. }
    rewrite E in R. exact (reachable_less _ _ _ R).
Qed.
End Gen.
Lemma real_session : exists w r, reachable real ([], w) /\ w_sess w peer = Some r /\ rc_current r <> None.
Proof. exact (gen_session real real_ok). Qed.
