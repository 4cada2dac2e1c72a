(** A session that does not know the ratchet key of a message and finds no valid tag refuses it (C85). *)
From Verif Require Import M_Base M_Crypto M_Aes M_Curve M_Proto M_Message M_Ratchet M_State M_Store M_Session M_Group
  S_Crypto S_Message S_State S_Shape S_Ratchet S_Session S_Aes S_Api S_Send S_Group S_Curve S_X3dh S_Receive S_Conv S_History S_Many
  P_Base P_Proto P_Curve P_State P_Shape P_Ratchet P_Message P_Aes P_Chain P_Decrypt P_Receive P_Encrypt P_Record P_Prog P_Api
  P_Init P_Send P_Conv P_X3dh P_Conv2 P_Bundle P_DecApi P_DecTop P_DecMore P_Replay P_Trust P_History P_Archive P_ManyRec.
From Coq Require Import ZifyBool ZifyNat ZifyN Permutation.
Local Open Scope nat_scope.

(** *** A session that has no chain for the ratchet key and no valid tag refuses, and not as a duplicate *)
Section Refuse.
Definition plain {A} (r : res A) : Prop := r <> Err EDuplicate.
Lemma plain_bind : forall {A B} (r : res A) (f : A -> res B), plain r -> (forall a, plain (f a)) -> plain (bind r f).
Proof. intros A B [a|e|] f P Q; cbn [bind]; [apply Q|intro E; apply P; congruence|intro E; discriminate]. Qed.
Lemma plain_new_chain_key : forall k i, plain (new_chain_key k i).
Proof. intros k i. unfold plain, new_chain_key. repeat match goal with |- context [if ?b then _ else _] => destruct b end; discriminate. Qed.
Lemma plain_new_root_key : forall k, plain (new_root_key k).
Proof. intros k. unfold plain, new_root_key. repeat match goal with |- context [if ?b then _ else _] => destruct b end; discriminate. Qed.
Lemma plain_new_private_key : forall C k, plain (new_private_key C k).
Proof. intros C k. unfold plain, new_private_key. repeat match goal with |- context [if ?b then _ else _] => destruct b end; discriminate. Qed.
Lemma plain_new_public_key : forall k, plain (new_public_key k).
Proof. intros k. unfold plain, new_public_key. destruct (Nat.ltb _ _); [discriminate|]. destruct k; [discriminate|]. destruct (Byte.eqb _ _); discriminate. Qed.
Lemma plain_agreement : forall C k p, plain (agreement C k p).
Proof. intros C k p. unfold plain, agreement. repeat match goal with |- context [if ?b then _ else _] => destruct b end; discriminate. Qed.
Lemma plain_create : forall C r k p, plain (create_chain C r k p).
Proof.
  intros C r k p. unfold create_chain. apply plain_bind; [apply plain_agreement|]. intro s. apply plain_bind; [apply plain_new_root_key|].
  intro x. apply plain_bind; [apply plain_new_chain_key|]. intros y E. discriminate.
Qed.
Lemma plain_gen : forall C rnd, plain (fst (gen_keypair C rnd)).
Proof.
  intros C rnd. unfold gen_keypair, gen_private_key, read_full. destruct (Nat.ltb _ _); cbn [fst]; [intro E; discriminate|].
  pose proof (plain_new_private_key C (firstn 32 rnd)) as P. destruct (new_private_key C (firstn 32 rnd)); cbn [fst]; intro E; try discriminate. apply P. congruence.
Qed.
Lemma chain_absent : forall s e, ~ In (Byte.x05 :: e) (map pc_ratchet (ss_receivers s)) -> st_receiver_chain s e = None.
Proof.
  intros s e N. unfold st_receiver_chain. induction (ss_receivers s) as [|c l IH]; [reflexivity|]. cbn [find_chain map In] in *.
  destruct (bytes_eqb (pc_ratchet c) (pub_bytes e)) eqn:Q; [apply bytes_eqb_eq in Q; destruct N; left; exact Q|]. apply IH. tauto.
Qed.
Lemma get_chain_key_plain : forall C rnd s e, st_receiver_chain s e = None ->
  plain (fst (get_chain_key C rnd s e)) /\ forall ck s1 rest, get_chain_key C rnd s e = (Ok (ck, s1), rest) -> ck_index ck = 0%N.
Proof.
  intros C rnd s e N. unfold get_chain_key, st_receiver_chain_key. rewrite N.
  assert (P1 : plain (bind (st_root s) (fun root => bind (st_sender_ratchet_priv C s) (fun ours => create_chain C root ours e)))).
  { apply plain_bind; [apply plain_new_root_key|]. intro root. apply plain_bind; [|intro; apply plain_create].
    unfold st_sender_ratchet_priv. destruct (ss_sender s); [apply plain_new_private_key|intro E; discriminate]. }
  assert (I1 : forall x y, bind (st_root s) (fun root => bind (st_sender_ratchet_priv C s) (fun ours => create_chain C root ours e)) = Ok (x, y) -> ck_index y = 0%N).
  { intros x y E. destruct (st_root s) as [root| |]; cbn [bind] in E; [|discriminate..]. destruct (st_sender_ratchet_priv C s) as [ours| |]; cbn [bind] in E; [|discriminate..].
    unfold create_chain in E. destruct (agreement C ours e) as [sh| |]; cbn [bind] in E; [|discriminate..].
    destruct (new_root_key _) as [r1| |]; cbn [bind] in E; [|discriminate..]. unfold new_chain_key in E.
    destruct (negb _); cbn [bind] in E; [discriminate|]. injection E as _ <-. reflexivity. }
  destruct (bind (st_root s) _) as [[rr rc]|x|]; cbn [fst]; [|split; [intro E; apply P1; congruence|discriminate]|split; [intro E; discriminate|discriminate]].
  pose proof (plain_gen C rnd) as P2. destruct (gen_keypair C rnd) as [[kp|x|] rest]; cbn [fst] in *; [|split; [intro E; apply P2; congruence|discriminate]|split; [discriminate|discriminate]].
  split.
  - apply plain_bind; [apply plain_create|]. intros [a b]. apply plain_bind; [|intros ? E; discriminate].
    unfold st_sender_chain_key. destruct (ss_sender s) as [c|]; [|intro E; discriminate]. destruct (pc_key c); [apply plain_new_chain_key|intro E; discriminate].
  - intros ck s1 rest' E. apply (f_equal fst) in E. cbn [fst] in E.
    destruct (create_chain C rr (kp_priv kp) e) as [[a b]| |]; cbn [bind] in E; [|discriminate..]. destruct (st_sender_chain_key s); cbn [bind] in E; [|discriminate..].
    injection E as <- _. eapply I1. reflexivity.
Qed.
Lemma plain_remote : forall s, plain (st_remote_identity s).
Proof. intro s. unfold st_remote_identity. destruct (ss_remote s); [intro E; discriminate|]. apply plain_bind; [apply plain_new_public_key|intros ? E; discriminate]. Qed.
Lemma plain_with_self : forall s, plain (st_with_self s).
Proof. intro s. unfold st_with_self. apply plain_bind; [apply plain_remote|]. intros [k|]; [|intro E; discriminate]. apply plain_bind; [apply plain_new_public_key|intros ? E; discriminate]. Qed.
Lemma plain_set_keys : forall s e k, plain (st_set_message_keys s e k).
Proof. intros s e k. unfold st_set_message_keys. destruct (st_receiver_chain s e); intro E; discriminate. Qed.
Lemma plain_skip : forall C n s e ck, plain (skip_keys C n s e ck).
Proof. intros C n. induction n as [|n IH]; intros s e ck; cbn [skip_keys]; [intro E; discriminate|]. apply plain_bind; [apply plain_set_keys|]. intro. apply IH. Qed.
Lemma plain_message_keys : forall C s e ck n, ck_index ck = 0%N -> plain (get_message_keys C s e ck n).
Proof.
  intros C s e ck n I0. unfold get_message_keys. rewrite I0. destruct (N.ltb_spec n 0); [lia|]. cbv zeta.
  apply plain_bind; [destruct (N.ltb _ _); [apply plain_with_self|intro E; discriminate]|]. intros []; cbn [negb]; [|intro E; discriminate].
  apply plain_bind; [apply plain_skip|]. intros [s' ck']. apply plain_bind; [|intros ? E; discriminate].
  unfold st_set_receiver_chain_key. destruct (st_receiver_chain s' e); intro E; discriminate.
Qed.
Lemma plain_verify : forall C m k a b, plain (verify_mac C m k a b).
Proof.
  intros C m k a b. unfold verify_mac, mac. destruct (Nat.ltb _ _); [intro E; discriminate|]. destruct (negb _); cbn [bind]; intro E; discriminate.
Qed.
Lemma plain_cbc : forall C k iv ct, plain (cbc_decrypt C k iv ct).
Proof.
  intros C k iv ct. unfold cbc_decrypt, pkcs7unpad. repeat match goal with |- context [if ?b then _ else _] => destruct b; try (intro E; discriminate) end.
  all: repeat match goal with |- context [match ?b with _ => _ end] => destruct b; try (intro E; discriminate) end.
Qed.
Lemma others_fail : forall C rnd x m, CryptoOk C -> wf_state x -> wf_signal m ->
  ~ In (Byte.x05 :: sg_ratchet m) (map pc_ratchet (ss_receivers x)) ->
  (forall pt, ~ opens C x m pt) ->
  exists e, fst (decrypt_session C rnd x m) = Err e /\ e <> EDuplicate.
Proof.
  intros C rnd x m H W Wm N T. destruct (decrypt_session C rnd x m) as [o rest] eqn:D. cbn [fst].
  destruct o as [[pt s']|e|].
  - destruct (T _ (decrypt_session_sound _ _ _ _ _ _ _ H W Wm D)).
  - exists e. split; [reflexivity|]. intros ->. unfold decrypt_session in D. destruct (ss_sender x); [|discriminate]. destruct (negb _); [discriminate|].
    destruct (get_chain_key_plain C rnd x (sg_ratchet m) (chain_absent _ _ N)) as [P I0].
    pose proof Wm as (Le & Gc & Lraw & Ver).
    destruct (get_chain_key C rnd x (sg_ratchet m)) as [[[ck s1]| |] r1] eqn:Eck; cbn [fst] in *; [|apply P; congruence|discriminate].
    specialize (I0 _ _ _ eq_refl). apply (f_equal fst) in D. cbn [fst] in D. revert D.
    apply plain_bind; [apply plain_message_keys; exact I0|]. intros [mk s2]. apply plain_bind; [apply plain_remote|]. intros [rid|]; [|intro E; discriminate].
    apply plain_bind; [apply plain_new_public_key|]. intro lid. apply plain_bind; [apply plain_verify|]. intros []; cbn [negb]; [|intro E; discriminate].
    apply plain_bind; [apply plain_cbc|]. intros ? E. discriminate.
  - destruct (decrypt_session_no_panic _ _ _ _ _ H W Wm D).
Qed.
End Refuse.
