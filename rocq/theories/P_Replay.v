(** Receiving the same message again; far messages; archived sessions. *)
From Verif Require Import M_Base M_Crypto M_Aes M_Curve M_Proto M_Message M_Ratchet M_State M_Store M_Session M_Group
  S_Crypto S_Message S_State S_Shape S_Ratchet S_Session S_Aes S_Api S_Send S_Group S_Receive
  P_Base P_Proto P_Curve P_State P_Shape P_Ratchet P_Message P_Aes P_Chain P_Decrypt P_Receive P_Encrypt P_Record P_Prog
  P_Init P_Send P_Conv P_Bundle P_DecApi P_DecTop.
From Coq Require Import ZifyBool ZifyNat ZifyN.
Local Open Scope nat_scope.

Lemma receiving_chain : forall s ratchet key i ks, receiving_at s ratchet key i ks ->
  exists c, st_receiver_chain s ratchet = Some c /\ pc_key c = Some (mkPChainKey i key) /\ pc_msgkeys c = ks.
Proof.
  intros s ratchet key i ks (l1 & c & l2 & E & F & A1 & A2 & A3). exists c. split; [|auto]. unfold st_receiver_chain. rewrite E.
  clear E. induction F as [|x l1 N F IH]; cbn [app find_chain].
  - rewrite A1, bytes_eqb_refl. reflexivity.
  - destruct (bytes_eqb (pc_ratchet x) (pub_bytes ratchet)) eqn:Q; [|exact IH]. apply bytes_eqb_eq in Q. contradiction.
Qed.
Lemma chain_receiving : forall s ratchet c k, st_receiver_chain s ratchet = Some c -> pc_key c = Some k ->
  receiving_at s ratchet (pck_key k) (pck_index k) (pc_msgkeys c).
Proof.
  intros s ratchet c [i key] F Ek. unfold st_receiver_chain in F. unfold receiving_at. revert F. generalize (ss_receivers s).
  induction l as [|x l IH]; [discriminate|]. cbn [find_chain]. destruct (bytes_eqb (pc_ratchet x) (pub_bytes ratchet)) eqn:Q; intro F.
  - injection F as ->. apply bytes_eqb_eq in Q. exists [], c, l. auto.
  - destruct (IH F) as (l1 & c' & l2 & E & G & A). exists (x :: l1), c', l2. split; [cbn; congruence|]. split; [|exact A].
    constructor; [|exact G]. intro E'. rewrite E' in Q. unfold pub_bytes in Q. rewrite bytes_eqb_refl in Q. discriminate.
Qed.

(** The chain after receiving at or ahead of its position. *)
Lemma after_ahead_chain : forall C s ratchet c k n, st_receiver_chain s ratchet = Some c -> pc_key c = Some k ->
  let j := N.to_nat (n - pck_index k) in let ck := mkChainKey (pck_key k) (pck_index k) in
  st_receiver_chain (st_clear_unack (after_ahead C s ratchet k n)) ratchet =
    Some (with_chainkey (with_msgkeys c (skip_list C j ck (pc_msgkeys c))) (mkPChainKey (ck_index (ck_iter C j ck)) (ck_key (ck_iter C j ck)))).
Proof.
  intros C s ratchet c k n F Ek j ck. unfold st_receiver_chain in *. unfold after_ahead.
  cbn [ss_receivers st_clear_unack with_pending with_receivers]. rewrite find_chain_upd by reflexivity. rewrite F. reflexivity.
Qed.
Lemma iter_at : forall C key i j, go_u32 (i + N.of_nat j) ->
  ck_iter C j (mkChainKey key i) = mkChainKey (chain_at C key j) (i + N.of_nat j).
Proof.
  intros C key i j G. pose proof (ck_iter_key C j (mkChainKey key i)) as E1. pose proof (ck_iter_index C j (mkChainKey key i)) as E2.
  cbn [ck_key ck_index] in E1, E2. destruct (ck_iter C j _) as [k x]. cbn [ck_key ck_index] in *.
  rewrite E1, E2 by (unfold go_u32 in *; lia). rewrite u32_small by exact G. reflexivity.
Qed.

(** Receiving through the API in the current session. *)
Definition received_world (w : world) (a : addr) (rid : pubkey) (r' : record) : world :=
  set_sess (set_ident (if w_shared w then set_sess w a r' else w) a rid) a r'.
Lemma signal_received : forall C a rnd m w r s pt s' rest rid, CryptoOk C -> wf_device w -> wf_signal m ->
  w_sess w a = Some r -> rc_current r = Some s -> decrypt_session C rnd s m = (Ok (pt, s'), rest) ->
  ss_remote s = Byte.x05 :: rid -> w_policy w a (w_ident w a) rid Receiving = true ->
  run0 (decrypt_message C a rnd (CSignal m)) w = (Ok pt, received_world w a rid (rc_set_state r s')).
Proof.
  intros C a rnd m w r s pt s' rest rid H [W WG] Wm Er Ec D Es T. assert (Wr : wf_record r) by (eapply (proj1 W); exact Er).
  assert (Ws : wf_state s) by (apply Wr; exact Ec).
  destruct (decrypt_session_inv _ _ _ _ _ _ _ H Ws Wm D) as (Ws' & Sm & _).
  assert (Es' : ss_remote s' = pub_bytes rid) by (destruct Sm as (_ & _ & Sm & _); unfold pub_bytes; congruence).
  assert (L : List.length rid = 32). { destruct (wf_remote s Ws) as (k & L & E & _). rewrite Es in E. injection E as ->. exact L. }
  cbn [decrypt_message]. unfold run0. destruct (decrypt_signal_runs C a rnd m [] w) as [R _]. rewrite R. cbn [hd_fault tl]. rewrite Er.
  unfold signal_body, decrypt_record. rewrite Ec, D. unfold pdo at 1. cbn [run exec_f fallible exec tl].
  match goal with |- run ?p [] ?w = _ => change (run p [] w) with (run0 p w) end.
  rewrite (signal_rest_completes a pt (rc_set_state r s') _ s' rid eq_refl Es' L).
  - reflexivity.
  - destruct (w_shared w); exact T.
Qed.
Lemma received_device : forall C w a rid r s pt s' rest rnd m, CryptoOk C -> wf_device w -> wf_signal m ->
  w_sess w a = Some r -> rc_current r = Some s -> decrypt_session C rnd s m = (Ok (pt, s'), rest) ->
  wf_device (received_world w a rid (rc_set_state r s')).
Proof.
  intros C w a rid r s pt s' rest rnd m H [(W1 & W2) WG] Wm Er Ec D. assert (Wr : wf_record r) by (eapply W1; exact Er).
  destruct (decrypt_session_inv _ _ _ _ _ _ _ H (proj1 Wr s Ec) Wm D) as (Ws' & _).
  unfold received_world. destruct (w_shared w); (split; [split; [|exact W2]|exact WG]).
  all: intros b rb; cbn; destruct (addr_eqb b a); [intro E; injection E as <-; apply set_state_wf; auto|apply W1].
Qed.


(** *** C24: the three ways the current session answers a message on a known chain *)
Lemma receiving_ratchet_len : forall s ratchet key i ks, wf_state s -> receiving_at s ratchet key i ks ->
  List.length ratchet = 32 /\ go_u32 i /\ List.length ks <= 2000 /\ List.length key = 32.
Proof.
  intros s ratchet key i ks W (l1 & c & l2 & E & _ & A1 & A2 & A3). destruct (wf_receivers_of s W) as [_ F]. rewrite Forall_forall in F.
  destruct (F c) as [((k & L & Ek) & (k2 & Ek2 & G & L2) & Lm & _) _]; [rewrite E; apply in_elt|].
  rewrite A1 in Ek. injection Ek as ->. rewrite A2 in Ek2. injection Ek2 as <-. subst ks. auto.
Qed.
Lemma session_wf : forall w a s local remote, wf_device w -> session_at w a s local remote -> wf_state s.
Proof. intros w a s local remote [W _] (r & Er & Ec & _). exact (proj1 (proj1 W a r Er) s Ec). Qed.
Lemma received_at : forall C w a r s rnd m pt s' rest local remote, CryptoOk C -> wf_device w -> wf_signal m ->
  w_sess w a = Some r -> rc_current r = Some s -> ss_local s = Byte.x05 :: local -> ss_remote s = Byte.x05 :: remote ->
  trusts w a remote -> decrypt_session C rnd s m = (Ok (pt, s'), rest) ->
  exists w', run0 (decrypt_message C a rnd (CSignal m)) w = (Ok pt, w') /\
    session_at w' a s' local remote /\ wf_device w' /\ trusts w' a remote.
Proof.
  intros C w a r s rnd m pt s' rest local remote H Wd Wm Er Ec El Es [T1 T2] D.
  pose proof (signal_received C a rnd m w r s pt s' _ remote H Wd Wm Er Ec D Es T1) as R1.
  pose proof (received_device C w a remote r s pt s' _ rnd m H Wd Wm Er Ec D) as Wd1.
  destruct (decrypt_session_inv _ _ _ _ _ _ _ H (proj1 (proj1 (proj1 Wd) a r Er) s Ec) Wm D) as (_ & (_ & Q1 & Q2 & _) & _).
  eexists. split; [exact R1|]. split; [|split; [exact Wd1|]].
  - exists (rc_set_state r s'). split; [unfold received_world; cbn; rewrite addr_eqb_refl; reflexivity|]. split; [reflexivity|]. split; congruence.
  - unfold trusts, received_world. destruct (w_shared w); cbn; rewrite addr_eqb_refl; auto.
Qed.

Lemma deliver_ahead : forall C a rnd m w s ratchet key i ks local remote n pt, CryptoOk C -> wf_device w ->
  session_at w a s local remote -> receiving_at s ratchet key i ks -> trusts w a remote ->
  go_u32 n -> (i <= n <= i + 25000)%N ->
  whisper C (chain_at C key (N.to_nat (n - i))) n ratchet remote local pt m ->
  exists w1 s1, run0 (decrypt_message C a rnd (CSignal m)) w = (Ok pt, w1) /\
    session_at w1 a s1 local remote /\
    receiving_at s1 ratchet (chain_at C key (N.to_nat (n - i))) n (skip_list C (N.to_nat (n - i)) (mkChainKey key i) ks) /\
    wf_device w1 /\ trusts w1 a remote.
Proof.
  intros C a rnd m w s ratchet key i ks local remote n pt H Wd Se Rc T G J Wh.
  pose proof (session_wf _ _ _ _ _ Wd Se) as Ws. destruct Se as (r & Er & Ec & El & Es).
  destruct (receiving_ratchet_len _ _ _ _ _ Ws Rc) as (Lr & Gi & _).
  destruct (receiving_chain _ _ _ _ _ Rc) as (c & F & Ek & Em).
  pose proof (whisper_wf _ _ _ _ _ _ _ _ H Wh Lr G) as Wm.
  assert (D := decrypt_ahead C rnd s c _ n ratchet remote local pt m H Ws Lr G Es El F Ek (proj1 J) (or_introl (proj2 J)) Wh).
  destruct (received_at _ _ _ _ _ _ _ _ _ _ _ _ H Wd Wm Er Ec El Es T D) as (w1 & R & S1 & W1 & T1).
  exists w1. eexists. split; [exact R|]. split; [exact S1|]. split; [|auto].
  pose proof (after_ahead_chain C s ratchet c _ n F Ek) as F1. cbv zeta in F1. cbn [pck_index pck_key] in F1.
  assert (Ij : (i + N.of_nat (N.to_nat (n - i)) = n)%N) by lia.
  rewrite iter_at in F1 by (rewrite Ij; exact G). cbn [ck_index ck_key] in F1. rewrite Ij in F1.
  pose proof (chain_receiving _ _ _ _ F1 eq_refl) as Q. cbn [pc_msgkeys with_chainkey with_msgkeys pck_key pck_index] in Q. rewrite Em in Q. exact Q.
Qed.
Lemma deliver_saved : forall C a rnd m w s ratchet key i ks local remote n pt x mkey, CryptoOk C -> wf_device w ->
  session_at w a s local remote -> receiving_at s ratchet key i ks -> trusts w a remote ->
  go_u32 n -> (n < i)%N -> last_msgkey n ks = Some x ->
  keys_at C mkey n (mkMsgKeys (pmk_cipher x) (pmk_mac x) (pmk_iv x) n) ->
  whisper C mkey n ratchet remote local pt m ->
  exists w1 s1, run0 (decrypt_message C a rnd (CSignal m)) w = (Ok pt, w1) /\
    session_at w1 a s1 local remote /\
    receiving_at s1 ratchet key i (filter (fun k => negb (N.eqb (pmk_index k) n)) ks) /\
    wf_device w1 /\ trusts w1 a remote.
Proof.
  intros C a rnd m w s ratchet key i ks local remote n pt x mkey H Wd Se Rc T G J Lx Kx Wh.
  pose proof (session_wf _ _ _ _ _ Wd Se) as Ws. destruct Se as (r & Er & Ec & El & Es).
  destruct (receiving_ratchet_len _ _ _ _ _ Ws Rc) as (Lr & Gi & _).
  destruct (receiving_chain _ _ _ _ _ Rc) as (c & F & Ek & Em).
  pose proof (whisper_wf _ _ _ _ _ _ _ _ H Wh Lr G) as Wm. rewrite <- Em in Lx.
  assert (D := decrypt_saved C rnd s c _ n x mkey ratchet remote local pt m H Ws Lr G Es El F Ek J Lx Kx Wh).
  destruct (received_at _ _ _ _ _ _ _ _ _ _ _ _ H Wd Wm Er Ec El Es T D) as (w1 & R & S1 & W1 & T1).
  exists w1. eexists. split; [exact R|]. split; [exact S1|]. split; [|auto].
  assert (F1 : st_receiver_chain (st_clear_unack (after_saved s ratchet n)) ratchet =
     Some (with_msgkeys c (filter (fun k => negb (N.eqb (pmk_index k) n)) (pc_msgkeys c)))).
  { unfold st_receiver_chain in *. unfold after_saved. cbn [ss_receivers st_clear_unack with_pending with_receivers].
    rewrite find_chain_upd by reflexivity. rewrite F. reflexivity. }
  pose proof (chain_receiving _ _ _ _ F1 Ek) as Q. cbn [pc_msgkeys with_msgkeys pck_key pck_index] in Q. rewrite Em in Q. exact Q.
Qed.
(** A spent position: the key is gone. The error of the session is a duplicate; the call
    itself reports no error, returns nothing and leaves the sessions as they were. *)
Lemma deliver_spent : forall C a rnd m w s key i ks local remote, CryptoOk C -> wf_device w -> wf_signal m ->
  session_at w a s local remote -> receiving_at s (sg_ratchet m) key i ks -> trusts w a remote ->
  (sg_counter m < i)%N -> (forall x, In x ks -> pmk_index x <> sg_counter m) ->
  decrypt_session C rnd s m = (Err EDuplicate, rnd) /\
  exists w1, run0 (decrypt_message C a rnd (CSignal m)) w = (Ok [], w1) /\ w_sess w1 a = w_sess w a.
Proof.
  intros C a rnd m w s key i ks local remote H Wd Wm Se Rc [T1 T2] J Nx.
  pose proof (session_wf _ _ _ _ _ Wd Se) as Ws. destruct Se as (r & Er & Ec & El & Es).
  destruct (receiving_chain _ _ _ _ _ Rc) as (c & F & Ek & Em). rewrite <- Em in Nx.
  assert (D := decrypt_consumed C rnd s c _ m H Ws Wm F Ek J Nx). split; [exact D|].
  assert (L : List.length remote = 32). { destruct (wf_remote s Ws) as (k & L & E & _). rewrite Es in E. injection E as ->. exact L. }
  eexists. split.
  - cbn [decrypt_message]. unfold run0. destruct (decrypt_signal_runs C a rnd m [] w) as [R _]. rewrite R. cbn [hd_fault tl]. rewrite Er.
    unfold signal_body, decrypt_record. rewrite Ec, D.
    apply (signal_rest_completes a [] r w s remote Ec Es L T1).
  - cbn. rewrite addr_eqb_refl. auto.
Qed.

(** Refutation of C24. *)
Lemma replayed : forall C a rnd1 rnd2 m w s ratchet key i ks local remote n pt, CryptoOk C -> wf_device w ->
  session_at w a s local remote -> receiving_at s ratchet key i ks -> trusts w a remote ->
  go_u32 n -> (i <= n <= i + 25000)%N ->
  whisper C (chain_at C key (N.to_nat (n - i))) n ratchet remote local pt m ->
  exists w1 w2, run0 (decrypt_message C a rnd1 (CSignal m)) w = (Ok pt, w1) /\
    run0 (decrypt_message C a rnd2 (CSignal m)) w1 = (Ok pt, w2).
Proof.
  intros C a rnd1 rnd2 m w s ratchet key i ks local remote n pt H Wd Se Rc T G J Wh.
  destruct (deliver_ahead C a rnd1 m w s ratchet key i ks local remote n pt H Wd Se Rc T G J Wh) as (w1 & s1 & R1 & Se1 & Rc1 & W1 & T1).
  destruct (deliver_ahead C a rnd2 m w1 s1 ratchet _ n _ local remote n pt H W1 Se1 Rc1 T1 G ltac:(lia)) as (w2 & s2 & R2 & _).
  - rewrite N.sub_diag. exact Wh.
  - exists w1, w2. auto.
Qed.
Lemma last_msgkey_app : forall n l1 l2, last_msgkey n (l1 ++ l2) = match last_msgkey n l2 with Some x => Some x | None => last_msgkey n l1 end.
Proof.
  intros n l1 l2. induction l1 as [|x l1 IH]; cbn [app last_msgkey]; [destruct (last_msgkey n l2); reflexivity|].
  rewrite IH. destruct (last_msgkey n l2); reflexivity.
Qed.
Lemma keep_last_app_ge : forall {A} n (l1 l2 : list A), List.length l2 <= n -> exists l, keep_last n (l1 ++ l2) = l ++ l2.
Proof.
  intros A n l1 l2 L. unfold keep_last. rewrite app_length. exists (skipn (List.length l1 + List.length l2 - n) l1).
  rewrite skipn_app. f_equal. replace (List.length l1 + List.length l2 - n - List.length l1) with 0 by lia. reflexivity.
Qed.
(** Passing over a position saves its key (the last 2000 of them). *)
Lemma skipped_saved : forall C key i n ks, List.length ks <= 2000 -> go_u32 n -> (i < n)%N -> (n <= i + 2000)%N ->
  last_msgkey i (skip_list C (N.to_nat (n - i)) (mkChainKey key i) ks) = Some (saved C (mkChainKey key i)).
Proof.
  intros C key i n ks L G J1 J2. rewrite skip_list_keep by (rewrite max_keys_2000; exact L).
  destruct (keep_last_app_ge max_message_keys ks (map (fun j => saved C (ck_iter C j (mkChainKey key i))) (seq 0 (N.to_nat (n - i))))) as (l & ->).
  { rewrite map_length, seq_length, max_keys_2000. lia. }
  rewrite last_msgkey_app. destruct (N.to_nat (n - i)) as [|j] eqn:Ej; [lia|].
  cbn [seq map last_msgkey]. change (ck_iter C 0 (mkChainKey key i)) with (mkChainKey key i).
  match goal with |- context [last_msgkey i ?l] => assert (E : last_msgkey i l = None) end.
  { apply last_msgkey_none. intros k I. apply in_map_iff in I. destruct I as (x & <- & I). apply in_seq in I.
    rewrite iter_at by (unfold go_u32 in *; lia). unfold saved. cbn. lia. }
  rewrite E. unfold saved at 1. cbn [pmk_index mk_counter ck_message_keys]. cbn. rewrite N.eqb_refl. reflexivity.
Qed.
(** An older message is accepted once more after a later one, and only once more. *)
Lemma replayed_later : forall C a rnds m1 m2 w s ratchet key i ks local remote n1 n2 pt1 pt2, CryptoOk C -> wf_device w ->
  session_at w a s local remote -> receiving_at s ratchet key i ks -> trusts w a remote ->
  go_u32 n2 -> (i <= n1)%N -> (n1 < n2)%N -> (n2 <= n1 + 2000)%N -> (n2 <= i + 25000)%N ->
  whisper C (chain_at C key (N.to_nat (n1 - i))) n1 ratchet remote local pt1 m1 ->
  whisper C (chain_at C key (N.to_nat (n2 - i))) n2 ratchet remote local pt2 m2 ->
  exists w1 w2 w3 w4,
    run0 (decrypt_message C a (rnds 1) (CSignal m1)) w = (Ok pt1, w1) /\
    run0 (decrypt_message C a (rnds 2) (CSignal m2)) w1 = (Ok pt2, w2) /\
    run0 (decrypt_message C a (rnds 3) (CSignal m1)) w2 = (Ok pt1, w3) /\
    run0 (decrypt_message C a (rnds 4) (CSignal m1)) w3 = (Ok [], w4) /\ w_sess w4 a = w_sess w3 a.
Proof.
  intros C a rnds m1 m2 w s ratchet key i ks local remote n1 n2 pt1 pt2 H Wd Se Rc T G J1 J2 J3 J4 Wh1 Wh2.
  assert (G1 : go_u32 n1) by (unfold go_u32 in *; lia).
  destruct (deliver_ahead C a (rnds 1) m1 w s ratchet key i ks local remote n1 pt1 H Wd Se Rc T G1 ltac:(lia) Wh1) as (w1 & s1 & R1 & Se1 & Rc1 & W1 & T1).
  destruct (deliver_ahead C a (rnds 2) m2 w1 s1 ratchet _ n1 _ local remote n2 pt2 H W1 Se1 Rc1 T1 G ltac:(lia)) as (w2 & s2 & R2 & Se2 & Rc2 & W2 & T2).
  { rewrite chain_at_add. replace (N.to_nat (n1 - i) + N.to_nat (n2 - n1)) with (N.to_nat (n2 - i)) by lia. exact Wh2. }
  destruct (receiving_ratchet_len _ _ _ _ _ (session_wf _ _ _ _ _ W1 Se1) Rc1) as (Lr & _ & Lk & _).
  destruct (deliver_saved C a (rnds 3) m1 w2 s2 ratchet _ n2 _ local remote n1 pt1 _ (chain_at C key (N.to_nat (n1 - i))) H W2 Se2 Rc2 T2 G1 J2
    (skipped_saved C _ n1 n2 _ Lk G J2 J3)) as (w3 & s3 & R3 & Se3 & Rc3 & W3 & T3).
  { exact (derive_message_keys_at C (mkChainKey (chain_at C key (N.to_nat (n1 - i))) n1) H). }
  { exact Wh1. }
  destruct (whisper_fields _ _ _ _ _ _ _ _ Wh1) as (_ & Er & En).
  destruct (deliver_spent C a (rnds 4) m1 w3 s3 (chain_at C (chain_at C key (N.to_nat (n1 - i))) (N.to_nat (n2 - n1))) n2
     (filter (fun k => negb (N.eqb (pmk_index k) n1)) (skip_list C (N.to_nat (n2 - n1)) (mkChainKey (chain_at C key (N.to_nat (n1 - i))) n1)
        (skip_list C (N.to_nat (n1 - i)) (mkChainKey key i) ks))) local remote H W3) as (_ & w4 & R4 & E4).
  - exact (whisper_wf _ _ _ _ _ _ _ _ H Wh1 Lr G1).
  - exact Se3.
  - rewrite Er. exact Rc3.
  - exact T3.
  - lia.
  - intros x I. apply filter_In in I. rewrite En. intro E. rewrite E, N.eqb_refl in I. destruct I. discriminate.
  - exists w1, w2, w3, w4. auto 10.
Qed.

(** *** A spent position stays spent *)
Lemma decrypt_steps : forall C rnd s m pt s' rest, CryptoOk C -> wf_state s -> wf_signal m ->
  decrypt_session C rnd s m = (Ok (pt, s'), rest) ->
  exists s1 c k, wf_state s1 /\
    (s1 = s \/ (st_receiver_chain s (sg_ratchet m) = None /\ exists x, pc_ratchet x = pub_bytes (sg_ratchet m) /\
       ss_receivers s1 = trim_front max_receiver_chains (ss_receivers s ++ [x]))) /\
    st_receiver_chain s1 (sg_ratchet m) = Some c /\ pc_key c = Some k /\
    ((sg_counter m < pck_index k)%N /\ s' = st_clear_unack (after_saved s1 (sg_ratchet m) (sg_counter m)) \/
     (pck_index k <= sg_counter m)%N /\ s' = st_clear_unack (after_ahead C s1 (sg_ratchet m) k (sg_counter m))).
Proof.
  intros C rnd s m pt s' rest H W (Le & Gc & Lraw & Ver) E. unfold decrypt_session in E.
  pose proof W as W'. wf_split W'. rewrite Esc in E.
  rewrite (wf_version s W), Ver in E. cbn [N.eqb Pos.eqb negb] in E.
  destruct (get_chain_key C rnd s (sg_ratchet m)) as [[[ck s1]| |] r1] eqn:Eck; [|discriminate..].
  destruct (get_chain_key_wf _ _ _ _ _ _ _ W Le Eck) as (W1 & c & Fc & Ec).
  exists s1, c, (mkPChainKey (ck_index ck) (ck_key ck)). split; [exact W1|]. split; [|split; [exact Fc|split; [exact Ec|]]].
  - clear E. unfold get_chain_key in Eck. pose proof (wf_receiver_key s (sg_ratchet m) W) as R.
    destruct (st_receiver_chain s (sg_ratchet m)) as [c0|] eqn:F.
    + destruct R as (k & Ek & Gk & Lk & R). rewrite R in Eck. injection Eck as <- <- <-. left. reflexivity.
    + right. split; [reflexivity|]. rewrite R, (wf_root s W) in Eck. cbn [bind] in Eck. unfold st_sender_ratchet_priv in Eck. rewrite Esc in Eck.
      destruct (new_private_key C (pc_ratchet_priv sc)) as [ours| |] eqn:Np; cbn [bind] in Eck; [|discriminate..].
      destruct (create_chain C (ss_root s) ours (sg_ratchet m)) as [[rroot rchain]| |] eqn:Cr; [|discriminate..].
      destruct (gen_keypair C rnd) as [[kp| |] r2] eqn:Gk; [|discriminate..].
      destruct (create_chain C rroot (kp_priv kp) (sg_ratchet m)) as [[sroot schain]| |]; cbn [bind] in Eck; [|discriminate..].
      destruct (st_sender_chain_key s) as [cur| |]; cbn [bind] in Eck; [|discriminate..].
      injection Eck as <- <- <-. eexists. split; [|reflexivity]. reflexivity.
  - destruct (get_message_keys C s1 (sg_ratchet m) ck (sg_counter m)) as [[mk s2]| |] eqn:Emk; cbn [bind] in E; [|discriminate..].
    assert (Es : s' = st_clear_unack s2).
    { destruct (st_remote_identity s2) as [[rid|]| |]; cbn [bind] in E; [|discriminate..].
      destruct (st_local_identity s2) as [lid| |]; cbn [bind] in E; [|discriminate..].
      destruct (verify_mac C m (mk_mac mk) rid lid) as [[|]| |]; cbn [bind negb] in E; [|discriminate..].
      destruct (cbc_decrypt C (mk_cipher mk) (mk_iv mk) (sg_body m)); cbn [bind] in E; [|discriminate..]. congruence. }
    subst s'. cbn [pck_index].
    assert (Emk' : get_message_keys C s1 (sg_ratchet m) (mkChainKey (pck_key (mkPChainKey (ck_index ck) (ck_key ck))) (pck_index (mkPChainKey (ck_index ck) (ck_key ck)))) (sg_counter m) = Ok (mk, s2)) by (destruct ck; exact Emk).
    rewrite (get_message_keys_exact C s1 _ c _ _ H W1 Fc Ec) in Emk'. cbn [pck_index pck_key] in Emk'.
    destruct (N.ltb_spec (sg_counter m) (ck_index ck)).
    + left. split; [exact H0|]. destruct (last_msgkey _ _); [|discriminate].
      apply (f_equal (fun x => match x with Ok a => snd a | _ => s2 end)) in Emk'. cbn [snd] in Emk'. subst s2. reflexivity.
    + right. split; [exact H0|]. destruct ((_ && _)%bool); [discriminate|].
      apply (f_equal (fun x => match x with Ok a => snd a | _ => s2 end)) in Emk'. cbv zeta in Emk'. cbn [snd] in Emk'. subst s2. reflexivity.
Qed.

Lemma nodup_snoc : forall {A} (l : list A) x, NoDup l -> ~ In x l -> NoDup (l ++ [x]).
Proof.
  intros A l x D. induction D as [|y l Ny D IH]; intro Nx; cbn [app]; [constructor; [auto|constructor]|].
  constructor; [|apply IH; intro; apply Nx; right; auto]. intro I. apply in_app_iff in I. destruct I as [I|[->|[]]]; [auto|]. apply Nx. left. auto.
Qed.
Definition spent_chain (s : state) (ratchet : bytes) (n : N) : Prop :=
  exists c k, st_receiver_chain s ratchet = Some c /\ pc_key c = Some k /\ (n < pck_index k)%N /\ forall x, In x (pc_msgkeys c) -> pmk_index x <> n.
Lemma spent_iff : forall s ratchet n, spent s ratchet n <-> spent_chain s ratchet n.
Proof.
  intros s ratchet n. split.
  - intros (key & i & ks & R & J & F). destruct (receiving_chain _ _ _ _ _ R) as (c & A & B & <-). exists c. eexists. eauto.
  - intros (c & k & A & B & J & F). exists (pck_key k), (pck_index k), (pc_msgkeys c). split; [|auto]. exact (chain_receiving _ _ _ _ A B).
Qed.
Lemma trim_find : forall key n l x c, NoDup (map pc_ratchet (l ++ [x])) -> find_chain key l = Some c ->
  In key (map pc_ratchet (trim_front n (l ++ [x]))) -> find_chain key (trim_front n (l ++ [x])) = Some c.
Proof.
  intros key n l x c D F I. unfold trim_front in *. destruct (n <? _) eqn:Q.
  - destruct l as [|y l]; [discriminate|]. cbn [app skipn] in *. cbn [find_chain] in F. destruct (bytes_eqb (pc_ratchet y) key) eqn:B.
    + apply bytes_eqb_eq in B. cbn [map] in D. inversion D. subst. contradiction.
    + rewrite find_chain_app, F. reflexivity.
  - rewrite find_chain_app, F. reflexivity.
Qed.
Lemma nodup_trim : forall {A} (f : A -> bytes) n l, NoDup (map f l) -> NoDup (map f (trim_front n l)).
Proof.
  intros A f n l D. unfold trim_front. destruct (n <? _); [|exact D]. destruct l; [exact D|]. cbn [map skipn] in *. inversion D. auto.
Qed.
Lemma skip_list_in : forall C n ck l x, (ck_index ck + N.of_nat n < 4294967296)%N -> In x (skip_list C n ck l) -> In x l \/ (ck_index ck <= pmk_index x)%N.
Proof.
  intros C n. induction n as [|n IH]; intros ck l x G I; cbn [skip_list] in I; [auto|].
  assert (E : ck_index (ck_next C ck) = (ck_index ck + 1)%N) by (unfold ck_next; cbn [ck_index]; apply u32_small; unfold two32; clear - G; lia).
  apply IH in I; [|rewrite E; lia]. destruct I as [I|I].
  - apply trim_front_in in I. apply in_app_iff in I. destruct I as [I|[<-|[]]]; [auto|]. right. unfold saved. cbn. lia.
  - right. lia.
Qed.
Lemma spent_step : forall C ratchet n rnd s m pt s' rest, CryptoOk C -> wf_state s -> wf_signal m ->
  NoDup (map pc_ratchet (ss_receivers s)) -> spent_chain s ratchet n ->
  decrypt_session C rnd s m = (Ok (pt, s'), rest) -> In (Byte.x05 :: ratchet) (map pc_ratchet (ss_receivers s')) ->
  spent_chain s' ratchet n /\ NoDup (map pc_ratchet (ss_receivers s')).
Proof.
  intros C ratchet n rnd s m pt s' rest H W Wm D Sp E I.
  destruct (decrypt_steps _ _ _ _ _ _ _ H W Wm E) as (s1 & c & k & W1 & Es1 & Fc & Ek & Es').
  assert (Gc : go_u32 (sg_counter m)) by apply Wm.
  assert (D1 : NoDup (map pc_ratchet (ss_receivers s1))).
  { destruct Es1 as [->|(F & x & Ex & ->)]; [exact D|]. apply nodup_trim. rewrite map_app. cbn [map].
    apply find_chain_none in F. rewrite Ex. apply nodup_snoc; auto. }
  assert (Ers : map pc_ratchet (ss_receivers s') = map pc_ratchet (ss_receivers s1)).
  { destruct Es' as [[_ ->]|[_ ->]]; unfold after_saved, after_ahead; cbn [ss_receivers st_clear_unack with_pending with_receivers];
      apply upd_chain_ratchets; reflexivity. }
  rewrite Ers in I |- *. split; [|exact D1].
  destruct Sp as (c0 & k0 & F0 & Ek0 & J0 & N0).
  assert (F1 : st_receiver_chain s1 ratchet = Some c0).
  { destruct Es1 as [->|(F & x & Ex & Er)]; [exact F0|]. unfold st_receiver_chain in *. rewrite Er in I |- *. apply trim_find; auto.
    rewrite map_app. cbn [map]. apply find_chain_none in F. rewrite Ex. apply nodup_snoc; auto. }
  destruct (list_eq_dec Byte.byte_eq_dec (sg_ratchet m) ratchet) as [<-|Ne].
  - rewrite F1 in Fc. injection Fc as ->. rewrite Ek0 in Ek. injection Ek as ->.
    destruct Es' as [[J ->]|[J ->]]; unfold spent_chain.
    + exists (with_msgkeys c (filter (fun k => negb (N.eqb (pmk_index k) (sg_counter m))) (pc_msgkeys c))), k. split; [|split; [exact Ek0|split; [exact J0|]]].
      * unfold st_receiver_chain in *. unfold after_saved. cbn [ss_receivers st_clear_unack with_pending with_receivers].
        rewrite find_chain_upd by reflexivity. rewrite F1. reflexivity.
      * cbn [pc_msgkeys with_msgkeys]. intros x Ix. apply filter_In in Ix. apply N0. tauto.
    + pose proof (after_ahead_chain C s1 (sg_ratchet m) c k (sg_counter m) F1 Ek0) as F2. cbv zeta in F2.
      eexists. eexists. split; [exact F2|]. split; [reflexivity|]. cbn [pck_index pc_msgkeys with_chainkey with_msgkeys].
      destruct k as [i key]. cbn [pck_index pck_key] in *. split.
      * rewrite iter_at by (unfold go_u32 in *; lia). cbn [ck_index]. lia.
      * intros x Ix. apply skip_list_in in Ix; [|cbn [ck_index]; unfold go_u32 in *; lia]. destruct Ix as [Ix|Ix]; [apply N0; exact Ix|]. cbn [ck_index] in Ix. lia.
  - assert (F2 : st_receiver_chain s' ratchet = Some c0).
    { unfold st_receiver_chain in *. destruct Es' as [[_ ->]|[_ ->]]; unfold after_saved, after_ahead; cbn [ss_receivers st_clear_unack with_pending with_receivers];
        (rewrite find_chain_upd_neq; [exact F1|reflexivity|unfold pub_bytes; congruence]). }
    exists c0, k0. auto.
Qed.
Lemma evolves_spent : forall C ratchet n s s', CryptoOk C -> evolves C ratchet s s' -> wf_state s -> NoDup (map pc_ratchet (ss_receivers s)) ->
  spent s ratchet n -> wf_state s' /\ NoDup (map pc_ratchet (ss_receivers s')) /\ spent s' ratchet n.
Proof.
  intros C ratchet n s s' H E. induction E as [s|s pt out s1 rid s2 En E IH|s rnd m pt s1 rest s2 Wm D In1 E IH]; intros W Nd Sp.
  - auto.
  - destruct (encrypt_state_wf _ _ _ _ _ _ H W En) as (W1 & _ & _ & _ & _ & R1 & _). apply IH; [exact W1|rewrite R1; exact Nd|].
    apply spent_iff. apply spent_iff in Sp. destruct Sp as (c & k & F & X). exists c, k. split; [|exact X]. unfold st_receiver_chain in *. rewrite R1. exact F.
  - apply spent_iff in Sp. destruct (spent_step _ _ _ _ _ _ _ _ _ H W Wm Nd Sp D In1) as [Sp1 Nd1].
    destruct (decrypt_session_inv _ _ _ _ _ _ _ H W Wm D) as (W1 & _). apply IH; [exact W1|exact Nd1|]. apply spent_iff. exact Sp1.
Qed.
Lemma spent_rejected : forall C rnd s s' m, CryptoOk C -> wf_state s -> NoDup (map pc_ratchet (ss_receivers s)) -> wf_signal m ->
  spent s (sg_ratchet m) (sg_counter m) -> evolves C (sg_ratchet m) s s' -> decrypt_session C rnd s' m = (Err EDuplicate, rnd).
Proof.
  intros C rnd s s' m H W Nd Wm Sp E. destruct (evolves_spent _ _ _ _ _ H E W Nd Sp) as (W' & _ & Sp').
  apply spent_iff in Sp'. destruct Sp' as (c & k & F & Ek & J & Nx). exact (decrypt_consumed C rnd s' c k m H W' Wm F Ek J Nx).
Qed.
(** Decrypting with a saved key spends the position. *)
Lemma saved_spends : forall C rnd s m pt s' rest key i ks, CryptoOk C -> wf_state s -> wf_signal m ->
  receiving_at s (sg_ratchet m) key i ks -> (sg_counter m < i)%N ->
  decrypt_session C rnd s m = (Ok (pt, s'), rest) -> spent s' (sg_ratchet m) (sg_counter m).
Proof.
  intros C rnd s m pt s' rest key i ks H W Wm R J E. destruct (receiving_chain _ _ _ _ _ R) as (c & F & Ek & Em).
  destruct (decrypt_steps _ _ _ _ _ _ _ H W Wm E) as (s1 & c' & k & W1 & [->|(F' & _)] & Fc & Ek' & Es'); [|congruence].
  rewrite F in Fc. injection Fc as <-. rewrite Ek in Ek'. injection Ek' as <-. cbn [pck_index] in Es'. destruct Es' as [[_ ->]|[J' _]]; [|lia].
  apply spent_iff. exists (with_msgkeys c (filter (fun k => negb (N.eqb (pmk_index k) (sg_counter m))) (pc_msgkeys c))), (mkPChainKey i key).
  split; [|split; [exact Ek|split; [exact J|]]].
  - unfold st_receiver_chain in *. unfold after_saved. cbn [ss_receivers st_clear_unack with_pending with_receivers].
    rewrite find_chain_upd by reflexivity. rewrite F. reflexivity.
  - cbn [pc_msgkeys with_msgkeys]. intros x Ix. apply filter_In in Ix. destruct (N.eqb_spec (pmk_index x) (sg_counter m)); [destruct Ix; discriminate|auto].
Qed.
