(** The double ratchet, one party at a time. *)
From Verif Require Import M_Base M_Crypto M_Aes M_Curve M_Proto M_Message M_Ratchet M_State M_Store M_Session
  S_Crypto S_Message S_State S_Shape S_Ratchet S_Session S_Aes S_Conv
  P_Base P_Proto P_Curve P_State P_Shape P_Ratchet P_Message P_Aes P_Chain P_Decrypt P_Receive P_Encrypt P_Record P_Init.
From Coq Require Import ZifyBool ZifyNat ZifyN.
Local Open Scope nat_scope.

Section Conv.
Variable C : Crypto.
Hypothesis H : CryptoOk C.
(** X3DH output: root key and the responder's first chain key. *)
Variables root0 chain0 : bytes.
Hypothesis Lroot0 : List.length root0 = 32.
Hypothesis Lchain0 : List.length chain0 = 32.

(** Ratchet private keys by epoch. *)
Definition kkey (ks : list bytes) (k : nat) : bytes := nth k ks [].
Definition kpub (ks : list bytes) (k : nat) : pubkey := mont_pub C (kkey ks k).
(** Root and chain key of each epoch. *)
Fixpoint sched (ks : list bytes) (k : nat) : bytes * bytes :=
  match k with
  | O => (root0, chain0)
  | S j => let d := rfc_hkdf C (Some (fst (sched ks j))) (c_x25519 C (kkey ks (S j)) (kpub ks j))
                      (str "WhisperRatchet") 64 in (firstn 32 d, skipn 32 d)
  end.
Definition kroot ks k := fst (sched ks k).
Definition kchain ks k := snd (sched ks k).

Definition keys_ok (ks : list bytes) : Prop :=
  Forall (fun k => List.length k = 32) ks /\ NoDup (map (mont_pub C) ks).

Lemma kkey_app : forall ks x k, k < List.length ks -> kkey (ks ++ x) k = kkey ks k.
Proof. intros. unfold kkey. apply app_nth1. assumption. Qed.
Lemma sched_app : forall ks x k, k < List.length ks -> sched (ks ++ x) k = sched ks k.
Proof.
  intros ks x k. induction k as [|k IH]; intro L; [reflexivity|]. cbn [sched].
  unfold kpub. rewrite IH by lia. rewrite !kkey_app by lia. reflexivity.
Qed.
Lemma kpub_app : forall ks x k, k < List.length ks -> kpub (ks ++ x) k = kpub ks k.
Proof. intros. unfold kpub. rewrite kkey_app by assumption. reflexivity. Qed.
Lemma kchain_app : forall ks x k, k < List.length ks -> kchain (ks ++ x) k = kchain ks k.
Proof. intros. unfold kchain. rewrite sched_app by assumption. reflexivity. Qed.
Lemma kroot_app : forall ks x k, k < List.length ks -> kroot (ks ++ x) k = kroot ks k.
Proof. intros. unfold kroot. rewrite sched_app by assumption. reflexivity. Qed.
Lemma kpub_len : forall ks k, List.length (kpub ks k) = 32.
Proof. intros. unfold kpub, mont_pub. apply ed_to_mont_length. Qed.
Lemma kkey_len : forall ks k, keys_ok ks -> k < List.length ks -> List.length (kkey ks k) = 32.
Proof. intros ks k [F _] L. rewrite Forall_forall in F. apply F. apply nth_In. exact L. Qed.
Lemma kpub_inj : forall ks i j, keys_ok ks -> i < List.length ks -> j < List.length ks -> kpub ks i = kpub ks j -> i = j.
Proof.
  intros ks i j [_ ND] Li Lj E. apply (proj1 (NoDup_nth (map (mont_pub C) ks) (mont_pub C [])) ND); rewrite ?map_length; auto.
  rewrite !map_nth. exact E.
Qed.
Lemma rfc_len : forall salt secret info n, n <= 255 * 32 -> List.length (rfc_hkdf C salt secret info n) = n.
Proof. intros. rewrite <- hkdf_rfc. apply hkdf_length; auto. Qed.
Lemma sched_len : forall ks k, List.length (kroot ks k) = 32 /\ List.length (kchain ks k) = 32.
Proof.
  intros ks [|k]; [split; [exact Lroot0|exact Lchain0]|]. unfold kroot, kchain. cbn [sched fst snd].
  rewrite firstn_length, skipn_length, rfc_len by lia. auto.
Qed.

(** Both ways of computing an epoch's keys. *)
Lemma all_zero_x : forall a b, List.length a = 32 -> List.length b = 32 -> all_zero (c_x25519 C a (mont_pub C b)) = false.
Proof. intros. apply (ok_dh_nz C H); auto. Qed.

Lemma create_from : forall root priv u sec, List.length root = 32 -> List.length u = 32 ->
  c_x25519 C (sk_ecdh priv) u = sec -> all_zero sec = false ->
  let d := rfc_hkdf C (Some root) sec (str "WhisperRatchet") 64 in
  create_chain C root priv u = Ok (firstn 32 d, mkChainKey (skipn 32 d) 0).
Proof.
  intros root priv u sec Lr Lu E Z d. unfold create_chain, agreement. rewrite Lu. cbn [Nat.eqb negb]. rewrite E, Z. cbn [bind].
  assert (L : List.length d = 64) by (apply rfc_len; lia). rewrite hkdf_rfc.
  change (rfc_hkdf C (Some root) sec (str "WhisperRatchet") 64) with d. clearbody d. cbv zeta.
  unfold new_root_key, new_chain_key. rewrite firstn_length, skipn_length, L. reflexivity.
Qed.
Definition holds (priv : privkey) (key : bytes) : Prop := sk_ecdh priv = key \/ sk_ecdh priv = clamp key.
Lemma holds_x : forall priv key u, holds priv key -> List.length key = 32 -> c_x25519 C (sk_ecdh priv) u = c_x25519 C key u.
Proof. intros priv key u [-> | ->] L; [reflexivity|]. apply (ok_x_clamp C H). exact L. Qed.

Lemma create_send : forall ks j priv, keys_ok ks -> S j < List.length ks -> holds priv (kkey ks (S j)) ->
  create_chain C (kroot ks j) priv (kpub ks j) = Ok (kroot ks (S j), mkChainKey (kchain ks (S j)) 0).
Proof.
  intros ks j priv K L Hp. pose proof (kkey_len ks (S j) K L) as L1. pose proof (kkey_len ks j K ltac:(lia)) as L0.
  rewrite (create_from _ _ _ (c_x25519 C (kkey ks (S j)) (kpub ks j))).
  - reflexivity.
  - apply sched_len.
  - apply kpub_len.
  - apply holds_x; auto.
  - apply all_zero_x; auto.
Qed.
Lemma create_recv : forall ks j priv, keys_ok ks -> S j < List.length ks -> holds priv (kkey ks j) ->
  create_chain C (kroot ks j) priv (kpub ks (S j)) = Ok (kroot ks (S j), mkChainKey (kchain ks (S j)) 0).
Proof.
  intros ks j priv K L Hp. pose proof (kkey_len ks (S j) K L) as L1. pose proof (kkey_len ks j K ltac:(lia)) as L0.
  rewrite (create_from _ _ _ (c_x25519 C (kkey ks (S j)) (kpub ks j))).
  - reflexivity.
  - apply sched_len.
  - apply kpub_len.
  - rewrite holds_x with (key := kkey ks j) by auto. unfold kpub. apply (ok_dh C H); auto.
  - apply all_zero_x; auto.
Qed.

(** Saved keys by position. *)
Definition pos_key (chain : bytes) (n : N) : chainkey := mkChainKey (chain_at C chain (N.to_nat n)) n.
Definition pos_saved (chain : bytes) (n : N) : pmsgkey := saved C (pos_key chain n).

Definition view_ok (ks : list bytes) (v : rview) (c : pchain) : Prop :=
  pc_ratchet c = pub_bytes (kpub ks (rv_epoch v)) /\
  pc_key c = Some (mkPChainKey (rv_idx v) (chain_at C (kchain ks (rv_epoch v)) (N.to_nat (rv_idx v)))) /\
  pc_msgkeys c = map (pos_saved (kchain ks (rv_epoch v))) (rv_saved v) /\
  Forall (fun n => (n < rv_idx v)%N) (rv_saved v) /\ go_u32 (rv_idx v) /\ pc_ratchet_priv c = [].

Definition party_ok (ks : list bytes) (me peer : pubkey) (p : party) (s : state) : Prop :=
  wf_state s /\ ss_local s = pub_bytes me /\ ss_remote s = pub_bytes peer /\
  p_epoch p < List.length ks /\ ss_root s = kroot ks (p_epoch p) /\
  (exists sc, ss_sender s = Some sc /\ pc_ratchet sc = pub_bytes (kpub ks (p_epoch p)) /\
     pc_ratchet_priv sc = clamp (kkey ks (p_epoch p)) /\
     pc_key sc = Some (mkPChainKey (p_sent p) (chain_at C (kchain ks (p_epoch p)) (N.to_nat (p_sent p)))) /\ pc_msgkeys sc = []) /\
  go_u32 (p_sent p) /\
  Forall2 (view_ok ks) (p_views p) (ss_receivers s) /\
  NoDup (map rv_epoch (p_views p)) /\
  Forall (fun v => rv_epoch v < p_epoch p) (p_views p).

Lemma party_ok_app : forall ks x me peer p s, party_ok ks me peer p s -> party_ok (ks ++ x) me peer p s.
Proof.
  intros ks x me peer p s (W & E1 & E2 & L & R & (sc & S1 & S2 & S3 & S4) & G & F & ND & Lt).
  split; [exact W|]. split; [exact E1|]. split; [exact E2|]. split; [rewrite app_length; lia|].
  split; [rewrite kroot_app; auto|].
  split; [exists sc; rewrite kpub_app, kkey_app, kchain_app by exact L; auto|].
  split; [exact G|]. split; [|auto].
  assert (X : forall v c, rv_epoch v < List.length ks -> view_ok ks v c -> view_ok (ks ++ x) v c).
  { intros v c Lv (A & B & D & E & G'). unfold view_ok. rewrite kpub_app, kchain_app by exact Lv. auto. }
  clear ND. induction F as [|v c vs cs V F IH]; constructor; inversion Lt; subst; auto. apply X; [lia|exact V].
Qed.

(** *** Finding a chain *)
Lemma find_view : forall ks vs cs v, keys_ok ks -> Forall2 (view_ok ks) vs cs -> NoDup (map rv_epoch vs) ->
  Forall (fun v => rv_epoch v < List.length ks) vs -> In v vs ->
  exists c, find_chain (pub_bytes (kpub ks (rv_epoch v))) cs = Some c /\ view_ok ks v c.
Proof.
  intros ks vs cs v K F. induction F as [|v0 c0 vs cs V F IH]; intros ND Lt I; [destruct I|].
  inversion ND as [|? ? N1 N2]; subst. inversion Lt as [|? ? L1 L2]; subst. cbn [find_chain].
  destruct V as (V1 & V2). rewrite V1.
  destruct (bytes_eqb (pub_bytes (kpub ks (rv_epoch v0))) (pub_bytes (kpub ks (rv_epoch v)))) eqn:Q.
  - apply bytes_eqb_eq, pub_bytes_inj in Q. rewrite Forall_forall in L2.
    destruct I as [<-|I].
    + exists c0. split; [reflexivity|]. split; auto.
    + exfalso. apply kpub_inj in Q; auto. apply N1. rewrite Q. apply in_map. exact I.
  - destruct I as [<-|I]; [rewrite bytes_eqb_refl in Q; discriminate|]. auto.
Qed.
Lemma find_no_view : forall ks vs cs k, keys_ok ks -> Forall2 (view_ok ks) vs cs ->
  Forall (fun v => rv_epoch v < List.length ks) vs -> k < List.length ks -> ~ In k (map rv_epoch vs) ->
  find_chain (pub_bytes (kpub ks k)) cs = None.
Proof.
  intros ks vs cs k K F. induction F as [|v0 c0 vs cs V F IH]; intros Lt Lk N; [reflexivity|].
  inversion Lt as [|? ? L1 L2]; subst. cbn [find_chain map] in *. destruct V as (V1 & V2). rewrite V1.
  destruct (bytes_eqb (pub_bytes (kpub ks (rv_epoch v0))) (pub_bytes (kpub ks k))) eqn:Q.
  - apply bytes_eqb_eq, pub_bytes_inj in Q. apply kpub_inj in Q; auto. exfalso. apply N. left. exact Q.
  - apply IH; auto. intro Q'. apply N. right. exact Q'.
Qed.
(** Updating the chain of one epoch. *)
Lemma upd_view : forall ks vs cs k f g, keys_ok ks -> Forall2 (view_ok ks) vs cs -> NoDup (map rv_epoch vs) ->
  Forall (fun v => rv_epoch v < List.length ks) vs -> k < List.length ks ->
  (forall v c, In v vs -> rv_epoch v = k -> view_ok ks v c -> view_ok ks (g v) (f c)) ->
  Forall2 (view_ok ks) (map (fun v => if Nat.eqb (rv_epoch v) k then g v else v) vs)
                       (upd_chain (pub_bytes (kpub ks k)) f cs).
Proof.
  intros ks vs cs k f g K F. induction F as [|v0 c0 vs cs V F IH]; intros ND Lt Lk G; [constructor|].
  inversion ND as [|? ? N1 N2]; subst. inversion Lt as [|? ? L1 L2]; subst. cbn [map upd_chain].
  pose proof V as (V1 & _). rewrite V1. destruct (Nat.eqb_spec (rv_epoch v0) k) as [E|E].
  - rewrite E, bytes_eqb_refl. constructor; [apply G; auto; left; reflexivity|].
    rewrite map_ext_in with (g := fun v => v).
    + rewrite map_id. exact F.
    + intros v I. destruct (Nat.eqb_spec (rv_epoch v) k); [|reflexivity]. exfalso. apply N1.
      replace (rv_epoch v0) with (rv_epoch v) by congruence. apply in_map. exact I.
  - destruct (bytes_eqb (pub_bytes (kpub ks (rv_epoch v0))) (pub_bytes (kpub ks k))) eqn:Q.
    { apply bytes_eqb_eq, pub_bytes_inj in Q. apply kpub_inj in Q; auto. contradiction. }
    constructor; [exact V|]. apply IH; auto. intros v c I. apply G. right. exact I.
Qed.

Lemma chain_at_add : forall k n m, chain_at C (chain_at C k n) m = chain_at C k (n + m).
Proof.
  intros k n m. unfold chain_at. rewrite Nat.add_comm. induction m as [|m IH]; [reflexivity|].
  change (S m + n) with (S (m + n)). cbn [Nat.iter nat_rect]. f_equal. exact IH.
Qed.
Lemma iter_pos : forall chain i j, go_u32 (i + N.of_nat j) ->
  ck_iter C j (mkChainKey (chain_at C chain (N.to_nat i)) i) = pos_key chain (i + N.of_nat j).
Proof.
  intros chain i j G. pose proof (ck_iter_key C j (mkChainKey (chain_at C chain (N.to_nat i)) i)) as E1.
  pose proof (ck_iter_index C j (mkChainKey (chain_at C chain (N.to_nat i)) i)) as E2.
  cbn [ck_key ck_index] in E1, E2. destruct (ck_iter C j _) as [k x]. cbn [ck_key ck_index] in *. unfold pos_key.
  rewrite E1, E2 by (unfold go_u32 in *; lia). rewrite u32_small by exact G. f_equal.
  rewrite chain_at_add. f_equal. lia.
Qed.
Lemma positions_saved : forall chain i n, (i <= n)%N -> go_u32 n ->
  map (fun j => saved C (ck_iter C j (mkChainKey (chain_at C chain (N.to_nat i)) i))) (seq 0 (N.to_nat (n - i))) =
  map (pos_saved chain) (positions i n).
Proof.
  intros chain i n L G. unfold positions. rewrite map_map. apply map_ext_in. intros j I. apply in_seq in I.
  unfold pos_saved. rewrite iter_pos; [reflexivity|]. unfold go_u32 in *. lia.
Qed.
Lemma positions_lt : forall i n, Forall (fun x => (x < n)%N) (positions i n).
Proof. intros i n. unfold positions. apply Forall_forall. intros x I. apply in_map_iff in I. destruct I as (j & <- & I). apply in_seq in I. lia. Qed.
Lemma last_n_keep : forall {A} n (l : list A), last_n n l = keep_last n l.
Proof. reflexivity. Qed.
Lemma filter_map_saved : forall chain n l,
  filter (fun k => negb (N.eqb (pmk_index k) n)) (map (pos_saved chain) l) =
  map (pos_saved chain) (filter (fun i => negb (N.eqb i n)) l).
Proof.
  intros chain n l. induction l as [|i l IH]; [reflexivity|]. cbn [map filter].
  change (pmk_index (pos_saved chain i)) with i. destruct (N.eqb i n); cbn [negb]; [exact IH|]. cbn [map]. f_equal. exact IH.
Qed.
Lemma forall_last_n : forall {A} (P : A -> Prop) n l, Forall P l -> Forall P (last_n n l).
Proof. intros. rewrite last_n_keep. apply keep_last_forall. assumption. Qed.

Lemma view_ahead : forall ks v c n, (rv_idx v <= n)%N -> go_u32 n ->
  List.length (pc_msgkeys c) <= 2000 -> view_ok ks v c ->
  let j := N.to_nat (n - rv_idx v) in
  let ck := mkChainKey (chain_at C (kchain ks (rv_epoch v)) (N.to_nat (rv_idx v))) (rv_idx v) in
  view_ok ks (view_after n v)
    (with_chainkey (with_msgkeys c (skip_list C j ck (pc_msgkeys c)))
      (mkPChainKey (ck_index (ck_iter C j ck)) (ck_key (ck_iter C j ck)))).
Proof.
  intros ks v c n L G Lm (V1 & V2 & V3 & V4 & V5) j ck. unfold view_after.
  destruct (N.ltb_spec n (rv_idx v)); [lia|]. unfold view_ok.
  cbn [rv_epoch rv_idx rv_saved pc_ratchet pc_key pc_msgkeys with_chainkey with_msgkeys].
  assert (Ej : (rv_idx v + N.of_nat j = n)%N) by (unfold j; lia).
  assert (It : ck_iter C j ck = pos_key (kchain ks (rv_epoch v)) n).
  { unfold ck. rewrite iter_pos; rewrite Ej; auto. }
  split; [exact V1|]. split; [rewrite It; reflexivity|]. split; [|split; [|split; [exact G|exact (proj2 V5)]]].
  - rewrite skip_list_keep by exact Lm. rewrite V3. unfold ck, j. rewrite positions_saved by auto.
    rewrite <- map_app, keep_last_map. reflexivity.
  - apply forall_last_n. apply Forall_app. split; [|apply positions_lt].
    eapply Forall_impl; [|exact V4]. cbn. intros; lia.
Qed.
Lemma view_saved : forall ks v c n, (n < rv_idx v)%N -> view_ok ks v c ->
  view_ok ks (view_after n v) (with_msgkeys c (filter (fun k => negb (N.eqb (pmk_index k) n)) (pc_msgkeys c))).
Proof.
  intros ks v c n L (V1 & V2 & V3 & V4 & V5). unfold view_after. destruct (N.ltb_spec n (rv_idx v)); [|lia].
  unfold view_ok. cbn [rv_epoch rv_idx rv_saved pc_ratchet pc_key pc_msgkeys with_msgkeys].
  split; [exact V1|]. split; [exact V2|]. split; [rewrite V3; apply filter_map_saved|]. split; [|exact V5].
  apply Forall_forall. intros x I. apply filter_In in I. rewrite Forall_forall in V4. apply V4. apply I.
Qed.
Lemma last_saved : forall chain n l, In n l -> last_msgkey n (map (pos_saved chain) l) = Some (pos_saved chain n).
Proof.
  intros chain n l. induction l as [|i l IH]; intro I; [destruct I|]. cbn [map last_msgkey].
  destruct (in_dec N.eq_dec n l) as [Q|Q].
  - rewrite (IH Q). reflexivity.
  - assert (Z : last_msgkey n (map (pos_saved chain) l) = None).
    { apply last_msgkey_none. intros k K. apply in_map_iff in K. destruct K as (x & <- & K).
      change (pmk_index (pos_saved chain x)) with x. congruence. }
    rewrite Z. destruct I as [->|I]; [|contradiction]. change (pmk_index (pos_saved chain n)) with n.
    rewrite N.eqb_refl. reflexivity.
Qed.
Lemma pos_saved_keys : forall chain n,
  keys_at C (chain_at C chain (N.to_nat n)) n
    (mkMsgKeys (pmk_cipher (pos_saved chain n)) (pmk_mac (pos_saved chain n)) (pmk_iv (pos_saved chain n)) n).
Proof.
  intros chain n. pose proof (derive_message_keys_at C (pos_key chain n) H) as K.
  unfold pos_saved, saved. cbn [pmk_cipher pmk_mac pmk_iv].
  destruct (ck_message_keys C (pos_key chain n)) as [a b d i] eqn:E. cbn [mk_cipher mk_mac mk_iv].
  destruct K as (K1 & K2 & K3 & K4 & K5). cbn [mk_counter pos_key ck_index] in K5. subst i. unfold keys_at.
  cbn [mk_cipher mk_mac mk_iv mk_counter] in *. auto.
Qed.
Lemma views_lt_keys : forall ks me peer p s, party_ok ks me peer p s ->
  Forall (fun v => rv_epoch v < List.length ks) (p_views p).
Proof. intros ks me peer p s (_ & _ & _ & L & _ & _ & _ & _ & _ & F). eapply Forall_impl; [|exact F]. cbn. intros; lia. Qed.

Definition kept (s s' : state) : Prop :=
  ss_alice_base s' = ss_alice_base s /\ ss_pending s' = None /\ ss_local_reg s' = ss_local_reg s /\
  ss_remote_reg s' = ss_remote_reg s.

(** *** Receiving *)
Lemma recv_known : forall ks me peer p s k n pt m rnd v, keys_ok ks -> party_ok ks me peer p s ->
  In v (p_views p) -> rv_epoch v = k -> go_u32 n ->
  ((rv_idx v <= n <= rv_idx v + 25000)%N \/ (n < rv_idx v)%N /\ In n (rv_saved v)) ->
  whisper C (chain_at C (kchain ks k) (N.to_nat n)) n (kpub ks k) peer me pt m ->
  exists s', decrypt_session C rnd s m = (Ok (pt, s'), rnd) /\ party_ok ks me peer (party_after p k n) s' /\ kept s s'.
Proof.
  intros ks me peer p s k n pt m rnd v K P I Ev G J Wh. pose proof (views_lt_keys _ _ _ _ _ P) as VL.
  pose proof P as (W & E1 & E2 & L & R & (sc & S1 & S2 & S3 & S4) & Gs & F & ND & Lt).
  assert (Lk : k < List.length ks) by (rewrite Forall_forall in VL; rewrite <- Ev; auto).
  destruct (find_view ks _ _ v K F ND VL I) as (c & Fc & V). rewrite Ev in Fc.
  pose proof V as (V1 & V2 & V3 & V4 & V5). rewrite Ev in V2, V3.
  assert (Pa : party_after p k n = mkParty (p_epoch p) (p_sent p)
         (map (fun v => if Nat.eqb (rv_epoch v) k then view_after n v else v) (p_views p))).
  { unfold party_after. destruct (Nat.eqb_spec k (S (p_epoch p))) as [Q|]; [|reflexivity].
    rewrite Forall_forall in Lt. specialize (Lt v I). lia. }
  assert (Fin : forall f, (forall v c, In v (p_views p) -> rv_epoch v = k -> In c (ss_receivers s) -> view_ok ks v c -> view_ok ks (view_after n v) (f c)) ->
    forall s', s' = st_clear_unack (with_receivers s (upd_chain (pub_bytes (kpub ks k)) f (ss_receivers s))) -> wf_state s' ->
    party_ok ks me peer (party_after p k n) s' /\ kept s s').
  { intros f Hf s' Es Ws. rewrite Pa. split; [|subst s'; unfold kept; cbn; auto].
    split; [exact Ws|]. subst s'. cbn [ss_local ss_remote ss_root ss_sender ss_receivers st_clear_unack with_pending with_receivers p_epoch p_sent p_views].
    split; [exact E1|]. split; [exact E2|]. split; [exact L|]. split; [exact R|]. split; [exists sc; auto|]. split; [exact Gs|].
    split; [|split].
    - assert (Hf' : forall v c, In v (p_views p) -> rv_epoch v = k -> view_ok ks v c -> In c (ss_receivers s) -> view_ok ks (view_after n v) (f c)) by auto.
      clear - K F ND VL Lk Hf'. revert Hf' F ND VL. generalize (ss_receivers s) (p_views p). intros cs vs Hf F. revert Hf.
      induction F as [|v0 c0 vs cs V F IH]; intros Hf ND Lt; [constructor|].
      inversion ND as [|? ? N1 N2]; subst. inversion Lt as [|? ? L1 L2]; subst. cbn [map upd_chain].
      pose proof V as (V1 & _). rewrite V1. destruct (Nat.eqb_spec (rv_epoch v0) k) as [E|E].
      + rewrite E, bytes_eqb_refl. constructor; [apply Hf; auto; left; reflexivity|].
        rewrite map_ext_in with (g := fun v => v); [rewrite map_id; exact F|].
        intros v I. destruct (Nat.eqb_spec (rv_epoch v) k); [|reflexivity]. exfalso. apply N1.
        replace (rv_epoch v0) with (rv_epoch v) by congruence. apply in_map. exact I.
      + destruct (bytes_eqb (pub_bytes (kpub ks (rv_epoch v0))) (pub_bytes (kpub ks k))) eqn:Q.
        { apply bytes_eqb_eq, pub_bytes_inj in Q. apply kpub_inj in Q; auto. contradiction. }
        constructor; [exact V|]. apply IH; auto. intros v c Iv Ee Vo Ic. apply Hf; auto; right; assumption.
    - rewrite map_map. rewrite map_ext with (g := rv_epoch); [exact ND|]. intro x.
      destruct (Nat.eqb _ _); [|reflexivity]. unfold view_after. destruct (_ <? _)%N; reflexivity.
    - apply Forall_forall. intros x Ix. apply in_map_iff in Ix. destruct Ix as (y & <- & Iy). rewrite Forall_forall in Lt. specialize (Lt y Iy).
      destruct (Nat.eqb _ _); [|exact Lt]. unfold view_after. destruct (_ <? _)%N; exact Lt. }
  destruct J as [J|[J1 J2]].
  - set (kk := mkPChainKey (rv_idx v) (chain_at C (kchain ks k) (N.to_nat (rv_idx v)))) in *.
    assert (D : decrypt_session C rnd s m = (Ok (pt, st_clear_unack (after_ahead C s (kpub ks k) kk n)), rnd)).
    { apply (decrypt_ahead C rnd s c kk n (kpub ks k) peer me pt m H W (kpub_len ks k) G E2 E1 Fc V2).
      - cbn. lia.
      - left. cbn. lia.
      - cbn [pck_key pck_index kk]. rewrite chain_at_add.
        replace (N.to_nat (rv_idx v) + N.to_nat (n - rv_idx v)) with (N.to_nat n) by lia. exact Wh. }
    eexists. split; [exact D|]. apply (Fin _) with (2 := eq_refl).
    + intros v' c' Iv' Ee' Ic' Vo'.
      assert (v' = v).
      { clear - ND Iv' I Ev Ee'. induction (p_views p) as [|x l IH]; [destruct I|]. cbn [map] in ND. inversion ND as [|? ? N1 N2]; subst.
        destruct I as [<-|I], Iv' as [<-|Iv']; auto.
        - exfalso. apply N1. rewrite <- Ee'. apply in_map. exact Iv'.
        - exfalso. apply N1. rewrite Ee'. apply in_map. exact I. }
      subst v'. pose proof (view_ahead ks v c' n (proj1 J) G) as X. rewrite Ev in X. apply X; [|exact Vo'].
      destruct (wf_receivers_of s W) as [_ FW]. rewrite Forall_forall in FW. apply FW in Ic'. destruct Ic' as [(_ & _ & Lm & _) _]. exact Lm.
    + destruct (decrypt_session_inv _ _ _ _ _ _ _ H W (whisper_wf _ _ _ _ _ _ _ _ H Wh (kpub_len ks k) G) D) as [Ws _]. exact Ws.
  - assert (D : decrypt_session C rnd s m = (Ok (pt, st_clear_unack (after_saved s (kpub ks k) n)), rnd)).
    { eapply (decrypt_saved C rnd s c _ n (pos_saved (kchain ks k) n) _ (kpub ks k) peer me pt m H W (kpub_len ks k) G E2 E1 Fc V2).
      - cbn. exact J1.
      - rewrite V3. apply last_saved. exact J2.
      - apply pos_saved_keys.
      - exact Wh. }
    eexists. split; [exact D|]. apply (Fin _) with (2 := eq_refl).
    + intros v' c' Iv' Ee' Ic' Vo'.
      assert (v' = v).
      { clear - ND Iv' I Ev Ee'. induction (p_views p) as [|x l IH]; [destruct I|]. cbn [map] in ND. inversion ND as [|? ? N1 N2]; subst.
        destruct I as [<-|I], Iv' as [<-|Iv']; auto.
        - exfalso. apply N1. rewrite <- Ee'. apply in_map. exact Iv'.
        - exfalso. apply N1. rewrite Ee'. apply in_map. exact I. }
      subst v'. apply view_saved; auto.
    + destruct (decrypt_session_inv _ _ _ _ _ _ _ H W (whisper_wf _ _ _ _ _ _ _ _ H Wh (kpub_len ks k) G) D) as [Ws _]. exact Ws.
Qed.
End Conv.
