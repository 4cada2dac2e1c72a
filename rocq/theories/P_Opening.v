(** Decryption answers exactly what the sessions can open (C90). *)
From Verif Require Import M_Base M_Crypto M_Aes M_Curve M_Proto M_Message M_Ratchet M_State M_Store M_Session M_Group
  S_Crypto S_Message S_State S_Shape S_Ratchet S_Session S_Aes S_Api S_Send S_Group S_Curve S_X3dh S_Receive S_Sessions S_Opening
  P_Base P_Proto P_Curve P_State P_Shape P_Ratchet P_Message P_Aes P_Chain P_Decrypt P_Receive P_Encrypt P_Record P_Prog P_Api
  P_Init P_Send P_Conv P_X3dh P_Bundle P_DecApi P_DecTop P_DecMore P_Replay P_Archive P_ManyRec P_ManyFail P_SmallSess P_StateInv.
From Coq Require Import ZifyBool ZifyNat ZifyN.
Local Open Scope nat_scope.

(** *** Tidy sessions stay tidy *)
Lemma find_unique : forall s eph c, NoDup (map pc_ratchet (ss_receivers s)) -> In c (ss_receivers s) -> pc_ratchet c = pub_bytes eph ->
  st_receiver_chain s eph = Some c.
Proof.
  intros s eph c. unfold st_receiver_chain. induction (ss_receivers s) as [|d l IH]; intros N J E; [destruct J|]. cbn [find_chain map] in *.
  inversion N as [|? ? N1 N2]; subst. destruct J as [->|J]; [rewrite E, bytes_eqb_refl; reflexivity|].
  destruct (bytes_eqb (pc_ratchet d) (pub_bytes eph)) eqn:Q; [|auto]. apply bytes_eqb_eq in Q. destruct N1. rewrite Q, <- E. apply in_map. exact J.
Qed.
Lemma upd_in : forall key f l c, In c (upd_chain key f l) -> exists d, In d l /\ (c = d \/ c = f d /\ find_chain key l = Some d).
Proof.
  intros key f l. induction l as [|d l IH]; intros c J; [destruct J|]. cbn [upd_chain find_chain] in *.
  destruct (bytes_eqb (pc_ratchet d) key) eqn:Q.
  - destruct J as [<-|J]; [exists d; split; [left; reflexivity|right; split; reflexivity]|]. exists c. split; [right; exact J|auto].
  - destruct J as [<-|J]; [exists d; split; [left; reflexivity|auto]|]. destruct (IH _ J) as (x & Jx & K). exists x. split; [right; exact Jx|exact K].
Qed.
Definition tidy_chain (c : pchain) : Prop := NoDup (map pmk_index (pc_msgkeys c)) /\
  forall k x, pc_key c = Some k -> In x (pc_msgkeys c) -> (pmk_index x < pck_index k)%N.
Lemma tidy_upd : forall s key f, tidy s -> (forall c, pc_ratchet (f c) = pc_ratchet c) ->
  (forall c, find_chain key (ss_receivers s) = Some c -> tidy_chain c -> tidy_chain (f c)) ->
  tidy (with_receivers s (upd_chain key f (ss_receivers s))).
Proof.
  intros s key f [N T] R F. split; cbn [ss_receivers with_receivers].
  - rewrite upd_chain_ratchets by exact R. exact N.
  - intros c J. destruct (upd_in _ _ _ _ J) as (d & Jd & [->|[-> Fd]]); [apply T; exact Jd|]. apply F; [exact Fd|apply T; exact Jd].
Qed.
Lemma nodup_snoc : forall {A} (l : list A) x, NoDup l -> ~ In x l -> NoDup (l ++ [x]).
Proof. intros A l x N J. apply (NoDup_Add (Add_app x l [])). rewrite app_nil_r. auto. Qed.
Lemma iter_next : forall C n ck, ck_iter C (S n) ck = ck_iter C n (ck_next C ck).
Proof. intros C n ck. unfold ck_iter. rewrite (ck_iter_swap C n ck : Nat.iter n (ck_next C) (ck_next C ck) = _). reflexivity. Qed.
Lemma tidy_skip : forall C n ck l, (ck_index ck + N.of_nat n < 4294967296)%N -> NoDup (map pmk_index l) ->
  (forall x, In x l -> (pmk_index x < ck_index ck)%N) ->
  NoDup (map pmk_index (skip_list C n ck l)) /\ (forall x, In x (skip_list C n ck l) -> (pmk_index x < ck_index (ck_iter C n ck))%N) /\
  ck_index (ck_iter C n ck) = (ck_index ck + N.of_nat n)%N.
Proof.
  intros C n. induction n as [|n IH]; intros ck l G N B; [cbn [skip_list]; repeat split; auto; cbn; lia|].
  rewrite iter_next. cbn [skip_list]. assert (E : ck_index (ck_next C ck) = (ck_index ck + 1)%N) by (unfold ck_next; cbn [ck_index]; apply u32_small; unfold two32; clear - G; lia).
  assert (K : NoDup (map pmk_index (l ++ [saved C ck])) /\ forall x, In x (l ++ [saved C ck]) -> (pmk_index x < ck_index (ck_next C ck))%N).
  { split.
    - rewrite map_app. cbn [map]. apply nodup_snoc; [exact N|].
      intro Ji. apply in_map_iff in Ji. destruct Ji as (x & Ex & Jx). apply B in Jx. unfold saved in Ex. cbn in Ex. lia.
    - intros x J. apply in_app_iff in J. rewrite E. destruct J as [J|[<-|[]]]; [apply B in J; lia|unfold saved; cbn; lia]. }
  destruct K as [K1 K2].
  destruct (IH (ck_next C ck) (trim_front max_message_keys (l ++ [saved C ck]))) as (A1 & A2 & A3).
  - rewrite E. lia.
  - unfold trim_front. destruct (Nat.ltb _ _); [|exact K1]. destruct (l ++ [saved C ck]) as [|y t]; [constructor|]. cbn [map tl] in *. inversion K1; assumption.
  - intros x J. apply K2. apply trim_front_in in J. exact J.
  - split; [exact A1|]. split; [exact A2|]. rewrite A3, E. lia.
Qed.
Lemma tidy_same : forall s s', ss_receivers s' = ss_receivers s -> tidy s -> tidy s'.
Proof. intros s s' E. unfold tidy. rewrite E. auto. Qed.
Lemma nodup_trim : forall {A} n (l : list A), NoDup l -> NoDup (trim_front n l).
Proof. intros A n l N. unfold trim_front. destruct (Nat.ltb _ _); [|exact N]. destruct l; [exact N|]. cbn [tl]. inversion N; assumption. Qed.
Lemma map_trim : forall {A B} (f : A -> B) n l, map f (trim_front n l) = trim_front n (map f l).
Proof. intros A B f n l. unfold trim_front. rewrite map_length. destruct (Nat.ltb _ _); [|reflexivity]. destruct l; reflexivity. Qed.
Lemma chain_tidy : forall C rnd s eph ck s' rest, wf_state s -> get_chain_key C rnd s eph = (Ok (ck, s'), rest) -> tidy s -> tidy s'.
Proof.
  intros C rnd s eph ck s' rest W E F. unfold get_chain_key in E. pose proof (wf_receiver_key s eph W) as R.
  destruct (st_receiver_chain s eph) as [c|] eqn:Fc.
  { destruct R as (k & _ & _ & _ & R). rewrite R in E. injection E as _ <- _. exact F. }
  rewrite R in E. destruct (st_root s) as [root| |]; cbn [bind] in E; [|discriminate..].
  destruct (st_sender_ratchet_priv C s) as [ours| |] eqn:O; cbn [bind] in E; [|discriminate..].
  destruct (create_chain C root ours eph) as [[rroot rchain]| |] eqn:K; [|discriminate..].
  destruct (gen_keypair C rnd) as [[kp| |] q]; [|discriminate..].
  destruct (create_chain C rroot (kp_priv kp) eph) as [[sroot schain]| |]; cbn [bind] in E; [|discriminate..].
  destruct (st_sender_chain_key s) as [cur| |]; cbn [bind] in E; [|discriminate..].
  apply (f_equal (fun x => match x with (Ok (_, y), _) => y | _ => s' end)) in E. cbv beta iota zeta in E. subst s'.
  destruct F as [A B]. split; cbn [ss_receivers st_set_sender_chain with_sender with_prevctr st_add_receiver_chain with_receivers with_root].
  - rewrite map_trim. apply nodup_trim. rewrite map_app. apply nodup_snoc; [exact A|]. cbn [pc_ratchet]. intro J. apply in_map_iff in J. destruct J as (c & E & J).
    exact (find_chain_in_none _ _ Fc c J E).
  - intros c J. apply trim_front_in in J. apply in_app_iff in J. destruct J as [J|[<-|[]]]; [apply B; exact J|]. cbn [pc_msgkeys map]. split; [constructor|intros k x _ []].
Qed.
Lemma keys_tidy : forall C s eph c k n mk s', CryptoOk C -> wf_state s -> go_u32 n ->
  st_receiver_chain s eph = Some c -> pc_key c = Some k ->
  get_message_keys C s eph (mkChainKey (pck_key k) (pck_index k)) n = Ok (mk, s') -> tidy s -> tidy s'.
Proof.
  intros C s eph c k n mk s' H W G F Ek E T. rewrite (get_message_keys_exact C s eph c k n H W F Ek) in E. unfold st_receiver_chain in F.
  destruct (N.ltb_spec n (pck_index k)) as [L|L].
  - destruct (last_msgkey n (pc_msgkeys c)) as [x|]; [|discriminate]. apply (f_equal (fun x => match x with Ok (_, y) => y | _ => s' end)) in E. cbv beta iota in E. subst s'.
    apply tidy_upd; [exact T|reflexivity|]. intros d _ [N B]. split; cbn [pc_msgkeys with_msgkeys pc_key].
    + clear - N. induction (pc_msgkeys d) as [|y l IH]; [constructor|]. cbn [filter map] in *. inversion N as [|? ? N1 N2]; subst.
      destruct (negb _); [|auto]. cbn [map]. constructor; [|auto]. intro J. apply N1. apply in_map_iff in J. destruct J as (z & E & J). apply filter_In in J. rewrite <- E. apply in_map. tauto.
    + intros k0 y E0 J. apply filter_In in J. apply (B k0 y E0). tauto.
  - destruct (_ && _)%bool; [discriminate|]. apply (f_equal (fun x => match x with Ok (_, y) => y | _ => s' end)) in E. cbv beta iota zeta in E. subst s'.
    apply tidy_upd; [exact T|reflexivity|]. intros d Fd [N B]. rewrite F in Fd. injection Fd as <-.
    destruct (tidy_skip C (N.to_nat (n - pck_index k)) (mkChainKey (pck_key k) (pck_index k)) (pc_msgkeys c)) as (A1 & A2 & A3).
    + cbn [ck_index]. unfold go_u32 in G. lia.
    + exact N.
    + cbn [ck_index]. intros x J. exact (B k x Ek J).
    + split; cbn [pc_msgkeys with_msgkeys with_chainkey pc_key]; [exact A1|]. intros k0 x E0 J. injection E0 as <-. cbn [pck_index]. apply A2. exact J.
Qed.
Lemma session_tidy : forall C, CryptoOk C -> forall rnd s m pt s' rest, wf_state s -> wf_signal m ->
  decrypt_session C rnd s m = (Ok (pt, s'), rest) -> tidy s -> tidy s'.
Proof.
  intros C H rnd s m pt s' rest W (Le & Gc & _) E T. unfold decrypt_session in E. destruct (ss_sender s); [|discriminate]. destruct (negb _); [discriminate|].
  destruct (get_chain_key C rnd s (sg_ratchet m)) as [[[ck s1]| |] q] eqn:K; [|discriminate..].
  destruct (get_chain_key_wf _ _ _ _ _ _ _ W Le K) as (W1 & c & Fc & Ec). apply chain_tidy in K; [|exact W|exact T].
  destruct (get_message_keys C s1 (sg_ratchet m) ck (sg_counter m)) as [[mk s2]| |] eqn:G; cbn [bind] in E; [|discriminate..].
  assert (T2 : tidy s2) by (destruct ck; exact (keys_tidy C s1 _ c _ _ mk s2 H W1 Gc Fc Ec G K)). clear G.
  destruct (st_remote_identity s2) as [[rid|]| |]; cbn [bind] in E; [|discriminate..].
  destruct (st_local_identity s2) as [lid| |]; cbn [bind] in E; [|discriminate..]. destruct (verify_mac _ _ _ _ _) as [v| |]; cbn [bind] in E; [|discriminate..].
  destruct (negb v); [discriminate|]. destruct (cbc_decrypt _ _ _ _) as [p0| |]; cbn [bind] in E; [|discriminate..]. injection E as _ <- _.
  exact (tidy_same s2 _ eq_refl T2).
Qed.
Lemma encrypt_tidy : forall C s pt out s' rid, encrypt_state C s pt = Ok (out, s', rid) -> tidy s -> tidy s'.
Proof.
  intros C s pt out s' rid E F. unfold encrypt_state in E.
  destruct (st_sender_chain_key s) as [ck| |]; cbn [bind] in E; [|discriminate..]. destruct (st_sender_ratchet s) as [eph| |]; cbn [bind] in E; [|discriminate..].
  destruct (st_local_identity s) as [lid| |]; cbn [bind] in E; [|discriminate..]. destruct (st_remote_identity s) as [[r|]| |]; cbn [bind] in E; [|discriminate..].
  destruct (cbc_encrypt _ _ _ _) as [ct| |]; cbn [bind] in E; [|discriminate..]. destruct (new_signal _ _ _ _ _ _ _ _ _) as [msg| |]; cbn [bind] in E; [|discriminate..].
  destruct (st_unack s) as [items| |]; cbn [bind] in E; [|discriminate..]. injection E as _ <- _. apply (tidy_same s); [|exact F].
  unfold st_set_sender_chain_key. destruct (ss_sender s); reflexivity.
Qed.
Lemma bob_tidy : forall C ident signed ot rp ti tb s, init_bob C ident signed ot rp ti tb = Ok s -> tidy s.
Proof.
  intros C ident signed ot rp ti tb s E. unfold init_bob in E. destruct signed as [sg|]; [|discriminate].
  destruct (agreement C (kp_priv sg) ti) as [d1|e|]; cbn [bind] in E; [|discriminate..].
  destruct (agreement C (kp_priv ident) tb) as [d2|e|]; cbn [bind] in E; [|discriminate..].
  destruct (agreement C (kp_priv sg) tb) as [d3|e|]; cbn [bind] in E; [|discriminate..].
  destruct (match ot with Some o => _ | None => _ end) as [sec|e|]; cbn [bind] in E; [|discriminate..].
  destruct (match derive_keys C sec with Ok rc => rc | _ => _ end) as [root chain]. destruct rp as [rp|]; [|discriminate].
  apply (f_equal (fun x => match x with Ok y => y | _ => s end)) in E. cbv beta iota in E. subst s.
  split; [constructor|intros c []].
Qed.
Lemma alice_tidy : forall C rnd ident base ti ts ot tr s rest, init_alice C rnd ident base ti ts ot tr = (Ok s, rest) -> tidy s.
Proof.
  intros C rnd ident base ti ts ot tr s rest E. unfold init_alice in E.
  destruct (gen_keypair C rnd) as [[rp| |] r1] eqn:Gr; [|discriminate..].
  destruct (agreement C (kp_priv ident) ts) as [d1|e|] eqn:D1; cbn [bind] in E; [|discriminate..].
  destruct (agreement C (kp_priv base) ti) as [d2|e|] eqn:D2; cbn [bind] in E; [|discriminate..].
  destruct (agreement C (kp_priv base) ts) as [d3|e|] eqn:D3; cbn [bind] in E; [|discriminate..].
  destruct (match ot with Some o => _ | None => _ end) as [sec|e|]; cbn [bind] in E; [|discriminate..].
  destruct (derive_keys C sec) as [[root chain]| |]; cbn [bind] in E; [|discriminate..].
  destruct (create_chain C root (kp_priv rp) tr) as [[sroot schain]| |] eqn:K; cbn [bind] in E; [|discriminate..].
  apply (f_equal (fun x => match x with (Ok y, _) => y | _ => s end)) in E. cbv beta iota zeta in E. subst s.
  split; [constructor; [intros []|constructor]|]. intros c [<-|[]]. cbn [pc_msgkeys map]. split; [constructor|intros k x _ []].
Qed.
Lemma reachable_tidy : forall C ts w a r s, CryptoOk C -> reachable C (ts, w) -> w_sess w a = Some r -> state_in s r -> tidy s.
Proof.
  intros C ts w a r s H R E I.
  refine (reachable_full C H tidy (session_tidy C H) (fun s pt out s' rid _ => encrypt_tidy C s pt out s' rid) _ _ ts w R a r s E I).
  - intros ident signed ot rp ti tb s0 rr lr B _. exact (tidy_same s0 _ eq_refl (bob_tidy _ _ _ _ _ _ _ _ B)).
  - intros rnd ident base ti ts0 ot tr s0 rest rnd0 q un sg rr lr _ A. exact (tidy_same s0 _ eq_refl (alice_tidy _ _ _ _ _ _ _ _ _ _ A)).
Qed.

(** *** One session *)
Lemma agreement_nz : forall C k u, List.length u = 32 -> (exists x, In x (c_x25519 C (sk_ecdh k) u) /\ x <> Byte.x00) ->
  agreement C k u = Ok (c_x25519 C (sk_ecdh k) u).
Proof.
  intros C k u L (x & J & N). destruct (agreement C k u) as [d|e|] eqn:E.
  - unfold agreement in E. rewrite L in E. cbn [Nat.eqb negb] in E. cbv zeta in E. destruct (all_zero _); [discriminate|exact (eq_sym E)].
  - pose proof (agreement_zero C k u e L E) as F. rewrite Forall_forall in F. apply F in J. symmetry in J. contradiction.
  - destruct (agreement_no_panic _ _ _ E).
Qed.
Lemma new_priv : forall C b, List.length b = 32 -> exists k, new_private_key C b = Ok k /\ sk_ecdh k = b.
Proof. intros C b L. unfold new_private_key. rewrite L. cbn [Nat.eqb negb]. eexists. split; reflexivity. Qed.
Lemma saved_unique : forall (l : list pmsgkey) x n, NoDup (map pmk_index l) -> In x l -> pmk_index x = n -> last_msgkey n l = Some x.
Proof.
  intros l x n N J E. destruct (last_msgkey n l) as [y|] eqn:Q.
  - apply last_msgkey_some in Q. destruct Q as [Jy Ey]. f_equal. clear - N J Jy E Ey. induction l as [|z l IH]; [destruct J|]. cbn [map] in N. inversion N as [|? ? N1 N2]; subst.
    destruct J as [->|J]; destruct Jy as [->|Jy]; auto.
    + destruct N1. rewrite <- Ey. apply in_map. exact Jy.
    + destruct N1. rewrite Ey. apply in_map. exact J.
  - exfalso. apply last_msgkey_none with (k := x) in Q; auto.
Qed.
Lemma position_keys : forall C key i n mk, CryptoOk C -> go_u32 i -> go_u32 n -> (i <= n)%N -> keys_at C (chain_at C key (N.to_nat (n - i))) n mk ->
  ck_message_keys C (ck_iter C (N.to_nat (n - i)) (mkChainKey key i)) = mk.
Proof.
  intros C key i n mk H Gi Gn L K. pose proof (chain_position_keys C (mkChainKey key i) (N.to_nat (n - i)) H Gi) as P.
  cbn [ck_key ck_index] in P. rewrite N2Nat.id in P. replace ((i + (n - i)) mod 4294967296)%N with n in P by (rewrite N.mod_small; unfold go_u32 in *; lia).
  eapply keys_at_unique; [exact P|exact K].
Qed.
Section One.
Variables (C : Crypto) (H : CryptoOk C) (Z : zero_by_key C).
Lemma run_opened : forall rnd s m ck s1 rest mk s2 c k remote local pt, wf_state s -> wf_state s1 -> wf_signal m ->
  same_session s s1 -> get_chain_key C rnd s (sg_ratchet m) = (Ok (ck, s1), rest) ->
  st_receiver_chain s1 (sg_ratchet m) = Some c -> pc_key c = Some k -> ck = mkChainKey (pck_key k) (pck_index k) ->
  get_message_keys C s1 (sg_ratchet m) ck (sg_counter m) = Ok (mk, s2) ->
  ss_remote s = Byte.x05 :: remote -> ss_local s = Byte.x05 :: local -> tagged C (mk_mac mk) remote local (sg_raw m) ->
  cbc_decrypt C (mk_cipher mk) (mk_iv mk) (sg_body m) = Ok pt ->
  decrypt_session C rnd s m = (Ok (pt, st_clear_unack s2), rest).
Proof.
  intros rnd s m ck s1 rest mk s2 c k remote local pt W W1 Wm S1 G F Ek -> E Er El Tg D.
  destruct (get_message_keys_wf C s1 _ c k _ mk s2 H W1 F Ek E) as (W2 & S2 & _ & Lm & _).
  destruct S1 as (_ & Q1 & Q2 & _).
  eapply decrypt_session_run; [exact H|exact W|exact Wm|exact G|exact E|exact W2| | |apply verify_mac_tagged; eauto|exact D].
  - rewrite S2. cbn [ss_remote with_receivers]. rewrite Q2. exact Er.
  - rewrite S2. cbn [ss_local with_receivers]. rewrite Q1. exact El.
Qed.
Lemma same_refl : forall s, same_session s s. Proof. intro s. unfold same_session. repeat split. Qed.
Lemma opens_decrypts : forall rnd s m pt, wf_state s -> tidy s -> wf_signal m -> 32 <= List.length rnd -> opens C s m pt ->
  exists s', fst (decrypt_session C rnd s m) = Ok (pt, s').
Proof.
  intros rnd s m pt W [T1 T2] Wm Lr (mk & remote & local & K & Er & El & Tg & D). pose proof Wm as (Le & Gc & Lraw & Ver).
  destruct K as [(c & k & J & Ec & Ek & K)|(N & Jump & sc & root' & ck & Es & NZ & Eh & L1 & L2 & K)].
  - pose proof (find_unique s (sg_ratchet m) c T1 J Ec) as F.
    destruct (wf_found s _ c W F) as ((_ & (k' & Ek' & Gk & _) & _) & _). rewrite Ek in Ek'. injection Ek' as <-.
    pose proof (get_chain_key_known C rnd s _ c k W F Ek) as G.
    destruct K as [(Lt & x & Jx & Ex & ->)|(Ge & Jump & K)].
    + pose proof (get_message_keys_saved C s _ c k (sg_counter m) x H W F Ek Lt (saved_unique _ x _ (proj1 (T2 c J)) Jx Ex)) as M.
      rewrite (run_opened rnd s m _ s _ _ _ c k remote local pt W W Wm (same_refl s) G F Ek eq_refl M Er El Tg D). eexists. reflexivity.
    + pose proof (get_message_keys_ahead C s _ c k (sg_counter m) H W F Ek Ge Jump) as M. rewrite (position_keys C (pck_key k) (pck_index k) (sg_counter m) mk H Gk Gc Ge K) in M.
      rewrite (run_opened rnd s m _ s _ _ _ c k remote local pt W W Wm (same_refl s) G F Ek eq_refl M Er El Tg D). eexists. reflexivity.
  - assert (F : st_receiver_chain s (sg_ratchet m) = None).
    { apply chain_absent. intro J. apply in_map_iff in J. destruct J as (c & Ec & J). exact (N c J Ec). }
    destruct (wf_sender_key s W) as (sc' & k & Es' & Ek & _). rewrite Es in Es'. injection Es' as <-.
    assert (Lp : List.length (pc_ratchet_priv sc) = 32). { destruct W as (_ & _ & _ & _ & _ & (c & Ec & _ & Lp) & _). rewrite Es in Ec. injection Ec as <-. exact Lp. }
    destruct (new_priv C _ Lp) as (ours & No & Eo).
    assert (A1 : agreement C ours (sg_ratchet m) = Ok (c_x25519 C (pc_ratchet_priv sc) (sg_ratchet m))) by (rewrite <- Eo; apply agreement_nz; [exact Le|rewrite Eo; exact NZ]).
    destruct (create_chain_total C (ss_root s) ours (sg_ratchet m) _ H A1) as (rroot & rchain & Cr & _ & Lc & I0).
    destruct (create_chain_rfc _ _ _ _ _ _ H Cr) as (d & A & X & L4 & L5 & _). rewrite A1 in A. injection A as <-.
    assert (Q : rroot = root' /\ ck_key rchain = ck) by (rewrite <- Eh in X; apply app_inj_len in X; [exact X|congruence]). destruct Q as [-> Q].
    destruct (gen_keypair_ok C rnd Lr) as (kk & Nk & Gk).
    assert (A2 : agreement C kk (sg_ratchet m) = Ok (c_x25519 C (sk_ecdh kk) (sg_ratchet m))).
    { apply agreement_nz; [exact Le|]. assert (Ek2 : List.length (sk_ecdh kk) = 32).
      { destruct (new_priv C (firstn 32 rnd)) as (k2 & N2 & E2); [rewrite firstn_length; lia|]. rewrite N2 in Nk. injection Nk as <-. rewrite E2, firstn_length. lia. }
      exact (Z _ _ _ Lp Ek2 NZ). }
    destruct (create_chain_total C root' kk (sg_ratchet m) _ H A2) as (sroot & schain & Cs & _).
    pose proof (get_chain_key_new C rnd s (sg_ratchet m) sc k ours root' rchain (mkPair kk (sk_pub kk)) (skipn 32 rnd) sroot schain W F Es Ek No Cr Gk Cs) as G.
    destruct (get_chain_key_wf _ _ _ _ _ _ _ W Le G) as (W1 & c1 & F1 & Ec1). destruct (get_chain_key_same _ _ _ _ _ _ _ G) as [S1 _].
    set (s1 := after_dh s (sg_ratchet m) rchain sroot (mkPair kk (sk_pub kk)) schain (pck_index k)) in *.
    assert (Jump1 : (sg_counter m <= 0 + 25000)%N \/ ss_remote s1 = ss_local s1).
    { destruct S1 as (_ & Q1 & Q2 & _). rewrite Q1, Q2. destruct Jump; [left; lia|right; assumption]. }
    rewrite I0, Q in Ec1.
    pose proof (get_message_keys_ahead C s1 _ c1 (mkPChainKey 0 ck) (sg_counter m) H W1 F1 Ec1 (N.le_0_l _) Jump1) as M.
    cbn [pck_key pck_index] in M. rewrite (position_keys C ck 0 (sg_counter m) mk H eq_refl Gc (N.le_0_l _)) in M by (rewrite N.sub_0_r; exact K).
    assert (Eck : rchain = mkChainKey ck 0) by (destruct rchain; cbn in *; congruence). rewrite Eck in G.
    rewrite (run_opened rnd s m _ s1 _ _ _ c1 (mkPChainKey 0 ck) remote local pt W W1 Wm S1 G F1 Ec1 eq_refl M Er El Tg D). eexists. reflexivity.
Qed.
Lemma spent_refused : forall rnd s m, wf_state s -> wf_signal m -> spent s (sg_ratchet m) (sg_counter m) -> decrypt_session C rnd s m = (Err EDuplicate, rnd).
Proof.
  intros rnd s m W Wm (key & i & ks & R & L & N). destruct (receiving_chain _ _ _ _ _ R) as (c & F & Ek & Em). rewrite <- Em in N.
  exact (decrypt_consumed C rnd s c _ m H W Wm F Ek L N).
Qed.
Lemma duplicate_spent : forall rnd s m, wf_state s -> tidy s -> wf_signal m -> 32 <= List.length rnd -> fst (decrypt_session C rnd s m) = Err EDuplicate -> spent s (sg_ratchet m) (sg_counter m).
Proof.
  intros rnd s m W T Wm Lr D. pose proof Wm as (Le & Gc & Lraw & Ver). destruct (st_receiver_chain s (sg_ratchet m)) as [c|] eqn:F.
  - destruct (wf_found s _ c W F) as ((_ & (k & Ek & Gk & _) & _) & _).
    unfold decrypt_session in D. destruct (ss_sender s); [|discriminate]. destruct (negb _); [discriminate|].
    rewrite (get_chain_key_known C rnd s _ c k W F Ek) in D. cbn [fst] in D.
    rewrite (get_message_keys_exact C s _ c k _ H W F Ek) in D. destruct (N.ltb_spec (sg_counter m) (pck_index k)) as [L|L].
    + destruct (last_msgkey (sg_counter m) (pc_msgkeys c)) as [x|] eqn:Q.
      * exfalso. revert D. cbn [bind]. apply plain_bind; [apply plain_remote|]. intros [rid|]; [|intro E; discriminate].
        apply plain_bind; [apply plain_new_public_key|]. intro lid. apply plain_bind; [apply plain_verify|]. intros []; cbn [negb]; [|intro E; discriminate].
        apply plain_bind; [apply plain_cbc|]. intros ? E. discriminate.
      * exists (pck_key k), (pck_index k), (pc_msgkeys c). split; [apply chain_receiving; assumption|]. split; [exact L|]. apply last_msgkey_none. exact Q.
    + exfalso. destruct (_ && _)%bool; [discriminate|]. revert D. cbv zeta. cbn [bind]. apply plain_bind; [apply plain_remote|]. intros [rid|]; [|intro E; discriminate].
      apply plain_bind; [apply plain_new_public_key|]. intro lid. apply plain_bind; [apply plain_verify|]. intros []; cbn [negb]; [|intro E; discriminate].
      apply plain_bind; [apply plain_cbc|]. intros ? E. discriminate.
  - exfalso. destruct (others_fail C rnd s m H W Wm) as (e & E & Ne).
    + intro J. apply in_map_iff in J. destruct J as (c & Ec & J). exact (find_chain_in_none _ _ F c J Ec).
    + intros pt O. destruct (opens_decrypts rnd s m pt W T Wm Lr O) as (s' & E). congruence.
    + congruence.
Qed.
Lemma session_exact : forall rnd s m, wf_state s -> tidy s -> wf_signal m -> 32 <= List.length rnd ->
  (exists pt s', fst (decrypt_session C rnd s m) = Ok (pt, s') /\ opens C s m pt /\ ~ spent s (sg_ratchet m) (sg_counter m)) \/
  (fst (decrypt_session C rnd s m) = Err EDuplicate /\ spent s (sg_ratchet m) (sg_counter m) /\ forall p, ~ opens C s m p) \/
  (exists e, fst (decrypt_session C rnd s m) = Err e /\ e <> EDuplicate /\ ~ spent s (sg_ratchet m) (sg_counter m) /\ forall p, ~ opens C s m p).
Proof.
  intros rnd s m W T Wm Lr.
  assert (S : spent s (sg_ratchet m) (sg_counter m) -> fst (decrypt_session C rnd s m) = Err EDuplicate) by (intro S; rewrite (spent_refused rnd s m W Wm S); reflexivity).
  assert (O : forall p, opens C s m p -> exists s', fst (decrypt_session C rnd s m) = Ok (p, s')) by (intros p O; apply opens_decrypts; auto).
  destruct (decrypt_session C rnd s m) as [o rest] eqn:D. cbn [fst] in *. destruct o as [[pt s']|e|].
  - left. exists pt, s'. split; [reflexivity|]. split; [exact (decrypt_session_sound _ _ _ _ _ _ _ H W Wm D)|]. intro Q. apply S in Q. discriminate.
  - right. assert (NO : forall p, ~ opens C s m p) by (intros p Q; destruct (O p Q); discriminate).
    assert (X : e = EDuplicate \/ e <> EDuplicate) by (destruct e; auto; right; discriminate). destruct X as [->|X].
    + left. split; [reflexivity|]. split; [|exact NO]. apply (duplicate_spent rnd); auto. rewrite D. reflexivity.
    + right. exists e. split; [reflexivity|]. split; [exact X|]. split; [|exact NO]. intro Q. apply S in Q. congruence.
  - destruct (decrypt_session_no_panic _ _ _ _ _ H W Wm D).
Qed.
Lemma opens_one : forall s m p p', wf_state s -> tidy s -> wf_signal m -> opens C s m p -> opens C s m p' -> p = p'.
Proof.
  intros s m p p' W T Wm O O'. assert (L : 32 <= List.length (repeat Byte.x00 32)) by (rewrite repeat_length; lia).
  destruct (opens_decrypts _ s m p W T Wm L O) as (s1 & E1). destruct (opens_decrypts _ s m p' W T Wm L O') as (s2 & E2). congruence.
Qed.

(** *** The archived sessions *)
Lemma archive_exact : forall m, wf_signal m -> forall l rnd i found, Forall wf_state l -> Forall tidy l -> 32 * List.length l <= List.length rnd ->
  (fst (try_previous C rnd i l m found) = Err EDuplicate /\ exists x, In x l /\ spent x (sg_ratchet m) (sg_counter m)) \/
  ((forall x, In x l -> ~ spent x (sg_ratchet m) (sg_counter m)) /\
   ((fst (try_previous C rnd i l m found) = Ok found /\ forall x p, In x l -> ~ opens C x m p) \/
    exists l1 s l2 pt s' rnd' rest, l = l1 ++ s :: l2 /\ opens C s m pt /\ (forall x p, In x l2 -> ~ opens C x m p) /\
      decrypt_session C rnd' s m = (Ok (pt, s'), rest) /\
      fst (try_previous C rnd i l m found) = Ok (Some (i + List.length l1, s', pt)))).
Proof.
  intros m Wm l. induction l as [|s l IH]; intros rnd i found Wl Tl Lr.
  - right. split; [intros x []|]. left. split; [reflexivity|intros x p []].
  - inversion Wl as [|? ? W Wl']; inversion Tl as [|? ? T Tl']; subst. cbn [List.length] in Lr.
    pose proof (session_exact rnd s m W T Wm ltac:(lia)) as S. cbn [try_previous].
    destruct (decrypt_session C rnd s m) as [o rest] eqn:D. cbn [fst] in S.
    assert (Lr' : 32 * List.length l <= List.length rest).
    { destruct (attempt_rest _ _ _ _ _ _ D) as [-> | ->]; [lia|]. rewrite skipn_length. lia. }
    destruct S as [(pt & s' & -> & O & NS)|[(-> & Sp & NO)|(e & -> & Ne & NS & NO)]].
    + destruct (IH rest (S i) (Some (i, s', pt)) Wl' Tl' Lr') as [(E & x & Jx & Sx)|(Ns & [(E & Nx)|(l1 & y & l2 & p & y' & r1 & r2 & El & Oy & Ny & Dy & E)])].
      * left. split; [exact E|]. exists x. split; [right; exact Jx|exact Sx].
      * right. split; [intros x [<-|J]; auto|]. right. exists [], s, l, pt, s', rnd, rest. cbn [List.length app]. rewrite Nat.add_0_r. auto.
      * right. split; [intros x [<-|J]; auto|]. right. exists (s :: l1), y, l2, p, y', r1, r2. subst l.
        split; [reflexivity|]. split; [exact Oy|]. split; [exact Ny|]. split; [exact Dy|]. cbn [List.length]. rewrite <- plus_n_Sm. exact E.
    + left. split; [reflexivity|]. exists s. split; [left; reflexivity|exact Sp].
    + assert (Q : fst (match e with EDuplicate => (Err EDuplicate, rest) | _ => try_previous C rest (S i) l m found end) = fst (try_previous C rest (S i) l m found))
        by (destruct e; try reflexivity; contradiction). rewrite Q. clear Q.
      destruct (IH rest (S i) found Wl' Tl' Lr') as [(E & x & Jx & Sx)|(Ns & [(E & Nx)|(l1 & y & l2 & p & y' & r1 & r2 & El & Oy & Ny & Dy & E)])].
      * left. split; [exact E|]. exists x. split; [right; exact Jx|exact Sx].
      * right. split; [intros x [<-|J]; auto|]. left. split; [exact E|]. intros x p [<-|J]; auto.
      * right. split; [intros x [<-|J]; auto|]. right. exists (s :: l1), y, l2, p, y', r1, r2. subst l.
        split; [reflexivity|]. split; [exact Oy|]. split; [exact Ny|]. split; [exact Dy|]. cbn [List.length]. rewrite <- plus_n_Sm. exact E.
Qed.

(** *** The record *)
Lemma last_unique : forall {A} (l1 l1' : list A) s s' l2 l2', l1 ++ s :: l2 = l1' ++ s' :: l2' ->
  In s l2' \/ In s' l2 \/ l1 = l1' /\ s = s' /\ l2 = l2'.
Proof.
  intros A l1. induction l1 as [|x l1 IH]; intros [|x' l1'] s s' l2 l2' E; cbn [app] in E.
  - injection E as -> ->. auto.
  - injection E as -> ->. right. left. apply in_or_app. right. left. reflexivity.
  - injection E as -> <-. left. apply in_or_app. right. left. reflexivity.
  - injection E as -> E. destruct (IH _ _ _ _ _ E) as [J|[J|(-> & -> & ->)]]; auto.
Qed.
Lemma bytes_inj : forall l l', Forall wf_state l -> Forall wf_state l' -> map state_bytes l = map state_bytes l' -> l = l'.
Proof.
  intros l l' F. revert l'. induction F as [|x l Wx F IH]; intros [|y l'] F' E; try discriminate; [reflexivity|]. injection E as E1 E2. inversion F'; subst.
  f_equal; [|apply IH; auto]. pose proof (wf_roundtrip x Wx) as R. rewrite E1, wf_roundtrip in R by auto. congruence.
Qed.
Lemma session_later : forall rnd s m pt s' rest, wf_state s -> wf_signal m -> decrypt_session C rnd s m = (Ok (pt, s'), rest) -> later_state s s'.
Proof.
  intros rnd s m pt s' rest W Wm D. destruct (decrypt_session_inv _ _ _ _ _ _ _ H W Wm D) as (_ & (A & B & E & _ & _ & F) & _). unfold later_state. auto.
Qed.
Lemma record_exact : forall rnd r m, wf_record r -> (forall s, state_in s r -> tidy s) -> wf_signal m -> 1312 <= List.length rnd ->
  (exists s pt r' s', answers C r m s pt /\ state_in s r /\ decrypt_record C rnd r m = Ok (pt, r') /\ rc_current r' = Some s' /\ later_state s s') \/
  (exists e, decrypt_record C rnd r m = Err e /\ forall s pt, ~ answers C r m s pt).
Proof.
  intros rnd r m W T Wm Lr. destruct (wf_record_parse r W) as (p & P & Fp & M & Lp).
  assert (Tp : Forall tidy p).
  { rewrite Forall_forall in *. intros x J. apply T. apply state_in_bytes; [auto|]. right. rewrite M. apply in_map. exact J. }
  assert (K : forall rnd0, 1280 <= List.length rnd0 ->
    (forall c, rc_current r = Some c -> ~ spent c (sg_ratchet m) (sg_counter m) /\ forall p, ~ opens C c m p) ->
    let R := (do l <- rc_previous_states r;
     match try_previous C rnd0 0 l m None with
     | (Ok (Some (i, s, pt)), _) => Ok (pt, rc_promote_old r i s)
     | (Ok None, _) => Err (EOther "decryption failed: invalid message")
     | (Err e, _) => Err e
     | (Panic, _) => Panic
     end) in
    (exists s pt r' s', answers C r m s pt /\ state_in s r /\ R = Ok (pt, r') /\ rc_current r' = Some s' /\ later_state s s') \/
    (exists e, R = Err e /\ forall s pt, ~ answers C r m s pt)).
  { intros rnd0 L0 Nc. cbv zeta. rewrite P. cbn [bind]. pose proof (archive_exact m Wm p rnd0 0 None Fp Tp ltac:(lia)) as Q.
    assert (U : forall s pt, answers C r m s pt -> exists o1 o2, p = o1 ++ s :: o2 /\ opens C s m pt /\ forall x, In x p -> ~ spent x (sg_ratchet m) (sg_counter m)).
    { intros s pt (O & [Ec|(_ & o1 & o2 & E & F & S & _)]); [destruct (Nc s Ec) as [_ N]; destruct (N pt O)|].
      assert (p = o1 ++ s :: o2) by (apply bytes_inj; [exact Fp|exact F|congruence]). subst p. exists o1, o2. auto. }
    destruct (try_previous C rnd0 0 p m None) as [o q]. cbn [fst] in Q.
    destruct Q as [(-> & x & Jx & Sx)|(NS & [(-> & NO)|(l1 & s & l2 & pt & s' & r1 & r2 & El & O & N2 & D & ->)])].
    - right. exists EDuplicate. split; [reflexivity|]. intros s pt A. destruct (U s pt A) as (o1 & o2 & _ & _ & S). exact (S x Jx Sx).
    - right. eexists. split; [reflexivity|]. intros s pt A. destruct (U s pt A) as (o1 & o2 & E & O & _). apply (NO s pt); [|exact O]. rewrite E. apply in_or_app. right. left. reflexivity.
    - left. assert (Ws : wf_state s). { rewrite Forall_forall in Fp. apply Fp. rewrite El. apply in_or_app. right. left. reflexivity. }
      exists s, pt, (rc_promote_old r (0 + List.length l1) s'), s'. split; [|split; [|split; [reflexivity|split]]].
      + split; [exact O|]. right. split; [exact Nc|]. exists l1, l2. rewrite <- El. auto.
      + apply state_in_bytes; [exact Ws|]. right. rewrite M, El. apply in_map. apply in_or_app. right. left. reflexivity.
      + cbn [Nat.add]. rewrite El, map_app in M. cbn [map] in M. destruct (promoted_old r s' (map state_bytes l1) (state_bytes s) (map state_bytes l2) W M) as [Q _].
        rewrite map_length in Q. exact Q.
      + exact (session_later r1 s m pt s' r2 Ws Wm D). }
  unfold decrypt_record. destruct (rc_current r) as [c|] eqn:Ec; [|apply K; [lia|discriminate]].
  assert (Wc : wf_state c) by (apply (proj1 W); exact Ec). assert (Tc : tidy c) by (apply T; left; exact Ec).
  pose proof (session_exact rnd c m Wc Tc Wm ltac:(lia)) as S. destruct (decrypt_session C rnd c m) as [o rest] eqn:D. cbn [fst] in S.
  assert (Lr' : 1280 <= List.length rest). { destruct (attempt_rest _ _ _ _ _ _ D) as [-> | ->]; [lia|]. rewrite skipn_length. lia. }
  destruct S as [(pt & s' & -> & O & NS)|[(-> & Sp & NO)|(e & -> & Ne & NS & NO)]].
  - left. exists c, pt, (rc_set_state r s'), s'. split; [split; [exact O|left; exact Ec]|]. split; [left; exact Ec|]. split; [reflexivity|]. split; [reflexivity|].
    exact (session_later rnd c m pt s' rest Wc Wm D).
  - right. exists EDuplicate. split; [reflexivity|]. intros s pt (O & [E|(N & _)]).
    + rewrite Ec in E. injection E as <-. exact (NO pt O).
    + exact (proj1 (N c Ec) Sp).
  - destruct e; try contradiction; (apply K; [exact Lr'|]; intros c0 E; injection E as <-; auto).
Qed.
Lemma answers_one : forall r m s pt s' pt', wf_record r -> (forall s, state_in s r -> tidy s) -> wf_signal m ->
  answers C r m s pt -> answers C r m s' pt' -> s = s' /\ pt = pt'.
Proof.
  intros r m s pt s' pt' W T Wm (O & A) (O' & A').
  assert (Q : s = s').
  { destruct A as [E|(Nc & o1 & o2 & E & F & S & N)]; destruct A' as [E'|(Nc' & o1' & o2' & E' & F' & S' & N')].
    - congruence.
    - exfalso. exact (proj2 (Nc' s E) pt O).
    - exfalso. exact (proj2 (Nc s' E') pt' O').
    - assert (Q : o1 ++ s :: o2 = o1' ++ s' :: o2') by (apply bytes_inj; auto; congruence).
      destruct (last_unique _ _ _ _ _ _ Q) as [J|[J|(_ & -> & _)]]; [destruct (N' _ _ J O)|destruct (N _ _ J O')|reflexivity]. }
  subst s'. split; [reflexivity|]. assert (J : state_in s r).
  { destruct A as [E|(_ & o1 & o2 & E & F & _)]; [left; exact E|]. assert (Ws : wf_state s) by (rewrite Forall_forall in F; apply F; apply in_or_app; right; left; reflexivity).
    apply state_in_bytes; [exact Ws|]. right. rewrite E. apply in_map. apply in_or_app. right. left. reflexivity. }
  exact (opens_one s m pt pt' (state_in_wf _ _ W J) (T s J) Wm O O').
Qed.

(** *** The calls *)
Lemma whisper_answered : forall w a r rnd m s pt, wf_device w -> w_sess w a = Some r -> (forall s, state_in s r -> tidy s) -> peers_trusted w a r ->
  wf_signal m -> 1312 <= List.length rnd -> answers C r m s pt ->
  exists w' r' s', run0 (decrypt_message C a rnd (CSignal m)) w = (Ok pt, w') /\ w_sess w' a = Some r' /\ rc_current r' = Some s' /\ later_state s s'.
Proof.
  intros w a r rnd m s pt [W WG] Er T Tr Wm Lr A. assert (Wr : wf_record r) by (eapply (proj1 W); exact Er).
  destruct (record_exact rnd r m Wr T Wm Lr) as [(s0 & pt0 & r' & s' & A0 & J & D & Ec & L)|(e & _ & N)]; [|destruct (N s pt A)].
  destruct (answers_one r m s0 pt0 s pt Wr T Wm A0 A) as [-> ->].
  destruct (wf_remote s (state_in_wf _ _ Wr J)) as (k & Lk & Ek & _).
  assert (Ek' : ss_remote s' = pub_bytes k) by (destruct L as (_ & _ & -> & _); exact Ek).
  exists (set_sess (set_ident (if w_shared w then set_sess w a r' else w) a k) a r'), r', s'. split; [|split; [|split; [exact Ec|exact L]]].
  - cbn [decrypt_message]. unfold run0. destruct (decrypt_signal_runs C a rnd m [] w) as [R _]. rewrite R. cbn [hd_fault tl]. rewrite Er. unfold signal_body. rewrite D.
    unfold pdo at 1. cbn [run exec_f fallible exec hd_fault tl fst snd].
    destruct (w_shared w); refine (signal_rest_completes a pt r' _ s' k Ec Ek' Lk _); exact (Tr s k J Ek).
  - destruct (w_shared w); cbn; rewrite addr_eqb_refl; reflexivity.
Qed.
Lemma whisper_unanswered : forall w a r rnd m c, wf_device w -> w_sess w a = Some r -> (forall s, state_in s r -> tidy s) -> peers_trusted w a r ->
  wf_signal m -> 1312 <= List.length rnd -> rc_current r = Some c -> (forall s pt, ~ answers C r m s pt) ->
  exists w', run0 (decrypt_message C a rnd (CSignal m)) w = (Ok [], w') /\ forall b, w_sess w' b = w_sess w b.
Proof.
  intros w a r rnd m c [W WG] Er T Tr Wm Lr Ec N. assert (Wr : wf_record r) by (eapply (proj1 W); exact Er).
  destruct (record_exact rnd r m Wr T Wm Lr) as [(s0 & pt0 & r' & s' & A0 & _)|(e & D & _)]; [destruct (N _ _ A0)|].
  destruct (wf_remote c (proj1 Wr c Ec)) as (k & Lk & Ek & _). eexists. split.
  - cbn [decrypt_message]. unfold run0. destruct (decrypt_signal_runs C a rnd m [] w) as [R _]. rewrite R. cbn [hd_fault tl]. rewrite Er. unfold signal_body. rewrite D.
    apply (signal_rest_completes a [] r w c k Ec Ek Lk). apply (Tr c k (or_introl Ec) Ek).
  - intro b. cbn. destruct (addr_eqb b a) eqn:Q; [|reflexivity]. apply addr_eqb_eq in Q. subst b. auto.
Qed.
Lemma whisper_without : forall w a r rnd m, wf_device w -> w_sess w a = Some r -> (forall s, state_in s r -> tidy s) ->
  wf_signal m -> 1312 <= List.length rnd -> rc_current r = None -> (forall s pt, ~ answers C r m s pt) ->
  exists e, run0 (decrypt_message C a rnd (CSignal m)) w = (Err e, w).
Proof.
  intros w a r rnd m [W WG] Er T Wm Lr Ec N. assert (Wr : wf_record r) by (eapply (proj1 W); exact Er).
  destruct (record_exact rnd r m Wr T Wm Lr) as [(s0 & pt0 & r' & s' & A0 & _)|(e & D & _)]; [destruct (N _ _ A0)|].
  eexists. cbn [decrypt_message]. unfold run0. destruct (decrypt_signal_runs C a rnd m [] w) as [R _]. rewrite R. cbn [hd_fault tl]. rewrite Er. unfold signal_body. rewrite D.
  unfold signal_rest. rewrite Ec. reflexivity.
Qed.
Lemma prekey_answered : forall w a r rnd pm, wf_device w -> w_sess w a = Some r -> (forall s, state_in s r -> tidy s) ->
  wf_prekeymsg pm -> (exists s, state_in s r /\ ss_alice_base s = Byte.x05 :: pm_base pm) ->
  w_policy w a (w_ident w a) (pm_identity pm) Receiving = true -> 1312 <= List.length rnd ->
  (forall s pt, answers C r (pm_message pm) s pt ->
     exists w' r' s', run0 (decrypt_message C a rnd (CPreKey pm)) w = (Ok pt, w') /\ w_sess w' a = Some r' /\ rc_current r' = Some s' /\ later_state s s') /\
  ((forall s pt, ~ answers C r (pm_message pm) s pt) ->
     exists e w', run0 (decrypt_message C a rnd (CPreKey pm)) w = (Err e, w') /\ w_sess w' a = Some r).
Proof.
  intros w a r rnd pm Wd Er T Wm B P Lr. assert (Wr : wf_record r) by (eapply (proj1 (proj1 Wd)); exact Er). pose proof (wf_prekey_inner pm Wm) as Wi.
  destruct (has_state_spec r pm Wr Wm) as (b & Hb & Hs). assert (b = true) as -> by (apply Hs; exact B).
  pose proof (process_has C a (existed (w_sess w a)) (loaded (w_sess w a)) pm w P ltac:(rewrite Er; exact Hb)) as Pr.
  split.
  - intros s pt A. destruct (record_exact rnd r (pm_message pm) Wr T Wi Lr) as [(s0 & pt0 & r' & s' & A0 & J & D & Ec & L)|(e & _ & N)]; [|destruct (N s pt A)].
    destruct (answers_one r (pm_message pm) s0 pt0 s pt Wr T Wi A0 A) as [-> ->].
    eexists _, r', s'. split; [|split; [|split; [exact Ec|exact L]]].
    + cbn [decrypt_message]. eapply decrypt_prekey_completes; [exact Pr|]. rewrite Er. exact D.
    + unfold prekey_done. destruct (existed (w_sess w a)), (w_shared w); cbn; rewrite addr_eqb_refl; reflexivity.
  - intro N. destruct (record_exact rnd r (pm_message pm) Wr T Wi Lr) as [(s0 & pt0 & r' & s' & A0 & _)|(e & D & _)]; [destruct (N _ _ A0)|].
    exists e. eexists. split.
    + cbn [decrypt_message]. unfold run0. destruct (decrypt_prekey_runs C a rnd pm [] w) as [R _]. rewrite R. cbn [hd_fault tl]. unfold prekey_body.
      match goal with |- run (pbind ?p ?f) [] ?w = _ => change (run (pbind p f) [] w) with (run0 (pbind p f) w) end.
      rewrite run0_bind, Pr. cbn [fst snd plift]. unfold prekey_rest. cbn [fst]. rewrite Er. cbn [loaded]. rewrite D. reflexivity.
    + exact Er.
Qed.
End One.

(** *** Executions *)
Lemma opening_whisper : forall C ts w a r rnd m, CryptoOk C -> zero_by_key C -> reachable C (ts, w) -> w_sess w a = Some r -> peers_trusted w a r ->
  wf_signal m -> 1312 <= List.length rnd ->
  (forall s pt, answers C r m s pt ->
     exists w' r' s', run0 (decrypt_message C a rnd (CSignal m)) w = (Ok pt, w') /\ w_sess w' a = Some r' /\ rc_current r' = Some s' /\ later_state s s') /\
  ((forall s pt, ~ answers C r m s pt) ->
     (rc_current r <> None -> exists w', run0 (decrypt_message C a rnd (CSignal m)) w = (Ok [], w') /\ forall b, w_sess w' b = w_sess w b) /\
     (rc_current r = None -> exists e, run0 (decrypt_message C a rnd (CSignal m)) w = (Err e, w))).
Proof.
  intros C ts w a r rnd m H Z R Er Tr Wm Lr. pose proof (reachable_wf C H ts w R) as Wd.
  assert (T : forall s, state_in s r -> tidy s) by (intros s J; exact (reachable_tidy C ts w a r s H R Er J)). split; [|intro N; split].
  - intros s pt A. eapply whisper_answered; eauto.
  - intro Nc. destruct (rc_current r) as [c|] eqn:Ec; [|contradiction]. eapply whisper_unanswered; eauto.
  - intro Ec. eapply whisper_without; eauto.
Qed.
Lemma opening_prekey : forall C ts w a r rnd pm, CryptoOk C -> zero_by_key C -> reachable C (ts, w) -> w_sess w a = Some r ->
  wf_prekeymsg pm -> (exists s, state_in s r /\ ss_alice_base s = Byte.x05 :: pm_base pm) ->
  w_policy w a (w_ident w a) (pm_identity pm) Receiving = true -> 1312 <= List.length rnd ->
  (forall s pt, answers C r (pm_message pm) s pt ->
     exists w' r' s', run0 (decrypt_message C a rnd (CPreKey pm)) w = (Ok pt, w') /\ w_sess w' a = Some r' /\ rc_current r' = Some s' /\ later_state s s') /\
  ((forall s pt, ~ answers C r (pm_message pm) s pt) ->
     exists e w', run0 (decrypt_message C a rnd (CPreKey pm)) w = (Err e, w') /\ w_sess w' a = Some r).
Proof.
  intros C ts w a r rnd pm H Z R Er. apply prekey_answered; auto; [exact (reachable_wf C H ts w R)|].
  intros s J. exact (reachable_tidy C ts w a r s H R Er J).
Qed.
Lemma opening_one : forall C ts w a r m s pt s' pt', CryptoOk C -> zero_by_key C -> reachable C (ts, w) -> w_sess w a = Some r -> wf_signal m ->
  answers C r m s pt -> answers C r m s' pt' -> s = s' /\ pt = pt'.
Proof.
  intros C ts w a r m s pt s' pt' H Z R Er Wm A A'. apply (answers_one C H Z r m); auto.
  - exact (proj1 (proj1 (reachable_wf C H ts w R)) a r Er).
  - intros x J. exact (reachable_tidy C ts w a r x H R Er J).
Qed.
Lemma opening_tidy : forall C ts w a r s m pt pt', CryptoOk C -> zero_by_key C -> reachable C (ts, w) -> w_sess w a = Some r -> state_in s r -> wf_signal m ->
  opens C s m pt -> opens C s m pt' -> pt = pt'.
Proof.
  intros C ts w a r s m pt pt' H Z R Er J Wm O O'. apply (opens_one C H Z s m); auto.
  - exact (state_in_wf _ _ (proj1 (proj1 (reachable_wf C H ts w R)) a r Er) J).
  - exact (reachable_tidy C ts w a r s H R Er J).
Qed.
