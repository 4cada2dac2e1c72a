(** The ratchet steps of decryption preserve the shape of states. *)
From Verif Require Import M_Base M_Crypto M_Aes M_Curve M_Proto M_Message M_Ratchet M_State M_Store M_Session
  S_Crypto S_Message S_State S_Shape S_Ratchet S_Session S_Aes
  P_Base P_Proto P_Curve P_State P_Shape P_Ratchet P_Message P_Aes P_Chain.
From Coq Require Import ZifyBool ZifyNat ZifyN.

Ltac splits := repeat match goal with |- _ /\ _ => split end.
Ltac wf_split W := destruct W as (V & K1 & K2 & Lr & Gp & (sc & Esc & Wsc & Lsc) & (Lrc & Frc) & Pd & G1 & G2 & K3).

Definition wf_receivers (l : list pchain) : Prop :=
  List.length l <= 5 /\ Forall (fun c => wf_chain c /\ pc_ratchet_priv c = []) l.

Lemma wf_set_receivers : forall s l, wf_state s -> wf_receivers l -> wf_state (with_receivers s l).
Proof. intros s l W R. wf_split W. unfold wf_state, wf_receivers in *; cbn. splits; eauto; try apply R; eexists; split; eauto; split; eauto. Qed.
Lemma wf_set_root : forall s k, wf_state s -> List.length k = 32 -> wf_state (with_root s k).
Proof. intros s l W R. wf_split W. unfold wf_state, wf_receivers in *; cbn. splits; eauto; try apply R; eexists; split; eauto; split; eauto. Qed.
Lemma wf_set_prevctr : forall s k, wf_state s -> go_u32 k -> wf_state (with_prevctr s k).
Proof. intros s l W R. wf_split W. unfold wf_state, wf_receivers in *; cbn. splits; eauto; try apply R; eexists; split; eauto; split; eauto. Qed.
Lemma wf_set_sender : forall s c, wf_state s -> wf_sender c -> wf_state (with_sender s (Some c)).
Proof. intros s l W R. wf_split W. unfold wf_state, wf_receivers in *; cbn. splits; eauto; try apply R; eexists; split; eauto; split; eauto. Qed.
Lemma wf_clear_unack : forall s, wf_state s -> wf_state (st_clear_unack s).
Proof. intros s W. wf_split W. unfold wf_state; cbn. splits; eauto; try discriminate; eexists; split; eauto; split; eauto. Qed.
Lemma wf_receivers_of : forall s, wf_state s -> wf_receivers (ss_receivers s).
Proof. intros s W. wf_split W. split; auto. Qed.

(** What a state of the right shape gives the accessors. *)
Lemma wf_remote : forall s, wf_state s -> exists k, List.length k = 32 /\ ss_remote s = pub_bytes k /\
  st_remote_identity s = Ok (Some k).
Proof.
  intros s W. wf_split W. destruct (key33_parse _ K2) as (k & L & E & P). exists k. split; auto. split; auto.
  unfold st_remote_identity. rewrite E in P |- *. unfold pub_bytes in *. rewrite P. reflexivity.
Qed.
Lemma wf_local : forall s, wf_state s -> exists k, List.length k = 32 /\ ss_local s = pub_bytes k /\
  st_local_identity s = Ok k.
Proof.
  intros s W. wf_split W. destruct (key33_parse _ K1) as (k & L & E & P). exists k. auto.
Qed.
Lemma wf_version : forall s, wf_state s -> st_version s = 3%N.
Proof. intros s W. wf_split W. unfold st_version. rewrite V. reflexivity. Qed.
Lemma wf_root : forall s, wf_state s -> st_root s = Ok (ss_root s).
Proof. intros s W. wf_split W. unfold st_root, new_root_key. rewrite Lr. reflexivity. Qed.

Lemma wf_sender_key : forall s, wf_state s -> exists c k, ss_sender s = Some c /\ pc_key c = Some k /\
  go_u32 (pck_index k) /\ List.length (pck_key k) = 32 /\
  st_sender_chain_key s = Ok (mkChainKey (pck_key k) (pck_index k)).
Proof.
  intros s W. wf_split W. destruct Wsc as (_ & (k & Ek & Gk & Lk) & _). exists sc, k.
  repeat split; auto. unfold st_sender_chain_key. rewrite Esc, Ek. unfold new_chain_key. rewrite Lk. reflexivity.
Qed.

(** *** Receiver chains *)
Lemma wf_found : forall s eph c, wf_state s -> st_receiver_chain s eph = Some c ->
  wf_chain c /\ pc_ratchet c = pub_bytes eph /\ pc_ratchet_priv c = [].
Proof.
  intros s eph c W F. apply find_chain_some in F. destruct F as [I E]. wf_split W.
  rewrite Forall_forall in Frc. destruct (Frc c I). auto.
Qed.

Lemma wf_receiver_key : forall s eph, wf_state s ->
  match st_receiver_chain s eph with
  | None => st_receiver_chain_key s eph = Ok None
  | Some c => exists k, pc_key c = Some k /\ go_u32 (pck_index k) /\ List.length (pck_key k) = 32 /\
      st_receiver_chain_key s eph = Ok (Some (mkChainKey (pck_key k) (pck_index k)))
  end.
Proof.
  intros s eph W. unfold st_receiver_chain_key. destruct (st_receiver_chain s eph) as [c|] eqn:F; [|reflexivity].
  destruct (wf_found s eph c W F) as ((_ & (k & Ek & Gk & Lk) & _) & _). exists k. repeat split; auto.
  rewrite Ek. unfold new_chain_key. rewrite Lk. reflexivity.
Qed.

Lemma wf_upd : forall s eph f, wf_state s ->
  (forall c, wf_chain c -> wf_chain (f c)) -> (forall c, pc_ratchet_priv (f c) = pc_ratchet_priv c) ->
  wf_state (with_receivers s (upd_chain (pub_bytes eph) f (ss_receivers s))).
Proof.
  intros s eph f W H P. apply wf_set_receivers; auto. destruct (wf_receivers_of s W) as [L F]. split.
  - rewrite upd_chain_length. auto.
  - apply upd_chain_forall; auto. intros c [A B]. split; auto. rewrite P; auto.
Qed.

Lemma max_keys_2000 : max_message_keys = 2000. Proof. reflexivity. Qed.

Lemma wf_skip : forall C n ck c, CryptoOk C -> go_u32 (ck_index ck) -> wf_chain c ->
  wf_chain (with_msgkeys c (skip_list C n ck (pc_msgkeys c))).
Proof.
  intros C n ck c H G (A & B & L & F). rewrite <- max_keys_2000 in L.
  split; [auto|]. split; [auto|]. cbn [pc_msgkeys with_msgkeys]. split.
  - rewrite <- max_keys_2000. apply skip_list_length; auto.
  - apply skip_list_forall; auto.
Qed.

Lemma filter_length_le : forall {A} (f : A -> bool) l, List.length (filter f l) <= List.length l.
Proof. intros A f l. induction l as [|x l IH]; [auto|]. cbn [filter]. destruct (f x); cbn [List.length]; lia. Qed.

Lemma wf_filter : forall f c, wf_chain c -> wf_chain (with_msgkeys c (filter f (pc_msgkeys c))).
Proof.
  intros f c (A & B & L & F). split; [auto|]. split; [auto|]. cbn [pc_msgkeys with_msgkeys]. split.
  - pose proof (filter_length_le f (pc_msgkeys c)). lia.
  - rewrite Forall_forall in *. intros x Hx. apply filter_In in Hx. apply F. tauto.
Qed.

Lemma last_msgkey_some : forall n l k, last_msgkey n l = Some k -> In k l /\ pmk_index k = n.
Proof.
  intros n l k. induction l as [|x l IH]; [discriminate|]. cbn [last_msgkey].
  destruct (last_msgkey n l) as [k'|].
  - intro E. injection E as <-. destruct (IH eq_refl). split; [right|]; auto.
  - destruct (N.eqb_spec (pmk_index x) n); [|discriminate]. intro E. injection E as <-. split; [left|]; auto.
Qed.
Lemma last_msgkey_none : forall n l, last_msgkey n l = None <-> forall k, In k l -> pmk_index k <> n.
Proof.
  intros n l. induction l as [|x l IH]; cbn [last_msgkey]; [split; [contradiction|auto]|].
  destruct (last_msgkey n l) as [k'|] eqn:E.
  - split; [discriminate|]. intro H. apply last_msgkey_some in E. exfalso. apply (H k'); [right|]; apply E.
  - destruct (N.eqb_spec (pmk_index x) n).
    + split; [discriminate|]. intro H. exfalso. apply (H x); [left|]; auto.
    + split; [|auto]. intros _ k [<-|I]; auto. apply IH; auto.
Qed.

(** Exactly what messageKeys does on a state of the right shape. *)
Lemma get_message_keys_exact : forall C s eph c k counter, CryptoOk C -> wf_state s ->
  st_receiver_chain s eph = Some c -> pc_key c = Some k ->
  get_message_keys C s eph (mkChainKey (pck_key k) (pck_index k)) counter =
  if (counter <? pck_index k)%N then
    match last_msgkey counter (pc_msgkeys c) with
    | None => Err EDuplicate
    | Some m => Ok (mkMsgKeys (pmk_cipher m) (pmk_mac m) (pmk_iv m) counter,
        with_receivers s (upd_chain (pub_bytes eph) (fun c => with_msgkeys c
          (filter (fun k => negb (N.eqb (pmk_index k) counter)) (pc_msgkeys c))) (ss_receivers s)))
    end
  else if ((25000 <? counter - pck_index k) && negb (bytes_eqb (ss_remote s) (ss_local s)))%N
  then Err (EOther "message from too far in the future")
  else
    let n := N.to_nat (counter - pck_index k) in
    let ck := mkChainKey (pck_key k) (pck_index k) in
    Ok (ck_message_keys C (ck_iter C n ck),
        with_receivers s (upd_chain (pub_bytes eph) (fun c =>
          with_chainkey (with_msgkeys c (skip_list C n ck (pc_msgkeys c)))
            (mkPChainKey (ck_index (ck_iter C n ck)) (ck_key (ck_iter C n ck)))) (ss_receivers s))).
Proof.
  intros C s eph c k counter H W F Ek. unfold get_message_keys. cbn [ck_index].
  destruct (N.ltb_spec counter (pck_index k)).
  - unfold st_take_message_keys. rewrite F.
    destruct (last_msgkey counter (pc_msgkeys c)) as [m|] eqn:E; [|reflexivity].
    apply last_msgkey_some in E. destruct E as [I _].
    destruct (wf_found s eph c W F) as ((_ & _ & _ & Fm) & _). rewrite Forall_forall in Fm.
    destruct (Fm m I) as (_ & L1 & L2 & L3). unfold new_message_keys. rewrite L1, L2, L3.
    cbn [Nat.eqb negb bind]. reflexivity.
  - assert (S : (if (max_jumps <? counter - pck_index k)%N then st_with_self s else Ok true) =
      Ok (negb ((25000 <? counter - pck_index k) && negb (bytes_eqb (ss_remote s) (ss_local s)))%N)).
    { unfold max_jumps. destruct (25000 <? counter - pck_index k)%N; [|reflexivity]. cbn [andb].
      unfold st_with_self. destruct (wf_remote s W) as (r & Lr & Er & ->).
      destruct (wf_local s W) as (l & Ll & El & ->). cbn [bind].
      rewrite Er, El, negb_involutive. reflexivity. }
    rewrite S. cbn [bind]. rewrite negb_involutive.
    destruct (_ && _); [reflexivity|].
    rewrite (skip_keys_exact C eph _ s _ c F). cbn [bind].
    unfold st_set_receiver_chain_key. rewrite st_receiver_upd by reflexivity. rewrite F. cbn [option_map bind].
    cbn [with_receivers ss_receivers]. rewrite upd_chain_comp by reflexivity. reflexivity.
Qed.

Lemma get_message_keys_wf : forall C s eph c k counter mk s', CryptoOk C -> wf_state s ->
  st_receiver_chain s eph = Some c -> pc_key c = Some k ->
  get_message_keys C s eph (mkChainKey (pck_key k) (pck_index k)) counter = Ok (mk, s') ->
  wf_state s' /\ s' = with_receivers s (ss_receivers s') /\
  List.length (mk_cipher mk) = 32 /\ List.length (mk_mac mk) = 32 /\ List.length (mk_iv mk) = 16.
Proof.
  intros C s eph c k counter mk s' H W F Ek E.
  rewrite (get_message_keys_exact C s eph c k counter H W F Ek) in E.
  destruct (wf_found s eph c W F) as ((_ & (k' & Ek' & Gk & Lk) & _ & Fm) & _).
  assert (k' = k) by congruence. subst k'.
  destruct (counter <? pck_index k)%N.
  - destruct (last_msgkey counter (pc_msgkeys c)) as [m|] eqn:L; [|discriminate].
    apply last_msgkey_some in L. destruct L as [I _]. rewrite Forall_forall in Fm.
    destruct (Fm m I) as (_ & L1 & L2 & L3). injection E as <- <-.
    split; [|split; [reflexivity|auto]].
    apply wf_upd; auto. intros; apply wf_filter; auto.
  - destruct (_ && _); [discriminate|]. cbv zeta in E. injection E as <- <-.
    set (n := N.to_nat (counter - pck_index k)).
    destruct (derive_message_keys_at C (ck_iter C n (mkChainKey (pck_key k) (pck_index k))) H)
      as (_ & L1 & L2 & L3 & _).
    split; [|split; [reflexivity|auto]].
    apply wf_upd; auto. intros c' Wc.
    pose proof (wf_skip C n (mkChainKey (pck_key k) (pck_index k)) c' H Gk Wc) as (A & _ & B1 & B2).
    split; [auto|]. split; [|split; auto]. eexists. split; [reflexivity|]. cbn [pck_index pck_key]. split.
    + apply ck_iter_u32. auto.
    + rewrite ck_iter_key. cbn [ck_key]. unfold chain_at. destruct n; [auto|]. cbn [Nat.iter nat_rect].
      apply (ok_hmac_len C H).
Qed.

Lemma get_message_keys_no_panic : forall C s eph c k counter, CryptoOk C -> wf_state s ->
  st_receiver_chain s eph = Some c -> pc_key c = Some k ->
  get_message_keys C s eph (mkChainKey (pck_key k) (pck_index k)) counter <> Panic.
Proof.
  intros. rewrite (get_message_keys_exact C s eph c k counter) by auto.
  destruct (counter <? pck_index k)%N; [destruct (last_msgkey _ _); discriminate|].
  destruct (_ && _); discriminate.
Qed.

(** *** The DH ratchet *)
Lemma gen_keypair_wf : forall C rnd kp rest, gen_keypair C rnd = (Ok kp, rest) ->
  List.length (kp_pub kp) = 32 /\ List.length (sk_bytes (kp_priv kp)) = 32.
Proof.
  intros C rnd kp rest. unfold gen_keypair, gen_private_key.
  destruct (read_full 32 rnd) as [[k| |] r]; try discriminate.
  unfold new_private_key. destruct (Nat.eqb_spec (List.length k) 32); cbn [negb]; [|discriminate].
  intro E. injection E as <- <-. cbn [kp_pub kp_priv sk_pub sk_bytes].
  split; [apply ed_to_mont_length|]. rewrite clamp_length. auto.
Qed.
Lemma gen_keypair_no_panic : forall C rnd rest, gen_keypair C rnd <> (Panic, rest).
Proof.
  intros C rnd rest. unfold gen_keypair, gen_private_key, read_full.
  destruct (Nat.ltb _ _); [discriminate|]. unfold new_private_key.
  destruct (Nat.eqb (List.length (firstn 32 rnd)) 32); discriminate.
Qed.

Lemma new_chain_wf : forall eph (ck : chainkey), List.length eph = 32 -> go_u32 (ck_index ck) ->
  List.length (ck_key ck) = 32 ->
  wf_chain (mkPChain (pub_bytes eph) [] (Some (mkPChainKey (ck_index ck) (ck_key ck))) []).
Proof.
  intros. split; [apply key33_bytes; auto|]. split; [eexists; split; [reflexivity|auto]|].
  cbn. split; [lia|constructor].
Qed.
Lemma set_sender_wf : forall s kp ck, wf_state s -> List.length (kp_pub kp) = 32 ->
  List.length (sk_bytes (kp_priv kp)) = 32 -> go_u32 (ck_index ck) -> List.length (ck_key ck) = 32 ->
  wf_state (st_set_sender_chain s kp ck).
Proof.
  intros. unfold st_set_sender_chain. apply wf_set_sender; auto. split; [|auto].
  split; [apply key33_bytes; auto|]. split; [eexists; split; [reflexivity|auto]|].
  cbn. split; [lia|constructor].
Qed.
Lemma add_receiver_wf : forall s eph ck, wf_state s -> List.length eph = 32 ->
  go_u32 (ck_index ck) -> List.length (ck_key ck) = 32 -> wf_state (st_add_receiver_chain s eph ck).
Proof.
  intros s eph ck W L G K. unfold st_add_receiver_chain. apply wf_set_receivers; auto.
  destruct (wf_receivers_of s W) as [Lr Fr]. split.
  - apply trim_front_length. rewrite app_length. cbn. unfold max_receiver_chains. lia.
  - apply trim_front_forall. apply Forall_app. split; auto.
    constructor; auto. split; [|reflexivity]. apply new_chain_wf; auto.
Qed.

(** chainKey: known ratchet key, or a full DH step; the chain is then present. *)
Lemma get_chain_key_wf : forall C rnd s eph ck s' rest, wf_state s ->
  List.length eph = 32 ->
  get_chain_key C rnd s eph = (Ok (ck, s'), rest) ->
  wf_state s' /\
  exists c, st_receiver_chain s' eph = Some c /\ pc_key c = Some (mkPChainKey (ck_index ck) (ck_key ck)).
Proof.
  intros C rnd s eph ck s' rest W Le E. unfold get_chain_key in E.
  pose proof (wf_receiver_key s eph W) as R. destruct (st_receiver_chain s eph) as [c|] eqn:F.
  - destruct R as (k & Ek & Gk & Lk & R). rewrite R in E. injection E as <- <- <-.
    split; auto. exists c. split; auto. cbn [ck_index ck_key]. rewrite Ek. destruct k; reflexivity.
  - rewrite R in E. rewrite (wf_root s W) in E. cbn [bind] in E.
    destruct (st_sender_ratchet_priv C s) as [ours| |]; cbn [bind] in E; [|discriminate..].
    destruct (create_chain C (ss_root s) ours eph) as [[rroot rchain]| |] eqn:Cr; [|discriminate..].
    destruct (gen_keypair C rnd) as [[kp| |] r1] eqn:G; [|discriminate..].
    destruct (create_chain C rroot (kp_priv kp) eph) as [[sroot schain]| |] eqn:Cs; cbn [bind] in E; [|discriminate..].
    destruct (wf_sender_key s W) as (c & k & _ & _ & Gk & _ & Sk). rewrite Sk in E. cbn [bind] in E.
    injection E as <- <- <-.
    destruct (create_chain_inv _ _ _ _ _ _ Cr) as (Lrr & Lrc & Irc & _).
    destruct (create_chain_inv _ _ _ _ _ _ Cs) as (Lsr & Lsc & Isc & _).
    destruct (gen_keypair_wf _ _ _ _ G) as [Gp Gs].
    split.
    + apply set_sender_wf; auto; [|rewrite Isc; reflexivity].
      apply wf_set_prevctr.
      * apply add_receiver_wf; auto; [|rewrite Irc; reflexivity]. apply wf_set_root; auto.
      * cbn [ck_index]. destruct (N.ltb_spec 0 (pck_index k)); unfold go_u32 in *; lia.
    + exists (mkPChain (pub_bytes eph) [] (Some (mkPChainKey (ck_index rchain) (ck_key rchain))) []).
      unfold st_receiver_chain.
      cbn [st_set_sender_chain with_sender with_prevctr st_add_receiver_chain with_receivers with_root ss_receivers].
      unfold trim_front. destruct (wf_receivers_of s W) as [Lr _].
      assert (FN : find_chain (pub_bytes eph) (ss_receivers s) = None) by exact F.
      split; [|reflexivity].
      match goal with |- context [if ?b then _ else _] => destruct b eqn:B end.
      * destruct (ss_receivers s) as [|x l] eqn:El.
        -- discriminate B.
        -- cbn [app skipn]. rewrite find_chain_app.
           cbn [find_chain] in FN. destruct (bytes_eqb (pc_ratchet x) (pub_bytes eph)); [discriminate|].
           rewrite FN. cbn [find_chain pc_ratchet]. rewrite bytes_eqb_refl. reflexivity.
      * rewrite find_chain_app, FN. cbn [find_chain pc_ratchet]. rewrite bytes_eqb_refl. reflexivity.
Qed.

(** Fields that decryption never changes. *)
Definition same_session (s s' : state) : Prop :=
  ss_version s' = ss_version s /\ ss_local s' = ss_local s /\ ss_remote s' = ss_remote s /\
  ss_remote_reg s' = ss_remote_reg s /\ ss_local_reg s' = ss_local_reg s /\
  ss_alice_base s' = ss_alice_base s.

Lemma get_chain_key_same : forall C rnd s eph ck s' rest,
  get_chain_key C rnd s eph = (Ok (ck, s'), rest) -> same_session s s' /\ ss_pending s' = ss_pending s.
Proof.
  intros C rnd s eph ck s' rest E. unfold get_chain_key in E.
  destruct (st_receiver_chain_key s eph) as [[k|]| |]; [|..|discriminate|discriminate].
  - injection E as <- <- <-. unfold same_session. auto 10.
  - destruct (do root <- st_root s; do ours <- st_sender_ratchet_priv C s; create_chain C root ours eph) as [[rroot rchain]| |]; [|discriminate..].
    destruct (gen_keypair C rnd) as [[kp| |] r1]; [|discriminate..].
    destruct (create_chain C rroot (kp_priv kp) eph) as [[sroot schain]| |]; cbn [bind] in E; [|discriminate..].
    destruct (st_sender_chain_key s); cbn [bind] in E; [|discriminate..].
    injection E as <- <- <-. unfold same_session. cbn. auto 10.
Qed.

Lemma get_chain_key_no_panic : forall C rnd s eph rest, wf_state s ->
  get_chain_key C rnd s eph <> (Panic, rest).
Proof.
  intros C rnd s eph rest W. unfold get_chain_key. pose proof (wf_receiver_key s eph W) as R.
  destruct (st_receiver_chain s eph) as [c|].
  - destruct R as (k & _ & _ & _ & ->). discriminate.
  - rewrite R, (wf_root s W). cbn [bind]. unfold st_sender_ratchet_priv.
    pose proof W as W'. wf_split W'. rewrite Esc. unfold new_private_key. rewrite Lsc. cbn [Nat.eqb negb bind].
    match goal with |- context [create_chain C (ss_root s) ?o eph] => set (ours := o) end.
    destruct (create_chain C (ss_root s) ours eph) as [[rroot rchain]| |] eqn:Cr.
    + destruct (gen_keypair C rnd) as [[kp| |] r1] eqn:G; [|discriminate|].
      * destruct (wf_sender_key s W) as (c & k & _ & _ & _ & _ & Sk). rewrite Sk.
        destruct (create_chain C rroot (kp_priv kp) eph) as [[sroot schain]| |] eqn:Cs; cbn [bind]; try discriminate.
        exfalso. exact (create_chain_no_panic _ _ _ _ Cs).
      * exfalso. exact (gen_keypair_no_panic _ _ _ G).
    + discriminate.
    + exfalso. exact (create_chain_no_panic _ _ _ _ Cr).
Qed.

(** C25 at the level of one state: a plaintext is the authenticated decryption. *)
Definition authentic (C : Crypto) (s : state) (m : signal) (pt : bytes) : Prop :=
  exists mk rid lid,
    ss_remote s = pub_bytes rid /\ ss_local s = pub_bytes lid /\
    verify_mac C m (mk_mac mk) rid lid = Ok true /\
    cbc_decrypt C (mk_cipher mk) (mk_iv mk) (sg_body m) = Ok pt.

Lemma decrypt_session_inv : forall C rnd s m pt s' rest, CryptoOk C -> wf_state s -> wf_signal m ->
  decrypt_session C rnd s m = (Ok (pt, s'), rest) ->
  wf_state s' /\ same_session s s' /\ ss_pending s' = None /\ authentic C s m pt.
Proof.
  intros C rnd s m pt s' rest H W (Le & Gc & Lraw & Ver) E. unfold decrypt_session in E.
  pose proof W as W'. wf_split W'. rewrite Esc in E.
  rewrite (wf_version s W), Ver in E. cbn [N.eqb Pos.eqb negb] in E.
  destruct (get_chain_key C rnd s (sg_ratchet m)) as [[[ck s1]| |] r1] eqn:Eck; [|discriminate..].
  destruct (get_chain_key_wf _ _ _ _ _ _ _ W Le Eck) as (W1 & c & Fc & Ec).
  destruct (get_chain_key_same _ _ _ _ _ _ _ Eck) as [S1 _].
  destruct (get_message_keys C s1 (sg_ratchet m) ck (sg_counter m)) as [[mk s2]| |] eqn:Emk; cbn [bind] in E; [|discriminate..].
  assert (Emk' : get_message_keys C s1 (sg_ratchet m) (mkChainKey (pck_key (mkPChainKey (ck_index ck) (ck_key ck))) (pck_index (mkPChainKey (ck_index ck) (ck_key ck)))) (sg_counter m) = Ok (mk, s2)) by (destruct ck; exact Emk).
  destruct (get_message_keys_wf C s1 _ c _ _ mk s2 H W1 Fc Ec Emk') as (W2 & S2 & L1 & L2 & L3).
  destruct (wf_remote s2 W2) as (rid & _ & Er & Pr). rewrite Pr in E. cbn [bind] in E.
  destruct (wf_local s2 W2) as (lid & _ & El & Pl). rewrite Pl in E. cbn [bind] in E.
  destruct (verify_mac C m (mk_mac mk) rid lid) as [[|]| |] eqn:Ev; cbn [bind negb] in E; [|discriminate..].
  destruct (cbc_decrypt C (mk_cipher mk) (mk_iv mk) (sg_body m)) as [p| |] eqn:Ed; cbn [bind] in E; [|discriminate..].
  injection E as <- <- <-.
  assert (S12 : same_session s s2).
  { rewrite S2. unfold same_session in *. cbn [with_receivers ss_version ss_local ss_remote ss_remote_reg ss_local_reg ss_alice_base]. exact S1. }
  split; [apply wf_clear_unack; auto|]. split; [exact S12|]. split; [reflexivity|].
  exists mk, rid, lid. destruct S12 as (_ & Q1 & Q2 & _). rewrite <- Q1, <- Q2. auto.
Qed.

Lemma verify_mac_no_panic : forall C m key s r, 8 <= List.length (sg_raw m) -> verify_mac C m key s r <> Panic.
Proof.
  intros C m key s r L. unfold verify_mac. destruct (Nat.ltb_spec (List.length (sg_raw m)) 8); [lia|].
  unfold mac. destruct (negb _); discriminate.
Qed.

Lemma cbc_decrypt_no_panic : forall C key iv ct, CryptoOk C -> cbc_decrypt C key iv ct <> Panic.
Proof.
  intros C key iv ct H E. destruct (cbc_decrypt_exact C H key iv ct) as [A B].
  assert (D : {legal_key key /\ ct <> [] /\ List.length ct mod 16 = 0 /\ List.length iv = 16} +
              {~ (legal_key key /\ ct <> [] /\ List.length ct mod 16 = 0 /\ List.length iv = 16)}).
  { unfold legal_key. destruct (Nat.eq_dec (List.length key) 16), (Nat.eq_dec (List.length key) 24),
      (Nat.eq_dec (List.length key) 32), (Nat.eq_dec (List.length ct mod 16) 0), (Nat.eq_dec (List.length iv) 16), ct;
      try (left; repeat split; auto; discriminate); right; intros (K & N & M & I); try contradiction; lia. }
  destruct D as [D|D].
  - destruct (A D) as (d & _ & [[_ Q]|[_ [e Q]]]); rewrite Q in E; discriminate.
  - destruct (B D) as [e Q]. rewrite Q in E. discriminate.
Qed.

Lemma decrypt_session_no_panic : forall C rnd s m rest, CryptoOk C -> wf_state s -> wf_signal m ->
  decrypt_session C rnd s m <> (Panic, rest).
Proof.
  intros C rnd s m rest H W (Le & Gc & Lraw & Ver) E. unfold decrypt_session in E.
  pose proof W as W'. wf_split W'. rewrite Esc in E.
  rewrite (wf_version s W), Ver in E. cbn [N.eqb Pos.eqb negb] in E.
  destruct (get_chain_key C rnd s (sg_ratchet m)) as [[[ck s1]| |] r1] eqn:Eck; [|discriminate|].
  2:{ exact (get_chain_key_no_panic _ _ _ _ _ W Eck). }
  destruct (get_chain_key_wf _ _ _ _ _ _ _ W Le Eck) as (W1 & c & Fc & Ec).
  assert (Emk' : get_message_keys C s1 (sg_ratchet m) (mkChainKey (pck_key (mkPChainKey (ck_index ck) (ck_key ck))) (pck_index (mkPChainKey (ck_index ck) (ck_key ck)))) (sg_counter m) = get_message_keys C s1 (sg_ratchet m) ck (sg_counter m)) by (destruct ck; reflexivity).
  pose proof (get_message_keys_no_panic C s1 _ c _ (sg_counter m) H W1 Fc Ec) as NP.
  rewrite Emk' in NP.
  destruct (get_message_keys C s1 (sg_ratchet m) ck (sg_counter m)) as [[mk s2]| |] eqn:Emk; cbn [bind] in E; [|discriminate|contradiction].
  destruct (get_message_keys_wf C s1 _ c _ _ mk s2 H W1 Fc Ec Emk') as (W2 & S2 & L1 & L2 & L3).
  destruct (wf_remote s2 W2) as (rid & _ & Er & Pr). rewrite Pr in E. cbn [bind] in E.
  destruct (wf_local s2 W2) as (lid & _ & El & Pl). rewrite Pl in E. cbn [bind] in E.
  pose proof (verify_mac_no_panic C m (mk_mac mk) rid lid Lraw) as NV.
  destruct (verify_mac C m (mk_mac mk) rid lid) as [[|]| |] eqn:Ev; cbn [bind negb] in E; [|discriminate|discriminate|contradiction].
  pose proof (cbc_decrypt_no_panic C (mk_cipher mk) (mk_iv mk) (sg_body m) H) as ND.
  destruct (cbc_decrypt C (mk_cipher mk) (mk_iv mk) (sg_body m)) as [p| |] eqn:Ed; cbn [bind] in E; [discriminate|discriminate|contradiction].
Qed.
