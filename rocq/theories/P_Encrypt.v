(** Encryption in one state: totality, the message built, the state afterwards; and
    decryption of such a message by a state holding its keys. *)
From Verif Require Import M_Base M_Crypto M_Aes M_Curve M_Proto M_Message M_Ratchet M_State M_Store M_Session
  S_Crypto S_Message S_State S_Shape S_Ratchet S_Session S_Aes
  P_Base P_Proto P_Curve P_State P_Shape P_Ratchet P_Message P_Aes P_Chain P_Decrypt P_Receive.
From Coq Require Import ZifyBool ZifyNat ZifyN.
Local Open Scope nat_scope.

Lemma ck_next_u32 : forall C c, go_u32 (ck_index (ck_next C c)).
Proof. intros. unfold ck_next, u32, go_u32. cbn [ck_index]. apply N.mod_lt. discriminate. Qed.
Lemma ck_next_len : forall C c, CryptoOk C -> List.length (ck_key (ck_next C c)) = 32.
Proof. intros C c H. unfold ck_next. cbn [ck_key]. apply (ok_hmac_len C H). Qed.

(** A message at a position has the fields it should have. *)
Lemma whisper_fields : forall C key n ratchet sender receiver pt m,
  whisper C key n ratchet sender receiver pt m ->
  sg_version m = 3%N /\ sg_ratchet m = ratchet /\ sg_counter m = n.
Proof.
  intros C key n ratchet sender receiver pt m (mk & prev & body & K & E & B).
  unfold new_signal in B. destruct (mac C _ _ _ _) as [t| |]; cbn [bind] in B; [|discriminate..].
  apply (f_equal (fun x => match x with Ok a => a | _ => m end)) in B. cbv beta iota in B. rewrite <- B. auto.
Qed.
Lemma whisper_wf : forall C key n ratchet sender receiver pt m, CryptoOk C ->
  whisper C key n ratchet sender receiver pt m -> List.length ratchet = 32 -> go_u32 n -> wf_signal m.
Proof.
  intros C key n ratchet sender receiver pt m H W L G.
  destruct (whisper_fields _ _ _ _ _ _ _ _ W) as (V & R & N). destruct W as (mk & prev & body & K & E & B).
  split; [congruence|]. split; [congruence|]. split; [|exact V].
  destruct (verify_mac_built _ _ _ _ _ _ _ _ _ m (mk_mac mk) sender receiver H B) as (ser & R' & _).
  rewrite R', app_length, firstn_length, (ok_hmac_len C H). lia.
Qed.

(** A receiver with the same keys recovers the plaintext. *)
Lemma whisper_opens : forall C key n ratchet sender receiver pt m mk, CryptoOk C ->
  whisper C key n ratchet sender receiver pt m -> keys_at C key n mk ->
  verify_mac C m (mk_mac mk) sender receiver = Ok true /\
  cbc_decrypt C (mk_cipher mk) (mk_iv mk) (sg_body m) = Ok pt.
Proof.
  intros C key n ratchet sender receiver pt m mk H (mk' & prev & body & K & E & B) K'.
  rewrite (keys_at_unique _ _ _ _ _ K' K) in *. destruct K as (_ & L1 & L2 & L3 & _).
  destruct (verify_mac_built _ _ _ _ _ _ _ _ _ m (mk_mac mk') sender receiver H B) as (ser & R' & V).
  split; [apply V; auto|].
  assert (Bd : sg_body m = body).
  { unfold new_signal in B. destruct (mac C _ _ _ _) as [t| |]; cbn [bind] in B; [|discriminate..].
    apply (f_equal (fun x => match x with Ok a => a | _ => m end)) in B. cbv beta iota in B. rewrite <- B. reflexivity. }
  rewrite Bd. destruct (cbc_roundtrip C H (mk_cipher mk') (mk_iv mk') pt) as (ct & E' & _ & _ & D & _).
  - apply legal_key_ok. unfold legal_key. auto.
  - auto.
  - rewrite E in E'. injection E' as <-. exact D.
Qed.

(** Such a message exists for every plaintext. *)
Lemma whisper_total : forall C c ratchet prev sender receiver pt, CryptoOk C ->
  let mk := ck_message_keys C c in
  exists body m, cbc_encrypt C (mk_cipher mk) (mk_iv mk) pt = Ok body /\
    new_signal C 3 (mk_mac mk) ratchet prev (ck_index c) body sender receiver = Ok m /\
    whisper C (ck_key c) (ck_index c) ratchet sender receiver pt m.
Proof.
  intros C c ratchet prev sender receiver pt H mk.
  pose proof (derive_message_keys_at C c H) as K. fold mk in K.
  destruct K as (K0 & L1 & L2 & L3 & K1).
  destruct (proj2 (cbc_encrypt_ok_iff C (mk_cipher mk) (mk_iv mk) pt)) as [body E].
  { split; [unfold legal_key; auto|auto]. }
  destruct (proj2 (new_signal_total C 3 (mk_mac mk) ratchet prev (ck_index c) body sender receiver) L2) as [m M].
  exists body, m. split; [auto|]. split; [auto|]. exists mk, prev, body. unfold keys_at. auto 10.
Qed.

(** How a message is framed in state [s]: plain, or as a pre-key message while one is
    pending, naming the pending ids (a one-time id of 0 is dropped) and base key. *)
Definition framed (s : state) (local : pubkey) (m : signal) (out : ciphertext) : Prop :=
  match ss_pending s with
  | None => out = CSignal m
  | Some p => exists base, pp_base p = pub_bytes base /\ List.length base = 32 /\
      out = CPreKey (new_prekey_msg 3 (ss_local_reg s)
              (if N.eqb (pp_prekey p) 0 then None else Some (pp_prekey p)) (of_int32 (pp_signed p)) base local m)
  end.

Lemma encrypt_state_exact : forall C s pt, CryptoOk C -> wf_state s ->
  exists sc k ratchet local remote m out,
    ss_sender s = Some sc /\ pc_key sc = Some k /\ pc_ratchet sc = pub_bytes ratchet /\ List.length ratchet = 32 /\
    ss_local s = pub_bytes local /\ ss_remote s = pub_bytes remote /\
    List.length local = 32 /\ List.length remote = 32 /\
    whisper C (pck_key k) (pck_index k) ratchet local remote pt m /\
    framed s local m out /\
    encrypt_state C s pt =
      Ok (out, with_sender s (Some (with_chainkey sc
            (mkPChainKey (u32 (pck_index k + 1)) (c_hmac C (pck_key k) [Byte.x02])))), remote).
Proof.
  intros C s pt H W. pose proof W as W'. wf_split W'.
  destruct (wf_sender_key s W) as (sc' & k & Es' & Ek & Gk & Lk & Sk). rewrite Esc in Es'. injection Es' as <-.
  destruct Wsc as (Kr & _). destruct (key33_parse _ Kr) as (ratchet & Lrt & Ert & Prt).
  destruct (wf_local s W) as (local & Ll & El & Pl).
  destruct (wf_remote s W) as (remote & Lrm & Erm & Prm).
  destruct (whisper_total C (mkChainKey (pck_key k) (pck_index k)) ratchet (ss_prevctr s) local remote pt H)
    as (body & m & E & M & Wh). cbn [ck_key ck_index] in Wh, M.
  exists sc, k, ratchet, local, remote, m.
  assert (U : exists out, framed s local m out /\
     (do items <- st_unack s;
      Ok (match items with
          | Some u => CPreKey (new_prekey_msg 3 (ss_local_reg s) (ua_prekey u) (ua_signed u) (ua_base u) local m)
          | None => CSignal m
          end)) = Ok out).
  { unfold framed, st_unack. destruct (ss_pending s) as [p|] eqn:Ep.
    - destruct (Pd p eq_refl) as (_ & _ & Kb). destruct (key33_parse _ Kb) as (base & Lb & Eb & Pb).
      rewrite Pb. cbn [bind]. eexists. split; [|reflexivity]. exists base. auto.
    - eexists. split; reflexivity. }
  destruct U as (out & Fr & U). exists out.
  repeat (split; [assumption|]).
  unfold encrypt_state. rewrite Sk. cbn [bind]. unfold st_sender_ratchet. rewrite Esc, Prt. cbn [bind].
  rewrite (wf_version s W). change (3 mod 256)%N with 3%N. rewrite Pl, Prm. cbn [bind]. rewrite E. cbn [bind].
  cbn [ck_index]. rewrite M. cbn [bind].
  destruct (st_unack s) as [u| |]; cbn [bind] in U |- *; [|discriminate..].
  injection U as <-. unfold st_set_sender_chain_key. rewrite Esc. reflexivity.
Qed.

Lemma encrypt_state_wf : forall C s pt out s' rid, CryptoOk C -> wf_state s ->
  encrypt_state C s pt = Ok (out, s', rid) -> wf_state s' /\ same_session s s' /\
    ss_remote s = pub_bytes rid /\ List.length rid = 32 /\ ss_pending s' = ss_pending s /\
    ss_receivers s' = ss_receivers s /\ ss_root s' = ss_root s.
Proof.
  intros C s pt out s' rid H W E.
  destruct (encrypt_state_exact C s pt H W) as (sc0 & k & ratchet & local & remote & m & out' & Es & Ek & Er & Lrt & El & Em & Ll & Lm & Wh & Fr & X).
  rewrite X in E. injection E as <- <- <-. split; [|split; [|split; [|split; [|split; [|split]]]]]; auto.
  - apply wf_set_sender; auto. wf_split W. rewrite Es in Esc. injection Esc as ->.
    destruct Wsc as (Q1 & Q2 & Q3 & Q4). split; [|exact Lsc].
    split; [exact Q1|]. split; [|auto].
    eexists. split; [reflexivity|]. cbn [pck_index pck_key]. split.
    + unfold u32, go_u32. apply N.mod_lt. discriminate.
    + apply (ok_hmac_len C H).
  - unfold same_session. cbn. auto 10.
Qed.

(** Decryption of genuine messages. *)
Lemma decrypt_ahead : forall C rnd s c k n ratchet remote local pt m, CryptoOk C -> wf_state s ->
  List.length ratchet = 32 -> go_u32 n ->
  ss_remote s = pub_bytes remote -> ss_local s = pub_bytes local ->
  st_receiver_chain s ratchet = Some c -> pc_key c = Some k ->
  (pck_index k <= n)%N -> ((n <= pck_index k + 25000)%N \/ ss_remote s = ss_local s) ->
  whisper C (chain_at C (pck_key k) (N.to_nat (n - pck_index k))) n ratchet remote local pt m ->
  decrypt_session C rnd s m = (Ok (pt, st_clear_unack (after_ahead C s ratchet k n)), rnd).
Proof.
  intros C rnd s c k n ratchet remote local pt m H W Lr G Er El F Ek L J Wh.
  destruct (whisper_fields _ _ _ _ _ _ _ _ Wh) as (V & R & Nc).
  pose proof (whisper_wf _ _ _ _ _ _ _ _ H Wh Lr G) as Wm.
  assert (GM := get_message_keys_ahead C s ratchet c k n H W F Ek L J).
  assert (Ks : keys_at C (chain_at C (pck_key k) (N.to_nat (n - pck_index k))) n
    (ck_message_keys C (ck_iter C (N.to_nat (n - pck_index k)) (mkChainKey (pck_key k) (pck_index k))))).
  { pose proof (message_keys_sound C s ratchet c k n _ _ H W G F Ek GM) as [[X _]|(_ & _ & X)]; [lia|exact X]. }
  destruct (whisper_opens _ _ _ _ _ _ _ _ _ H Wh Ks) as [VM D].
  eapply decrypt_session_run; eauto.
  - rewrite R. eapply get_chain_key_known; eauto.
  - rewrite R, Nc. exact GM.
  - exact (proj1 (get_message_keys_wf _ _ _ _ _ _ _ _ H W F Ek GM)).
Qed.

Lemma decrypt_saved : forall C rnd s c k n x key ratchet remote local pt m, CryptoOk C -> wf_state s ->
  List.length ratchet = 32 -> go_u32 n ->
  ss_remote s = pub_bytes remote -> ss_local s = pub_bytes local ->
  st_receiver_chain s ratchet = Some c -> pc_key c = Some k ->
  (n < pck_index k)%N -> last_msgkey n (pc_msgkeys c) = Some x ->
  keys_at C key n (mkMsgKeys (pmk_cipher x) (pmk_mac x) (pmk_iv x) n) ->
  whisper C key n ratchet remote local pt m ->
  decrypt_session C rnd s m = (Ok (pt, st_clear_unack (after_saved s ratchet n)), rnd).
Proof.
  intros C rnd s c k n x key ratchet remote local pt m H W Lr G Er El F Ek L X Ks Wh.
  destruct (whisper_fields _ _ _ _ _ _ _ _ Wh) as (V & R & Nc).
  pose proof (whisper_wf _ _ _ _ _ _ _ _ H Wh Lr G) as Wm.
  assert (GM := get_message_keys_saved C s ratchet c k n x H W F Ek L X).
  destruct (whisper_opens _ _ _ _ _ _ _ _ _ H Wh Ks) as [VM D].
  eapply decrypt_session_run; eauto.
  - rewrite R. eapply get_chain_key_known; eauto.
  - rewrite R, Nc. exact GM.
  - exact (proj1 (get_message_keys_wf _ _ _ _ _ _ _ _ H W F Ek GM)).
Qed.

(** A consumed position: refused as a duplicate. *)
Lemma decrypt_consumed : forall C rnd s c k m, CryptoOk C -> wf_state s -> wf_signal m ->
  st_receiver_chain s (sg_ratchet m) = Some c -> pc_key c = Some k ->
  (sg_counter m < pck_index k)%N -> (forall x, In x (pc_msgkeys c) -> pmk_index x <> sg_counter m) ->
  decrypt_session C rnd s m = (Err EDuplicate, rnd).
Proof.
  intros C rnd s c k m H W (Le & Gc & Lraw & Ver) F Ek L N. unfold decrypt_session.
  pose proof W as W'. wf_split W'. rewrite Esc.
  rewrite (wf_version s W), Ver. cbn [N.eqb Pos.eqb negb].
  rewrite (get_chain_key_known _ _ _ _ _ _ W F Ek), (get_message_keys_exact C s _ c k _ H W F Ek).
  destruct (N.ltb_spec (sg_counter m) (pck_index k)); [|lia].
  rewrite (proj2 (last_msgkey_none _ _) N). reflexivity.
Qed.

(** Too far ahead: refused, whatever the cryptography computes. *)
Lemma decrypt_too_far : forall C rnd s c k m, wf_state s -> wf_signal m ->
  st_receiver_chain s (sg_ratchet m) = Some c -> pc_key c = Some k ->
  (pck_index k + 25000 < sg_counter m)%N -> ss_remote s <> ss_local s ->
  decrypt_session C rnd s m = (Err (EOther "message from too far in the future"), rnd).
Proof.
  intros C rnd s c k m W (Le & Gc & Lraw & Ver) F Ek L N. unfold decrypt_session.
  pose proof W as W'. wf_split W'. rewrite Esc.
  rewrite (wf_version s W), Ver. cbn [N.eqb Pos.eqb negb].
  rewrite (get_chain_key_known _ _ _ _ _ _ W F Ek). unfold get_message_keys. cbn [ck_index].
  destruct (N.ltb_spec (sg_counter m) (pck_index k)); [lia|]. unfold max_jumps.
  destruct (N.ltb_spec 25000 (sg_counter m - pck_index k)); [|lia].
  unfold st_with_self. destruct (wf_remote s W) as (r & _ & Er & ->).
  destruct (wf_local s W) as (l & _ & El & ->). cbn [bind].
  replace (pub_equal r l) with false; [reflexivity|].
  symmetry. apply bytes_eqb_neq. congruence.
Qed.

(** A first message in a new chain: one Diffie-Hellman step. *)
Lemma decrypt_new : forall C rnd s sc k ours rroot rchain kp rest sroot schain n ratchet remote local pt m,
  CryptoOk C -> wf_state s -> List.length ratchet = 32 -> go_u32 n ->
  ss_remote s = pub_bytes remote -> ss_local s = pub_bytes local ->
  st_receiver_chain s ratchet = None -> ss_sender s = Some sc -> pc_key sc = Some k ->
  new_private_key C (pc_ratchet_priv sc) = Ok ours ->
  create_chain C (ss_root s) ours ratchet = Ok (rroot, rchain) ->
  gen_keypair C rnd = (Ok kp, rest) ->
  create_chain C rroot (kp_priv kp) ratchet = Ok (sroot, schain) ->
  ((n <= 25000)%N \/ ss_remote s = ss_local s) ->
  whisper C (chain_at C (ck_key rchain) (N.to_nat n)) n ratchet remote local pt m ->
  decrypt_session C rnd s m =
    (Ok (pt, st_clear_unack (after_ahead C (after_dh s ratchet rchain sroot kp schain (pck_index k)) ratchet
       (mkPChainKey 0 (ck_key rchain)) n)), rest).
Proof.
  intros C rnd s sc k ours rroot rchain kp rest sroot schain n ratchet remote local pt m
    H W Lr G Er El F Es Ek Np Cr Gk Cs J Wh.
  destruct (whisper_fields _ _ _ _ _ _ _ _ Wh) as (V & R & Nc).
  pose proof (whisper_wf _ _ _ _ _ _ _ _ H Wh Lr G) as Wm.
  pose proof (get_chain_key_new C rnd s ratchet sc k ours rroot rchain kp rest sroot schain W F Es Ek Np Cr Gk Cs) as GC.
  destruct (get_chain_key_wf _ _ _ _ _ _ _ W Lr GC) as (W1 & c & Fc & Ec).
  destruct (create_chain_inv _ _ _ _ _ _ Cr) as (_ & _ & I0 & _).
  rewrite I0 in Ec.
  set (s1 := after_dh s ratchet rchain sroot kp schain (pck_index k)) in *.
  assert (J' : (n <= pck_index (mkPChainKey 0 (ck_key rchain)) + 25000)%N \/ ss_remote s1 = ss_local s1) by exact J.
  assert (GM := get_message_keys_ahead C s1 ratchet c _ n H W1 Fc Ec (N.le_0_l n) J').
  assert (Ks := message_keys_sound C s1 ratchet c _ n _ _ H W1 G Fc Ec GM).
  destruct Ks as [[X _]|(_ & _ & Ks)]; [cbn [pck_index] in X; lia|].
  cbn [pck_key pck_index] in Ks, GM. rewrite N.sub_0_r in Ks, GM.
  destruct (whisper_opens _ _ _ _ _ _ _ _ _ H Wh Ks) as [VM D].
  eapply decrypt_session_run; eauto.
  - rewrite R. exact GC.
  - rewrite R, Nc. destruct rchain as [rk ri]. cbn [ck_index ck_key] in *. subst ri. exact GM.
  - exact (proj1 (get_message_keys_wf C s1 ratchet c (mkPChainKey 0 (ck_key rchain)) n _ _ H W1 Fc Ec
      ltac:(cbn [pck_key pck_index]; exact GM))).
Qed.
