(** No answer of a store makes a call panic, but for a missing signed pre-key (C98). *)
From Verif Require Import M_Base M_Crypto M_Aes M_Curve M_Proto M_Message M_Ratchet M_State M_Store M_Session M_Group
  S_Crypto S_Message S_State S_Shape S_Session S_Api S_Group S_Edwards S_SmallKeys S_Damaged R_Curve R_Real
  P_Base P_Curve P_Ratchet P_State P_Message P_Aes P_Verify P_Decrypt P_Prog P_Send P_Bundle P_DecMore P_Real P_SmallKeys P_SmallSess.
Local Open Scope nat_scope.

Definition np {A} (r : res A) : Prop := r <> Panic.
Lemma np_bind : forall {A B} (r : res A) (f : A -> res B), np r -> (forall a, np (f a)) -> np (bind r f).
Proof. intros A B [a|e|] f N F; cbn; [apply F|discriminate|destruct (N eq_refl)]. Qed.
Lemma np_chain_key : forall k i, np (new_chain_key k i).
Proof. intros k i. unfold np, new_chain_key. destruct (negb _); discriminate. Qed.
Lemma np_root_key : forall k, np (new_root_key k).
Proof. intros k. unfold np, new_root_key. destruct (negb _); discriminate. Qed.
Lemma np_private : forall C k, np (new_private_key C k).
Proof. intros C k. unfold np, new_private_key. destruct (negb _); discriminate. Qed.
Lemma np_gen : forall C rnd, np (fst (gen_keypair C rnd)).
Proof. intros C rnd E. destruct (gen_keypair C rnd) as [x rest] eqn:G. cbn [fst] in E. subst x. exact (gen_keypair_no_panic _ _ _ G). Qed.
Lemma np_remote : forall s, np (st_remote_identity s).
Proof. intro s. unfold st_remote_identity. destruct (ss_remote s); [discriminate|]. apply np_bind; [apply new_public_key_no_panic|discriminate]. Qed.
Lemma np_with_self : forall s, np (st_with_self s).
Proof.
  intro s. unfold st_with_self. apply np_bind; [apply np_remote|]. intros [k|]; [|discriminate].
  apply np_bind; [apply new_public_key_no_panic|discriminate].
Qed.
Lemma np_sender_key : forall s, np (st_sender_chain_key s).
Proof. intro s. unfold st_sender_chain_key. destruct (ss_sender s) as [c|]; [|discriminate]. destruct (pc_key c); [apply np_chain_key|discriminate]. Qed.
Lemma np_set_keys : forall s e k, np (st_set_message_keys s e k).
Proof. intros s e k. unfold st_set_message_keys. destruct (st_receiver_chain s e); discriminate. Qed.
Lemma np_skip : forall C n s e ck, np (skip_keys C n s e ck).
Proof. intros C n. induction n as [|n IH]; intros s e ck; cbn [skip_keys]; [discriminate|]. apply np_bind; [apply np_set_keys|]. intro. apply IH. Qed.
Lemma np_get_chain : forall C rnd s e, np (fst (get_chain_key C rnd s e)).
Proof.
  intros C rnd s e. unfold get_chain_key.
  assert (P0 : np (st_receiver_chain_key s e)).
  { unfold st_receiver_chain_key. destruct (st_receiver_chain s e) as [c|]; [|discriminate].
    destruct (match pc_key c with Some k => _ | None => _ end). apply np_bind; [apply np_chain_key|discriminate]. }
  destruct (st_receiver_chain_key s e) as [[ck|]|x|]; [discriminate| |discriminate|contradiction].
  assert (P1 : np (bind (st_root s) (fun root => bind (st_sender_ratchet_priv C s) (fun ours => create_chain C root ours e)))).
  { apply np_bind; [apply np_root_key|]. intro root. apply np_bind; [|intro; apply create_chain_no_panic].
    unfold st_sender_ratchet_priv. destruct (ss_sender s); [apply np_private|discriminate]. }
  destruct (bind (st_root s) _) as [[rr rc]|x|]; [|discriminate|contradiction].
  pose proof (np_gen C rnd) as P2. destruct (gen_keypair C rnd) as [[kp|x|] rest]; cbn [fst] in *; [|discriminate|contradiction].
  apply np_bind; [apply create_chain_no_panic|]. intros [a b]. apply np_bind; [apply np_sender_key|discriminate].
Qed.
Lemma np_message_keys : forall C s e ck n, np (get_message_keys C s e ck n).
Proof.
  intros C s e ck n. unfold get_message_keys. destruct (N.ltb n (ck_index ck)).
  - unfold st_take_message_keys. destruct (st_receiver_chain s e) as [c|]; [|discriminate].
    destruct (last_msgkey n (pc_msgkeys c)) as [k|]; [|discriminate].
    assert (P : np (new_message_keys (pmk_cipher k) (pmk_mac k) (pmk_iv k) n)).
    { unfold np, new_message_keys. destruct (negb _); [discriminate|]. destruct (negb _); [discriminate|]. destruct (negb _); discriminate. }
    destruct (new_message_keys _ _ _ _); cbn [bind]; [discriminate|discriminate|contradiction].
  - apply np_bind; [destruct (N.ltb _ _); [apply np_with_self|discriminate]|]. intros []; cbn [negb]; [|discriminate].
    apply np_bind; [apply np_skip|]. intros [s' ck']. apply np_bind; [|discriminate].
    unfold st_set_receiver_chain_key. destruct (st_receiver_chain s' e); discriminate.
Qed.
Lemma np_session : forall C rnd s m, CryptoOk C -> 8 <= List.length (sg_raw m) -> np (fst (decrypt_session C rnd s m)).
Proof.
  intros C rnd s m H L. unfold decrypt_session. destruct (ss_sender s); [|discriminate]. destruct (negb _); [discriminate|].
  pose proof (np_get_chain C rnd s (sg_ratchet m)) as P. destruct (get_chain_key C rnd s (sg_ratchet m)) as [[[ck s1]|x|] rest]; cbn [fst] in *; [|discriminate|contradiction].
  apply np_bind; [apply np_message_keys|]. intros [mk s2]. apply np_bind; [apply np_remote|]. intros [rid|]; [|discriminate].
  apply np_bind; [apply new_public_key_no_panic|]. intro lid. apply np_bind; [apply verify_mac_no_panic; exact L|].
  intros []; cbn [negb]; [|discriminate]. apply np_bind; [apply cbc_decrypt_no_panic; exact H|discriminate].
Qed.
Lemma np_previous : forall C m, CryptoOk C -> 8 <= List.length (sg_raw m) ->
  forall l rnd i found, np (fst (try_previous C rnd i l m found)).
Proof.
  intros C m H L l. induction l as [|s r IH]; intros rnd i found; cbn [try_previous]; [discriminate|].
  pose proof (np_session C rnd s m H L) as P. destruct (decrypt_session C rnd s m) as [[[pt s']|[]|] rest]; cbn [fst] in *; try apply IH; [discriminate|contradiction].
Qed.
Lemma np_parse_all : forall l, np (parse_all l).
Proof. induction l as [|b l IH]; cbn [parse_all]; [discriminate|]. apply np_bind; [apply state_parse_no_panic|]. intro. apply np_bind; [exact IH|discriminate]. Qed.
Lemma np_record : forall C rnd r m, CryptoOk C -> 8 <= List.length (sg_raw m) -> np (decrypt_record C rnd r m).
Proof.
  intros C rnd r m H L. unfold decrypt_record.
  assert (P : forall rnd, np (bind (rc_previous_states r) (fun l => match try_previous C rnd 0 l m None with
    | (Ok (Some (i, s, pt)), _) => Ok (pt, rc_promote_old r i s) | (Ok None, _) => Err (EOther "decryption failed: invalid message")
    | (Err e, _) => Err e | (Panic, _) => Panic end))).
  { intro rnd'. apply np_bind; [apply np_parse_all|]. intro l. pose proof (np_previous C m H L l rnd' 0 None) as Q.
    destruct (try_previous C rnd' 0 l m None) as [[[[[i s] pt]|]|e|] rest]; cbn [fst] in Q; try discriminate. contradiction. }
  destruct (rc_current r) as [s|]; [|apply P]. pose proof (np_session C rnd s m H L) as Q.
  destruct (decrypt_session C rnd s m) as [[[pt s']|[]|] rest]; cbn [fst] in *; try apply P; [discriminate|discriminate|contradiction].
Qed.
Lemma np_encrypt : forall C s pt, np (encrypt_state C s pt).
Proof.
  intros C s pt. unfold encrypt_state. apply np_bind; [apply np_sender_key|]. intro ck. cbv zeta.
  apply np_bind; [unfold st_sender_ratchet; destruct (ss_sender s); [apply new_public_key_no_panic|discriminate]|]. intro eph.
  apply np_bind; [apply new_public_key_no_panic|]. intro lid. apply np_bind; [apply np_remote|]. intros [rid|]; [|discriminate].
  apply np_bind; [apply cbc_encrypt_total|]. intro ct. apply np_bind.
  { unfold new_signal. apply np_bind; [unfold mac; destruct (negb _); discriminate|discriminate]. }
  intro msg. apply np_bind; [|discriminate]. unfold st_unack. destruct (ss_pending s); [|discriminate].
  apply np_bind; [apply new_public_key_no_panic|discriminate].
Qed.
Lemma np_alice : forall C rnd ident base ti ts ot tr, np (fst (init_alice C rnd ident base ti ts ot tr)).
Proof.
  intros C rnd ident base ti ts ot tr. unfold init_alice. pose proof (np_gen C rnd) as P.
  destruct (gen_keypair C rnd) as [[rp|e|] rest]; cbn [fst] in *; [|discriminate|contradiction].
  apply np_bind; [apply agreement_no_panic|]. intro d1. apply np_bind; [apply agreement_no_panic|]. intro d2.
  apply np_bind; [apply agreement_no_panic|]. intro d3. apply np_bind.
  { destruct ot; [apply np_bind; [apply agreement_no_panic|discriminate]|discriminate]. }
  intro sec. apply np_bind.
  { unfold derive_keys. apply np_bind; [apply np_root_key|]. intro. apply np_bind; [apply np_chain_key|discriminate]. }
  intros [root chain]. apply np_bind; [apply create_chain_no_panic|]. intros []. discriminate.
Qed.

(** ** Programs *)
Lemma may_return_pnp : forall (ans : forall X, op X -> res X -> Prop), (forall X (o : op X) x, ans X o x -> x <> Panic) ->
  forall {A} (p : prog A) r, may_return ans p r -> pnp ans p -> r <> Panic.
Proof. intros ans N A p r M. induction M as [r|X o k x r Hx M IH]; intro P; [exact P|]. apply IH. apply P; [exact (N _ _ _ Hx)|exact Hx]. Qed.
Lemma run_may_return : forall {A} (p : prog A) fs w, may_return anything p (fst (run p fs w)).
Proof.
  intros A p. induction p as [r|X o k IH]; intros fs w; [apply mr_ret|]. cbn [run].
  pose proof (exec_f_no_panic X o (hd_fault fs) w) as N. destruct (exec_f o (hd_fault fs) w) as [x w1]. apply (mr_do anything X o k x); [exact N|apply IH].
Qed.
Lemma pnp_encrypt : forall ans C a pt, pnp ans (encrypt_message C a pt).
Proof.
  intros ans C a pt. unfold encrypt_message. apply pnp_do. intros [r|] _; [|discriminate]. destruct (rc_current r) as [s|]; [|discriminate].
  apply pnp_lift; [apply np_encrypt|]. intros [[msg s'] rid] _. cbv zeta. apply pnp_do. intros _ _. apply pnp_do. intros t _.
  destruct (negb t); [discriminate|]. apply pnp_do. intros _ _. apply pnp_do. intros _ _. discriminate.
Qed.
Lemma pnp_bundle : forall ans C a rnd b, bd_identity b <> None -> bd_signed b <> None -> pnp ans (process_bundle C a rnd b).
Proof.
  intros ans C a rnd b N1 N2. unfold process_bundle. destruct (bd_identity b) as [ti|]; [|contradiction]. apply pnp_do. intros t _.
  destruct (negb t); [discriminate|]. destruct (bd_signed b) as [ts|]; [|contradiction].
  apply pnp_lift; [apply verify_no_panic|]. intros ok _. destruct (negb ok); [discriminate|]. apply pnp_do. intros lr _. cbv zeta.
  pose proof (np_gen C rnd) as P. destruct (gen_keypair C rnd) as [[base|e|] rnd1]; cbn [fst] in P; [|discriminate|contradiction].
  apply pnp_do. intros ident _. apply pnp_lift; [apply np_alice|]. intros s _. apply pnp_do. intros reg _. apply pnp_do. intros _ _.
  destruct lr; [apply pnp_do; intros _ _|]; apply pnp_do; intros _ _; discriminate.
Qed.
Lemma pnp_signal : forall ans C a rnd m, CryptoOk C -> 8 <= List.length (sg_raw m) -> pnp ans (decrypt_signal C a rnd m).
Proof.
  intros ans C a rnd m H L. unfold decrypt_signal. apply pnp_do. intros [r|] _; [|discriminate]. cbv zeta.
  assert (P : forall pt r', pnp ans (match rc_current r' with
        | None => PRet (Err (EOther "successfully decrypted; must have a current state"))
        | Some s => match st_remote_identity s with
            | Ok (Some rid) => pdo (OIsTrusted a rid Receiving) (fun trusted => if negb trusted then PRet (Err (EUntrusted a))
                else pdo (OStoreIdentity a rid) (fun _ => pdo (OStoreSession a r') (fun _ => PRet (Ok pt))))
            | Panic => PRet Panic
            | _ => PRet (Err (EOther "successfully decrypted; must have a remote identity key")) end end : prog bytes)).
  { intros pt r'. destruct (rc_current r') as [s|]; [|discriminate]. pose proof (np_remote s) as Q.
    destruct (st_remote_identity s) as [[rid|]|e|]; [|discriminate|discriminate|contradiction].
    apply pnp_do. intros t _. destruct (negb t); [discriminate|]. apply pnp_do. intros _ _. apply pnp_do. intros _ _. discriminate. }
  pose proof (np_record C rnd r m H L) as Q. destruct (decrypt_record C rnd r m) as [[pt r']|e|]; [|apply P|contradiction].
  apply pnp_do. intros _ _. apply P.
Qed.
Lemma pnp_new_dist : forall ans C a d sysrnd rnd, pnp ans (new_sender_dist C a d sysrnd rnd).
Proof.
  intros ans C a d sysrnd rnd. unfold new_sender_dist.
  assert (D : forall r, np (dist_of_state d r)).
  { intro r. unfold dist_of_state. apply np_bind; [destruct r; discriminate|]. intro s. apply np_bind; [apply new_public_key_no_panic|discriminate]. }
  assert (R : forall n b, np (fst (read_full n b))).
  { intros n b. unfold np, read_full. repeat match goal with |- context [if ?c then _ else _] => destruct c end; discriminate. }
  apply pnp_do. intros [r|] _; [apply pnp_lift; [apply D|discriminate]|].
  apply pnp_lift. { unfold random_chain_id. pose proof (R 4 sysrnd) as Q. destruct (read_full 4 sysrnd) as [[]]; cbn [fst] in Q; [discriminate|discriminate|contradiction]. }
  intros chain _. pose proof (R 32 rnd) as Q. destruct (read_full 32 rnd) as [[seed|e|] rnd1]; cbn [fst] in Q; [|discriminate|contradiction].
  apply pnp_lift; [apply np_gen|]. intros kp _. apply pnp_lift.
  { unfold gr_add. apply np_bind; [apply new_public_key_no_panic|]. intro. destruct (gr_remove _ _ _). discriminate. }
  intros r _. apply pnp_do. intros _ _. apply pnp_lift; [apply D|discriminate].
Qed.
Lemma pnp_process_dist : forall ans a m, pnp ans (process_dist a m).
Proof.
  intros ans a m. unfold process_dist. apply pnp_do. intros lr _. cbv zeta. apply pnp_lift.
  { unfold gr_add. apply np_bind; [apply new_public_key_no_panic|]. intro. destruct (gr_remove _ _ _). discriminate. }
  intros r' _. destruct lr; [apply pnp_do; intros _ _|]; apply pnp_do; intros _ _; discriminate.
Qed.
Lemma pnp_gencrypt : forall ans C a d rnd pt, pnp ans (gencrypt C a d rnd pt).
Proof.
  intros ans C a d rnd pt. unfold gencrypt. apply pnp_do. intros [r|] _; [|discriminate]. apply pnp_lift; [destruct r; discriminate|].
  intros s _. apply pnp_lift.
  - unfold gencrypt_state. cbv zeta. apply np_bind; [apply cbc_encrypt_total|]. intro ct. apply np_bind; [apply np_private|]. intro key.
    apply np_bind; [|discriminate]. unfold new_senderkey, sign, read_full.
    destruct (Nat.ltb _ _); cbn [fst]; discriminate.
  - intros [msg s'] _. cbv zeta. apply pnp_do. intros _ _. apply pnp_do. intros _ _. discriminate.
Qed.
Lemma pnp_gdecrypt : forall ans C a m, CryptoOk C -> 64 <= List.length (sm_raw m) -> pnp ans (gdecrypt C a m).
Proof.
  intros ans C a m H L. unfold gdecrypt. apply pnp_do. intros [r|] _; [|discriminate]. destruct (gr_find _ r) as [s|]; [|discriminate].
  destruct (negb _); [discriminate|]. apply pnp_lift; [apply new_public_key_no_panic|]. intros key _. apply pnp_lift.
  { unfold verify_senderkey. destruct (Nat.ltb_spec (List.length (sm_raw m)) 64); [lia|]. apply verify_no_panic. }
  intros v _. destruct (negb v); [discriminate|].
  assert (Q : np (fst (gmessage_key C s (sm_iter m)))).
  { unfold gmessage_key. destruct (N.ltb _ _); [destruct (gs_remove_key _ _ _) as [[]|]; discriminate|].
    destruct (N.ltb _ _); [discriminate|]. destruct (gskip _ _ _ _); discriminate. }
  destruct (gmessage_key C s (sm_iter m)) as [o s']. cbn [fst] in Q. cbv zeta. apply pnp_do. intros _ _. apply pnp_lift; [exact Q|]. intros mk _.
  apply pnp_lift; [apply cbc_decrypt_no_panic; exact H|]. intros pt _. apply pnp_do. intros _ _. discriminate.
Qed.

(** ** Pre-key messages *)
Lemma np_pair : forall C x, np (prekeyrec_pair C x).
Proof. exact prekeyrec_no_panic. Qed.
Lemma pair_key : forall C x k, prekeyrec_pair C x = Ok k -> List.length (sk_ecdh (kp_priv k)) = 32.
Proof.
  intros C x k E. unfold prekeyrec_pair, new_keypair, new_private_key in E. destruct (Nat.eqb_spec (List.length (pr_priv x)) 32) as [L|L]; cbn [negb bind] in E; [|discriminate].
  destruct (new_public_key (pr_pub x)); cbn [bind] in E; [|discriminate..]. injection E as <-. exact L.
Qed.
Lemma agreement_ok : forall C k u, List.length u = 32 -> List.length (sk_ecdh k) = 32 -> no_zero C u -> exists s, agreement C k u = Ok s.
Proof.
  intros C k u L Lk Z. destruct (agreement C k u) as [s|e|] eqn:E; [eauto| |destruct (agreement_no_panic _ _ _ E)].
  destruct (Z (sk_ecdh k) Lk). exact (agreement_zero C k u e L E).
Qed.
Lemma bob_ok : forall C ident signed ot ti tb, List.length ti = 32 -> List.length tb = 32 -> no_zero C ti -> no_zero C tb ->
  List.length (sk_ecdh (kp_priv ident)) = 32 -> List.length (sk_ecdh (kp_priv signed)) = 32 ->
  (forall o, ot = Some o -> List.length (sk_ecdh (kp_priv o)) = 32) ->
  exists s, init_bob C ident (Some signed) ot (Some signed) ti tb = Ok s.
Proof.
  intros C ident signed ot ti tb Li Lb Zi Zb K1 K2 K3. unfold init_bob.
  destruct (agreement_ok C (kp_priv signed) ti Li K2 Zi) as [d1 ->]. destruct (agreement_ok C (kp_priv ident) tb Lb K1 Zb) as [d2 ->].
  destruct (agreement_ok C (kp_priv signed) tb Lb K2 Zb) as [d3 ->]. cbn [bind]. destruct ot as [o|].
  - destruct (agreement_ok C (kp_priv o) tb Lb (K3 o eq_refl) Zb) as [d4 ->]. cbn [bind].
    destruct (match derive_keys C _ with Ok rc => rc | _ => _ end). eauto.
  - cbn [bind]. destruct (match derive_keys C _ with Ok rc => rc | _ => _ end). eauto.
Qed.
Lemma pnp_bob : forall C a ex r m, List.length (pm_identity m) = 32 -> List.length (pm_base m) = 32 ->
  no_zero C (pm_identity m) -> no_zero C (pm_base m) -> pnp keys_there (process_prekey_v3 C a ex r m).
Proof.
  intros C a ex r m Li Lb Zi Zb. unfold process_prekey_v3. apply pnp_lift.
  { unfold rc_has_state. destruct (match rc_current r with Some s => _ | None => _ end); [discriminate|].
    apply np_bind; [apply np_parse_all|discriminate]. }
  intros [] _; [discriminate|]. apply pnp_do. intros [x|] Hx; [|destruct Hx as [_ Hx]; cbn in Hx; congruence].
  apply pnp_lift; [apply np_bind; [apply np_pair|discriminate]|]. intros signed Es.
  destruct (prekeyrec_pair C x) as [sg|e|] eqn:Ep; cbn [bind] in Es; [|discriminate..]. injection Es as <-. cbv zeta.
  assert (P : forall ot, (forall o, ot = Some o -> List.length (sk_ecdh (kp_priv o)) = 32) -> pnp keys_there (bob_rest C a ex r m (Some sg) ot)).
  { intros ot Ko. unfold bob_rest. apply pnp_do. intros ident [_ Hi]. cbn in Hi.
    destruct (bob_ok C ident sg ot (pm_identity m) (pm_base m) Li Lb Zi Zb (Hi ident eq_refl) (pair_key _ _ _ Ep) Ko) as [s ->].
    apply pnp_do. intros reg _. cbv zeta. destruct ex; [apply pnp_do; intros _ _|]; discriminate. }
  destruct (pm_prekey_id m) as [i|] eqn:Ei.
  - apply pnp_do. intros y _. apply pnp_lift; [destruct y; [apply np_bind; [apply np_pair|discriminate]|discriminate]|]. intros ot Eo.
    specialize (P ot). unfold bob_rest in P. rewrite Ei in P. apply P. intros o ->. destruct y as [y|]; [|discriminate].
    destruct (prekeyrec_pair C y) as [k|e|] eqn:Ek; cbn [bind] in Eo; [|discriminate..]. injection Eo as ->. exact (pair_key _ _ _ Ek).
  - specialize (P None). unfold bob_rest in P. rewrite Ei in P. apply P. discriminate.
Qed.
Lemma pres_any : forall (ans : forall X, op X -> res X -> Prop) {A} (p : prog A), pres ans (fun _ => True) p.
Proof. intros ans A p. induction p as [r|X o k IH]; cbn; auto. Qed.
Lemma pnp_prekey : forall C a rnd m, CryptoOk C -> 8 <= List.length (sg_raw (pm_message m)) ->
  List.length (pm_identity m) = 32 -> List.length (pm_base m) = 32 ->
  no_zero C (pm_identity m) -> no_zero C (pm_base m) -> pnp keys_there (decrypt_prekey C a rnd m).
Proof.
  intros C a rnd m H L Li Lb Zi Zb. unfold decrypt_prekey. apply pnp_do. intros lr _. cbv zeta.
  apply (pnp_seq keys_there _ _ (fun _ => True)); [|apply pres_any|].
  - unfold process_prekey. apply pnp_do. intros t _. destruct (negb t); [discriminate|].
    apply (pnp_seq keys_there _ _ (fun _ => True)); [apply pnp_bob; auto|apply pres_any|]. intros [r' id] _. apply pnp_do. intros _ _. discriminate.
  - intros [r1 pkid] _. apply pnp_lift; [apply np_record; auto|]. intros [pt r2] _.
    destruct lr; [apply pnp_do; intros _ _|]; apply pnp_do; intros _ _; (destruct pkid; [apply pnp_do; intros _ _|]; discriminate).
Qed.

(** ** The statements *)
Lemma no_crash : forall C, CryptoOk C ->
  (forall a pt, ~ may_return anything (encrypt_message C a pt) Panic) /\
  (forall a rnd b, bd_identity b <> None -> bd_signed b <> None -> ~ may_return anything (process_bundle C a rnd b) Panic) /\
  (forall a rnd m, 8 <= List.length (sg_raw m) -> ~ may_return anything (decrypt_message C a rnd (CSignal m)) Panic) /\
  (forall a d sysrnd rnd, ~ may_return anything (new_sender_dist C a d sysrnd rnd) Panic) /\
  (forall a m, ~ may_return anything (process_dist a m) Panic) /\
  (forall a d rnd pt, ~ may_return anything (gencrypt C a d rnd pt) Panic) /\
  (forall a m, 64 <= List.length (sm_raw m) -> ~ may_return anything (gdecrypt C a m) Panic).
Proof.
  intros C H. assert (N : forall X (o : op X) x, anything X o x -> x <> Panic) by (intros X o x A; exact A).
  assert (G : forall A (p : prog A), pnp anything p -> ~ may_return anything p Panic) by (intros A p P M; exact (may_return_pnp anything N p Panic M P eq_refl)).
  repeat split; intros; apply G.
  - apply pnp_encrypt.
  - apply pnp_bundle; assumption.
  - apply pnp_signal; assumption.
  - apply pnp_new_dist.
  - apply pnp_process_dist.
  - apply pnp_gencrypt.
  - apply pnp_gdecrypt; assumption.
Qed.
Lemma no_crash_prekey : forall C a rnd m, CryptoOk C -> 8 <= List.length (sg_raw (pm_message m)) ->
  List.length (pm_identity m) = 32 -> List.length (pm_base m) = 32 -> no_zero C (pm_identity m) -> no_zero C (pm_base m) ->
  ~ may_return keys_there (decrypt_message C a rnd (CPreKey m)) Panic.
Proof.
  intros C a rnd m H L Li Lb Zi Zb M. assert (N : forall X (o : op X) x, keys_there X o x -> x <> Panic) by (intros X o x [A _]; exact A).
  exact (may_return_pnp keys_there N _ Panic M (pnp_prekey C a rnd m H L Li Lb Zi Zb) eq_refl).
Qed.

(** ** With the primitives of the standards *)
Lemma run_there : forall {A} (p : prog A) fs w, (forall id, w_signed w id <> None) -> List.length (sk_ecdh (kp_priv (w_pair w))) = 32 ->
  may_return keys_there p (fst (run p fs w)).
Proof.
  intros A p. induction p as [r|X o k IH]; intros fs w S L; [apply mr_ret|]. cbn [run].
  assert (Q : keys_there X o (fst (exec_f o (hd_fault fs) w)) /\ w_signed (snd (exec_f o (hd_fault fs) w)) = w_signed w /\ w_pair (snd (exec_f o (hd_fault fs) w)) = w_pair w).
  { split; [split; [apply exec_f_no_panic|]|].
    - destruct o; try exact I; unfold exec_f; cbn [fallible exec].
      + destruct (hd_fault fs); cbn [fst]; try discriminate. intro E. injection E as E. exact (S _ E).
      + cbn [fst]. intros kp E. injection E as <-. exact L.
    - unfold exec_f. destruct o; cbn [fallible exec]; try destruct (hd_fault fs); cbn [snd]; try destruct (w_shared w); split; reflexivity. }
  destruct (exec_f o (hd_fault fs) w) as [x w1]. cbn [fst snd] in Q. destruct Q as (Q1 & Q2 & Q3).
  apply (mr_do keys_there X o k x); [exact Q1|]. apply IH; [rewrite Q2; exact S|rewrite Q3; exact L].
Qed.
Definition any_rec : prekeyrec := mkPreKeyRec (Byte.x05 :: repeat Byte.x01 32) (repeat Byte.x01 32).
Definition any_pair : keypair := mkPair (mkPriv (repeat Byte.x01 32) (repeat Byte.x01 32) 1 (repeat Byte.x01 32)) (repeat Byte.x01 32).
Definition stocked : world :=
  mkWorld (fun _ => None) (fun _ => None) (fun _ => Some any_rec) (fun _ => Some any_rec) (fun _ _ => None) any_pair 12 inmem_policy true.
Lemma stocked_wf : wf_device stocked.
Proof. split; [split; [cbn; discriminate|split; [reflexivity|unfold stocked; cbn [w_reg]; unfold go_u32; reflexivity]]|cbn; discriminate]. Qed.
Lemma any_readable : readable real (Some any_rec).
Proof.
  intros x E. apply (f_equal (fun o => match o with Some y => y | None => x end)) in E. cbn in E. subst x. unfold prekeyrec_pair, new_keypair, new_private_key.
  cbn [pr_priv pr_pub any_rec]. change (List.length (repeat Byte.x01 32)) with 32. cbn [Nat.eqb negb bind].
  change (new_public_key (Byte.x05 :: repeat Byte.x01 32)) with (Ok (repeat Byte.x01 32) : res pubkey). cbn [bind]. eexists. reflexivity.
Qed.
Lemma real_no_zero : forall u, ~ small_key u -> no_zero real u.
Proof.
  intros u N k L F. apply N. apply (proj1 (real_zero k u L)). unfold all_zero. apply forallb_forall. intros b I.
  rewrite Forall_forall in F. rewrite <- (F b I). reflexivity.
Qed.
Lemma small_dec : forall u, small_key u \/ ~ small_key u.
Proof.
  intro u. destruct (all_zero (real_x25519 (repeat Byte.x01 32) u)) eqn:E.
  - left. exact (proj1 (real_zero (repeat Byte.x01 32) u eq_refl) E).
  - right. intro S. apply (proj2 (real_zero (repeat Byte.x01 32) u eq_refl)) in S. congruence.
Qed.
Lemma crash_real : forall a rnd m, wf_prekeymsg m ->
  (may_return keys_there (decrypt_message real a rnd (CPreKey m)) Panic <-> small_key (pm_identity m) \/ small_key (pm_base m)).
Proof.
  intros a rnd m W. split.
  - intro M. destruct (small_dec (pm_identity m)) as [S|S1]; [auto|]. destruct (small_dec (pm_base m)) as [S|S2]; [auto|]. exfalso.
    destruct W as (_ & Lb & Li & _ & _ & _ & (_ & _ & Lr & _)).
    exact (no_crash_prekey real a rnd m real_ok Lr Li Lb (real_no_zero _ S1) (real_no_zero _ S2) M).
  - intro S. assert (P : fst (run0 (decrypt_message real a rnd (CPreKey m)) stocked) = Panic).
    { apply (proj2 (prekey_crash a rnd m stocked stocked_wf W eq_refl)). split; [reflexivity|]. split; [discriminate|].
      split; [exact any_readable|]. split; [intros; exact any_readable|]. auto. }
    rewrite <- P. apply (run_there _ [] stocked); [discriminate|reflexivity].
Qed.
