(** The terms of C77 and C78 are the byte strings of a conversation. *)
From Verif Require Import M_Base M_Crypto M_Aes M_Curve M_Proto M_Message M_Ratchet M_State M_Store M_Session M_Group
  S_Crypto S_Message S_State S_Shape S_Ratchet S_Session S_Aes S_Api S_Send S_Group S_Curve S_X3dh S_Receive S_Conv S_History S_Size S_Transit S_Schedule S_Header S_Used S_Speak S_Secrecy
  P_Base P_Proto P_Curve P_State P_Shape P_Ratchet P_Message P_Aes P_Chain P_Decrypt P_Receive P_Encrypt P_Record P_Prog P_Api
  P_Init P_Send P_Conv P_X3dh P_Conv2 P_Bundle P_DecApi P_DecTop P_DecMore P_Replay P_Trust P_History P_Header P_Transit P_GroupSend P_Used P_Speak P_Schedule P_Secrecy.
From Coq Require Import ZifyBool ZifyNat ZifyN.
Local Open Scope nat_scope.

Section Captured.
Variable C : Crypto.
Hypothesis H : CryptoOk C.

Lemma rfc_T_len : forall q info i, List.length (rfc_T C q info (S i)) = 32.
Proof. intros. cbn [rfc_T]. apply (ok_hmac_len C H). Qed.
Lemma hkdf_64 : forall salt sec info, let q := c_hmac C (match salt with Some s => s | None => repeat Byte.x00 32 end) sec in
  firstn 32 (rfc_hkdf C salt sec info 64) = rfc_T C q info 1 /\ skipn 32 (rfc_hkdf C salt sec info 64) = rfc_T C q info 2.
Proof.
  intros salt sec info q. unfold rfc_hkdf. fold q. change ((64 + 31) / 32) with 2. cbn [seq map List.concat]. rewrite app_nil_r.
  pose proof (rfc_T_len q info 0) as L1. pose proof (rfc_T_len q info 1) as L2.
  assert (E : firstn 64 (rfc_T C q info 1 ++ rfc_T C q info 2) = rfc_T C q info 1 ++ rfc_T C q info 2) by (apply firstn_all2; rewrite app_length, L1, L2; lia).
  rewrite E. clear E. split.
  - rewrite firstn_app, L1. rewrite firstn_all2 by lia. change (32 - 32) with 0. cbn [firstn]. apply app_nil_r.
  - rewrite skipn_app, L1. rewrite skipn_all2 by lia. change (32 - 32) with 0. reflexivity.
Qed.
Lemma hkdf_80 : forall sec info, let q := c_hmac C (repeat Byte.x00 32) sec in
  rfc_hkdf C None sec info 80 = rfc_T C q info 1 ++ rfc_T C q info 2 ++ firstn 16 (rfc_T C q info 3).
Proof.
  intros sec info q. unfold rfc_hkdf. fold q. change ((80 + 31) / 32) with 3. cbn [seq map List.concat]. rewrite app_nil_r.
  pose proof (rfc_T_len q info 0) as L1. pose proof (rfc_T_len q info 1) as L2.
  rewrite !firstn_app, L1, L2. rewrite (firstn_all2 (rfc_T C q info 1)), (firstn_all2 (rfc_T C q info 2)) by lia. reflexivity.
Qed.

Variables (pr : atom -> bytes) (tx : nat -> N -> bytes).
Notation val := (value C pr tx).
Lemma value_block : forall q info i, val (hkdf_block q info i) = rfc_T C (val q) info i.
Proof. intros q info i. induction i as [|i IH]; [reflexivity|]. cbn [hkdf_block value rfc_T]. rewrite IH. reflexivity. Qed.
Lemma value_dh : forall a a', List.length (pr a) = 32 -> List.length (pr a') = 32 -> val (dh_of a a') = c_x25519 C (pr a) (mont_pub C (pr a')).
Proof. intros a a' L L'. unfold dh_of. cbn [value]. rewrite (ok_x_clamp C H) by exact L. rewrite mont_clamp by exact L'. reflexivity. Qed.
Lemma value_iter : forall n t, val (Nat.iter n (fun x => THmac x (TPub [Byte.x02])) t) = chain_at C (val t) n.
Proof. intros n t. induction n as [|n IH]; [reflexivity|]. rewrite iter_S. cbn [value]. rewrite IH. reflexivity. Qed.

Section Keys.
Variables (one : bool) (ia e ib sb : bytes) (ob : option bytes) (ks : list bytes).
Hypothesis Lia : List.length ia = 32. Hypothesis Le : List.length e = 32. Hypothesis Lib : List.length ib = 32.
Hypothesis Lsb : List.length sb = 32. Hypothesis Lob : forall o, ob = Some o -> List.length o = 32.
Hypothesis Ko : keys_ok C ks.
Hypothesis K0 : kkey ks 0 = sb.
Hypothesis P1 : pr (AIdent true) = ia. Hypothesis P2 : pr (AIdent false) = ib. Hypothesis P3 : pr ABase = e.
Hypothesis P4 : forall k, pr (ARatchet k) = kkey ks k.
Hypothesis P5 : match ob with Some o => one = true /\ pr AOneTime = o | None => one = false end.
Notation root := (x3dh_root C ia e ib sb ob). Notation chain := (x3dh_chain C ia e ib sb ob).
Lemma value_x3dh : val (x3dh_secret one) = x3dh C ia e ib sb ob.
Proof using H Lia Le Lib Lsb Lob K0 P1 P2 P3 P4 P5.
  unfold x3dh_secret, x3dh. cbn [value]. rewrite !value_dh, P1, P2, P3, P4, K0 by (rewrite ?P1, ?P2, ?P3, ?P4, ?K0; assumption).
  do 4 f_equal. destruct ob as [o|].
  - destruct P5 as [-> Eo]. rewrite value_dh, P3, Eo by (rewrite ?P3, ?Eo; auto). reflexivity.
  - rewrite P5. reflexivity.
Qed.
Lemma value_root : forall k, k < List.length ks -> val (root_of one k) = kroot C root chain ks k /\ val (first_of one k) = kchain C root chain ks k.
Proof using H Lia Le Lib Lsb Lob Ko K0 P1 P2 P3 P4 P5.
  induction k as [|k IH]; intro L.
  - unfold root_of, first_of. rewrite !value_block. unfold kroot, kchain. cbn [sched fst snd root_prk value]. rewrite value_x3dh. unfold no_salt. cbn [value].
    unfold x3dh_root, x3dh_chain, x3dh_keys. destruct (hkdf_64 None (x3dh C ia e ib sb ob) (str "WhisperText")) as [-> ->]. split; reflexivity.
  - destruct (IH ltac:(lia)) as [R _]. unfold root_of, first_of. rewrite !value_block. unfold kroot, kchain. cbn [sched fst snd root_prk value root_info].
    fold (root_of one k). rewrite R. fold (kroot C root chain ks k).
    change (c_x25519 C (clamp (pr (ARatchet (S k)))) (mont_pub C (clamp (pr (ARatchet k))))) with (val (dh_of (ARatchet (S k)) (ARatchet k))).
    rewrite value_dh, !P4 by (rewrite P4; apply (kkey_len C); [exact Ko|lia]).
    destruct (hkdf_64 (Some (kroot C root chain ks k)) (c_x25519 C (kkey ks (S k)) (kpub C ks k)) (str "WhisperRatchet")) as [E1 E2].
    cbv iota in E1, E2. unfold kpub in *. rewrite E1, E2. split; reflexivity.
Qed.
Lemma value_chain : forall k n, k < List.length ks -> val (chain_of one k n) = chain_at C (kchain C root chain ks k) (N.to_nat n).
Proof using H Lia Le Lib Lsb Lob Ko K0 P1 P2 P3 P4 P5. intros k n L. unfold chain_of. rewrite value_iter, (proj2 (value_root k L)). reflexivity. Qed.
Lemma value_keys : forall k n mk, k < List.length ks -> keys_at C (chain_at C (kchain C root chain ks k) (N.to_nat n)) n mk ->
  val (cipher_of one k n) = mk_cipher mk /\ val (mac_of one k n) = mk_mac mk /\ val (iv_of one k n) = mk_iv mk.
Proof using H Lia Le Lib Lsb Lob Ko K0 P1 P2 P3 P4 P5.
  intros k n mk L (E & L1 & L2 & L3 & _). rewrite hkdf_80 in E. rewrite <- value_chain in E by exact L.
  unfold cipher_of, mac_of, iv_of. cbn [value]. rewrite !value_block. unfold message_prk. cbn [value no_salt].
  set (q := c_hmac C (repeat Byte.x00 32) (c_hmac C (val (chain_of one k n)) [Byte.x01])) in *.
  pose proof (rfc_T_len q (str "WhisperMessageKeys") 0) as T1. pose proof (rfc_T_len q (str "WhisperMessageKeys") 1) as T2.
  apply app_inj_len in E; [|congruence]. destruct E as [E1 E]. apply app_inj_len in E; [|congruence]. destruct E as [E2 E3]. auto.
Qed.
Lemma value_saved : forall k l, k < List.length ks ->
  flat_map (fun x => [pmk_cipher x; pmk_mac x; pmk_iv x]) (map (pos_saved C (kchain C root chain ks k)) l) =
  map val (flat_map (fun n => [cipher_of one k n; mac_of one k n; iv_of one k n]) l).
Proof using H Lia Le Lib Lsb Lob Ko K0 P1 P2 P3 P4 P5.
  intros k l L. induction l as [|n l IH]; [reflexivity|]. cbn [map flat_map app]. rewrite IH.
  pose proof (pos_saved_keys C H (kchain C root chain ks k) n) as Q. destruct (value_keys k n _ L Q) as (E1 & E2 & E3).
  cbn [mk_cipher mk_mac mk_iv] in E1, E2, E3. rewrite E1, E2, E3. reflexivity.
Qed.
Lemma value_views : forall vs cs, Forall2 (view_ok C root chain ks) vs cs -> Forall (fun v => rv_epoch v < List.length ks) vs ->
  flat_map chain_secrets cs = map val (flat_map (fun v => [TPub []; chain_of one (rv_epoch v) (rv_idx v)] ++
    flat_map (fun n => [cipher_of one (rv_epoch v) n; mac_of one (rv_epoch v) n; iv_of one (rv_epoch v) n]) (rv_saved v)) vs).
Proof using H Lia Le Lib Lsb Lob Ko K0 P1 P2 P3 P4 P5.
  intros vs cs F. induction F as [|v c vs cs (V1 & V2 & V3 & V4 & V5 & V6) F IH]; intro L; [reflexivity|].
  pose proof (Forall_inv L) as L1. pose proof (Forall_inv_tail L) as L2. cbn beta in L1. cbn [flat_map]. rewrite map_app. f_equal; [|exact (IH L2)].
  unfold chain_secrets. rewrite V2, V3, V6. cbn [pck_key app map value]. rewrite value_chain, value_saved by exact L1. reflexivity.
Qed.
Lemma value_session : forall me peer p s, party_ok C root chain ks me peer p s -> p_epoch p <> 0 -> session_secrets s = map val (held one p).
Proof using H Lia Le Lib Lsb Lob Ko K0 P1 P2 P3 P4 P5.
  intros me peer p s (W & E1 & E2 & L & R & (sc & S1 & S2 & S3 & S4 & S5) & G & F & ND & Lt) Z.
  rewrite held_eq by exact Z. unfold session_secrets. rewrite S1. cbn [map app]. rewrite (proj1 (value_root _ L)), R. f_equal.
  unfold chain_secrets at 1. rewrite S3, S4, S5. cbn [flat_map app pck_key value]. rewrite P4, value_chain by exact L. do 2 f_equal.
  apply value_views; [exact F|]. eapply Forall_impl; [|exact Lt]. cbn. intros; lia.
Qed.
End Keys.
End Captured.

Section Later.
Variable C : Crypto.
Hypothesis H : CryptoOk C.
Variable b : bundle.
Variable at_ : bool -> addr.
Lemma later_in_step : forall k ks base dev par keys notes dev1 par1 keys1 notes1, in_step C b at_ k ks base dev par keys notes ->
  later C at_ b base dev par keys notes dev1 par1 keys1 notes1 -> exists x, in_step C b at_ k (ks ++ x) base dev1 par1 keys1 notes1.
Proof using H.
  intros k ks base dev0 par0 keys0 notes0 dev1 par1 keys1 notes1 S0 L. induction L as
    [|dev par keys notes side pt fs c w' _ (x & St) Sd G E|dev par keys notes side ep n pt c rnd fs pt' w' _ (x & St) I0 Rv Fr E|dev par keys notes side w' _ (x & St) Al].
  - exists []. rewrite app_nil_r. exact S0.
  - exists x. eapply send_step; eauto.
  - destruct (grown_app (ks ++ x) (par side) ep rnd) as [y Ey]. exists (x ++ y). rewrite app_assoc, <- Ey. eapply received_step; eauto.
  - exists x. apply other_step; auto.
Qed.
Lemma later_history : forall base dev par keys notes dev1 par1 keys1 notes1, history C at_ b base dev par keys notes ->
  later C at_ b base dev par keys notes dev1 par1 keys1 notes1 -> history C at_ b base dev1 par1 keys1 notes1.
Proof.
  intros base dev0 par0 keys0 notes0 dev1 par1 keys1 notes1 Hy L. induction L.
  - exact Hy.
  - eapply h_send; eauto.
  - eapply h_receive; eauto.
  - apply h_other; auto.
Qed.
(** The plaintext of message [n] of epoch [k]. *)
Definition text_at (notes : list note) (k : nat) (n : N) : bytes :=
  match find (fun x => Nat.eqb (nt_epoch x) k && N.eqb (nt_counter x) n) notes with Some x => nt_text x | None => [] end.
Lemma text_at_note : forall notes x, NoDup (map (fun x => (nt_epoch x, nt_counter x)) notes) -> In x notes ->
  text_at notes (nt_epoch x) (nt_counter x) = nt_text x.
Proof.
  intros notes x N I0. unfold text_at. destruct (find _ notes) as [y|] eqn:F.
  - apply find_some in F. destruct F as [Iy E]. apply andb_prop in E. destruct E as [E1 E2]. apply Nat.eqb_eq in E1. apply N.eqb_eq in E2.
    f_equal. exact (same_position notes y x N Iy I0 (f_equal2 pair E1 E2)).
  - exfalso. apply find_none with (x := x) in F; [|exact I0]. rewrite Nat.eqb_refl, N.eqb_refl in F. discriminate.
Qed.
Definition private_keys (k : secrets) (ks : list bytes) (a : atom) : bytes :=
  match a with
  | AIdent true => k_ia k | AIdent false => k_ib k | ABase => k_e k
  | AOneTime => match k_ob k with Some o => o | None => [] end
  | ARatchet i => kkey ks i
  end.
Theorem captured : forall base dev par keys notes dev1 par1 keys1 notes1 side,
  history C at_ b base dev par keys notes -> later C at_ b base dev par keys notes dev1 par1 keys1 notes1 ->
  exists pr tx, names C pr b base dev keys1 /\
    (forall s, side = true \/ p_epoch (par false) <> 0 -> current_session (dev side) (at_ side) = Some s ->
       session_secrets s = map (value C pr tx) (held (one_time b) (par side))) /\
    (forall x m, In x notes1 -> inner (nt_cipher x) = Some m -> tx (nt_epoch x) (nt_counter x) = nt_text x /\
       sg_body m = value C pr tx (body_of (one_time b) (nt_epoch x) (nt_counter x)) /\
       exists ser text, sg_raw m = ser ++ value C pr tx (tag_of (one_time b) (nt_epoch x) (nt_counter x) text)) /\
    (forall x, In x notes1 ->
       (stolen C b side (dev side) (par side) notes1 x <->
        exposed C b side (dev side) (par side) (nt_epoch x) (nt_counter x))).
Proof using H.
  intros base dev par keys notes dev1 par1 keys1 notes1 side Hy L.
  pose proof (later_history _ _ _ _ _ _ _ _ _ Hy L) as Hy1.
  destruct (numbered C H b at_ _ _ _ _ _ Hy1) as [Nd _].
  destruct (history_keys _ _ _ _ _ _ _ _ H Hy) as (k & ks0 & St0 & (_ & Bs & Bo)).
  destruct (later_in_step _ _ _ _ _ _ _ _ _ _ _ St0 L) as (y & St). set (ks := ks0 ++ y) in *.
  pose proof St0 as (So & Eb & _ & _ & (l0 & Hd0) & Lk0 & Ee0 & E10 & _ & Pr & Ss & Nb & _).
  pose proof St as (_ & _ & Eks & Ko & (l & Hd) & _ & _ & _ & _ & _ & _ & _ & Nt). rewrite Forall_forall in Nt.
  pose proof So as (La & Lb & Ls & Le & Lo & _ & _).
  assert (E0 : kkey ks 0 = k_sb k) by (rewrite Hd; reflexivity).
  set (pr := private_keys k ks). set (tx := text_at notes1). set (one := one_time b).
  assert (Po : match k_ob k with Some o => one = true /\ pr AOneTime = o | None => one = false end).
  { unfold one, one_time, pr, private_keys. rewrite Bo. destruct (k_ob k); [split|]; reflexivity. }
  exists pr, tx. split; [|split; [|split]].
  - split; [intros []; destruct (Pr true) as (_ & A1 & A2 & _), (Pr false) as (_ & B1 & B2 & _); split; assumption|].
    split; [exact Eb|]. split; [cbn [pr private_keys]; rewrite E0; exact Bs|].
    split; [rewrite Bo; cbn [pr private_keys]; destruct (k_ob k); [right|left]; reflexivity|].
    intros i Li. rewrite Eks in *. rewrite map_length in Li. cbn [pr private_keys]. rewrite nth_error_map. unfold kkey. rewrite (nth_error_nth' ks []) by exact Li. reflexivity.
  - intros s Sd Es. destruct (Ss side Sd) as (r & s0 & R1 & R2 & P & _).
    assert (s0 = s) by (unfold current_session in Es; rewrite R1 in Es; congruence). subst s0.
    destruct (slens C H k) as [L1 L2]. apply (party_ok_app C _ _ L1 L2 ks0 y) in P. fold ks in P.
    refine (value_session C H pr tx one _ _ _ _ _ ks La Le Lb Ls Lo Ko E0 eq_refl eq_refl eq_refl (fun _ => eq_refl) Po _ _ _ _ P _).
    destruct side; [exact E10|]. destruct Sd as [Sd|Sd]; [discriminate|exact Sd].
  - intros x m J Im. destruct (note_whisper C H b at_ _ _ _ _ _ _ _ _ _ St J Im) as (Lx & G & Wh).
    assert (Tx : tx (nt_epoch x) (nt_counter x) = nt_text x) by (apply text_at_note; assumption). split; [exact Tx|].
    apply (whisper_sealed C _ _ _ _ _ _ _ H) in Wh. destruct Wh as (mk & Kt & Bd & (ser & Tg)).
    destruct (value_keys C H pr tx one _ _ _ _ _ ks La Le Lb Ls Lo Ko E0 eq_refl eq_refl eq_refl (fun _ => eq_refl) Po (nt_epoch x) (nt_counter x) mk Lx Kt) as (V1 & V2 & V3).
    split.
    + unfold body_of. cbn [value]. rewrite V1, V3, Tx, Bd. reflexivity.
    + exists ser. eexists. unfold tag_of. cbn [value]. rewrite V2. exact Tg.
  - intros x J. destruct (Nt x J) as ((_ & Nz) & _). split.
    + exact (safe C b one side (dev side) (par side) notes1 (nt_epoch x) (nt_counter x) eq_refl Nz (fun z Iz => proj2 (proj1 (Nt z Iz)))).
    + intro X. unfold stolen. apply (reads C b one side (dev side) (par side) notes1 (nt_epoch x) (nt_counter x) eq_refl x); auto.
      intro Z. destruct side; [contradiction|]. destruct (Nb Z) as (-> & _). reflexivity.
Qed.

(** *** Corollaries *)
Lemma views_behind : forall base dev par keys notes, history C at_ b base dev par keys notes ->
  forall side v, In v (p_views (par side)) -> rv_epoch v < p_epoch (par side).
Proof using H.
  intros base dev par keys notes Hy side v Iv. destruct (history_keys _ _ _ _ _ _ _ _ H Hy) as (k & ks & St & _).
  pose proof St as (_ & _ & _ & _ & _ & _ & _ & _ & _ & _ & Ss & Em & _).
  assert (Sd : side = true \/ p_epoch (par false) <> 0).
  { destruct side; [left; reflexivity|right]. intro Z. destruct (Em Z) as (Ep & _). rewrite Ep in Iv. destruct Iv. }
  destruct (Ss side Sd) as (r & s & _ & _ & (_ & _ & _ & _ & _ & _ & _ & _ & _ & F) & _). rewrite Forall_forall in F. exact (F v Iv).
Qed.
Lemma robbed_iff : forall base dev par keys notes dev1 par1 keys1 notes1 side,
  history C at_ b base dev par keys notes -> later C at_ b base dev par keys notes dev1 par1 keys1 notes1 ->
  forall x, In x notes1 -> (stolen C b side (dev side) (par side) notes1 x <-> exposed C b side (dev side) (par side) (nt_epoch x) (nt_counter x)).
Proof using H. intros base dev par keys notes dev1 par1 keys1 notes1 side Hy L. destruct (captured _ _ _ _ _ _ _ _ _ side Hy L) as (pr & tx & _ & _ & _ & Q). exact Q. Qed.
Lemma later_notes : forall base dev par keys notes dev1 par1 keys1 notes1,
  later C at_ b base dev par keys notes dev1 par1 keys1 notes1 -> forall x, In x notes -> In x notes1.
Proof. intros base dev par keys notes dev1 par1 keys1 notes1 L x J. induction L; auto. right. exact IHL. Qed.
Theorem own_safe : forall base dev par keys notes dev1 par1 keys1 notes1 x,
  history C at_ b base dev par keys notes -> later C at_ b base dev par keys notes dev1 par1 keys1 notes1 -> In x notes ->
  ~ (setup_open C b (nt_from x) (dev (nt_from x)) /\ p_epoch (par (nt_from x)) = 2) -> ~ stolen C b (nt_from x) (dev (nt_from x)) (par (nt_from x)) notes1 x.
Proof using H.
  intros base dev par keys notes dev1 par1 keys1 notes1 x Hy L J No D.
  apply (robbed_iff _ _ _ _ _ _ _ _ _ _ Hy L x (later_notes _ _ _ _ _ _ _ _ _ L x J)) in D.
  destruct (headed_step C H b at_ _ _ _ _ _ Hy) as [_ (H1 & H2 & _ & H4 & _)].
  destruct (H4 x J) as (Q1 & Q2 & Q3 & Q4 & _).
  destruct D as [(v & Iv & Ev & _)|[(Z & [[E Lt]|E])|[O [E|[E P2]]]]].
  - pose proof (views_of_peer C H b at_ _ _ _ _ _ Hy _ v Iv) as O. rewrite Ev, <- Q1 in O. destruct (nt_from x); discriminate.
  - rewrite H2, <- E in Lt. lia.
  - lia.
  - rewrite E in Q1. destruct O as (F & _). rewrite F in Q1. discriminate.
  - apply No. auto.
Qed.
Theorem read_iff : forall base dev par keys notes dev1 par1 keys1 notes1 x m s,
  history C at_ b base dev par keys notes -> later C at_ b base dev par keys notes dev1 par1 keys1 notes1 -> In x notes ->
  inner (nt_cipher x) = Some m -> current_session (dev (negb (nt_from x))) (at_ (negb (nt_from x))) = Some s ->
  nt_epoch x < p_epoch (par (negb (nt_from x))) ->
  (stolen C b (negb (nt_from x)) (dev (negb (nt_from x))) (par (negb (nt_from x))) notes1 x <->
   can_read C s m (nt_text x) \/ setup_open C b (negb (nt_from x)) (dev (negb (nt_from x))) /\ nt_epoch x = 1).
Proof using H.
  intros base dev par keys notes dev1 par1 keys1 notes1 x m s Hy L J Im Es Lt.
  rewrite (robbed_iff _ _ _ _ _ _ _ _ _ _ Hy L x (later_notes _ _ _ _ _ _ _ _ _ L x J)).
  rewrite (read_exact C H b at_ base dev par keys notes x m s Hy J Im); [|destruct (nt_from x); [right; cbn [negb] in Lt; lia|left; reflexivity]|exact Es].
  unfold exposed. destruct (numbered C H b at_ _ _ _ _ _ Hy) as [_ Q]. destruct (Q x J) as [Q1 _]. split.
  - intros [V|[(Z & [[E _]|E])|[O [E|[E P2]]]]]; [left; exact V|lia|lia|right; auto|].
    exfalso. destruct O as (F & _). rewrite E in Q1. rewrite Q1 in F. discriminate.
  - intros [V|[O E]]; [left; exact V|right; right; auto].
Qed.
Theorem just_read : forall base dev par keys notes dev1 par1 keys1 notes1 side k n pt c rnd fs pt' w',
  history C at_ b base dev par keys notes -> In (mkNote (negb side) k n pt c) notes -> receivable (par side) k n ->
  fresh C keys (par side) k rnd -> run (decrypt_message C (at_ side) rnd c) fs (dev side) = (Ok pt', w') ->
  (forall v, In v (p_views (par side)) -> rv_epoch v = k -> (rv_idx v <= n)%N) ->
  let dev0 := upd dev side w' in let par0 := upd par side (party_after (par side) k n) in
  later C at_ b base dev0 par0 (keys_after C keys (par side) k rnd) notes dev1 par1 keys1 notes1 ->
  stolen C b side (dev0 side) (par0 side) notes1 (mkNote (negb side) k n pt c).
Proof using H.
  intros base dev par keys notes dev1 par1 keys1 notes1 side k n pt c rnd fs pt' w' Hy J Rv Fr E Nx dev0 par0 L.
  assert (Hy0 : history C at_ b base dev0 par0 (keys_after C keys (par side) k rnd) notes) by (eapply h_receive; eauto).
  apply (robbed_iff _ _ _ _ _ _ _ _ _ side Hy0 L _ (later_notes _ _ _ _ _ _ _ _ _ L _ J)). left. cbn [nt_epoch nt_counter].
  unfold par0, upd. rewrite Bool.eqb_reflx. unfold party_after. destruct (Nat.eqb k (S (p_epoch (par side)))) eqn:Q.
  - exists (mkView k n (last_n 2000 (positions 0 n))). cbn [p_views rv_epoch rv_idx rv_saved]. split; [|split; [reflexivity|left; apply N.le_refl]].
    unfold last_n. rewrite app_length. cbn [List.length]. set (a := p_views (par side)). replace (List.length a + 1 - 5) with (List.length a - 4) by lia.
    rewrite skipn_app. apply in_or_app. right. replace (List.length a - 4 - List.length a) with 0 by lia. left. reflexivity.
  - assert (X : exists v, In v (p_views (par side)) /\ rv_epoch v = k).
    { destruct Rv as [v Iv Ev _|v Iv Ev _ _|Ek _]; [exists v; auto|exists v; auto|]. apply Nat.eqb_neq in Q. contradiction. }
    destruct X as (v & Iv & Ev). exists (view_after n v). cbn [p_views]. split.
    + apply in_map_iff. exists v. rewrite Ev, Nat.eqb_refl. auto.
    + unfold view_after. pose proof (Nx v Iv Ev) as Ln. apply N.ltb_ge in Ln. rewrite Ln. cbn [rv_epoch rv_idx]. split; [exact Ev|left; apply N.le_refl].
Qed.
Theorem healed : forall base dev par keys notes dev1 par1 keys1 notes1 side x,
  history C at_ b base dev par keys notes -> later C at_ b base dev par keys notes dev1 par1 keys1 notes1 -> In x notes1 ->
  p_epoch (par side) + 2 <= nt_epoch x -> ~ stolen C b side (dev side) (par side) notes1 x.
Proof using H.
  intros base dev par keys notes dev1 par1 keys1 notes1 side x Hy L J Le D.
  apply (robbed_iff _ _ _ _ _ _ _ _ _ _ Hy L x J) in D. destruct D as [(v & Iv & Ev & _)|[(Z & [[E Lt]|E])|[O [E|[E P2]]]]]; try lia.
  pose proof (views_behind _ _ _ _ _ Hy side v Iv). lia.
Qed.
End Later.
(** Before the first message arrives, the responder has the pre-keys. *)
Lemma not_yet : forall C at_ b base dev par keys notes, CryptoOk C -> history C at_ b base dev par keys notes -> p_epoch (par false) = 0 ->
  setup_open C b false (dev false).
Proof.
  intros C at_ b base dev par keys notes H Hy Z. destruct (history_keys _ _ _ _ _ _ _ _ H Hy) as (k & ks & (_ & _ & _ & _ & _ & _ & _ & _ & _ & _ & _ & Em & _) & _).
  destruct (Em Z) as (_ & (_ & _ & Q1 & (x & p & X1 & X2 & (_ & X3 & _)) & Q2) & _). split; [reflexivity|]. split.
  - exists (bd_signed_id b), x, p. rewrite X3. auto.
  - destruct (k_ob k); [right|left; apply Q2]. destruct Q2 as (Q2 & id & y & q & _ & _ & Y1 & Y2 & (_ & Y3 & _)). exists id, y, q. rewrite Y3. auto.
Qed.
Theorem not_yet_iff : forall C b at_ base dev par keys notes dev1 par1 keys1 notes1 x, CryptoOk C ->
  history C at_ b base dev par keys notes -> p_epoch (par false) = 0 -> later C at_ b base dev par keys notes dev1 par1 keys1 notes1 ->
  In x notes1 -> (stolen C b false (dev false) (par false) notes1 x <-> nt_epoch x = 1).
Proof.
  intros C b at_ base dev par keys notes dev1 par1 keys1 notes1 x H Hy Z L J. rewrite (robbed_iff C H b at_ _ _ _ _ _ _ _ _ _ false Hy L x J). split.
  - intros [(v & Iv & _)|[(N & _)|[_ [E|[_ E]]]]]; [|contradiction|exact E|rewrite Z in E; discriminate].
    pose proof (views_behind C H b at_ _ _ _ _ _ Hy false v Iv). lia.
  - intro E. right. right. split; [exact (not_yet C at_ b _ _ _ _ _ H Hy Z)|left; exact E].
Qed.
