(** Thefts in a network (C88): what the thieves can read. *)
From Verif Require Import M_Base M_Crypto M_Aes M_Curve M_Proto M_Message M_Ratchet M_State M_Store M_Session M_Group
  S_Crypto S_Message S_State S_Shape S_Ratchet S_Session S_Aes S_Api S_Send S_Group S_Curve S_X3dh S_Receive S_Conv S_History S_Secrecy S_Thefts S_Isolation S_Atomic S_Many S_Net S_Raid
  P_Base P_State P_Shape P_Prog P_Curve P_GroupSend P_History P_Captured P_Secrecy P_Thefts P_ManyLink P_Many P_ManySteps P_ManyTop P_Net P_RaidTerms P_RaidInv.
From Coq Require Import ZifyBool ZifyNat ZifyN.
Local Open Scope nat_scope.

(** *** The same terms with the keys of the network *)
Definition firm (a : atom) : Prop := match a with AOneTime | ARatchet 0 => False | _ => True end.
Definition used (one : bool) (a : atom) : Prop := match a with AOneTime => one = true | _ => True end.
Fixpoint tame (one : bool) (t : term) : Prop :=
  match t with
  | TPub _ | TText _ _ => True
  | TPriv a => firm a
  | TDh (TPriv a) (TPriv a') => firm a /\ used one a'
  | TDh _ _ => False
  | TCat x y | THmac x y => tame one x /\ tame one y
  | TFirst _ x => tame one x
  | TEnc x y z => tame one x /\ tame one y /\ tame one z
  end.
Lemma tame_block : forall one q info i, tame one q -> tame one (hkdf_block q info i).
Proof. intros one q info i T. induction i; cbn [hkdf_block tame]; auto. Qed.
Lemma tame_prk : forall one k, tame one (root_prk one k).
Proof.
  intros one k. induction k as [|k IH]; cbn [root_prk tame].
  - split; [exact I|]. unfold x3dh_secret, dh_of. cbn [tame firm used]. repeat split. destruct one; cbn; auto.
  - split; [apply tame_block; exact IH|]. split; exact I.
Qed.
Lemma tame_chain : forall one k n, tame one (chain_of one k n).
Proof.
  intros one k n. induction n as [|n IH] using N.peano_ind; [rewrite chain_zero; apply tame_block, tame_prk|].
  rewrite <- N.add_1_r, chain_next. cbn [tame]. auto.
Qed.
Lemma tame_message : forall one k n, tame one (message_prk one k n).
Proof. intros. unfold message_prk. cbn [tame no_salt]. split; [exact I|]. split; [apply tame_chain|exact I]. Qed.
Lemma tame_body : forall one k n, tame one (body_of one k n).
Proof. intros. unfold body_of, iv_of. cbn [tame]. split; [apply tame_block, tame_message|]. split; [apply tame_block, tame_message|exact I]. Qed.
Lemma tame_tag : forall one k n text, tame one (tag_of one k n text).
Proof. intros. unfold tag_of. cbn [tame]. split; [apply tame_block, tame_message|exact I]. Qed.
Lemma tame_held : forall one p t, In t (held one p) -> tame one t.
Proof.
  intros one p t J. apply held_cases in J. destruct J as (Z & [->|[->|[->|[->|(v & Iv & [->|(n & Jn & [-> | [-> | ->]])])]]]]).
  - apply tame_block, tame_prk.
  - cbn [tame]. destruct (p_epoch p); [contradiction|exact I].
  - apply tame_chain.
  - exact I.
  - apply tame_chain.
  - apply tame_block, tame_message.
  - apply tame_block, tame_message.
  - unfold iv_of. cbn [tame]. apply tame_block, tame_message.
Qed.
Lemma tame_value : forall C c one (pr : atom -> bytes) tx (npr : nkey -> bytes) ntx,
  (forall a, firm a -> clamp (npr (key_of c a)) = clamp (pr a)) ->
  (forall a, used one a -> mont_pub C (clamp (npr (key_of c a))) = mont_pub C (clamp (pr a))) ->
  (forall k n, ntx (cb_base c) k n = tx k n) ->
  forall t, tame one t -> nvalue C npr ntx (named c t) = value C pr tx t.
Proof.
  intros C c one pr tx npr ntx V1 V2 V3 t. induction t; intros T; cbn [named nvalue value].
  - reflexivity.
  - apply V1. exact T.
  - apply V3.
  - destruct t1; try destruct T. destruct t2; try destruct T. cbn [named nvalue value]. rewrite V1 by assumption. rewrite V2 by assumption. reflexivity.
  - destruct T as [Ta Tb]. rewrite IHt1, IHt2 by assumption. reflexivity.
  - destruct T as [Ta Tb]. rewrite IHt1, IHt2 by assumption. reflexivity.
  - rewrite IHt by exact T. reflexivity.
  - destruct T as (Ta & Tb & Tc). rewrite IHt1, IHt2, IHt3 by assumption. reflexivity.
Qed.

Section Raid.
Variable C : Crypto.
Hypothesis H : CryptoOk C.
Notation ends x y := (fun s => pick x y (negb s)).

(** *** One session *)
Definition told (dev : addr -> world) (L : list raided) (c : cable) (pr : atom -> bytes) (tx : nat -> N -> bytes) : Prop :=
  key_lengths (cb_bundle c) pr /\
  names C pr (cb_bundle c) (cb_base c) (fun part => dev (cb_end c part)) (ln_keys (cb_link c)) /\
  (forall r c' part s, In r L -> In c' (rd_cables r) -> twin c c' -> rd_who r = cb_end c' part ->
     part = true \/ p_epoch (ln_par (cb_link c') part) <> 0 -> In s (sess_list (rd_device r) (cb_end c' (negb part))) -> ss_alice_base s = Byte.x05 :: cb_base c' ->
     session_secrets s = map (value C pr tx) (held (cb_one c) (ln_par (cb_link c') part))) /\
  (forall x m, In x (ln_notes (cb_link c)) -> inner (nt_cipher x) = Some m -> tx (nt_epoch x) (nt_counter x) = nt_text x /\
     sg_body m = value C pr tx (body_of (cb_one c) (nt_epoch x) (nt_counter x)) /\
     exists ser text, sg_raw m = ser ++ value C pr tx (tag_of (cb_one c) (nt_epoch x) (nt_counter x) text)).
Lemma between_has : forall es c, In c es -> In (turned true (cb_link c)) (links_between (cb_from c) (cb_to c) es).
Proof.
  intros es c Ic. unfold links_between. apply in_flat_map. exists c. split; [exact Ic|]. unfold link_between. rewrite !addr_eqb_refl. left. reflexivity.
Qed.
Lemma forall2_in : forall (A B : Type) (R : A -> B -> Prop) l l' a, Forall2 R l l' -> In a l -> exists b, In b l' /\ R a b.
Proof.
  intros A B R l l' a F. induction F as [|x y l l' Rxy F IH]; intro J; [destruct J|]. destruct J as [->|J]; [exists y; split; [left; reflexivity|exact Rxy]|].
  destruct (IH J) as (b & Jb & Rb). exists b. split; [right; exact Jb|exact Rb].
Qed.
Lemma robs_has : forall L r c c' part, In r L -> In c' (rd_cables r) -> twin c c' -> cb_from c <> cb_to c -> rd_who r = cb_end c' part ->
  In (mkTheft part (rd_device r) (ln_par (cb_link c') part)) (robs (cb_from c) (cb_to c) L (cb_base c)).
Proof.
  intros L r c c' part Ir Ic' (T1 & T2 & T3 & T4) N Ew. unfold robs. apply in_flat_map. exists r. split; [exact Ir|].
  unfold found_in. apply in_flat_map. exists part. split; [destruct part; [left|right; left]; reflexivity|].
  assert (E : pick (cb_from c) (cb_to c) part = rd_who r) by (rewrite Ew; unfold cb_end, pick; rewrite T1, T2; destruct part; reflexivity). rewrite E, addr_eqb_refl.
  apply in_flat_map. exists (turned true (cb_link c')). split; [rewrite <- T1, <- T2; apply between_has; exact Ic'|].
  assert (Eb : bytes_eqb (ln_base (turned true (cb_link c'))) (cb_base c) = true) by (apply bytes_eqb_eq; exact T3). rewrite Eb.
  left. unfold role. cbn [ln_from turned ln_par]. destruct part; reflexivity.
Qed.
Lemma cable_heist : forall dev es L c, raid C dev es L -> In c es -> cb_from c <> cb_to c /\
  exists v ths, heist C (P_Many.at_l (ends (cb_from c) (cb_to c)) (turned true (cb_link c))) (cb_bundle c) (cb_base c) v (ln_par (cb_link c)) (ln_keys (cb_link c)) (ln_notes (cb_link c)) ths /\
    (forall part, w_pair (v part) = w_pair (dev (cb_end c part))) /\
    Forall2 (matches (cb_from c) (cb_to c) (turned true (cb_link c))) (robs (cb_from c) (cb_to c) L (cb_base c)) ths.
Proof using H.
  intros dev es L c R Ic. destruct (raid_inv C H _ _ _ R) as (Ps & _ & _ & Ns & _). pose proof (Ns c Ic) as N. split; [exact N|].
  destruct (Ps _ _ N) as (dv & [Iv _] & Ev). pose proof Iv as (_ & _ & _ & Lk & _). destruct (Lk _ (between_has es c Ic)) as (v & (ths & G & F) & St).
  exists v, ths. split; [exact G|]. split; [|exact F].
  intro part. destruct (St part) as (E & _). rewrite Ev in E. unfold role in E. cbn [ln_from turned] in E. destruct part; exact E.
Qed.
Lemma at_end : forall c part, P_Many.at_l (ends (cb_from c) (cb_to c)) (turned true (cb_link c)) part = cb_end c (negb part).
Proof. intros c part. unfold P_Many.at_l, player, pick, cb_end. cbn [ln_from turned]. destruct part; reflexivity. Qed.
Lemma cable_told : forall dev es L c, raid C dev es L -> In c es -> (exists pr tx, told dev L c pr tx) /\ forall x, In x (ln_notes (cb_link c)) -> nt_epoch x <> 0.
Proof using H.
  intros dev es L c R Ic. destruct (cable_heist _ _ _ _ R Ic) as (N & v & ths & G & Pv & F).
  destruct (plunder_full C H _ _ _ _ _ _ _ _ G) as (pr & tx & Kl & Nz & Nm & Ss & Ms & _). split; [|exact Nz]. exists pr, tx.
  split; [exact Kl|]. split; [|split; [|exact Ms]].
  - destruct Nm as (Ni & Nr). split; [|exact Nr]. intro s. rewrite <- Pv. apply Ni.
  - intros r c' part s Ir Ic' T Ew Sd J Eb. pose proof (robs_has L r c c' part Ir Ic' T N Ew) as Rb. destruct (forall2_in _ _ _ _ _ _ F Rb) as (th & It & (M1 & M2 & M3)).
    cbn [th_side th_party th_device] in M1, M2, M3. destruct (M3 Sd) as (s0 & Cu & Un). assert (Es : s = s0).
    { apply Un; [rewrite at_end; replace (cb_end c (negb part)) with (cb_end c' (negb part)); [exact J|]|].
      - destruct T as (T1 & T2 & _). unfold cb_end. rewrite T1, T2. reflexivity.
      - destruct T as (_ & _ & T3 & _). rewrite Eb, T3. reflexivity. }
    subst s0. assert (Sd' : th_side th = true \/ p_epoch (th_party th) <> 0) by (rewrite M1, M2; exact Sd). rewrite <- M1 in Cu.
    rewrite (Ss th s It Sd' Cu), M2. reflexivity.
Qed.

(** *** All sessions *)
Lemma choose : forall (P : cable -> (atom -> bytes) -> (nat -> N -> bytes) -> Prop) es, NoDup (map cb_base es) -> (forall c, In c es -> exists pr tx, P c pr tx) ->
  exists f : pubkey -> (atom -> bytes) * (nat -> N -> bytes), forall c, In c es -> P c (fst (f (cb_base c))) (snd (f (cb_base c))).
Proof.
  intros P es. induction es as [|c es IH]; intros Nd K; [exists (fun _ => (fun _ => [], fun _ _ => [])); intros c []|].
  cbn [map] in Nd. inversion Nd as [|? ? N1 N2]; subst. destruct (IH N2) as (f & F); [intros c' J; apply K; right; exact J|].
  destruct (K c (or_introl eq_refl)) as (pr & tx & Q). exists (fun u => if bytes_eqb u (cb_base c) then (pr, tx) else f u).
  intros c' [<-|J]; [rewrite bytes_eqb_refl; exact Q|].
  assert (E : bytes_eqb (cb_base c') (cb_base c) = false) by (apply bytes_eqb_neq; intro E; apply N1; rewrite <- E; apply in_map; exact J). rewrite E. apply F. exact J.
Qed.
Lemma base_one : forall es c c', NoDup (map cb_base es) -> In c es -> In c' es -> cb_base c' = cb_base c -> c' = c.
Proof. intros es c c' Nd I1 I2 E. exact (map_inj_in cb_base es c' c Nd I2 I1 E). Qed.
Lemma snap_twin : forall dev es L c r c', raid C dev es L -> NoDup (map cb_base es) -> In c es -> In r L -> In c' (rd_cables r) -> cb_base c' = cb_base c -> twin c c'.
Proof.
  intros dev es L c r c' R Nd Ic Ir Ic' Eb. destruct (raid_twins C _ _ _ _ _ R Ir Ic') as (c2 & J2 & T). assert (Q : c2 = c) by (apply (base_one es); auto; destruct T as (_ & _ & T & _); congruence).
  rewrite <- Q. exact T.
Qed.
Section Global.
Variables (dev : addr -> world) (es : list cable) (L : list raided) (f : pubkey -> (atom -> bytes) * (nat -> N -> bytes)).
Hypothesis F : forall c, In c es -> told dev L c (fst (f (cb_base c))) (snd (f (cb_base c))).
Definition npr (a : nkey) : bytes :=
  match a with
  | NIdent d => sk_bytes (kp_priv (w_pair (dev d)))
  | NSigned d u => match find (fun c => addr_eqb (cb_to c) d && bytes_eqb (or_none (bd_signed (cb_bundle c))) u) es with Some c => fst (f (cb_base c)) (ARatchet 0) | None => [] end
  | NOneTime d u => match find (fun c => addr_eqb (cb_to c) d && bytes_eqb (or_none (bd_prekey (cb_bundle c))) u && cb_one c) es with Some c => fst (f (cb_base c)) AOneTime | None => [] end
  | NBase u => fst (f u) ABase
  | NRatchet u k => fst (f u) (ARatchet k)
  end.
Definition ntx (u : pubkey) (k : nat) (n : N) : bytes := snd (f u) k n.
Lemma signed_key : forall c, In c es -> List.length (npr (key_of c (ARatchet 0))) = 32 /\ mont_pub C (npr (key_of c (ARatchet 0))) = mont_pub C (fst (f (cb_base c)) (ARatchet 0)).
Proof using F.
  intros c Ic. cbn [key_of npr]. destruct (find _ es) as [c2|] eqn:E.
  - apply find_some in E. destruct E as [I2 E]. apply andb_true_iff in E. rewrite bytes_eqb_eq in E. destruct E as [_ E].
    destruct (F c Ic) as (K1 & (_ & _ & B1 & _) & _), (F c2 I2) as (K2 & (_ & _ & B2 & _) & _). split; [apply (K2 (ARatchet 0)); exact I|].
    rewrite B1, B2 in E. exact E.
  - exfalso. pose proof (find_none _ _ E c Ic) as Q. cbn beta in Q. rewrite addr_eqb_refl, bytes_eqb_refl in Q. discriminate Q.
Qed.
Lemma once_key : forall c, In c es -> cb_one c = true -> List.length (npr (key_of c AOneTime)) = 32 /\ mont_pub C (npr (key_of c AOneTime)) = mont_pub C (fst (f (cb_base c)) AOneTime).
Proof using F.
  intros c Ic O. cbn [key_of npr]. destruct (find _ es) as [c2|] eqn:E.
  - apply find_some in E. destruct E as [I2 E]. rewrite !andb_true_iff, bytes_eqb_eq in E. destruct E as [[_ E] O2].
    destruct (F c Ic) as (K1 & (_ & _ & _ & B1 & _) & _), (F c2 I2) as (K2 & (_ & _ & _ & B2 & _) & _). split; [apply (K2 AOneTime); exact O2|].
    unfold cb_one, one_time in O, O2. destruct B1 as [B1|B1]; [rewrite B1 in O; discriminate|]. destruct B2 as [B2|B2]; [rewrite B2 in O2; discriminate|].
    rewrite B1, B2 in E. exact E.
  - exfalso. pose proof (find_none _ _ E c Ic) as Q. cbn beta in Q. rewrite addr_eqb_refl, bytes_eqb_refl, O in Q. discriminate Q.
Qed.
Lemma ident_key : forall c part, In c es -> clamp (npr (key_of c (AIdent part))) = clamp (fst (f (cb_base c)) (AIdent part)) /\
  mont_pub C (npr (key_of c (AIdent part))) = mont_pub C (fst (f (cb_base c)) (AIdent part)).
Proof using F.
  intros c part Ic. destruct (F c Ic) as (K & (Ni & _) & _). destruct (Ni part) as [_ E]. cbn [key_of npr]. rewrite E.
  pose proof (K (AIdent part) I) as Ln. split; [apply clamp_idem; exact Ln|apply mont_clamp; exact Ln].
Qed.
Lemma same_value : forall c t, In c es -> tame (cb_one c) t -> nvalue C npr ntx (named c t) = value C (fst (f (cb_base c))) (snd (f (cb_base c))) t.
Proof using F.
  intros c t Ic. assert (V1 : forall a, firm a -> clamp (npr (key_of c a)) = clamp (fst (f (cb_base c)) a)).
  { intros [part| | |[|k]] Q; try destruct Q; [apply ident_key; exact Ic|reflexivity|reflexivity]. }
  apply tame_value; [exact V1| |reflexivity].
  intros [part| | |[|k]] Q; try (f_equal; apply V1; exact I).
  - destruct (once_key c Ic Q) as [Ln E], (F c Ic) as (K & _). rewrite !mont_clamp; [exact E|apply (K AOneTime); exact Q|exact Ln].
  - destruct (signed_key c Ic) as [Ln E], (F c Ic) as (K & _). rewrite !mont_clamp; [exact E|apply (K (ARatchet 0)); exact I|exact Ln].
Qed.
Lemma net_names : forall c, In c es -> names C (fun a => npr (key_of c a)) (cb_bundle c) (cb_base c) (fun part => dev (cb_end c part)) (ln_keys (cb_link c)).
Proof using F.
  intros c Ic. destruct (F c Ic) as (K & (Ni & Nb & Ns & No & Nk) & _). destruct (signed_key c Ic) as [_ Es]. split; [|split; [exact Nb|split; [rewrite Es; exact Ns|split]]].
  - intro s. destruct (ident_key c s Ic) as [E1 E2]. destruct (Ni s) as [E3 E4]. rewrite E1, E2. split; assumption.
  - destruct No as [No|No]; [left; exact No|right]. destruct (once_key c Ic) as [_ Eo]; [unfold cb_one, one_time; rewrite No; reflexivity|]. rewrite Eo. exact No.
  - intros [|k] Lk; [rewrite Es|]; apply Nk; exact Lk.
Qed.
End Global.

Theorem raid_exact : forall dev es L, raid C dev es L -> NoDup (map cb_base es) ->
  exists pr tx,
    (forall c, In c es -> names C (fun a => pr (key_of c a)) (cb_bundle c) (cb_base c) (fun part => dev (cb_end c part)) (ln_keys (cb_link c))) /\
    (forall r a rec s, In r L -> w_sess (rd_device r) a = Some rec -> state_in s rec ->
       exists c part, In c (rd_cables r) /\ rd_who r = cb_end c part /\ a = cb_end c (negb part) /\ ss_alice_base s = Byte.x05 :: cb_base c /\
         session_secrets s = map (fun t => nvalue C pr tx (named c t)) (held (cb_one c) (ln_par (cb_link c) part))) /\
    (forall c x m, In c es -> In x (ln_notes (cb_link c)) -> inner (nt_cipher x) = Some m -> tx (cb_base c) (nt_epoch x) (nt_counter x) = nt_text x /\
       sg_body m = nvalue C pr tx (named c (body_of (cb_one c) (nt_epoch x) (nt_counter x))) /\
       exists ser text, sg_raw m = ser ++ nvalue C pr tx (named c (tag_of (cb_one c) (nt_epoch x) (nt_counter x) text))) /\
    (forall X c x, In c es -> In x (ln_notes (cb_link c)) -> (taken C dev X L es c x <-> laid_open C dev X L c x)).
Proof using H.
  intros dev es L R Nd. destruct (choose (told dev L) es Nd) as (f & F); [intros c Ic; apply (cable_told _ _ _ _ R Ic)|].
  exists (npr dev es f), (ntx f). split; [exact (net_names dev es L f F)|]. split; [|split].
  - intros r a rec s Ir Ea Js. destruct (raid_own C H _ _ _ _ _ _ _ R Ir Ea Js) as (J & c & part & Ic & Ew & Ee & Sd & Eb).
    exists c, part. split; [exact Ic|]. split; [exact Ew|]. split; [exact Ee|]. split; [exact Eb|].
    destruct (raid_twins C _ _ _ _ _ R Ir Ic) as (c0 & I0 & T). destruct (F c0 I0) as (_ & _ & Ss & _).
    assert (Eo : cb_one c = cb_one c0) by (destruct T as (_ & _ & _ & T); unfold cb_one; rewrite T; reflexivity). rewrite Eo.
    rewrite Ee in J. rewrite (Ss r c part s Ir Ic T Ew Sd J Eb). apply map_ext_in. intros t It. rewrite (twin_named _ _ _ T). symmetry. apply (same_value dev es L f F); [exact I0|].
    apply (tame_held _ _ _ It).
  - intros c x m Ic Ix Im. destruct (F c Ic) as (_ & _ & _ & Ms). destruct (Ms x m Ix Im) as (M1 & M2 & ser & text & M3). split; [exact M1|].
    rewrite (same_value dev es L f F) by (auto using tame_body). split; [exact M2|]. exists ser, text. rewrite (same_value dev es L f F) by (auto using tame_tag). exact M3.
  - intros X c x Ic Ix. destruct (cable_told _ _ _ _ R Ic) as [_ Nz]. destruct (cable_heist _ _ _ _ R Ic) as (N & _).
    assert (T2 : forall r c', In r L -> In c' (rd_cables r) -> cb_base c' = cb_base c -> twin c c') by (intros r c' Ir Ic' Eb; exact (snap_twin _ _ _ _ _ _ R Nd Ic Ir Ic' Eb)).
    split.
    + apply booty_safe; [exact N| |exact T2|exact (Nz x Ix)]. intros c' Ic' Eb. rewrite (base_one es c c' Nd Ic Ic' Eb). repeat split.
    + intro O. exact (booty_reads C dev X L es c _ _ Ic T2 x Ix eq_refl eq_refl O).
Qed.

(** *** Corollaries *)
Lemma taken_iff : forall dev es L X c x, raid C dev es L -> NoDup (map cb_base es) -> In c es -> In x (ln_notes (cb_link c)) -> (taken C dev X L es c x <-> laid_open C dev X L c x).
Proof using H. intros dev es L X c x R Nd Ic Ix. destruct (raid_exact _ _ _ R Nd) as (pr & tx & _ & _ & _ & Q). exact (Q X c x Ic Ix). Qed.
(** A session none of whose ends was robbed while it lasted. *)
Theorem raid_untouched : forall dev es L (X : nkey -> Prop) c x, raid C dev es L -> NoDup (map cb_base es) -> In c es -> In x (ln_notes (cb_link c)) ->
  (forall r c', In r L -> In c' (rd_cables r) -> cb_base c' = cb_base c -> rd_who r <> cb_from c /\ rd_who r <> cb_to c) ->
  ~ X (NBase (cb_base c)) -> ~ known C dev X L (key_of c (ARatchet 0)) -> ~ taken C dev X L es c x.
Proof using H.
  intros dev es L X c x R Nd Ic Ix Un X1 X2 D. apply (taken_iff _ _ _ _ _ _ R Nd Ic Ix) in D. unfold laid_open in D.
  assert (E : robbed L (cb_base c) = []).
  { destruct (robbed L (cb_base c)) as [|p ps] eqn:Q; [reflexivity|exfalso]. assert (J : In p (robbed L (cb_base c))) by (rewrite Q; left; reflexivity).
    apply robbed_in in J. destruct J as (r & c' & part & Ir & Ic' & Eb & Ew & _). destruct (Un r c' Ir Ic' Eb) as [U1 U2].
    destruct (snap_twin _ _ _ _ _ _ R Nd Ic Ir Ic' Eb) as (T1 & T2 & _). destruct part; cbn [cb_end] in Ew; congruence. }
  rewrite E in D. assert (Ro : forall j, ~ root_open (cb_one c) [] (fun a => known C dev X L (key_of c a)) j).
  { intros j Q. induction Q as [p []|S1 S2 S3 S4|]; [|assumption].
    destruct S3 as [[Q|(p & [] & _)]|[Q|(p & [] & _)]]; [|exact (X2 Q)]. destruct Q as [Q|(r & _ & [])]. exact (X1 Q). }
  destruct D as [(p & v & [] & _)|[(p & [] & _)|(j & _ & Q & _)]]. exact (Ro j Q).
Qed.
(** Two epochs after the last theft that concerns a session. *)
Theorem raid_healed : forall dev es L (X : nkey -> Prop) c x last, raid C dev es L -> NoDup (map cb_base es) -> In c es -> In x (ln_notes (cb_link c)) ->
  (forall p, In p (robbed L (cb_base c)) -> p_epoch p <= last) -> (forall j, X (NRatchet (cb_base c) j) -> j <= last) ->
  last + 2 <= nt_epoch x -> ~ taken C dev X L es c x.
Proof using H.
  intros dev es L X c x last R Nd Ic Ix Lt Lx Le D. apply (taken_iff _ _ _ _ _ _ R Nd Ic Ix) in D. unfold laid_open in D.
  assert (Hv : forall p v, In p (robbed L (cb_base c)) -> In v (p_views p) -> rv_epoch v < p_epoch p).
  { intros p v Ip Iv. apply robbed_in in Ip. destruct Ip as (r & c' & part & Ir & Ic' & Eb & Ew & ->). destruct (cable_heist _ _ _ _ R Ic) as (N & w & ths & G & _ & F).
    pose proof (robs_has L r c c' part Ir Ic' (snap_twin _ _ _ _ _ _ R Nd Ic Ir Ic' Eb) N Ew) as Rb. destruct (forall2_in _ _ _ _ _ _ F Rb) as (th & It & (_ & M2 & _)). cbn [th_party] in M2.
    rewrite <- M2 in *. exact (heist_views C H _ _ _ _ _ _ _ _ G th v It Iv). }
  set (A := fun a => known C dev X L (key_of c a)) in *.
  assert (Hk : forall j, has_key (robbed L (cb_base c)) A (ARatchet j) -> j <= last).
  { intros j [Q|(p & Ip & _ & Q)]; [|injection Q as Q; rewrite Q; exact (Lt p Ip)]. unfold A in Q. destruct j as [|j]; [lia|]. cbn [key_of] in Q. destruct Q as [Q|(r & _ & [])]. exact (Lx _ Q). }
  assert (Ro : forall j, root_open (cb_one c) (robbed L (cb_base c)) A j -> j <= S last).
  { intros j Q. induction Q as [p Ip Z|S1 S2 S3 S4|k Q IH S]; [specialize (Lt p Ip); lia|lia|]. destruct S as [S|S]; specialize (Hk _ S); lia. }
  destruct D as [(p & v & Ip & Z & Iv & Ev & _)|[(p & Ip & Z & E & _)|(j & E & Q & S)]].
  - specialize (Hv p v Ip Iv). specialize (Lt p Ip). lia.
  - specialize (Lt p Ip). lia.
  - specialize (Ro j Q). destruct S as [S|S]; specialize (Hk _ S); lia.
Qed.
End Raid.
