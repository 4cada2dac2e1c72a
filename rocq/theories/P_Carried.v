(** Proofs for C89. *)
From Verif Require Import M_Base M_Crypto M_Aes M_Curve M_Proto M_Uuid M_Message M_Ratchet M_State M_Store M_Session M_Group
  S_Crypto S_Message S_Ratchet S_Session S_Api S_Group S_GroupMsg S_GroupSecrecy S_X3dh S_Conv S_History S_Secrecy S_Thefts S_Many S_Net S_Raid S_Carried
  P_Base P_Proto P_Message P_Group P_GroupMsg P_GroupTop P_GroupSecrecy P_Secrecy P_Thefts P_Header P_RaidTerms P_RaidInv P_Raid.
From Coq Require Import ZifyBool ZifyNat ZifyN.
Local Open Scope nat_scope.

(** *** Terms of the two kinds *)
Fixpoint plain (t : nterm) : Prop :=
  match t with
  | NPub _ | NPriv _ => True | NText _ _ _ | NEnc _ _ _ => False
  | NDh x y | NCat x y | NHmac x y => plain x /\ plain y
  | NFirst _ x => plain x
  end.
Lemma keyed_plain : forall c t, keyed t -> plain (named c t).
Proof. intros c t. induction t; cbn [keyed named plain]; tauto. Qed.
Lemma of_net_inj : forall l t t', plain t -> plain t' -> of_net l t = of_net l t' -> t = t'.
Proof.
  intros l t. induction t; intros t' P P' E; destruct t'; cbn [plain of_net] in *; try tauto; try discriminate E.
  - injection E as E. congruence.
  - injection E as E. congruence.
  - injection E as E1 E2. f_equal; tauto || (apply IHt1 + apply IHt2; tauto).
  - injection E as E1 E2. f_equal; [apply IHt1|apply IHt2]; tauto.
  - injection E as E1 E2. f_equal; [apply IHt1|apply IHt2]; tauto.
  - injection E as E1 E2. f_equal; [exact E1|apply IHt; tauto].
Qed.
Lemma of_group_inj : forall t t', of_group t = of_group t' -> t = t'.
Proof.
  induction t; intros t' E; destruct t'; cbn [of_group] in E; try discriminate E; try reflexivity; injection E; intros; f_equal; auto.
Qed.
(** Group terms contain no private key of the network; stolen ones contain the chain's first key. *)
Fixpoint has_priv (t : uterm) : Prop :=
  match t with
  | UPub _ | UText _ _ _ | UKey | UGroup _ => False | UPriv _ => True
  | UDh x y | UCat x y | UHmac x y => has_priv x \/ has_priv y
  | UFirst _ x | USkip _ x => has_priv x
  | UEnc x y z => has_priv x \/ has_priv y \/ has_priv z
  end.
Fixpoint has_first (t : uterm) : Prop :=
  match t with
  | UPub _ | UText _ _ _ | UPriv _ | UGroup _ => False | UKey => True
  | UDh x y | UCat x y | UHmac x y => has_first x \/ has_first y
  | UFirst _ x | USkip _ x => has_first x
  | UEnc x y z => has_first x \/ has_first y \/ has_first z
  end.
Lemma group_no_priv : forall t, ~ has_priv (of_group t).
Proof. induction t; cbn [of_group has_priv]; tauto. Qed.
Lemma plain_no_first : forall l t, plain t -> ~ has_first (of_net l t).
Proof. intros l t. induction t; cbn [plain of_net has_first]; tauto. Qed.
Lemma base_priv : forall l t u, plain t -> In u (bases_of t) -> has_priv (of_net l t).
Proof.
  intros l t u. induction t; cbn [plain bases_of of_net has_priv]; intros P J; rewrite ?in_app_iff in J; try (destruct J; fail); tauto.
Qed.
Lemma chain_first : forall c n, has_first (of_group (gchain_of c n)).
Proof. intros c n. unfold gchain_of. induction (N.to_nat (n - cn_first c)) as [|k IH]; [exact I|]. left. exact IH. Qed.
Lemma stolen_first : forall c bs t, gstolen c bs t -> has_first (of_group t).
Proof.
  intros c bs t G. apply stolen_cases in G. destruct G as (b & _ & [->|(i & _ & ->)]); [apply chain_first|]. left. apply chain_first.
Qed.
Lemma held_keyed : forall one p t, In t (held one p) -> keyed t.
Proof.
  intros one p t J. apply held_cases in J. destruct J as (_ & [->|[->|[->|[->|(v & Iv & [->|(n & Jn & [-> | [-> | ->]])])]]]]).
  - unfold root_of. apply keyed_block, keyed_prk.
  - exact I.
  - apply keyed_chain.
  - exact I.
  - apply keyed_chain.
  - apply keyed_cipher.
  - unfold mac_of. apply keyed_block. unfold message_prk. cbn [keyed no_salt]. split; [exact I|]. split; [apply keyed_chain|exact I].
  - unfold iv_of. cbn [keyed]. apply keyed_block. unfold message_prk. cbn [keyed no_salt]. split; [exact I|]. split; [apply keyed_chain|exact I].
Qed.
Lemma tag_keyed : forall one k n text, keyed (tag_of one k n text).
Proof.
  intros. unfold tag_of, mac_of. cbn [keyed]. split; [|exact I]. apply keyed_block. unfold message_prk. cbn [keyed no_salt]. split; [exact I|]. split; [apply keyed_chain|exact I].
Qed.
Lemma handed_plain : forall L es t, handed L es t -> plain t /\ (t = NPub [] \/ exists u, In u (bases_of t)).
Proof.
  intros L es t [(r & e & part & x & _ & _ & _ & Ix & ->)|(e & k & n & text & _ & ->)].
  - split; [apply keyed_plain, (held_keyed _ _ _ Ix)|]. destruct (held_base e _ _ _ Ix) as [->|J]; [left; reflexivity|right; eauto].
  - split; [apply keyed_plain, tag_keyed|]. right. exists (cb_base e). apply tag_base.
Qed.

Fixpoint unsealed (t : gterm) : Prop :=
  match t with
  | GPub _ | GKey | GText _ => True | GEnc _ _ _ => False
  | GCat x y | GHmac x y => unsealed x /\ unsealed y
  | GFirst _ x | GSkip _ x => unsealed x
  end.
Lemma unsealed_chain : forall c n, unsealed (gchain_of c n).
Proof. intros c n. unfold gchain_of. induction (N.to_nat (n - cn_first c)) as [|k IH]; [exact I|]. split; [exact IH|exact I]. Qed.
Lemma unsealed_cipher : forall c n, unsealed (gcipher_of c n).
Proof.
  intros c n. unfold gcipher_of, gblock, gseed_of. pose proof (unsealed_chain c n). cbn [unsealed ghkdf_block]. tauto.
Qed.

(** *** What can be computed *)
Section Oku.
Variables (l : pubkey -> nat -> N -> option uterm) (Hn : nterm -> Prop) (Hg : gterm -> Prop) (ka : nkey -> Prop) (kt : N -> Prop).
Notation Sn t := (exists x, Hn x /\ t = of_net l x).
Notation Sg t := (exists x, Hg x /\ t = of_group x).
Fixpoint oku (t : uterm) : Prop :=
  match t with
  | UPub _ => True
  | UPriv a => Sn t \/ ka a
  | UText _ _ _ => True
  | UKey => Sg t
  | UGroup n => kt n
  | UDh x y => oku x \/ oku y
  | UCat x y => oku x /\ oku y
  | UHmac x y => Sn t \/ Sg t \/ (oku x /\ oku y)
  | UFirst _ x => Sn t \/ oku x
  | USkip _ x => oku x
  | UEnc x _ z => oku x -> oku z
  end.
Lemma oku_closed : forall K : uterm -> Prop, (forall t, K t -> oku t) -> forall t, uderives K t -> oku t.
Proof. intros K HK t D. induction D; cbn [oku] in *; tauto || auto. Qed.
Hypothesis Pn : forall t, Hn t -> plain t /\ (t = NPub [] \/ exists u, In u (bases_of t)).
Hypothesis Pg : forall t, Hg t -> has_first (of_group t).
Lemma no_group : forall t, plain t -> ~ Sg (of_net l t).
Proof using Pg. intros t P (x & Hx & E). apply (plain_no_first l t P). rewrite E. exact (Pg x Hx). Qed.
Lemma net_back : forall t, plain t -> Sn (of_net l t) -> Hn t.
Proof using Pn. intros t P (x & Hx & E). apply of_net_inj in E; [subst; exact Hx|exact P|apply Pn; exact Hx]. Qed.
Lemma no_net : forall t, (forall x, of_group t <> UPub x) -> ~ Sn (of_group t).
Proof using Pn.
  intros t Np (x & Hx & E). destruct (Pn x Hx) as [P [->|(u & J)]]; [exact (Np [] E)|]. apply (group_no_priv t). rewrite E. exact (base_priv l x u P J).
Qed.
Lemma oku_okn : forall kt' t, plain t -> oku (of_net l t) -> okn Hn ka kt' t.
Proof using Pn Pg.
  intros kt' t. induction t; intros P O; cbn [plain] in P; cbn [okn]; try tauto.
  - destruct O as [O|O]; [|right; exact O]. left. apply net_back; [exact I|exact O].
  - destruct O as [O|O]; tauto.
  - destruct O as [O1 O2]; tauto.
  - destruct O as [O|[O|[O1 O2]]]; [left; exact (net_back (NHmac t1 t2) P O)|destruct (no_group (NHmac t1 t2) P O)|tauto].
  - destruct O as [O|O]; [left; exact (net_back (NFirst n t) P O)|tauto].
Qed.
Lemma oku_gok : forall t, unsealed t -> oku (of_group t) -> gok Hg kt t.
Proof using Pn.
  induction t; intros U O; cbn [unsealed] in U; cbn [gok]; try tauto.
  - destruct O as (x & Hx & E). apply (of_group_inj GKey x) in E. subst x. exact Hx.
  - destruct O as [O1 O2]. tauto.
  - destruct O as [O|[(x & Hx & E)|[O1 O2]]]; [|left; apply (of_group_inj (GHmac t1 t2) x) in E; subst x; exact Hx|tauto].
    destruct (no_net (GHmac t1 t2)) as []; [intros x E; discriminate E|exact O].
  - destruct O as [O|O]; [|tauto]. destruct (no_net (GFirst n t)) as []; [intros x E; discriminate E|exact O].
Qed.
End Oku.

Lemma uderives_named : forall l (K : term -> Prop) (K' : uterm -> Prop) c t, (forall x, K x -> uderives K' (of_net l (named c x))) -> derives K t -> uderives K' (of_net l (named c t)).
Proof.
  intros l K K' c t HK D. induction D; cbn [named of_net] in *.
  - apply HK. assumption.
  - apply ud_pub.
  - apply ud_dh. assumption.
  - apply ud_dh_other. assumption.
  - apply ud_cat; assumption.
  - eapply ud_left; eassumption.
  - eapply ud_right; eassumption.
  - apply ud_hmac; assumption.
  - apply ud_first. assumption.
  - apply ud_enc; assumption.
  - eapply ud_dec; eassumption.
Qed.
Lemma uderives_group : forall (K : gterm -> Prop) (K' : uterm -> Prop) t, (forall x, K x -> uderives K' (of_group x)) -> gderives K t -> uderives K' (of_group t).
Proof.
  intros K K' t HK D. induction D; cbn [of_group] in *.
  - apply HK. assumption.
  - apply ud_pub.
  - apply ud_cat; assumption.
  - eapply ud_left; eassumption.
  - eapply ud_right; eassumption.
  - apply ud_hmac; assumption.
  - apply ud_first. assumption.
  - apply ud_skip. assumption.
  - apply ud_enc; assumption.
  - eapply ud_dec; eassumption.
Qed.

(** *** Distribution messages *)
Lemma invitation_new : forall C c m, CryptoOk C -> invitation C c m ->
  m = new_dist 3 (dm_dist m) (dm_chain m) (dm_iter m) (dm_chainkey m) (dm_signing m) /\ List.length (dm_dist m) = 16 /\ go_u32 (dm_chain m) /\ go_u32 (dm_iter m) /\ List.length (dm_chainkey m) = 32 /\ List.length (dm_signing m) = 32.
Proof.
  intros C c m H (_ & Ld & a & d & sr & rnd & fs & w & w' & O & E).
  destruct (dist_describes _ _ _ _ _ _ _ _ _ H O E) as ((W & _) & _).
  assert (Q : exists s r, w_groups w' a d = Some (s :: r) /\ dist_of_state d (s :: r) = Ok m).
  { destruct (dist_ok _ _ _ _ _ _ _ _ _ E) as [(s & r & Eg & -> & D)|(Eg & chain & seed & rnd1 & kp & rest & Rc & Rf & Gk & -> & D)]; [eauto|].
    eexists. eexists. split; [apply group_set_same|exact D]. }
  destruct Q as (s & r & Eg & D). destruct (proj2 W _ _ _ Eg) as (_ & _ & F). inversion F as [|? ? Ws _]; subst.
  destruct (gs_public_wf s Ws) as (k & Lk & Ep & Er). unfold dist_of_state in D. cbn [gr_state bind] in D. rewrite Er, (gs_ver_wf s Ws) in D. cbn [bind] in D.
  change (3 mod 256)%N with 3%N in D. apply (f_equal (fun y => match y with Ok z => z | _ => m end)) in D. cbv beta iota in D. destruct Ws as (_ & W1 & W2 & W3 & _).
  rewrite <- D in *. unfold new_dist in *. cbn [dm_dist dm_chain dm_iter dm_chainkey dm_signing] in *. auto 7.
Qed.
Lemma invitation_same : forall C c m m', CryptoOk C -> invitation C c m -> invitation C c m' -> dm_raw m = dm_raw m' -> m = m'.
Proof.
  intros C c m m' H V V' E. destruct (invitation_new _ _ _ H V) as (Q & L1 & L2 & L3 & L4 & L5), (invitation_new _ _ _ H V') as (Q' & L1' & L2' & L3' & L4' & L5').
  pose proof (dist_roundtrip_msg _ _ _ _ _ L1 L2 L3 L4 L5) as P. pose proof (dist_roundtrip_msg _ _ _ _ _ L1' L2' L3' L4' L5') as P'. rewrite <- Q in P. rewrite <- Q' in P'.
  rewrite E, P' in P. apply (f_equal (fun y => match y with Ok z => z | _ => m end)) in P. symmetry. exact P.
Qed.
Lemma cut : forall a k z : bytes, List.length k = 32 -> List.length z = 35 -> let r := a ++ k ++ z in
  r = firstn (List.length r - 67) r ++ k ++ skipn (List.length r - 35) r.
Proof.
  intros a k z Lk Lz r. assert (E1 : firstn (List.length r - 67) r = a).
  { unfold r. rewrite !app_length, Lk, Lz. replace (List.length a + (32 + 35) - 67) with (List.length a + 0) by lia. rewrite firstn_app_2. cbn [firstn]. apply app_nil_r. }
  assert (E2 : skipn (List.length r - 35) r = z).
  { unfold r. rewrite !app_length, Lk, Lz, skipn_app, skipn_all2 by lia. cbn [app]. rewrite skipn_app, skipn_all2 by lia. cbn [app].
    replace (List.length a + (32 + 35) - 35 - List.length a - List.length k) with 0 by lia. reflexivity. }
  rewrite E1, E2. reflexivity.
Qed.
Lemma dist_cut : forall C c m, CryptoOk C -> invitation C c m -> let r := dm_raw m in
  r = firstn (List.length r - 67) r ++ dm_chainkey m ++ skipn (List.length r - 35) r.
Proof.
  intros C c m H V. destruct (invitation_new _ _ _ H V) as (Q & L1 & L2 & L3 & L4 & L5). 
  assert (E : exists a z, dm_raw m = a ++ dm_chainkey m ++ z /\ List.length z = 35).
  { rewrite Q. unfold new_dist. cbn [dm_raw dm_chainkey].
    exists (version_prefix 3 :: enc_fields [(1%N, WLen (uuid_string (dm_dist m))); (2%N, WVarint (dm_chain m)); (3%N, WVarint (dm_iter m))] ++ enc_varint 34 ++ enc_varint 32),
      (enc_field (5%N, WLen (pub_bytes (dm_signing m)))). split.
    - unfold dist_fields, enc_fields, enc_field. cbn [map List.concat fst snd enc_wval wtype]. rewrite L4.
      change (4 * 8 + 2)%N with 34%N. change (N.of_nat 32) with 32%N. rewrite !app_nil_r. cbn [app]. f_equal. rewrite <- !app_assoc. reflexivity.
    - unfold enc_field. cbn [fst snd enc_wval]. unfold pub_bytes. rewrite !app_length. cbn [List.length]. rewrite L5. reflexivity. }
  destruct E as (a & z & E & Lz). cbv zeta. rewrite E. exact (cut a (dm_chainkey m) z L4 Lz).
Qed.

Section Carried.
Variable C : Crypto.
Hypothesis H : CryptoOk C.
Variables (dev : addr -> world) (es : list cable) (L : list raided).
Hypothesis R : raid C dev es L.
Hypothesis Nd : NoDup (map cb_base es).
Variables (c : channel) (inv : list (cable * note * distmsg)).
Hypothesis V : carried C c es inv.
Notation l := (letters c inv).
Lemma letter_cases : forall u k n, l u k n = None \/
  exists e x m, In (e, x, m) inv /\ cb_base e = u /\ nt_epoch x = k /\ nt_counter x = n /\ l u k n = Some (dist_term c m).
Proof using.
  intros u k n. unfold letters.
  destruct (find (fun y : cable * note * distmsg => let '(e, x, _) := y in bytes_eqb (cb_base e) u && Nat.eqb (nt_epoch x) k && N.eqb (nt_counter x) n) inv) as [[[e x] m]|] eqn:F; [right|left; reflexivity].
  apply find_some in F. destruct F as [J Q]. apply andb_prop in Q. destruct Q as [Q Q3]. apply andb_prop in Q. destruct Q as [Q1 Q2].
  apply bytes_eqb_eq in Q1. apply Nat.eqb_eq in Q2. apply N.eqb_eq in Q3. exists e, x, m. auto 6.
Qed.
Lemma note_inner : forall e x, In e es -> In x (ln_notes (cb_link e)) -> exists m, inner (nt_cipher x) = Some m.
Proof using H R.
  intros e x Ie Ix. destruct (cable_heist C H _ _ _ _ R Ie) as (_ & v & ths & G & _). apply (heist_history C) in G.
  destruct (headers C H _ _ _ _ _ _ _ _ G Ix) as (m & E & _). eauto.
Qed.
Lemma notes_one : forall e x x', In e es -> In x (ln_notes (cb_link e)) -> In x' (ln_notes (cb_link e)) -> nt_epoch x = nt_epoch x' -> nt_counter x = nt_counter x' -> x = x'.
Proof using H R.
  intros e x x' Ie Ix Ix' E1 E2. destruct (cable_heist C H _ _ _ _ R Ie) as (_ & v & ths & G & _). apply (heist_history C) in G.
  destruct (numbered C H _ _ _ _ _ _ _ G) as [D _]. clear G. revert x x' Ix Ix' E1 E2. induction (ln_notes (cb_link e)) as [|y r IH]; intros x x' Ix Ix' E1 E2; [destruct Ix|].
  cbn [map] in D. inversion D as [|? ? D1 D2]; subst.
  destruct Ix as [<-|Ix], Ix' as [<-|Ix']; [reflexivity| | |exact (IH D2 x x' Ix Ix' E1 E2)]; exfalso; apply D1; apply in_map_iff; [exists x'|exists x]; split; congruence.
Qed.
Lemma letter_of : forall e x m, In (e, x, m) inv -> l (cb_base e) (nt_epoch x) (nt_counter x) = Some (dist_term c m).
Proof using H R Nd V.
  intros e x m J. destruct (letter_cases (cb_base e) (nt_epoch x) (nt_counter x)) as [Q|(e' & x' & m' & J' & E1 & E2 & E3 & Q)].
  - exfalso. unfold letters in Q.
    match type of Q with match find ?f inv with _ => _ end = None => assert (F : find f inv = None) by (destruct (find f inv) as [[[? ?] ?]|]; [discriminate Q|reflexivity]) end.
    apply (find_none _ _ F) in J. cbv beta iota in J. rewrite bytes_eqb_refl, Nat.eqb_refl, N.eqb_refl in J. discriminate J.
  - rewrite Q. f_equal. f_equal. pose proof (proj1 (V e x m) J) as (Ie & Ix & Im & Et). pose proof (proj1 (V e' x' m') J') as (Ie' & Ix' & Im' & Et').
    rewrite (base_one es e e' Nd Ie Ie' E1) in *. rewrite (notes_one e x' x Ie Ix' Ix E2 E3) in *. apply (invitation_same C c m' m H Im' Im). congruence.
Qed.
Lemma iter_first : forall e x m, In (e, x, m) inv -> (cn_first c <= dm_iter m)%N.
Proof using V. intros e x m J. destruct (proj1 (V e x m) J) as (_ & _ & ((_ & _ & _ & Le & _) & _) & _). exact Le. Qed.

(** *** Symbolic *)
Section Known.
Variables (X : nkey -> Prop) (bs : list mailbox) (sent : list N) (n0 : N).
Hypothesis Bs : forall b, In b bs -> (cn_first c <= mb_next b)%N /\ forall i, In i (mb_open b) -> (cn_first c <= i)%N.
Hypothesis Sn : forall i, In i sent -> (cn_first c <= i)%N.
Definition opens (b : mailbox) : Prop := In b bs \/ exists e x m, In (e, x, m) inv /\ laid_open C dev X L e x /\ b = mkMailbox (dm_iter m) [].
Lemma opens_first : forall b, opens b -> (cn_first c <= mb_next b)%N /\ forall i, In i (mb_open b) -> (cn_first c <= i)%N.
Proof using V Bs.
  intros b [J|(e & x & m & J & _ & ->)]; [exact (Bs b J)|]. split; [exact (iter_first e x m J)|intros i []].
Qed.
Notation okt := (oku l (handed L es) (gstolen c opens) (known C dev X L) (fun n => n = n0 -> gexposed opens n0)).
Lemma carried_safe : group_taken C dev X L es c inv bs sent n0 -> gexposed opens n0.
Proof using H R Nd V Bs Sn.
  intro D. pose proof (handed_plain L es) as Pn. pose proof (stolen_first c opens) as Pg.
  apply (oku_closed l (handed L es) (gstolen c opens) (known C dev X L) (fun n => n = n0 -> gexposed opens n0)) in D; [apply D; reflexivity|].
  assert (Hg : forall g, gstolen c opens g -> okt (of_group g)).
  { intros g G. pose proof G as Gt. apply stolen_shape in Gt. destruct Gt as [->|(x & i & ->)]; cbn [of_group oku]; [exists GKey; auto|]. right. left. exists (GHmac x (GPub i)). auto. }
  assert (Hh : forall e x, handed L es (named e x) -> keyed x -> (forall y z, x <> TDh y z) -> (forall y z, x <> TCat y z) -> okt (of_net l (named e x))).
  { intros e x Q K N1 N2. destruct x; cbn [named of_net oku keyed] in *; try tauto; try (left; eexists; split; [exact Q|reflexivity]).
    - destruct (N1 x1 x2 eq_refl). - destruct (N2 x1 x2 eq_refl). }
  intros t [(r & e & part & x & Ir & I' & Ew & Ix & ->)|[(a & -> & G)|[(e & x & I' & Ix & [->|(text & ->)])|[(u & k & m & ->)|[(b & g & Ib & Ig & ->)|[(i & Ii & ->)|(i & -> & G)]]]]]].
  - assert (Gt : handed L es (named e x)) by (left; exists r, e, part, x; auto 6). apply Hh; [exact Gt|exact (held_keyed _ _ _ Ix)| |].
    all: intros y z E; rewrite E in Ix; apply held_cases in Ix; destruct Ix as (_ & [Q|[Q|[Q|[Q|(v & _ & [Q|(m & _ & [Q|[Q|Q]])])]]]]); try discriminate Q;
      match type of Q with _ = chain_of ?o ?k ?n => destruct (chain_shape o k n) as [(q & t & i & F & _)|(q & F)]; rewrite F in Q; discriminate Q end.
  - right. exact G.
  - unfold body_of. cbn [named of_net oku]. intro G. destruct (letter_cases (cb_base e) (nt_epoch x) (nt_counter x)) as [Q|(e' & x' & m & J' & E1 & E2 & E3 & Q)]; rewrite Q; [exact I|].
    pose proof (proj1 (V e' x' m) J') as (Ie' & Ix' & _). rewrite (base_one es e e' Nd I' Ie' E1) in *.
    unfold dist_term. cbn [oku]. split; [exact I|]. split; [|exact I]. apply Hg. exists (mkMailbox (dm_iter m) []). split; [|left; reflexivity]. right. exists e, x', m. split; [exact J'|]. split; [|reflexivity].
    unfold laid_open. rewrite E2, E3. destruct (cable_heist C H _ _ _ _ R I') as (N & _). destruct (cable_told C H _ _ _ _ R I') as [_ Nz].
    apply (cipher_opened (cb_one e) (robbed L (cb_base e)) _ (nt_epoch x) (nt_counter x)); [exact (Nz x Ix)|].
    apply (okn_ok C dev X L es e (nt_epoch x) (nt_counter x)); [exact N| | |apply keyed_cipher|].
    + intros e2 I2 Eb. rewrite (base_one es e e2 Nd I' I2 Eb). repeat split.
    + intros r e2 Ir I2 Eb. exact (snap_twin C _ _ _ _ _ _ R Nd I' Ir I2 Eb).
    + exact (oku_okn l (handed L es) (gstolen c opens) _ _ Pn Pg _ _ (keyed_plain e _ (keyed_cipher _ _ _)) G).
  - apply Hh; [right; exists e, (nt_epoch x), (nt_counter x), text; auto|apply tag_keyed|discriminate..].
  - exact I.
  - apply Hg. exists b. split; [left; exact Ib|exact Ig].
  - unfold gbody_of. cbn [of_group oku]. intros G E. subst i. apply (gcipher_known c opens n0 opens_first n0 (Sn n0 Ii)).
    exact (oku_gok l (handed L es) (gstolen c opens) (known C dev X L) _ Pn _ (unsealed_cipher c n0) G).
  - cbn [oku]. intro E. contradiction.
Qed.
Lemma carried_reads : In n0 sent -> gexposed opens n0 -> group_taken C dev X L es c inv bs sent n0.
Proof using H R Nd V Bs.
  intros J (b & Ob & O). set (K := spoils C dev X L es c inv bs sent n0).
  apply ud_dec with (x := of_group (gcipher_of c n0)) (y := of_group (giv_of c n0)); [apply ud_known; do 5 right; left; exists n0; auto|].
  set (K1 := fun g => uderives K (of_group g)).
  assert (D : gderives K1 (gcipher_of c n0)).
  { apply (gcipher_up c opens n0 opens_first _ b); [apply opens_first; exact Ob| |exact O]. intros g Ig. apply gd_known. unfold K1.
    destruct Ob as [Ib|(e & x & m & J' & Op & ->)]; [apply ud_known; do 4 right; left; exists b, g; auto|].
    destruct Ig as [<-|[]]. cbn [mb_next]. pose proof (letter_of _ _ _ J') as Q. pose proof (proj1 (V e x m) J') as (Ie & Ix & _).
    assert (Dd : uderives K (dist_term c m)).
    { apply ud_dec with (x := of_net l (named e (cipher_of (cb_one e) (nt_epoch x) (nt_counter x)))) (y := of_net l (named e (iv_of (cb_one e) (nt_epoch x) (nt_counter x)))).
      - apply ud_known. right. right. left. exists e, x. split; [exact Ie|]. split; [exact Ix|]. left. unfold body_of. cbn [named of_net]. rewrite Q. reflexivity.
      - apply (uderives_named l (fun t => (exists p, In p (robbed L (cb_base e)) /\ In t (held (cb_one e) p)) \/ exists a, t = TPriv a /\ known C dev X L (key_of e a))).
        + intros t [(p & Ip & It)|(a & -> & Ka)]; apply ud_known.
          * apply robbed_in in Ip. destruct Ip as (r & e' & part & Ir & I' & Eb & Ew & ->). pose proof (snap_twin C _ _ _ _ _ _ R Nd Ie Ir I' Eb) as T.
            left. exists r, e', part, t. unfold cb_one in *. rewrite (twin_named e e' t T). destruct T as (_ & _ & _ & ->). auto 6.
          * right. left. exists (key_of e a). auto.
        + apply (opened_cipher (cb_one e) (robbed L (cb_base e)) (fun a => known C dev X L (key_of e a))); [| |exact Op].
          * intros p t Ip It. apply d_known. left. eauto.
          * intros a Ka. apply d_known. right. eauto. }
    unfold dist_term in Dd. cbv zeta in Dd. apply ud_right in Dd. exact (ud_left _ _ _ Dd). }
  exact (uderives_group K1 K _ (fun g Hg => Hg) D).
Qed.
End Known.
End Carried.

(** *** The terms are the bytes *)
Lemma uvalue_group : forall C pr tx key gx t, uvalue C pr tx key gx (of_group t) = gvalue C key gx t.
Proof. intros. induction t; cbn [of_group uvalue gvalue]; rewrite ?IHt, ?IHt1, ?IHt2, ?IHt3; reflexivity. Qed.
Lemma uvalue_net : forall C pr tx key gx l, (forall u k n t, l u k n = Some t -> uvalue C pr tx key gx t = tx u k n) ->
  forall t, uvalue C pr tx key gx (of_net l t) = nvalue C pr tx t.
Proof.
  intros C pr tx key gx l Hl t. induction t; cbn [of_net uvalue nvalue]; rewrite ?IHt, ?IHt1, ?IHt2, ?IHt3; try reflexivity.
  destruct (l base k n) as [u|] eqn:E; [exact (Hl _ _ _ _ E)|reflexivity].
Qed.
Lemma uvalue_dist : forall C c m pr tx gx, CryptoOk C -> invitation C c m -> uvalue C pr tx (cn_key c) gx (dist_term c m) = dm_raw m.
Proof.
  intros C c m pr tx gx H V. unfold dist_term. cbv zeta. cbn [uvalue]. rewrite uvalue_group, (gvalue_chain C).
  pose proof V as ((_ & _ & _ & _ & E) & _). cbn [channel_of cn_key cn_first] in E. rewrite <- E. symmetry. exact (dist_cut C c m H V).
Qed.
Theorem carried_exact : forall C dev es L c inv sent (thefts : list (mailbox * gstate)), CryptoOk C -> raid C dev es L -> NoDup (map cb_base es) -> carried C c es inv ->
  (forall n pt m, In (n, pt, m) sent -> genuine C c n pt m) -> NoDup (map (fun x => fst (fst x)) sent) ->
  (forall b s, In (b, s) thefts -> group_theft C c b s) ->
  exists pr tx gx, let val := uvalue C pr tx (cn_key c) gx in let l := letters c inv in
    (forall e, In e es -> names C (fun a => pr (key_of e a)) (cb_bundle e) (cb_base e) (fun part => dev (cb_end e part)) (ln_keys (cb_link e))) /\
    (forall r a rec s, In r L -> w_sess (rd_device r) a = Some rec -> state_in s rec ->
       exists e part, In e (rd_cables r) /\ rd_who r = cb_end e part /\ a = cb_end e (negb part) /\ ss_alice_base s = Byte.x05 :: cb_base e /\
         session_secrets s = map (fun t => val (of_net l (named e t))) (held (cb_one e) (ln_par (cb_link e) part))) /\
    (forall e x m, In e es -> In x (ln_notes (cb_link e)) -> inner (nt_cipher x) = Some m ->
       val (of_net l (named e (TText (nt_epoch x) (nt_counter x)))) = nt_text x /\
       sg_body m = val (of_net l (named e (body_of (cb_one e) (nt_epoch x) (nt_counter x)))) /\
       exists ser text, sg_raw m = ser ++ val (of_net l (named e (tag_of (cb_one e) (nt_epoch x) (nt_counter x) text)))) /\
    (forall b s, In (b, s) thefts -> group_secrets s = map (fun t => val (of_group t)) (gheld c b)) /\
    (forall n pt m, In (n, pt, m) sent -> gx n = pt /\ sm_body m = val (of_group (gbody_of c n))) /\
    (forall X n pt m, In (n, pt, m) sent -> let bs := map fst thefts in let ns := map (fun x => fst (fst x)) sent in
       (group_taken C dev X L es c inv bs ns n <->
        group_stolen c bs ns n \/ exists e x i, In (e, x, i) inv /\ taken C dev X L es e x /\ (dm_iter i <= n)%N)).
Proof.
  intros C dev es L c inv sent thefts H R Nd V Gn Ns Th.
  destruct (raid_exact C H dev es L R Nd) as (pr & tx & Q1 & Q2 & Q3 & Q4).
  destruct (group_captured C c sent thefts H Gn Ns Th) as (gx & G1 & G2 & G3).
  assert (Vl : forall t, uvalue C pr tx (cn_key c) gx (of_net (letters c inv) t) = nvalue C pr tx t).
  { apply uvalue_net. intros u k n t E. destruct (letter_cases c inv u k n) as [F|(e & x & m & J & <- & <- & <- & F)]; rewrite F in E; [discriminate E|].
    injection E as <-. destruct (proj1 (V e x m) J) as (Ie & Ix & Im & Et). rewrite (uvalue_dist C c m pr tx gx H Im), <- Et.
    destruct (note_inner C H dev es L R e x Ie Ix) as (y & Ey). symmetry. exact (proj1 (Q3 e x y Ie Ix Ey)). }
  exists pr, tx, gx. cbv zeta. split; [exact Q1|]. split; [|split; [|split; [|split]]].
  - intros r a rec s Ir Ea Js. destruct (Q2 r a rec s Ir Ea Js) as (e & part & E1 & E2 & E3 & E4 & E5). exists e, part. repeat (split; [assumption|]).
    rewrite E5. apply map_ext. intro t. symmetry. apply Vl.
  - intros e x m Ie Ix Im. destruct (Q3 e x m Ie Ix Im) as (E1 & E2 & ser & text & E3). rewrite !Vl. split; [exact E1|]. split; [exact E2|]. exists ser, text. rewrite Vl. exact E3.
  - intros b s J. rewrite (G1 b s J). apply map_ext. intro t. symmetry. apply uvalue_group.
  - intros n pt m J. rewrite uvalue_group. exact (G2 n pt m J).
  - intros X n pt m J.
    assert (Bs : forall b, In b (map fst thefts) -> (cn_first c <= mb_next b)%N /\ forall i, In i (mb_open b) -> (cn_first c <= i)%N).
    { intros b Ib. apply in_map_iff in Ib. destruct Ib as ([b' s] & E & Ib). cbn [fst] in E. subst b'. exact (proj2 (theft_secrets C H c (fun _ => []) b s (Th b s Ib))). }
    assert (Sn : forall i, In i (map (fun x : N * bytes * senderkeymsg => fst (fst x)) sent) -> (cn_first c <= i)%N).
    { intros i Ii. apply in_map_iff in Ii. destruct Ii as ([[i' pt'] m'] & E & Ii). cbn [fst] in E. subst i'. exact (proj1 (Gn _ _ _ Ii)). }
    split.
    + intro D. apply (carried_safe C H dev es L R Nd c inv V X _ _ n Bs Sn) in D. destruct D as (b & [Ib|(e & x & i & Ji & O & ->)] & D).
      * left. apply (greads c _ _ n Bs); [apply in_map_iff; exists (n, pt, m); auto|]. exists b. auto.
      * right. exists e, x, i. split; [exact Ji|]. destruct (proj1 (V e x i) Ji) as (Ie & Ix & _). split; [apply (Q4 X e x Ie Ix); exact O|].
        cbn [mb_next mb_open] in D. destruct D as [D|[]]. exact D.
    + intro D. apply (carried_reads C H dev es L R Nd c inv V X _ _ n Bs); [apply in_map_iff; exists (n, pt, m); auto|].
      destruct D as [D|(e & x & i & Ji & O & D)].
      * apply (gsafe c _ _ n Bs Sn) in D. destruct D as (b & Ib & D). exists b. split; [left; exact Ib|exact D].
      * exists (mkMailbox (dm_iter i) []). split; [|left; exact D]. right. exists e, x, i. split; [exact Ji|]. split; [|reflexivity].
        destruct (proj1 (V e x i) Ji) as (Ie & Ix & _). apply (Q4 X e x Ie Ix). exact O.
Qed.
(** Nothing was stolen of the group, and the conversations that carried the sender key were left alone. *)
Theorem carried_untouched : forall C dev es L c inv sent (X : nkey -> Prop) n pt m, CryptoOk C -> raid C dev es L -> NoDup (map cb_base es) -> carried C c es inv ->
  (forall n pt m, In (n, pt, m) sent -> genuine C c n pt m) -> NoDup (map (fun x => fst (fst x)) sent) -> In (n, pt, m) sent ->
  (forall e x i, In (e, x, i) inv -> (dm_iter i <= n)%N ->
     (forall r e', In r L -> In e' (rd_cables r) -> cb_base e' = cb_base e -> rd_who r <> cb_from e /\ rd_who r <> cb_to e) /\
     ~ X (NBase (cb_base e)) /\ ~ known C dev X L (key_of e (ARatchet 0))) ->
  ~ group_taken C dev X L es c inv [] (map (fun x => fst (fst x)) sent) n.
Proof.
  intros C dev es L c inv sent X n pt m H R Nd V Gn Ns J U D.
  destruct (carried_exact C dev es L c inv sent [] H R Nd V Gn Ns) as (pr & tx & gx & _ & _ & _ & _ & _ & Q); [intros b s []|].
  apply (proj1 (Q X n pt m J)) in D. destruct D as [D|(e & x & i & Ji & O & D)].
  - destruct (group_captured C c sent [] H Gn Ns) as (gx' & _ & _ & G); [intros b s []|]. apply (G n pt m J) in D. destruct D as (b & s & [] & _).
  - destruct (U e x i Ji D) as (U1 & U2 & U3). destruct (proj1 (V e x i) Ji) as (Ie & Ix & _). exact (raid_untouched C H dev es L X e x R Nd Ie Ix U1 U2 U3 O).
Qed.
