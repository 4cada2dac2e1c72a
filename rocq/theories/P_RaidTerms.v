(** What can be computed from thefts in a network (C88): the symbolic part. *)
From Verif Require Import M_Base M_Crypto M_Aes M_Curve M_Message M_Ratchet M_State M_Store M_Session
  S_Crypto S_Message S_Ratchet S_Session S_X3dh S_Conv S_History S_Secrecy S_Thefts S_Many S_Net S_Raid P_Base P_Secrecy P_Thefts.
From Coq Require Import ZifyBool ZifyNat ZifyN.
Local Open Scope nat_scope.

(** *** The names of one session *)
(** Two stages of the same session. *)
Definition twin (c c' : cable) : Prop := cb_from c' = cb_from c /\ cb_to c' = cb_to c /\ cb_base c' = cb_base c /\ cb_bundle c' = cb_bundle c.
Lemma twin_key : forall c c' a, twin c c' -> key_of c' a = key_of c a.
Proof. intros c c' a (E1 & E2 & E3 & E4). destruct a as [[]| | |[|k]]; cbn [key_of cb_end]; rewrite ?E1, ?E2, ?E3, ?E4; reflexivity. Qed.
Lemma twin_named : forall c c' t, twin c c' -> named c' t = named c t.
Proof.
  intros c c' t T. induction t; cbn [named]; rewrite ?IHt, ?IHt1, ?IHt2, ?IHt3; try reflexivity.
  - rewrite (twin_key _ _ _ T). reflexivity.
  - destruct T as (_ & _ & -> & _). reflexivity.
Qed.
Lemma key_inj : forall c a a', cb_from c <> cb_to c -> key_of c a = key_of c a' -> a = a'.
Proof.
  intros c a a' N E. destruct a as [[]| | |[|k]], a' as [[]| | |[|k']]; cbn [key_of cb_end] in E; try discriminate E; try reflexivity.
  - injection E as E. contradiction.
  - injection E as E. symmetry in E. contradiction.
  - injection E as E. congruence.
Qed.
Lemma named_inj : forall c t t', cb_from c <> cb_to c -> named c t = named c t' -> t = t'.
Proof.
  intros c t t' N. revert t'. induction t; intros [] E; cbn [named] in E; try discriminate E.
  - injection E as E. congruence.
  - apply (f_equal (fun x => match x with NPriv k => k | _ => NBase [] end)) in E. cbv beta iota in E. apply key_inj in E; [congruence|exact N].
  - injection E as E1 E2. congruence.
  - injection E as E1 E2. rewrite (IHt1 _ E1), (IHt2 _ E2). reflexivity.
  - injection E as E1 E2. rewrite (IHt1 _ E1), (IHt2 _ E2). reflexivity.
  - injection E as E1 E2. rewrite (IHt1 _ E1), (IHt2 _ E2). reflexivity.
  - injection E as E1 E2. rewrite (IHt _ E2), E1. reflexivity.
  - injection E as E1 E2 E3. rewrite (IHt1 _ E1), (IHt2 _ E2), (IHt3 _ E3). reflexivity.
Qed.

(** *** Every key of a session depends on its base key, and on that of no other *)
Definition key_base (a : nkey) : list pubkey := match a with NBase u => [u] | NRatchet u _ => [u] | _ => [] end.
Fixpoint bases_of (t : nterm) : list pubkey :=
  match t with
  | NPub _ => [] | NText _ _ _ => [] | NPriv a => key_base a
  | NDh x y | NCat x y | NHmac x y => bases_of x ++ bases_of y
  | NFirst _ x => bases_of x
  | NEnc x y z => bases_of x ++ bases_of y ++ bases_of z
  end.
Lemma only_base : forall c t u, In u (bases_of (named c t)) -> u = cb_base c.
Proof.
  intros c t u. induction t; cbn [named bases_of]; intro J; rewrite ?in_app_iff in J; try (destruct J; fail); try tauto.
  destruct a as [[]| | |[|k]]; cbn in J; tauto || (destruct J as [<-|[]]; reflexivity).
Qed.
Lemma block_base : forall c u q info i, In u (bases_of (named c q)) -> In u (bases_of (named c (hkdf_block q info (S i)))).
Proof. intros. cbn [hkdf_block named bases_of]. apply in_or_app. left. assumption. Qed.
Lemma prk_base : forall c one k, In (cb_base c) (bases_of (named c (root_prk one k))).
Proof.
  intros c one k. destruct k as [|k].
  - cbn [root_prk named bases_of]. apply in_or_app. right. unfold x3dh_secret, dh_of. cbn [named bases_of key_of key_base app]. left. reflexivity.
  - cbn [root_prk named bases_of]. apply in_or_app. right. unfold dh_of. cbn [named bases_of key_of key_base app]. left. reflexivity.
Qed.
Lemma chain_base : forall c one k n, In (cb_base c) (bases_of (named c (chain_of one k n))).
Proof.
  intros c one k n. induction n as [|n IH] using N.peano_ind.
  - rewrite chain_zero. unfold first_of. apply block_base, prk_base.
  - rewrite <- N.add_1_r, chain_next. cbn [named bases_of]. apply in_or_app. left. exact IH.
Qed.
Lemma message_base : forall c one k n, In (cb_base c) (bases_of (named c (message_prk one k n))).
Proof. intros. unfold message_prk. cbn [named bases_of]. apply in_or_app. right. apply in_or_app. left. apply chain_base. Qed.
Lemma held_base : forall c one p t, In t (held one p) -> t = TPub [] \/ In (cb_base c) (bases_of (named c t)).
Proof.
  intros c one p t J. apply held_cases in J. destruct J as (Z & [->|[->|[->|[->|(v & Iv & [->|(n & Jn & [-> | [-> | ->]])])]]]]).
  - right. unfold root_of. apply block_base, prk_base.
  - right. destruct (p_epoch p); [contradiction|]. left. reflexivity.
  - right. apply chain_base.
  - left. reflexivity.
  - right. apply chain_base.
  - right. unfold cipher_of. apply block_base, message_base.
  - right. unfold mac_of. apply block_base, message_base.
  - right. unfold iv_of. cbn [named bases_of]. apply block_base, message_base.
Qed.
Lemma tag_base : forall c one k n text, In (cb_base c) (bases_of (named c (tag_of one k n text))).
Proof. intros. unfold tag_of. cbn [named bases_of]. apply in_or_app. left. unfold mac_of. apply block_base, message_base. Qed.

(** *** What can be computed *)
Section Okn.
Variables (St : nterm -> Prop) (ka : nkey -> Prop) (kt : pubkey -> nat -> N -> Prop).
Fixpoint okn (t : nterm) : Prop :=
  match t with
  | NPub _ => True
  | NPriv a => St t \/ ka a
  | NText u k n => kt u k n
  | NDh x y => okn x \/ okn y
  | NCat x y => okn x /\ okn y
  | NHmac x y => St t \/ (okn x /\ okn y)
  | NFirst _ x => St t \/ okn x
  | NEnc x _ z => okn x -> okn z
  end.
Lemma okn_closed : forall K : nterm -> Prop, (forall t, K t -> okn t) -> forall t, nderives K t -> okn t.
Proof. intros K HK t D. induction D; cbn [okn] in *; tauto || auto. Qed.
End Okn.
Fixpoint keyed (t : term) : Prop :=
  match t with
  | TPub _ | TPriv _ => True | TText _ _ | TEnc _ _ _ => False
  | TDh x y | TCat x y | THmac x y => keyed x /\ keyed y
  | TFirst _ x => keyed x
  end.
Lemma keyed_block : forall q info i, keyed q -> keyed (hkdf_block q info i).
Proof. intros q info i K. induction i; cbn [hkdf_block keyed]; auto. Qed.
Lemma keyed_prk : forall one k, keyed (root_prk one k).
Proof.
  intros one k. induction k as [|k IH]; cbn [root_prk keyed].
  - split; [exact I|]. unfold x3dh_secret, dh_of. cbn [keyed]. destruct one; cbn [keyed]; tauto.
  - split; [apply keyed_block; exact IH|]. cbn. tauto.
Qed.
Lemma keyed_chain : forall one k n, keyed (chain_of one k n).
Proof.
  intros one k n. induction n as [|n IH] using N.peano_ind; [rewrite chain_zero; apply keyed_block, keyed_prk|].
  rewrite <- N.add_1_r, chain_next. cbn [keyed]. auto.
Qed.
Lemma keyed_cipher : forall one k n, keyed (cipher_of one k n).
Proof. intros. unfold cipher_of. apply keyed_block. unfold message_prk. cbn [keyed no_salt]. split; [exact I|]. split; [apply keyed_chain|exact I]. Qed.
Lemma nderives_named : forall (K : term -> Prop) (K' : nterm -> Prop) c t, (forall x, K x -> nderives K' (named c x)) -> derives K t -> nderives K' (named c t).
Proof.
  intros K K' c t HK D. induction D; cbn [named] in *.
  - apply HK. assumption.
  - apply nd_pub.
  - apply nd_dh. assumption.
  - apply nd_dh_other. assumption.
  - apply nd_cat; assumption.
  - eapply nd_left; eassumption.
  - eapply nd_right; eassumption.
  - apply nd_hmac; assumption.
  - apply nd_first. assumption.
  - apply nd_enc; assumption.
  - eapply nd_dec; eassumption.
Qed.

Lemma robbed_in : forall L u p, In p (robbed L u) <->
  exists r c part, In r L /\ In c (rd_cables r) /\ cb_base c = u /\ rd_who r = cb_end c part /\ p = ln_par (cb_link c) part.
Proof.
  intros L u p. unfold robbed. rewrite in_flat_map. split.
  - intros (r & Ir & J). apply in_flat_map in J. destruct J as (c & Ic & J). unfold stood in J.
    destruct (bytes_eqb (cb_base c) u) eqn:Eb; [|destruct J]. apply bytes_eqb_eq in Eb. apply in_app_or in J. destruct J as [J|J].
    + destruct (addr_eqb (rd_who r) (cb_from c)) eqn:E; [|destruct J]. apply addr_eqb_eq in E. destruct J as [<-|[]]. exists r, c, true. auto 6.
    + destruct (addr_eqb (rd_who r) (cb_to c)) eqn:E; [|destruct J]. apply addr_eqb_eq in E. destruct J as [<-|[]]. exists r, c, false. auto 6.
  - intros (r & c & part & Ir & Ic & Eb & Ew & ->). exists r. split; [exact Ir|]. apply in_flat_map. exists c. split; [exact Ic|].
    unfold stood. apply bytes_eqb_eq in Eb. rewrite Eb. apply in_or_app. destruct part; cbn [cb_end] in Ew; rewrite Ew, addr_eqb_refl; [left|right]; left; reflexivity.
Qed.

Section Raid.
Variables (C : Crypto) (dev : addr -> world) (X : nkey -> Prop) (L : list raided) (es : list cable) (c : cable) (k0 : nat) (n0 : N).
Hypothesis N0 : cb_from c <> cb_to c.
Hypothesis Ic : In c es.
Hypothesis T1 : forall c', In c' es -> cb_base c' = cb_base c -> twin c c'.
Hypothesis T2 : forall r c', In r L -> In c' (rd_cables r) -> cb_base c' = cb_base c -> twin c c'.
Notation one := (cb_one c).
Notation ps := (robbed L (cb_base c)).
Notation A := (fun a => known C dev X L (key_of c a)).
Definition handed (t : nterm) : Prop :=
  (exists r c' part x, In r L /\ In c' (rd_cables r) /\ rd_who r = cb_end c' part /\ In x (held (cb_one c') (ln_par (cb_link c') part)) /\ t = named c' x) \/
  exists c' k n text, In c' es /\ t = named c' (tag_of (cb_one c') k n text).
Notation okt := (okn handed (known C dev X L) (fun u k n => (u, k, n) = (cb_base c, k0, n0) -> message_open one ps A k0 n0)).
Lemma handed_back : forall t, handed (named c t) -> t = TPub [] \/ given_any one ps t.
Proof using N0 T1 T2.
  intros t [(r & c' & part & x & Ir & I' & Ew & Ix & E)|(c' & k & n & text & I' & E)].
  - destruct (bytes_eqb (cb_base c') (cb_base c)) eqn:Eb.
    + apply bytes_eqb_eq in Eb. pose proof (T2 r c' Ir I' Eb) as T. rewrite (twin_named c c' x T) in E. apply named_inj in E; [|exact N0]. subst x.
      right. left. exists (ln_par (cb_link c') part). split; [apply robbed_in; exists r, c', part; auto 6|]. unfold cb_one in *. destruct T as (_ & _ & _ & T). rewrite T in Ix. exact Ix.
    + left. destruct (held_base c' _ _ _ Ix) as [->|J]; [destruct t; try discriminate E; injection E as E; congruence|].
      rewrite <- E in J. apply only_base in J. rewrite J in Eb. assert (bytes_eqb (cb_base c) (cb_base c) = true) by (apply bytes_eqb_eq; reflexivity). congruence.
  - right. right. pose proof (tag_base c' (cb_one c') k n text) as J. rewrite <- E in J. apply only_base in J.
    pose proof (T1 c' I' J) as T. rewrite (twin_named c c' _ T) in E. apply named_inj in E; [|exact N0]. exists k, n, text. rewrite E.
    unfold cb_one. destruct T as (_ & _ & _ & T). rewrite T. reflexivity.
Qed.
Lemma okn_ok : forall kt t, keyed t -> okt (named c t) -> ok (given_any one ps) A kt t.
Proof using N0 T1 T2.
  intros kt t. induction t; cbn [keyed named okn ok]; intros K O; try tauto.
  - destruct O as [O|O]; [|right; exact O]. left. destruct (handed_back (TPriv a) O) as [Q|Q]; [discriminate Q|exact Q].
  - destruct O as [O|O]; [|right; tauto]. left. destruct (handed_back (THmac t1 t2) O) as [Q|Q]; [discriminate Q|exact Q].
  - destruct O as [O|O]; [|right; tauto]. left. destruct (handed_back (TFirst n t) O) as [Q|Q]; [discriminate Q|exact Q].
Qed.
Lemma booty_safe : k0 <> 0 -> nderives (booty C dev X L es (cb_base c) k0 n0) (NText (cb_base c) k0 n0) -> message_open one ps A k0 n0.
Proof using N0 T1 T2.
  intros Nz D. apply (okn_closed handed (known C dev X L) (fun u k n => (u, k, n) = (cb_base c, k0, n0) -> message_open one ps A k0 n0)) in D; [apply D; reflexivity|].
  intros t [(r & c' & part & x & Ir & I' & Ew & Ix & ->)|[(a & -> & G)|[(c' & x & I' & Ix & [->|(text & ->)])|(u & k & n & -> & G)]]].
  - assert (Gt : handed (named c' x)) by (left; exists r, c', part, x; auto 6). apply held_cases in Ix. destruct Ix as (Z & G).
    destruct G as [G|[G|[G|[G|(v & Iv & [G|(m & Jn & [G|[G|G]])])]]]].
    all: try (subst x; left; exact Gt).
    + destruct (chain_shape (cb_one c') (p_epoch (ln_par (cb_link c') part)) (p_sent (ln_par (cb_link c') part))) as [(q & t & i & F & _)|(q & F)]; rewrite F in G; subst x; left; exact Gt.
    + subst x. exact I.
    + destruct (chain_shape (cb_one c') (rv_epoch v) (rv_idx v)) as [(q & t & i & F & _)|(q & F)]; rewrite F in G; subst x; left; exact Gt.
  - right. exact G.
  - unfold body_of. cbn [named okn]. intros G E. injection E as E1 E2 E3. rewrite E2, E3 in G. pose proof (T1 c' I' E1) as T. rewrite (twin_named c c' _ T) in G.
    assert (Eo : cb_one c' = one) by (unfold cb_one; destruct T as (_ & _ & _ & ->); reflexivity). rewrite Eo in G.
    apply (cipher_opened one ps A k0 n0); [exact Nz|]. apply okn_ok; [apply keyed_cipher|exact G].
  - left. right. exists c', (nt_epoch x), (nt_counter x), text. auto.
  - intro E. destruct (G E).
Qed.
Lemma booty_reads : forall x, In x (ln_notes (cb_link c)) -> nt_epoch x = k0 -> nt_counter x = n0 -> message_open one ps A k0 n0 ->
  nderives (booty C dev X L es (cb_base c) k0 n0) (NText (cb_base c) k0 n0).
Proof using Ic T2.
  intros x Ix E1 E2 O. pose proof (hoard_reads one ps A (ln_notes (cb_link c)) k0 n0 x Ix E1 E2 O) as D.
  apply (nderives_named _ (booty C dev X L es (cb_base c) k0 n0) c) in D; [exact D|].
  intros t [(p & Ip & J)|[(a & -> & J)|[(y & Iy & J)|(k & n & -> & J)]]]; apply nd_known.
  - apply robbed_in in Ip. destruct Ip as (r & c' & part & Ir & I' & Eb & Ew & ->). pose proof (T2 r c' Ir I' Eb) as T.
    left. exists r, c', part, t. unfold cb_one in *. rewrite (twin_named c c' t T). destruct T as (_ & _ & _ & ->). auto 6.
  - right. left. exists (key_of c a). auto.
  - right. right. left. exists c, y. split; [exact Ic|]. split; [exact Iy|]. destruct J as [->|(text & ->)]; [left; reflexivity|right; exists text; reflexivity].
  - right. right. right. exists (cb_base c), k, n. split; [reflexivity|]. intro E. apply J. congruence.
Qed.
End Raid.
