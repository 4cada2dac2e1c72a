(** What any number of thefts give away: C79. *)
From Verif Require Import M_Base M_Crypto M_Aes M_Curve M_Proto M_Message M_Ratchet M_State M_Store M_Session M_Group
  S_Crypto S_Message S_State S_Shape S_Ratchet S_Session S_Aes S_Api S_Send S_Group S_Curve S_X3dh S_Receive S_Conv S_History S_Size S_Transit S_Schedule S_Header S_Used S_Speak S_Secrecy S_Thefts
  P_Base P_Proto P_Curve P_State P_Shape P_Ratchet P_Message P_Aes P_Chain P_Decrypt P_Receive P_Encrypt P_Record P_Prog P_Api
  P_Init P_Send P_Conv P_X3dh P_Conv2 P_Bundle P_DecApi P_DecTop P_DecMore P_Replay P_Trust P_History P_Header P_Transit P_GroupSend P_Used P_Speak P_Schedule P_Secrecy P_Captured.
From Coq Require Import ZifyBool ZifyNat ZifyN.
Local Open Scope nat_scope.

Section Thefts.
Variables (one : bool) (ps : list party) (A : atom -> Prop) (notes : list note) (k0 : nat) (n0 : N).
Definition given_any (t : term) : Prop := (exists p, In p ps /\ In t (held one p)) \/ exists k n text, t = tag_of one k n text.
Notation okt := (ok given_any A (fun k n => (k, n) = (k0, n0) -> message_open one ps A k0 n0)).
Notation has := (has_key ps A).
Lemma split_given : forall t, given_any t -> (exists p, In p ps /\ given one p t) \/ (ps = [] /\ exists k n text, t = tag_of one k n text).
Proof.
  intros t [(p & Ip & G)|G]; [left; exists p; split; [exact Ip|left; exact G]|]. destruct ps as [|p l]; [right; auto|]. left. exists p. split; [left; reflexivity|right; exact G].
Qed.
Ltac no_tag := match goal with X : exists k n text, _ = tag_of _ k n text |- _ => let a := fresh in destruct X as (? & ? & ? & a); discriminate a end.
Lemma any_root : forall k, given_any (root_of one k) -> exists p, In p ps /\ p_epoch p <> 0 /\ k = p_epoch p.
Proof. intros k G. apply split_given in G. destruct G as [(p & Ip & G)|[_ G]]; [|no_tag]. exists p. split; [exact Ip|]. exact (given_root _ _ _ G). Qed.
Lemma any_chain : forall k n, given_any (chain_of one k n) -> (exists p, In p ps /\ p_epoch p <> 0 /\ k = p_epoch p /\ n = p_sent p) \/
  exists p v, In p ps /\ p_epoch p <> 0 /\ In v (p_views p) /\ rv_epoch v = k /\ rv_idx v = n.
Proof.
  intros k n [(p & Ip & G)|G].
  - destruct (held_cases one p _ G) as (Z & _). destruct (given_chain one p k n (or_introl G)) as [(_ & E1 & E2)|(v & Iv & E1 & E2)]; [left; exists p; auto|right; exists p, v; auto 6].
  - exfalso. destruct G as (a & m & text & G). destruct (chain_shape one k n) as [(q & t & i & E & _)|(q & E)]; rewrite E in G; discriminate G.
Qed.
Lemma any_cipher : forall k n, given_any (cipher_of one k n) -> exists p v, In p ps /\ p_epoch p <> 0 /\ In v (p_views p) /\ rv_epoch v = k /\ In n (rv_saved v).
Proof.
  intros k n [(p & Ip & G)|G]; [|no_tag]. destruct (held_cases one p _ G) as (Z & _).
  destruct (given_cipher one p k n (or_introl G)) as (v & Iv & E & J). exists p, v. auto 6.
Qed.
Lemma any_prk : forall k, ~ given_any (root_prk one k).
Proof. intros k G. apply split_given in G. destruct G as [(p & _ & G)|[_ G]]; [exact (prk_hidden _ _ _ G)|]. destruct k; no_tag. Qed.
Lemma any_message : forall k n, ~ given_any (message_prk one k n) /\ ~ given_any (THmac (chain_of one k n) (TPub [Byte.x01])).
Proof.
  intros k n. split; intro G; apply split_given in G; (destruct G as [(p & _ & G)|[_ G]]; [|no_tag]).
  - exact (proj1 (message_hidden _ _ _ _) G).
  - exact (proj2 (message_hidden _ _ _ _) G).
Qed.
Lemma any_priv : forall a, okt (TPriv a) -> has a.
Proof.
  intros a [G|G]; [|left; exact G]. destruct G as [(p & Ip & G)|G]; [|no_tag]. right. exists p. split; [exact Ip|].
  apply held_cases in G. destruct G as (Z & G). split; [exact Z|].
  destruct G as [G|[G|[G|[G|(v & Iv & [G|(m & Jn & [G|[G|G]])])]]]]; try discriminate G.
  - congruence.
  - exfalso. destruct (chain_shape one (p_epoch p) (p_sent p)) as [(r & t & i & F & _)|(r & F)]; rewrite F in G; discriminate G.
  - exfalso. destruct (chain_shape one (rv_epoch v) (rv_idx v)) as [(r & t & i & F & _)|(r & F)]; rewrite F in G; discriminate G.
Qed.
Lemma any_dh : forall a a', okt (dh_of a a') -> has a \/ has a'.
Proof. intros a a' [G|G]; apply any_priv in G; auto. Qed.
Lemma root_opened : forall j, okt (root_of one j) -> root_open one ps A j.
Proof.
  induction j as [|j IH]; intro G; (destruct G as [G|[G _]]; [apply any_root in G; destruct G as (p & Ip & Z & E); rewrite E; apply ro_stolen; assumption|]).
  - cbn [root_prk ok] in G. destruct G as [G|[_ G]]; [destruct (any_prk 0 G)|]. unfold x3dh_secret in G. cbn [ok] in G. destruct G as (_ & G1 & G2 & G3 & G4).
    apply ro_setup; [exact (any_dh _ _ G1)|exact (any_dh _ _ G2)|exact (any_dh _ _ G3)|]. intro E. rewrite E in G4. exact (any_dh _ _ G4).
  - cbn [root_prk ok] in G. destruct G as [G|[G1 G2]]; [destruct (any_prk (S j) G)|]. apply ro_step; [exact (IH G1)|]. apply any_dh in G2. tauto.
Qed.
Definition reached_any (k : nat) (n : N) : Prop :=
  (exists p v, In p ps /\ p_epoch p <> 0 /\ In v (p_views p) /\ rv_epoch v = k /\ (rv_idx v <= n)%N) \/
  (exists p, In p ps /\ p_epoch p <> 0 /\ k = p_epoch p /\ (p_sent p <= n)%N) \/
  (exists j, k = S j /\ root_open one ps A j /\ (has (ARatchet j) \/ has (ARatchet k))).
Lemma given_any_reached : forall k n, given_any (chain_of one k n) -> reached_any k n.
Proof.
  intros k n G. apply any_chain in G. destruct G as [(p & Ip & Z & E1 & E2)|(p & v & Ip & Z & Iv & E1 & E2)].
  - right. left. exists p. repeat split; auto. lia.
  - left. exists p, v. repeat split; auto. lia.
Qed.
Lemma chain_opened : forall k n, k <> 0 -> okt (chain_of one k n) -> reached_any k n.
Proof.
  intros k n Nz. induction n as [|n IH] using N.peano_ind; intro G.
  - rewrite chain_zero in G. destruct k as [|j]; [contradiction|]. destruct G as [G|[G _]]; [apply given_any_reached; rewrite chain_zero; exact G|].
    cbn [root_prk ok] in G. destruct G as [G|[G1 G2]]; [destruct (any_prk (S j) G)|]. right. right. exists j. split; [reflexivity|].
    split; [exact (root_opened j G1)|]. apply any_dh in G2. tauto.
  - rewrite <- N.add_1_r in *. rewrite chain_next in G. destruct G as [G|[G _]]; [rewrite <- chain_next in G; apply given_any_reached; exact G|].
    specialize (IH G). destruct IH as [(p & v & Ip & Z & Iv & Ev & L)|[(p & Ip & Z & E & L)|O]].
    + left. exists p, v. repeat split; auto. lia.
    + right. left. exists p. repeat split; auto. lia.
    + right. right. exact O.
Qed.
Lemma cipher_opened : forall k n, k <> 0 -> okt (cipher_of one k n) -> message_open one ps A k n.
Proof.
  intros k n Nz G. destruct G as [G|[G _]].
  - apply (any_cipher k n) in G. destruct G as (p & v & Ip & Z & Iv & Ev & J). left. exists p, v. auto 7.
  - destruct (any_message k n) as [M1 M2]. unfold message_prk in G. cbn [ok] in G.
    destruct G as [G|[_ [G|[G _]]]]; [destruct (M1 G)|destruct (M2 G)|].
    destruct (chain_opened k n Nz G) as [(p & v & Ip & Z & Iv & Ev & L)|G']; [left; exists p, v; auto 7|right; exact G'].
Qed.
Lemma hoard_safe : k0 <> 0 -> (forall x, In x notes -> nt_epoch x <> 0) -> derives (hoard one ps A notes k0 n0) (TText k0 n0) -> message_open one ps A k0 n0.
Proof.
  intros Nz Nn D. apply (ok_closed given_any A (fun k n => (k, n) = (k0, n0) -> message_open one ps A k0 n0)) in D; [apply D; reflexivity|].
  intros t [(p & Ip & G)|[(a & -> & G)|[(x & Ix & [->|(text & ->)])|(k & n & -> & G)]]].
  - assert (Gt : given_any t) by (left; exists p; auto). apply held_cases in G. destruct G as (Z & G).
    destruct G as [G|[G|[G|[G|(v & Iv & [G|(m & Jn & [G|[G|G]])])]]]].
    all: try (subst t; left; exact Gt).
    + destruct (chain_shape one (p_epoch p) (p_sent p)) as [(r & u & i & F & _)|(r & F)]; rewrite F in G; subst t; left; exact Gt.
    + subst t. exact I.
    + destruct (chain_shape one (rv_epoch v) (rv_idx v)) as [(r & u & i & F & _)|(r & F)]; rewrite F in G; subst t; left; exact Gt.
  - right. exact G.
  - unfold body_of. cbn [ok]. intros G E. injection E as E1 E2. apply cipher_opened in G; [|apply Nn; exact Ix]. rewrite E1, E2 in G. exact G.
  - left. right. exists (nt_epoch x), (nt_counter x), text. reflexivity.
  - intro E. destruct (G E).
Qed.
Lemma opened_cipher : forall K k n, (forall p t, In p ps -> In t (held one p) -> derives K t) -> (forall a, A a -> derives K (TPriv a)) ->
  message_open one ps A k n -> derives K (cipher_of one k n).
Proof.
  intros K k n Hk Ha X.
  assert (Hp : forall a, has a -> derives K (TPriv a)).
  { intros a [J|(p & Ip & Z & ->)]; [apply Ha; exact J|]. apply (Hk p); [exact Ip|]. rewrite held_eq by exact Z. right. left. reflexivity. }
  assert (Hd : forall a a', has a \/ has a' -> derives K (dh_of a a')) by (intros a a' [J|J]; [apply d_dh|apply d_dh_other]; apply Hp; exact J).
  assert (Hr : forall j, root_open one ps A j -> derives K (root_of one j)).
  { intros j R. induction R as [p Ip Z|S1 S2 S3 S4|i R IH S].
    - apply (Hk p); [exact Ip|]. rewrite held_eq by exact Z. left. reflexivity.
    - apply derives_block. cbn [root_prk]. apply d_hmac; [apply d_pub|]. unfold x3dh_secret.
      apply d_cat; [apply d_pub|]. apply d_cat; [apply Hd; exact S1|]. apply d_cat; [apply Hd; exact S2|]. apply d_cat; [apply Hd; exact S3|].
      destruct one; [apply Hd, S4; reflexivity|apply d_pub].
    - apply derives_next; [exact IH|]. destruct S; auto. }
  destruct X as [(p & v & Ip & Z & Iv & Ev & X)|[(p & Ip & Z & X & L)|(j & X & R & S)]].
  - assert (Hv : forall t, In t ([TPub []; chain_of one (rv_epoch v) (rv_idx v)] ++
        flat_map (fun n => [cipher_of one (rv_epoch v) n; mac_of one (rv_epoch v) n; iv_of one (rv_epoch v) n]) (rv_saved v)) -> derives K t).
    { intros t J. apply (Hk p); [exact Ip|]. rewrite held_eq by exact Z. right. right. right. apply in_flat_map. exists v. split; [exact Iv|exact J]. }
    rewrite Ev in Hv. destruct X as [X|X].
    + apply derives_cipher. apply derives_chain with (n := rv_idx v); [exact X|]. apply Hv. right. left. reflexivity.
    + apply Hv. right. right. apply in_flat_map. exists n. split; [exact X|]. left. reflexivity.
  - apply derives_cipher. apply derives_chain with (n := p_sent p); [exact L|]. apply (Hk p); [exact Ip|]. rewrite held_eq, X by exact Z. right. right. left. reflexivity.
  - apply derives_cipher. apply derives_chain with (n := 0%N); [apply N.le_0_l|]. rewrite chain_zero, X in *.
    apply derives_next; [exact (Hr j R)|]. destruct S; auto.
Qed.
Lemma hoard_reads : forall x, In x notes -> nt_epoch x = k0 -> nt_counter x = n0 -> message_open one ps A k0 n0 -> derives (hoard one ps A notes k0 n0) (TText k0 n0).
Proof.
  intros x Ix E1 E2 X. apply d_dec with (x := cipher_of one k0 n0) (y := iv_of one k0 n0).
  { apply d_known. right. right. left. exists x. rewrite E1, E2. auto. }
  apply opened_cipher; [|intros a J; apply d_known; right; left; eauto|exact X]. intros p t Ip J. apply d_known. left. eauto.
Qed.
End Thefts.

Section Heist.
Variable C : Crypto.
Hypothesis H : CryptoOk C.
Variable b : bundle.
Variable at_ : bool -> addr.
Notation party_at k ks th := (party_ok C (sroot C k) (schain C k) ks (sid C k (th_side th)) (sid C k (negb (th_side th))) (th_party th)).
(** What each theft found, with the keys of the end. *)
Definition found (k : secrets) (ks : list bytes) (th : theft) : Prop :=
  forall s, th_side th = true \/ p_epoch (th_party th) <> 0 -> current_session (th_device th) (at_ (th_side th)) = Some s ->
    p_epoch (th_party th) <> 0 /\ party_at k ks th s.
Lemma found_app : forall k ks x th, found k ks th -> found k (ks ++ x) th.
Proof using H.
  intros k ks x th F s Sd Es. destruct (F s Sd Es) as [Z P]. split; [exact Z|]. destruct (slens C H k) as [L1 L2]. exact (party_ok_app C _ _ L1 L2 ks x _ _ _ _ P).
Qed.
Lemma heist_step : forall base dev par keys notes l, heist C at_ b base dev par keys notes l ->
  exists k ks, in_step C b at_ k ks base dev par keys notes /\ bundle_keys C b (k_ib k) (k_sb k) (k_ob k) /\ Forall (found k ks) l.
Proof using H.
  intros base dev par keys notes l G. induction G as [dev par keys notes Hy|dev par keys notes l side _ (k & ks & St & Bk & F)|dev par keys notes l dev1 par1 keys1 notes1 _ (k & ks & St & Bk & F) L].
  - destruct (history_keys _ _ _ _ _ _ _ _ H Hy) as (k & ks & St & Bk). exists k, ks. auto.
  - exists k, ks. split; [exact St|]. split; [exact Bk|]. constructor; [|exact F]. intros s Sd Es. cbn [th_side th_device th_party] in *.
    pose proof St as (_ & _ & _ & _ & _ & _ & _ & E1 & _ & _ & Ss & _).
    assert (Sd' : side = true \/ p_epoch (par false) <> 0) by (destruct side; [left; reflexivity|destruct Sd as [Sd|Sd]; [discriminate|right; exact Sd]]).
    destruct (Ss side Sd') as (r & s0 & R1 & R2 & P & _).
    assert (s0 = s) by (unfold current_session in Es; rewrite R1 in Es; congruence). subst s0. split; [|exact P].
    destruct side; [exact E1|]. destruct Sd as [Sd|Sd]; [discriminate|exact Sd].
  - destruct (later_in_step C H b at_ _ _ _ _ _ _ _ _ _ _ _ St L) as (y & St'). exists k, (ks ++ y). split; [exact St'|]. split; [exact Bk|].
    eapply Forall_impl; [|exact F]. intros th. apply found_app.
Qed.
Lemma heist_history : forall base dev par keys notes l, heist C at_ b base dev par keys notes l -> history C at_ b base dev par keys notes.
Proof. intros base dev par keys notes l G. induction G; auto. eapply later_history; eauto. Qed.
Definition key_lengths (pr : atom -> bytes) : Prop := forall a, match a with AOneTime => one_time b = true | ARatchet (S _) => False | _ => True end -> List.length (pr a) = 32.
Theorem plunder_full : forall base dev par keys notes l, heist C at_ b base dev par keys notes l ->
  exists pr tx, key_lengths pr /\ (forall x, In x notes -> nt_epoch x <> 0) /\ names C pr b base dev keys /\
    (forall th s, In th l -> th_side th = true \/ p_epoch (th_party th) <> 0 -> current_session (th_device th) (at_ (th_side th)) = Some s ->
       session_secrets s = map (value C pr tx) (held (one_time b) (th_party th))) /\
    (forall x m, In x notes -> inner (nt_cipher x) = Some m -> tx (nt_epoch x) (nt_counter x) = nt_text x /\
       sg_body m = value C pr tx (body_of (one_time b) (nt_epoch x) (nt_counter x)) /\
       exists ser text, sg_raw m = ser ++ value C pr tx (tag_of (one_time b) (nt_epoch x) (nt_counter x) text)) /\
    (forall X x, In x notes -> (plundered C b X l notes x <-> opened C b X l x)).
Proof using H.
  intros base dev par keys notes l G. pose proof (heist_history _ _ _ _ _ _ G) as Hy.
  destruct (numbered C H b at_ _ _ _ _ _ Hy) as [Nd _].
  destruct (heist_step _ _ _ _ _ _ G) as (k & ks & St & (_ & Bs & Bo) & F). rewrite Forall_forall in F.
  pose proof St as (So & Eb & Eks & Ko & (l0 & Hd) & _ & _ & _ & _ & Pr & _ & _ & Nt). rewrite Forall_forall in Nt.
  pose proof So as (La & Lb & Ls & Le & Lo & _ & _).
  assert (E0 : kkey ks 0 = k_sb k) by (rewrite Hd; reflexivity).
  set (pr := private_keys k ks). set (tx := text_at notes). set (one := one_time b).
  assert (Po : match k_ob k with Some o => one = true /\ pr AOneTime = o | None => one = false end).
  { unfold one, one_time, pr, private_keys. rewrite Bo. destruct (k_ob k); [split|]; reflexivity. }
  exists pr, tx. split; [|split; [exact (fun x J => proj2 (proj1 (Nt x J)))|split; [|split; [|split]]]].
  { intros a Q. unfold pr, private_keys. destruct a as [[]| | |[|i]]; [assumption..| |rewrite E0; assumption|destruct Q].
    fold one in Q. destruct (k_ob k) as [o|]; [apply Lo; reflexivity|congruence]. }
  - split; [intros []; destruct (Pr true) as (_ & A1 & A2 & _), (Pr false) as (_ & B1 & B2 & _); split; assumption|].
    split; [exact Eb|]. split; [cbn [pr private_keys]; rewrite E0; exact Bs|].
    split; [rewrite Bo; cbn [pr private_keys]; destruct (k_ob k); [right|left]; reflexivity|].
    intros i Li. rewrite Eks in *. rewrite map_length in Li. cbn [pr private_keys]. rewrite nth_error_map. unfold kkey. rewrite (nth_error_nth' ks []) by exact Li. reflexivity.
  - intros th s It Sd Es. destruct (F th It s Sd Es) as [Z P].
    exact (value_session C H pr tx one _ _ _ _ _ ks La Le Lb Ls Lo Ko E0 eq_refl eq_refl eq_refl (fun _ => eq_refl) Po _ _ _ _ P Z).
  - intros x m J Im. destruct (note_whisper C H b at_ _ _ _ _ _ _ _ _ _ St J Im) as (Lx & G0 & Wh).
    assert (Tx : tx (nt_epoch x) (nt_counter x) = nt_text x) by (apply text_at_note; assumption). split; [exact Tx|].
    apply (whisper_sealed C _ _ _ _ _ _ _ H) in Wh. destruct Wh as (mk & Kt & Bd & (ser & Tg)).
    destruct (value_keys C H pr tx one _ _ _ _ _ ks La Le Lb Ls Lo Ko E0 eq_refl eq_refl eq_refl (fun _ => eq_refl) Po (nt_epoch x) (nt_counter x) mk Lx Kt) as (V1 & V2 & V3).
    split.
    + unfold body_of. cbn [value]. rewrite V1, V3, Tx, Bd. reflexivity.
    + exists ser. eexists. unfold tag_of. cbn [value]. rewrite V2. exact Tg.
  - intros X x J. destruct (Nt x J) as ((_ & Nz) & _). split.
    + exact (hoard_safe one _ _ notes _ _ Nz (fun z Iz => proj2 (proj1 (Nt z Iz)))).
    + intro Op. exact (hoard_reads one _ _ notes _ _ x J eq_refl eq_refl Op).
Qed.
Theorem plunder : forall base dev par keys notes l, heist C at_ b base dev par keys notes l ->
  exists pr tx, names C pr b base dev keys /\
    (forall th s, In th l -> th_side th = true \/ p_epoch (th_party th) <> 0 -> current_session (th_device th) (at_ (th_side th)) = Some s ->
       session_secrets s = map (value C pr tx) (held (one_time b) (th_party th))) /\
    (forall x m, In x notes -> inner (nt_cipher x) = Some m -> tx (nt_epoch x) (nt_counter x) = nt_text x /\
       sg_body m = value C pr tx (body_of (one_time b) (nt_epoch x) (nt_counter x)) /\
       exists ser text, sg_raw m = ser ++ value C pr tx (tag_of (one_time b) (nt_epoch x) (nt_counter x) text)) /\
    (forall X x, In x notes -> (plundered C b X l notes x <-> opened C b X l x)).
Proof using H. intros base dev par keys notes l G. destruct (plunder_full _ _ _ _ _ _ G) as (pr & tx & _ & _ & Q). exists pr, tx. exact Q. Qed.
Lemma plundered_iff : forall base dev par keys notes l X x, heist C at_ b base dev par keys notes l -> In x notes ->
  (plundered C b X l notes x <-> opened C b X l x).
Proof using H. intros base dev par keys notes l X x G J. destruct (plunder _ _ _ _ _ _ G) as (pr & tx & _ & _ & _ & Q). exact (Q X x J). Qed.

(** *** Corollaries *)
Lemma heist_views : forall base dev par keys notes l, heist C at_ b base dev par keys notes l ->
  forall th v, In th l -> In v (p_views (th_party th)) -> rv_epoch v < p_epoch (th_party th).
Proof using H.
  intros base dev par keys notes l G. induction G as [|dev par keys notes l side G IH|]; intros th v It Iv; [destruct It| |auto].
  destruct It as [<-|It]; [|exact (IH th v It Iv)]. cbn [th_party] in *. exact (views_behind C H b at_ _ _ _ _ _ (heist_history _ _ _ _ _ _ G) side v Iv).
Qed.
(** Without thefts and with the base key and the signed pre-key safe, all is safe. *)
Theorem identities_only : forall base dev par keys notes (X : atom -> Prop) x, history C at_ b base dev par keys notes -> In x notes ->
  ~ X ABase -> ~ X (ARatchet 0) -> ~ plundered C b X [] notes x.
Proof using H.
  intros base dev par keys notes X x Hy J X1 X2 D. apply (plundered_iff _ _ _ _ _ _ X x (g_none _ _ _ _ _ _ _ _ Hy) J) in D.
  assert (R : forall j, ~ root_open (one_time b) [] (leaked C b X []) j).
  { intros j R. induction R as [p []|S1 S2 S3 S4|]; [|assumption].
    destruct S3 as [[[Q|(th & [] & _)]|(p & [] & _)]|[[Q|(th & [] & _)]|(p & [] & _)]]; auto. }
  destruct D as [(p & v & [] & _)|[(p & [] & _)|(j & _ & Q & _)]]. exact (R j Q).
Qed.
(** Two epochs after the last theft and the last leaked ratchet key, all is safe. *)
Theorem all_healed : forall base dev par keys notes l (X : atom -> Prop) x last, heist C at_ b base dev par keys notes l -> In x notes ->
  (forall th, In th l -> p_epoch (th_party th) <= last) -> (forall j, X (ARatchet j) -> j <= last) ->
  last + 2 <= nt_epoch x -> ~ plundered C b X l notes x.
Proof using H.
  intros base dev par keys notes l X x last G J Lt Lx Le D. apply (plundered_iff _ _ _ _ _ _ X x G J) in D.
  assert (Hk : forall j, has_key (map th_party l) (leaked C b X l) (ARatchet j) -> j <= last).
  { intros j [[Q|(th & It & (Q & _))]|(p & Ip & _ & Q)]; [exact (Lx j Q)|lia|]. apply in_map_iff in Ip. destruct Ip as (th & Et & It).
    injection Q as Q. subst p. rewrite Q. exact (Lt th It). }
  assert (R : forall j, root_open (one_time b) (map th_party l) (leaked C b X l) j -> j <= S last).
  { intros j R. induction R as [p Ip Z|S1 S2 S3 S4|k R IH S]; [|lia|].
    - apply in_map_iff in Ip. destruct Ip as (th & <- & It). specialize (Lt th It). lia.
    - destruct S as [S|S]; specialize (Hk _ S); lia. }
  destruct D as [(p & v & Ip & Z & Iv & Ev & _)|[(p & Ip & Z & E & _)|(j & E & Q & S)]].
  - apply in_map_iff in Ip. destruct Ip as (th & <- & It). pose proof (heist_views _ _ _ _ _ _ G th v It Iv). specialize (Lt th It). lia.
  - apply in_map_iff in Ip. destruct Ip as (th & <- & It). specialize (Lt th It). lia.
  - specialize (R j Q). destruct S as [S|S]; specialize (Hk _ S); lia.
Qed.
(** Two thefts of a device in successive epochs of its own open more than each by itself. *)
Theorem two_thefts : forall base dev par keys notes l X x th1 th2, heist C at_ b base dev par keys notes l -> In x notes -> In th1 l -> In th2 l ->
  p_epoch (th_party th1) <> 0 -> p_epoch (th_party th2) = p_epoch (th_party th1) + 2 ->
  p_epoch (th_party th1) < nt_epoch x <= p_epoch (th_party th1) + 3 -> plundered C b X l notes x.
Proof using H.
  intros base dev par keys notes l X x th1 th2 G J I1 I2 Z E L. apply (plundered_iff _ _ _ _ _ _ X x G J). right. right.
  set (ps := map th_party l). set (A := leaked C b X l). set (P := p_epoch (th_party th1)) in *.
  assert (P1 : In (th_party th1) ps) by (apply in_map; exact I1). assert (P2 : In (th_party th2) ps) by (apply in_map; exact I2).
  assert (K1 : has_key ps A (ARatchet P)) by (right; exists (th_party th1); auto).
  assert (K2 : has_key ps A (ARatchet (S (S P)))) by (right; exists (th_party th2); split; [exact P2|]; rewrite E; split; [lia|f_equal; lia]).
  assert (R1 : root_open (one_time b) ps A P) by (apply ro_stolen; assumption).
  assert (R2 : root_open (one_time b) ps A (S P)) by (apply ro_step; auto).
  assert (R3 : root_open (one_time b) ps A (S (S P))) by (apply ro_step; auto).
  assert (Q : nt_epoch x = S P \/ nt_epoch x = S (S P) \/ nt_epoch x = S (S (S P))) by lia.
  destruct Q as [Q|[Q|Q]]; rewrite Q; eexists; (split; [reflexivity|]); split; auto.
Qed.
End Heist.
