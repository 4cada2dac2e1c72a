(** What can be computed from stolen secrets (C77, C78). *)
From Verif Require Import M_Base M_Crypto M_Aes M_Curve M_Message M_Ratchet M_State M_Store M_Session
  S_Crypto S_Message S_Ratchet S_Session S_X3dh S_Conv S_History S_Secrecy.
From Coq Require Import ZifyBool ZifyNat ZifyN.
Local Open Scope nat_scope.

(** *** Terms of the schedule are different *)
Lemma info_inj : forall j k, root_info j = root_info k -> (j = 0 <-> k = 0).
Proof. intros [|j] [|k] E; split; intro Q; try reflexivity; try discriminate; discriminate E. Qed.
Lemma root_inj : forall one j k, root_of one j = root_of one k -> j = k.
Proof.
  intros one [|j] [|k] E; [reflexivity| | |].
  - unfold root_of in E. cbn [hkdf_block] in E. injection E as _ E. discriminate E.
  - unfold root_of in E. cbn [hkdf_block] in E. injection E as _ E. discriminate E.
  - unfold root_of in E. cbn [hkdf_block root_prk] in E. injection E as _ E _. congruence.
Qed.
Lemma first_inj : forall one j k, first_of one j = first_of one k -> j = k.
Proof.
  intros one [|j] [|k] E; [reflexivity| | |]; unfold first_of in E; cbn [hkdf_block root_prk root_info] in E.
  - injection E as _ _ E. discriminate E.
  - injection E as _ _ E. discriminate E.
  - injection E as _ E _. congruence.
Qed.
Lemma iter_S : forall {A} n (f : A -> A) x, Nat.iter (S n) f x = f (Nat.iter n f x).
Proof. reflexivity. Qed.
Lemma first_shape : forall one k, exists p t i, first_of one k = THmac p (TCat t (TPub i)).
Proof. intros. unfold first_of. cbn [hkdf_block]. eauto. Qed.
Lemma chain_inj : forall one j k n m, chain_of one j n = chain_of one k m -> j = k /\ n = m.
Proof.
  intros one j k n m E. unfold chain_of in E. assert (X : j = k /\ N.to_nat n = N.to_nat m); [|lia].
  revert E. generalize (N.to_nat n) (N.to_nat m). clear n m. intro n. induction n as [|n IH]; intros [|m] E.
  - split; [|reflexivity]. apply first_inj in E. exact E.
  - destruct (first_shape one j) as (p & t & i & F). rewrite iter_S in E. cbn [Nat.iter nat_rect] in E. rewrite F in E. discriminate E.
  - destruct (first_shape one k) as (p & t & i & F). rewrite iter_S in E. cbn [Nat.iter nat_rect] in E. rewrite F in E. discriminate E.
  - rewrite !iter_S in E. assert (E' := f_equal (fun t => match t with THmac x _ => x | _ => t end) E). cbn in E'.
    destruct (IH m E') as [-> ->]. auto.
Qed.
Lemma chain_next : forall one k n, chain_of one k (n + 1) = THmac (chain_of one k n) (TPub [Byte.x02]).
Proof. intros. unfold chain_of. replace (N.to_nat (n + 1)) with (S (N.to_nat n)) by lia. reflexivity. Qed.
Lemma chain_zero : forall one k, chain_of one k 0 = first_of one k.
Proof. reflexivity. Qed.
(** A chain key is a MAC of a two-part text or of the byte 2. *)
Lemma chain_shape : forall one k n, (exists p t i, chain_of one k n = THmac p (TCat (THmac p t) (TPub i)) /\ chain_of one k n = first_of one k) \/
  exists p, chain_of one k n = THmac p (TPub [Byte.x02]).
Proof.
  intros one k n. destruct (N.eq_dec n 0) as [->|Z]; [left; eexists; eexists; eexists; split; reflexivity|right].
  replace n with ((n - 1) + 1)%N by lia. rewrite chain_next. eauto.
Qed.
Lemma cipher_inj : forall one j k n m, cipher_of one j n = cipher_of one k m -> j = k /\ n = m.
Proof.
  intros one j k n m E. unfold cipher_of, message_prk in E. cbn [hkdf_block] in E.
  assert (E' := f_equal (fun t => match t with THmac (THmac _ (THmac x _)) _ => x | _ => t end) E). cbn in E'. exact (chain_inj _ _ _ _ _ E').
Qed.

(** *** What a thief can know *)
Section Ok.
Variables (St : term -> Prop) (ka : atom -> Prop) (kt : nat -> N -> Prop).
Fixpoint ok (t : term) : Prop :=
  match t with
  | TPub _ => True
  | TPriv a => St t \/ ka a
  | TText k n => kt k n
  | TDh x y => ok x \/ ok y
  | TCat x y => ok x /\ ok y
  | THmac x y => St t \/ (ok x /\ ok y)
  | TFirst _ x => St t \/ ok x
  | TEnc x _ z => ok x -> ok z
  end.
Lemma ok_closed : forall K : term -> Prop, (forall t, K t -> ok t) -> forall t, derives K t -> ok t.
Proof. intros K HK t D. induction D; cbn [ok] in *; tauto || auto. Qed.
End Ok.

Section Thief.
Variables (C : Crypto) (b : bundle) (one side : bool) (w : world) (p : party) (notes : list note) (k0 : nat) (n0 : N).
Hypothesis Eone : one = one_time b.
(** Keys and tags that are given. *)
Definition given (t : term) : Prop := In t (held one p) \/ exists k n text, t = tag_of one k n text.
Notation okt := (ok given (device_keys C b side w) (fun k n => (k, n) = (k0, n0) -> exposed C b side w p k0 n0)).

Lemma held_eq : p_epoch p <> 0 -> held one p = root_of one (p_epoch p) :: [TPriv (ARatchet (p_epoch p)); chain_of one (p_epoch p) (p_sent p)] ++
      flat_map (fun v => [TPub []; chain_of one (rv_epoch v) (rv_idx v)] ++
        flat_map (fun n => [cipher_of one (rv_epoch v) n; mac_of one (rv_epoch v) n; iv_of one (rv_epoch v) n]) (rv_saved v)) (p_views p).
Proof. intro Z. unfold held. destruct (p_epoch p); [contradiction|reflexivity]. Qed.
Lemma held_cases : forall t, In t (held one p) -> p_epoch p <> 0 /\
  (t = root_of one (p_epoch p) \/ t = TPriv (ARatchet (p_epoch p)) \/ t = chain_of one (p_epoch p) (p_sent p) \/ t = TPub [] \/
   (exists v, In v (p_views p) /\ (t = chain_of one (rv_epoch v) (rv_idx v) \/
     exists n, In n (rv_saved v) /\ (t = cipher_of one (rv_epoch v) n \/ t = mac_of one (rv_epoch v) n \/ t = iv_of one (rv_epoch v) n)))).
Proof.
  intros t I0. destruct (Nat.eq_dec (p_epoch p) 0) as [Z|Z]; [unfold held in I0; rewrite Z in I0; destruct I0|]. rewrite held_eq in I0 by exact Z.
  split; [exact Z|]. cbn [In app] in I0. destruct I0 as [<-|[<-|[<-|I0]]]; auto. apply in_flat_map in I0. destruct I0 as (v & Iv & I0). cbn [In app] in I0.
  destruct I0 as [<-|[<-|I0]]; [tauto| |].
  - do 4 right. exists v. auto.
  - do 4 right. exists v. split; [exact Iv|]. right. apply in_flat_map in I0. destruct I0 as (n & J & I0). exists n. split; [exact J|]. cbn [In] in I0.
    decompose [or] I0; auto; contradiction.
Qed.

Lemma tag_shape : forall k n text, exists x, tag_of one k n text = TFirst 8 x.
Proof. intros. unfold tag_of. eauto. Qed.
Ltac no_tag := match goal with X : exists k n text, _ = tag_of _ k n text |- _ => let a := fresh in destruct X as (? & ? & ? & a); discriminate a end.
(** What is given, by form. *)
Lemma given_root : forall k, given (root_of one k) -> p_epoch p <> 0 /\ k = p_epoch p.
Proof.
  intros k [G|G]; [|no_tag]. apply held_cases in G. destruct G as (Z & G). split; [exact Z|].
  destruct G as [G|[G|[G|[G|(v & Iv & [G|(n & Jn & [G|[G|G]])])]]]]; try discriminate G.
  - exact (root_inj _ _ _ G).
  - exfalso. destruct (chain_shape one (p_epoch p) (p_sent p)) as [(q & t & i & E & _)|(q & E)]; rewrite E in G; discriminate G.
  - exfalso. destruct (chain_shape one (rv_epoch v) (rv_idx v)) as [(q & t & i & E & _)|(q & E)]; rewrite E in G; discriminate G.
  - exfalso. destruct k; discriminate G.
Qed.
Lemma given_chain : forall k n, given (chain_of one k n) ->
  (p_epoch p <> 0 /\ k = p_epoch p /\ n = p_sent p) \/ exists v, In v (p_views p) /\ rv_epoch v = k /\ rv_idx v = n.
Proof.
  intros k n [G|G].
  2:{ destruct G as (a & m & text & G). exfalso. destruct (chain_shape one k n) as [(q & t & i & E & _)|(q & E)]; rewrite E in G; discriminate G. }
  apply held_cases in G. destruct G as (Z & G).
  destruct G as [G|[G|[G|[G|(v & Iv & [G|(m & Jn & [G|[G|G]])])]]]].
  - exfalso. destruct (chain_shape one k n) as [(q & t & i & E & _)|(q & E)]; rewrite E in G; discriminate G.
  - exfalso. destruct (chain_shape one k n) as [(q & t & i & E & _)|(q & E)]; rewrite E in G; discriminate G.
  - left. apply chain_inj in G. tauto.
  - exfalso. destruct (chain_shape one k n) as [(q & t & i & E & _)|(q & E)]; rewrite E in G; discriminate G.
  - right. exists v. apply chain_inj in G. destruct G as [-> ->]. auto.
  - exfalso. destruct (chain_shape one k n) as [(q & t & i & E & _)|(q & E)]; rewrite E in G; discriminate G.
  - exfalso. destruct (chain_shape one k n) as [(q & t & i & _ & E)|(q & E)]; rewrite E in G; [|discriminate G]. destruct k; discriminate G.
  - exfalso. destruct (chain_shape one k n) as [(q & t & i & E & _)|(q & E)]; rewrite E in G; discriminate G.
Qed.
Lemma given_cipher : forall k n, given (cipher_of one k n) -> exists v, In v (p_views p) /\ rv_epoch v = k /\ In n (rv_saved v).
Proof.
  intros k n [G|G]; [|no_tag]. apply held_cases in G. destruct G as (Z & G).
  destruct G as [G|[G|[G|[G|(v & Iv & [G|(m & Jn & [G|[G|G]])])]]]]; try discriminate G.
  - exfalso. destruct (p_epoch p); discriminate G.
  - exfalso. destruct (chain_shape one (p_epoch p) (p_sent p)) as [(q & t & i & E & _)|(q & E)]; rewrite E in G; discriminate G.
  - exfalso. destruct (chain_shape one (rv_epoch v) (rv_idx v)) as [(q & t & i & E & _)|(q & E)]; rewrite E in G; discriminate G.
  - exists v. apply cipher_inj in G. destruct G as [-> ->]. auto.
Qed.
(** Intermediate values are not given. *)
Definition mac_shape (t : term) : Prop := (exists q x i, t = THmac q (TCat x (TPub i))) \/ exists q, t = THmac q (TPub [Byte.x02]).
Lemma given_shape : forall q x, given (THmac q x) -> mac_shape (THmac q x).
Proof.
  intros q x [G|G]; [|no_tag]. apply held_cases in G. destruct G as (Z & G).
  assert (Ch : forall k n, THmac q x = chain_of one k n -> mac_shape (THmac q x)).
  { intros k n E. destruct (chain_shape one k n) as [(r & t & i & F & _)|(r & F)]; rewrite E, F; [left|right]; eauto. }
  destruct G as [G|[G|[G|[G|(v & Iv & [G|(m & Jn & [G|[G|G]])])]]]]; try discriminate G; eauto.
  - left. rewrite G. unfold root_of. cbn [hkdf_block]. eauto.
  - left. rewrite G. unfold cipher_of. cbn [hkdf_block]. eauto.
  - left. rewrite G. unfold mac_of. cbn [hkdf_block]. eauto.
Qed.
Lemma prk_hidden : forall k, ~ given (root_prk one k).
Proof.
  intros [|k] G; cbn [root_prk] in G; apply given_shape in G; destruct G as [(q & x & i & E)|(q & E)]; try discriminate E.
Qed.
Lemma message_hidden : forall k n, ~ given (message_prk one k n) /\ ~ given (THmac (chain_of one k n) (TPub [Byte.x01])).
Proof.
  intros k n. split; intro G; unfold message_prk in G; apply given_shape in G; destruct G as [(q & x & i & E)|(q & E)]; discriminate E.
Qed.
Lemma priv_known : forall a, okt (TPriv a) -> p_epoch p <> 0 /\ a = ARatchet (p_epoch p) \/ device_keys C b side w a.
Proof.
  intros a [[G|G]|G]; [|no_tag|auto]. apply held_cases in G. destruct G as (Z & G). left. split; [exact Z|].
  destruct G as [G|[G|[G|[G|(v & Iv & [G|(m & Jn & [G|[G|G]])])]]]]; try discriminate G.
  - congruence.
  - exfalso. destruct (chain_shape one (p_epoch p) (p_sent p)) as [(r & t & i & F & _)|(r & F)]; rewrite F in G; discriminate G.
  - exfalso. destruct (chain_shape one (rv_epoch v) (rv_idx v)) as [(r & t & i & F & _)|(r & F)]; rewrite F in G; discriminate G.
Qed.
Notation open := (setup_open C b side w).
Lemma step_known : forall j, okt (dh_of (ARatchet (S j)) (ARatchet j)) -> p_epoch p <> 0 /\ (S j = p_epoch p \/ j = p_epoch p) \/ j = 0.
Proof.
  intros j [G|G]; apply priv_known in G; destruct G as [[Z G]|G].
  - left. split; [exact Z|]. left. congruence.
  - cbn [device_keys] in G. destruct G; discriminate.
  - left. split; [exact Z|]. right. congruence.
  - cbn [device_keys] in G. tauto.
Qed.
Lemma setup_known : okt (root_prk one 0) -> open.
Proof.
  intro G. cbn [root_prk ok] in G. destruct G as [G|[_ G]]; [destruct (prk_hidden 0 G)|].
  unfold x3dh_secret in G. cbn [ok] in G. destruct G as (_ & _ & G2 & G3 & G4).
  assert (B : ~ okt (TPriv ABase)).
  { intro X. apply priv_known in X. destruct X as [[_ X]|X]; [discriminate|exact X]. }
  assert (Sf : side = false).
  { destruct G2 as [G2|G2]; [destruct (B G2)|]. apply priv_known in G2. destruct G2 as [[_ X]|X]; [discriminate|]. symmetry. exact X. }
  split; [exact Sf|]. split.
  - destruct G3 as [G3|G3]; [destruct (B G3)|]. apply priv_known in G3. destruct G3 as [[Z X]|X]; [congruence|]. exact (proj2 (proj2 X)).
  - destruct (bd_prekey b) as [o|] eqn:Eo; [|left; reflexivity]. right. unfold one_time in Eone. rewrite Eo in Eone. rewrite Eone in G4.
    destruct G4 as [G4|G4]; [destruct (B G4)|]. apply priv_known in G4. destruct G4 as [[Z X]|X]; [discriminate|]. exact (proj2 X).
Qed.
Lemma root_known : forall j, okt (root_of one j) -> p_epoch p <> 0 /\ (j = p_epoch p \/ j = S (p_epoch p)) \/ open /\ j <= 1.
Proof.
  induction j as [|j IH]; intro G.
  - unfold root_of in G. destruct G as [G|[G _]].
    + apply given_root in G. destruct G as [Z G]. left. auto.
    + right. split; [exact (setup_known G)|lia].
  - unfold root_of in G. destruct G as [G|[G _]].
    + apply given_root in G. destruct G as [Z G]. left. auto.
    + cbn [root_prk ok] in G. destruct G as [G|[G1 G2]]; [destruct (prk_hidden (S j) G)|]. apply step_known in G2. specialize (IH G1).
      destruct IH as [[Z IH]|[O IH]], G2 as [[Z' G2]|G2]; try (left; split; [assumption|lia]); right; split; auto; lia.
Qed.
Lemma first_known : forall j, j <> 0 -> okt (first_of one j) ->
  given (chain_of one j 0) \/ p_epoch p <> 0 /\ j = S (p_epoch p) \/ open /\ (j = 1 \/ j = 2 /\ p_epoch p = 2).
Proof.
  intros [|j] Nz G; [contradiction|]. destruct G as [G|[G _]]; [left; exact G|right].
  cbn [root_prk ok] in G. destruct G as [G|[G1 G2]]; [destruct (prk_hidden (S j) G)|]. apply step_known in G2.
  apply root_known in G1. destruct (Nat.eq_dec j (p_epoch p)) as [Q|Q].
  - destruct (Nat.eq_dec (p_epoch p) 0) as [Z|Z]; [|left; auto]. right. destruct G1 as [[Z' _]|[O _]]; [contradiction|]. split; [exact O|left; lia].
  - right. destruct G1 as [[Z G1]|[O G1]]; [exfalso; lia|]. split; [exact O|]. lia.
Qed.
Definition reached (k : nat) (n : N) : Prop :=
  (exists v, In v (p_views p) /\ rv_epoch v = k /\ (rv_idx v <= n)%N) \/
  (p_epoch p <> 0 /\ (k = p_epoch p /\ (p_sent p <= n)%N \/ k = S (p_epoch p))) \/ (open /\ (k = 1 \/ k = 2 /\ p_epoch p = 2)).
Lemma given_reached : forall k n, given (chain_of one k n) -> reached k n.
Proof.
  intros k n G. apply given_chain in G. destruct G as [(Z & -> & E)|(v & Iv & Ev & E)].
  - right. left. split; [exact Z|]. left. split; [reflexivity|lia].
  - left. exists v. split; [exact Iv|]. split; [exact Ev|lia].
Qed.
Lemma chain_known : forall k n, k <> 0 -> okt (chain_of one k n) -> reached k n.
Proof.
  intros k n Nz. induction n as [|n IH] using N.peano_ind; intro G.
  - rewrite chain_zero in G. apply first_known in G; [|exact Nz]. destruct G as [G|[G|G]]; [apply given_reached; exact G|right; left; tauto|right; right; exact G].
  - rewrite <- N.add_1_r in *. rewrite chain_next in G. destruct G as [G|[G _]]; [rewrite <- chain_next in G; apply given_reached; exact G|].
    specialize (IH G). destruct IH as [(v & Iv & Ev & L)|[(Z & [[E L]|E])|O]].
    + left. exists v. split; [exact Iv|]. split; [exact Ev|lia].
    + right. left. split; [exact Z|]. left. split; [exact E|lia].
    + right. left. auto.
    + right. right. exact O.
Qed.
Lemma cipher_known : forall k n, k <> 0 -> okt (cipher_of one k n) -> exposed C b side w p k n.
Proof.
  intros k n Nz G. destruct G as [G|[G _]].
  - apply (given_cipher k n) in G. destruct G as (v & Iv & Ev & J). left. exists v. auto.
  - destruct (message_hidden k n) as [M1 M2]. unfold message_prk in G. cbn [ok] in G.
    destruct G as [G|[_ [G|[G _]]]]; [destruct (M1 G)|destruct (M2 G)|].
    destruct (chain_known k n Nz G) as [(v & Iv & Ev & L)|G']; [left; exists v; auto|right; exact G'].
Qed.
(** The thief reads nothing that is not exposed. *)
Lemma safe : k0 <> 0 -> (forall x, In x notes -> nt_epoch x <> 0) ->
  derives (loot C b one side w p notes k0 n0) (TText k0 n0) -> exposed C b side w p k0 n0.
Proof.
  intros Nz Nn D. apply (ok_closed given (device_keys C b side w) (fun k n => (k, n) = (k0, n0) -> exposed C b side w p k0 n0)) in D; [apply D; reflexivity|].
  intros t [G|[(a & -> & G)|[(x & Ix & [->|(text & ->)])|(k & n & -> & G)]]].
  - assert (Gt : given t) by (left; exact G). apply held_cases in G. destruct G as (Z & G).
    destruct G as [G|[G|[G|[G|(v & Iv & [G|(m & Jn & [G|[G|G]])])]]]].
    all: try (subst t; left; exact Gt).
    + destruct (chain_shape one (p_epoch p) (p_sent p)) as [(r & u & i & F & _)|(r & F)]; rewrite F in G; subst t; left; exact Gt.
    + subst t. exact I.
    + destruct (chain_shape one (rv_epoch v) (rv_idx v)) as [(r & u & i & F & _)|(r & F)]; rewrite F in G; subst t; left; exact Gt.
  - right. exact G.
  - unfold body_of. cbn [ok]. intros G E. injection E as E1 E2. apply cipher_known in G; [|apply Nn; exact Ix]. rewrite E1, E2 in G. exact G.
  - left. right. exists (nt_epoch x), (nt_counter x), text. reflexivity.
  - intro E. destruct (G E).
Qed.

(** *** What the thief does read *)
Section Reads.
Variable K : term -> Prop.
Lemma derives_chain : forall k n m, (n <= m)%N -> derives K (chain_of one k n) -> derives K (chain_of one k m).
Proof using. clear Eone.
  intros k n m L D. replace m with (n + N.of_nat (N.to_nat (m - n)))%N by lia. induction (N.to_nat (m - n)) as [|j IH].
  - replace (n + N.of_nat 0)%N with n by lia. exact D.
  - replace (n + N.of_nat (S j))%N with (n + N.of_nat j + 1)%N by lia. rewrite chain_next. apply d_hmac; [exact IH|apply d_pub].
Qed.
Lemma derives_block : forall q info i, derives K q -> derives K (hkdf_block q info i).
Proof. intros q info i D. induction i as [|i IH]; [apply d_pub|]. cbn [hkdf_block]. apply d_hmac; [exact D|]. apply d_cat; [exact IH|apply d_pub]. Qed.
Lemma derives_cipher : forall k n, derives K (chain_of one k n) -> derives K (cipher_of one k n).
Proof. intros k n D. apply derives_block. apply d_hmac; [apply d_pub|]. apply d_hmac; [exact D|apply d_pub]. Qed.
Lemma derives_next : forall j, derives K (root_of one j) -> derives K (TPriv (ARatchet j)) \/ derives K (TPriv (ARatchet (S j))) ->
  derives K (root_of one (S j)) /\ derives K (first_of one (S j)).
Proof.
  intros j D E. assert (D' : derives K (root_prk one (S j))).
  { cbn [root_prk]. apply d_hmac; [exact D|]. destruct E; [apply d_dh_other|apply d_dh]; assumption. }
  split; apply derives_block; exact D'.
Qed.
End Reads.
Lemma reads : forall x, (p_epoch p = 0 -> p_views p = []) -> In x notes -> nt_epoch x = k0 -> nt_counter x = n0 -> exposed C b side w p k0 n0 ->
  derives (loot C b one side w p notes k0 n0) (TText k0 n0).
Proof.
  intros x Hz Ix E1 E2 X. set (K := loot C b one side w p notes k0 n0).
  apply d_dec with (x := cipher_of one k0 n0) (y := iv_of one k0 n0).
  { apply d_known. right. right. left. exists x. rewrite E1, E2. auto. }
  assert (Hk : forall t, In t (held one p) -> derives K t) by (intros t J; apply d_known; left; exact J).
  assert (Hd : forall a, device_keys C b side w a -> derives K (TPriv a)) by (intros a J; apply d_known; right; left; eauto).
  destruct X as [(v & Iv & Ev & X)|[(Z & X)|((Sf & Sg & Ot) & X)]].
  - assert (Z : p_epoch p <> 0 \/ p_epoch p = 0) by lia. destruct Z as [Z|Z]; [|rewrite (Hz Z) in Iv; destruct Iv]. rewrite held_eq in Hk by exact Z.
    assert (Hv : forall t, In t ([TPub []; chain_of one (rv_epoch v) (rv_idx v)] ++
        flat_map (fun n => [cipher_of one (rv_epoch v) n; mac_of one (rv_epoch v) n; iv_of one (rv_epoch v) n]) (rv_saved v)) -> derives K t).
    { intros t J. apply Hk. right. right. right. apply in_flat_map. exists v. split; [exact Iv|exact J]. }
    rewrite Ev in Hv. destruct X as [X|X].
    + apply derives_cipher. apply derives_chain with (n := rv_idx v); [exact X|]. apply Hv. right. left. reflexivity.
    + apply Hv. right. right. apply in_flat_map. exists n0. split; [exact X|]. left. reflexivity.
  - rewrite held_eq in Hk by exact Z. destruct X as [[X L]|X].
    + apply derives_cipher. apply derives_chain with (n := p_sent p); [exact L|]. apply Hk. rewrite X. right. right. left. reflexivity.
    + apply derives_cipher. apply derives_chain with (n := 0%N); [apply N.le_0_l|]. rewrite chain_zero, X.
      apply derives_next; [apply Hk; left; reflexivity|left; apply Hk; right; left; reflexivity].
  - assert (D0 : derives K (root_of one 0)).
    { apply derives_block. cbn [root_prk]. apply d_hmac; [apply d_pub|]. unfold x3dh_secret.
      assert (Dr : derives K (TPriv (ARatchet 0))) by (apply Hd; cbn; auto).
      apply d_cat; [apply d_pub|]. apply d_cat; [apply d_dh_other; exact Dr|]. apply d_cat; [apply d_dh_other, Hd; symmetry; exact Sf|].
      apply d_cat; [apply d_dh_other; exact Dr|]. rewrite Eone. unfold one_time. destruct Ot as [->|Ot]; [apply d_pub|].
      destruct (bd_prekey b); [|apply d_pub]. apply d_dh_other, Hd. cbn. auto. }
    assert (D1 : derives K (root_of one 1) /\ derives K (first_of one 1)) by (apply derives_next; [exact D0|left; apply Hd; cbn; auto]).
    apply derives_cipher. apply derives_chain with (n := 0%N); [apply N.le_0_l|]. rewrite chain_zero.
    destruct X as [->|[-> P2]]; [apply D1|]. apply derives_next; [apply D1|]. right. rewrite <- P2. apply Hk. rewrite held_eq by lia. right. left. reflexivity.
Qed.
End Thief.
