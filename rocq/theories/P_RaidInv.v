(** Thefts in a network (C88): what was on the stolen devices. *)
From Verif Require Import M_Base M_Crypto M_Aes M_Curve M_Proto M_Message M_Ratchet M_State M_Store M_Session M_Group
  S_Crypto S_Message S_State S_Shape S_Ratchet S_Session S_Aes S_Api S_Send S_Group S_Curve S_X3dh S_Receive S_Conv S_History S_Secrecy S_Thefts S_Isolation S_Atomic S_Many S_Net S_Raid
  P_Base P_State P_Shape P_Prog P_History P_Captured P_Thefts P_ManyLink P_Many P_ManySteps P_ManyTop P_Net P_RaidTerms.
From Coq Require Import ZifyBool ZifyNat ZifyN.
Local Open Scope nat_scope.

Section Raid.
Variable C : Crypto.
Hypothesis H : CryptoOk C.
Notation ends x y := (fun s => pick x y (negb s)).

(** The thefts that concern a session of the pair [x], [y], as thefts in the sense of C79. *)
Definition found_in (x y : addr) (u : pubkey) (r : raided) : list theft :=
  flat_map (fun s => if addr_eqb (pick x y s) (rd_who r) then
    flat_map (fun l => if bytes_eqb (ln_base l) u then [mkTheft (role l s) (rd_device r) (ln_par l (role l s))] else []) (links_between x y (rd_cables r))
    else []) [true; false].
Definition robs (x y : addr) (L : list raided) (u : pubkey) : list theft := flat_map (found_in x y u) L.
(** A theft from the network and the theft from the session as it would be alone. *)
Definition matches (x y : addr) (l : link) (real virt : theft) : Prop :=
  th_side virt = th_side real /\ th_party virt = th_party real /\
  (th_side real = true \/ p_epoch (th_party real) <> 0 -> exists s, current_session (th_device virt) (P_Many.at_l (ends x y) l (th_side real)) = Some s /\
     forall z, In z (sess_list (th_device real) (P_Many.at_l (ends x y) l (th_side real))) -> ss_alice_base z = Byte.x05 :: ln_base l -> z = s).
Definition seized (x y : addr) (L : list raided) (l : link) (v : bool -> world) : Prop :=
  exists ths, heist C (P_Many.at_l (ends x y) l) (ln_bundle l) (ln_base l) v (ln_par l) (ln_keys l) (ln_notes l) ths /\
    Forall2 (matches x y l) (robs x y L (ln_base l)) ths.
Lemma seized_hist : forall x y L l v, seized x y L l v -> history C (P_Many.at_l (ends x y) l) (ln_bundle l) (ln_base l) v (ln_par l) (ln_keys l) (ln_notes l).
Proof. intros x y L l v (ths & G & _). exact (heist_history C _ _ _ _ _ _ _ _ G). Qed.
Lemma seized_later : forall x y L l v l' v', seized x y L l v -> ln_from l' = ln_from l -> ln_bundle l' = ln_bundle l -> ln_base l' = ln_base l ->
  later C (P_Many.at_l (ends x y) l) (ln_bundle l) (ln_base l) v (ln_par l) (ln_keys l) (ln_notes l) v' (ln_par l') (ln_keys l') (ln_notes l') -> seized x y L l' v'.
Proof.
  intros x y L l v l' v' (ths & G & F) E1 E2 E3 Lt. exists ths. unfold matches, P_Many.at_l, player. rewrite E1, E2, E3. split; [|exact F].
  exact (g_later C _ _ _ _ _ _ _ _ _ _ _ _ G Lt).
Qed.
Definition booked (x y : addr) (L : list raided) : ghost C (ends x y) := mkGhost C (ends x y) (seized x y L) (seized_hist x y L) (seized_later x y L).
Definition PM (L : list raided) (x y : addr) (dv : bool -> world) (ls : list link) : Prop :=
  P_Many.inv C (ends x y) (booked x y L) dv ls /\ forall r l, In r L -> In l (links_between x y (rd_cables r)) -> In (ln_base l) (bases ls).
Lemma robs_none : forall x y L u, (forall r l, In r L -> In l (links_between x y (rd_cables r)) -> ln_base l <> u) -> robs x y L u = [].
Proof.
  intros x y L u N. unfold robs. induction L as [|r L IH]; [reflexivity|]. cbn [flat_map]. rewrite IH by (intros r' l J; apply (N r' l); right; exact J). rewrite app_nil_r.
  assert (Z : forall s, flat_map (fun l => if bytes_eqb (ln_base l) u then [mkTheft (role l s) (rd_device r) (ln_par l (role l s))] else []) (links_between x y (rd_cables r)) = []).
  { intro s. assert (N' : forall l, In l (links_between x y (rd_cables r)) -> ln_base l <> u) by (intros l; apply (N r l); left; reflexivity).
    induction (links_between x y (rd_cables r)) as [|l ls IHl]; [reflexivity|]. cbn [flat_map]. rewrite IHl by (intros; apply N'; right; assumption). rewrite app_nil_r.
    assert (E : bytes_eqb (ln_base l) u = false) by (apply bytes_eqb_neq, N'; left; reflexivity). rewrite E. reflexivity. }
  unfold found_in. cbn [flat_map]. rewrite !Z. destruct (addr_eqb (pick x y true) (rd_who r)), (addr_eqb (pick x y false) (rd_who r)); reflexivity.
Qed.
Lemma inv_change : forall at_ (G G' : ghost C at_) dev ls, P_Many.inv C at_ G dev ls -> (forall l v, In l ls -> G l v -> (forall x, P_Many.stands at_ dev l v x) -> G' l v) -> P_Many.inv C at_ G' dev ls.
Proof.
  intros at_ G G' dev ls (I1 & I2 & I3 & Lk & I4) K. split; [exact I1|]. split; [exact I2|]. split; [exact I3|]. split; [|exact I4].
  intros l Jl. destruct (Lk l Jl) as (v & Gv & St). exists v. split; [exact (K l v Jl Gv St)|exact St].
Qed.
Lemma bases_mid : forall l1 (l l' : link) l2, ln_base l' = ln_base l -> bases (l1 ++ l' :: l2) = bases (l1 ++ l :: l2).
Proof. intros l1 l l' l2 E. unfold bases. rewrite !map_app. cbn [map]. rewrite E. reflexivity. Qed.

Theorem raid_net : forall L (init : (addr -> world) -> list cable -> Prop) dev es, (forall dev0 es0, init dev0 es0 -> netinv (PM L) dev0 es0) -> net_from C init dev es -> netinv (PM L) dev es.
Proof using H.
  intros L init dev es Si M. apply (net_from_inv C H (PM L)) with (init := init); [..|exact Si|exact M]; clear - H.
  - intros x y dv ls [Iv _]. eauto.
  - intros x y dev ls s b ia ib sb ob rnd fs w' [Iv Bs] L40 Wb Pa Pub Lr Nb Nk Nsb Nid E. split; [|intros r l Ir Il; right; exact (Bs r l Ir Il)].
    eapply (begin_inv C H (ends x y)); eauto. intros v Hy. exists []. split; [apply g_none; exact Hy|]. rewrite robs_none; [constructor|].
    intros r l Ir Il E'. cbn [ln_base] in E'. apply Nb. rewrite <- E'. exact (Bs r l Ir Il).
  - intros x y dev l1 l l2 s pt fs c w' [Iv Bs] Cb G E. split; [apply (send_inv C H (ends x y) _ dev l1 l l2 s pt fs); auto|]. intros r m Ir Im. rewrite (bases_mid l1 l _ l2) by reflexivity. exact (Bs r m Ir Im).
  - intros x y dev l1 l l2 s k n pt c rnd fs pt' u w' [Iv Bs] Jn Rv Fr Nm E Cr.
    split; [apply (receive_inv C H (ends x y) _ dev l1 l l2 s k n pt c rnd fs pt' u w'); auto|]. intros r m Ir Im. rewrite (bases_mid l1 l _ l2) by reflexivity. exact (Bs r m Ir Im).
  - intros x y dev ls s w' [Iv Bs] W' P' Se Pk. split; [|exact Bs]. apply other_inv; auto.
Qed.
Lemma one_only : forall (f : link -> theft) ls l, NoDup (bases ls) -> In l ls -> flat_map (fun m => if bytes_eqb (ln_base m) (ln_base l) then [f m] else []) ls = [f l].
Proof.
  intros f ls l. unfold bases. induction ls as [|m ls IH]; intros N J; [destruct J|]. cbn [map] in N. inversion N as [|? ? N1 N2]; subst. cbn [flat_map].
  assert (Z : forall u, ~ In u (map ln_base ls) -> flat_map (fun m => if bytes_eqb (ln_base m) u then [f m] else []) ls = []).
  { clear. intros u Nu. induction ls as [|m ls IH]; [reflexivity|]. cbn [flat_map map] in *. rewrite IH by (intro Q; apply Nu; right; exact Q). rewrite app_nil_r.
    destruct (bytes_eqb (ln_base m) u) eqn:E; [apply bytes_eqb_eq in E; destruct Nu; left; exact E|reflexivity]. }
  destruct J as [->|J].
  - rewrite bytes_eqb_refl, Z by exact N1. reflexivity.
  - rewrite IH by assumption. assert (E : bytes_eqb (ln_base m) (ln_base l) = false) by (apply bytes_eqb_neq; intro Q; apply N1; rewrite Q; apply in_map; exact J). rewrite E. reflexivity.
Qed.
Lemma steal_pair : forall L dev es d, netinv (PM L) dev es -> netinv (PM (mkRaided d (dev d) es :: L)) dev es.
Proof using H.
  intros L dev es d (Ps & Wd & Own & Ns & Ids). split; [|auto]. intros x y N. destruct (Ps x y N) as (dv & [Iv Bs] & Ev). exists dv. split; [|exact Ev].
  set (r := mkRaided d (dev d) es). split.
  2:{ intros r' l [<-|Ir] Il; [|exact (Bs r' l Ir Il)]. apply bases_in. exact Il. }
  apply (inv_change _ (booked x y L)); [exact Iv|]. intros l v Jl Gv St. pose proof Gv as (ths & G & F).
  change (seized x y (r :: L) l v). unfold seized, robs. cbn [flat_map]. pose proof Iv as (_ & Nb & _).
  assert (One : forall s, pick x y s = d -> exists th, found_in x y (ln_base l) r = [mkTheft (role l s) (dev d) (ln_par l (role l s))] /\
    heist C (P_Many.at_l (ends x y) l) (ln_bundle l) (ln_base l) v (ln_par l) (ln_keys l) (ln_notes l) (th :: ths) /\ matches x y l (mkTheft (role l s) (dev d) (ln_par l (role l s))) th).
  { intros s Ed. exists (mkTheft (role l s) (v (role l s)) (ln_par l (role l s))). split; [|split; [apply g_steal; exact G|]].
    - pose proof (one_only (fun m => mkTheft (role m s) (dev d) (ln_par m (role m s))) _ l Nb Jl) as O.
      unfold found_in, r. cbn [flat_map rd_who rd_device rd_cables]. destruct s; cbn [pick] in Ed |- *.
      1: assert (Ed' : addr_eqb x d = true) by (rewrite Ed; apply addr_eqb_refl). 2: assert (Ed' : addr_eqb y d = true) by (rewrite Ed; apply addr_eqb_refl).
      all: rewrite Ed'.
      + assert (Ey : addr_eqb y d = false) by (apply addr_eqb_neq; congruence). rewrite Ey, O. reflexivity.
      + assert (Ey : addr_eqb x d = false) by (apply addr_eqb_neq; congruence). rewrite Ey, O. reflexivity.
    - split; [reflexivity|]. split; [reflexivity|]. cbn [th_side th_party th_device]. intro Sd.
      assert (Hl : has_link l s) by (destruct (role l s) eqn:R; [left; exact R|destruct Sd as [Sd|Sd]; [discriminate|right; exact Sd]]).
      destruct (the_session C H (ends x y) _ _ _ l v s Iv Jl Gv (St s) Hl) as (z & Cu & J & _ & _ & _ & _ & _ & Un).
      exists z. rewrite (at_role (ends x y)). split; [exact Cu|]. rewrite Ev, Ed in Un. exact Un. }
  destruct (addr_eqb x d) eqn:E1; [|destruct (addr_eqb y d) eqn:E2].
  - apply addr_eqb_eq in E1. destruct (One true E1) as (th & -> & G' & Mt). exists (th :: ths). split; [exact G'|]. constructor; [exact Mt|exact F].
  - apply addr_eqb_eq in E2. destruct (One false E2) as (th & -> & G' & Mt). exists (th :: ths). split; [exact G'|]. constructor; [exact Mt|exact F].
  - exists ths. split; [exact G|]. unfold found_in, r. cbn [flat_map rd_who pick]. rewrite E1, E2. exact F.
Qed.
Theorem raid_inv : forall dev es L, raid C dev es L -> netinv (PM L) dev es.
Proof using H.
  intros dev es L R. induction R as [dev es M|dev es L d R IH|dev es L dev1 es1 R IH M].
  - apply (raid_net [] fresh_net); [|exact M]. clear - H. intros dev es (-> & Wd & No).
    split; [|split; [exact Wd|split; [intro d; apply No|split; [intros c []|intros c1 c2 i []]]]].
    intros x y N. exists (fun s => dev (pick x y s)). split; [|reflexivity]. split; [|intros r l []]. apply start_inv; [intro s; apply Wd|intro s; apply No].
  - apply steal_pair. exact IH.
  - eapply raid_net; [|exact M]. intros dev0 es0 [-> ->]. exact IH.
Qed.

(** Sessions stay what they are. *)
Lemma net_twins : forall (init : (addr -> world) -> list cable -> Prop) dev es c0, (forall dev0 es0, init dev0 es0 -> exists c, In c es0 /\ twin c c0) -> net_from C init dev es -> exists c, In c es /\ twin c c0.
Proof.
  intros init dev es c0 Si M.
  assert (Mid : forall es1 c es2 l', ln_base l' = ln_base (cb_link c) -> ln_bundle l' = ln_bundle (cb_link c) -> (exists c', In c' (es1 ++ c :: es2) /\ twin c' c0) ->
    exists c', In c' (es1 ++ mkCable (cb_from c) (cb_to c) l' :: es2) /\ twin c' c0).
  { clear. intros es1 c es2 l' E1 E2 (c' & J & T). apply in_app_or in J. destruct J as [J|[<-|J]].
    - exists c'. split; [apply in_or_app; left; exact J|exact T].
    - exists (mkCable (cb_from c) (cb_to c) l'). split; [apply in_or_app; right; left; reflexivity|]. unfold twin, cb_base, cb_bundle in *. cbn [cb_from cb_to cb_link]. rewrite E1, E2. exact T.
    - exists c'. split; [apply in_or_app; right; right; exact J|exact T]. }
  induction M as [dev es Z|dev es d e b ia ib sb ob rnd fs w' M IH N L40 Wb Pa Pub Lr Nb Nk Nsb Nid E|dev es1 c es2 d e pt fs m w' M IH N Jd Je Cb Gs E
    |dev es1 c es2 d e k n pt m rnd fs pt' u w' M IH N Jd Je Jn Rv Fr Nm E Cr|dev es d c A p w' M IH G Es Lv|dev es d c A p w' M IH Sh Wc Es Nok Lv|dev es d w' M IH W' P' Se Pk]; auto.
  - exact (Si dev es Z).
  - destruct IH as (c & J & T). exists c. split; [right; exact J|exact T].
Qed.
Lemma raid_twins : forall dev es L r c0, raid C dev es L -> In r L -> In c0 (rd_cables r) -> exists c, In c es /\ twin c c0.
Proof.
  intros dev es L r c0 R. induction R as [dev es M|dev es L d R IH|dev es L dev1 es1 R IH M]; intros Ir Ic.
  - destruct Ir.
  - destruct Ir as [<-|Ir]; [|auto]. cbn [rd_cables] in Ic. exists c0. split; [exact Ic|]. repeat split.
  - eapply net_twins; [|exact M]. intros dev0 es0 [-> ->]. auto.
Qed.
(** Identity keys do not change. *)
(** Every session on a stolen device is one of the network. *)
Lemma raid_own : forall dev es L r a rec s, raid C dev es L -> In r L -> w_sess (rd_device r) a = Some rec -> state_in s rec ->
  In s (sess_list (rd_device r) a) /\ exists c part, In c (rd_cables r) /\ rd_who r = cb_end c part /\ a = cb_end c (negb part) /\
    (part = true \/ p_epoch (ln_par (cb_link c) part) <> 0) /\ ss_alice_base s = Byte.x05 :: cb_base c.
Proof using H.
  intros dev es L r a rec s R. induction R as [dev es M|dev es L d R IH|dev es L dev1 es1 R IH M]; intros Ir Ea Js; [destruct Ir| |auto].
  destruct Ir as [<-|Ir]; [|auto]. cbn [rd_device rd_cables rd_who] in *. destruct (raid_inv _ _ _ R) as (Ps & Wd & Own & _ & _).
  assert (Na : d <> a) by (intro Q; rewrite <- Q, Own in Ea; discriminate). destruct (Ps d a Na) as (dv & [Iv _] & Ev).
  assert (J : In s (sess_list (dev d) a)) by (apply sess_in; [apply Wd|eauto]). split; [exact J|].
  destruct Iv as (_ & _ & _ & _ & _ & Ow & _). destruct (Ow true s) as (l & Jl & Hl & El); [rewrite Ev; exact J|].
  apply between_in in Jl. destruct Jl as (c & Jc & [(Q1 & Q2 & ->)|(Q1 & Q2 & ->)]).
  - exists c, true. split; [exact Jc|]. split; [symmetry; exact Q1|]. split; [symmetry; exact Q2|]. split; [left; reflexivity|exact El].
  - exists c, false. split; [exact Jc|]. split; [symmetry; exact Q2|]. split; [symmetry; exact Q1|]. split; [|exact El].
    right. destruct Hl as [Q|Q]; [discriminate Q|exact Q].
Qed.
End Raid.
