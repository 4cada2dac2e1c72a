(** A network of devices: C86. *)
From Verif Require Import M_Base M_Crypto M_Aes M_Curve M_Proto M_Message M_Ratchet M_State M_Store M_Session M_Group
  S_Crypto S_Message S_State S_Shape S_Ratchet S_Session S_Aes S_Api S_Send S_Group S_Curve S_X3dh S_Receive S_Conv S_History S_Secrecy S_Isolation S_Atomic S_Many S_Net
  P_Base P_State P_Shape P_Ratchet P_Chain P_Decrypt P_Receive P_Encrypt P_Record P_Prog P_Api
  P_Init P_Send P_Conv P_X3dh P_Conv2 P_Bundle P_DecApi P_History P_Isolation P_Atomic P_CrashConv P_ManyRec P_ManyFail P_ManyApi P_ManyLink P_Many P_ManySteps P_ManyTop.
From Coq Require Import ZifyBool ZifyNat ZifyN Permutation.
Local Open Scope nat_scope.

(** The two ends of a pair. *)
Definition pick (x y : addr) (s : bool) : addr := if s then x else y.
Definition turned (f : bool) (l : link) : link := mkLink f (ln_bundle l) (ln_base l) (ln_par l) (ln_keys l) (ln_notes l).
Lemma between_in : forall x y es l, In l (links_between x y es) ->
  exists c, In c es /\ (cb_from c = x /\ cb_to c = y /\ l = turned true (cb_link c) \/ cb_from c = y /\ cb_to c = x /\ l = turned false (cb_link c)).
Proof.
  intros x y es l J. unfold links_between in J. apply in_flat_map in J. destruct J as (c & Jc & J). exists c. split; [exact Jc|].
  unfold link_between in J. destruct (addr_eqb (cb_from c) x && addr_eqb (cb_to c) y) eqn:E1.
  - apply andb_true_iff in E1. rewrite !addr_eqb_eq in E1. destruct E1, J as [<-|[]]. left. auto.
  - destruct (addr_eqb (cb_from c) y && addr_eqb (cb_to c) x) eqn:E2; [|destruct J]. apply andb_true_iff in E2. rewrite !addr_eqb_eq in E2. destruct E2, J as [<-|[]]. right. auto.
Qed.
Lemma between_app : forall x y es1 es2, links_between x y (es1 ++ es2) = links_between x y es1 ++ links_between x y es2.
Proof. intros. unfold links_between. apply flat_map_app. Qed.
(** A cable between [d] and [e], seen from the pair [x], [y] that they are. *)
Lemma between_one : forall x y s c l, x <> y -> In (pick x y s) [cb_from c; cb_to c] -> In (pick x y (negb s)) [cb_from c; cb_to c] ->
  let f := addr_eqb (cb_from c) x in
  link_between x y (mkCable (cb_from c) (cb_to c) l) = [turned f l] /\ Bool.eqb s f = cb_role c (pick x y s).
Proof.
  intros x y s c l N J1 J2 f. subst f. unfold link_between, cb_role. cbn [cb_from cb_to cb_link].
  assert (Q : cb_from c = x /\ cb_to c = y \/ cb_from c = y /\ cb_to c = x).
  { destruct s; cbn [pick negb In] in J1, J2; destruct J1 as [J1|[J1|[]]], J2 as [J2|[J2|[]]]; rewrite ?J1, ?J2 in *; auto; congruence. }
  assert (N' : addr_eqb x y = false /\ addr_eqb y x = false) by (rewrite !addr_eqb_neq; auto). destruct N' as [N1 N2].
  destruct Q as [[-> ->]|[-> ->]]; rewrite ?addr_eqb_refl, ?N1, ?N2; cbn [andb].
  - split; [reflexivity|]. destruct s; cbn; [rewrite addr_eqb_refl|rewrite N2]; reflexivity.
  - split; [reflexivity|]. destruct s; cbn; [rewrite N1|rewrite addr_eqb_refl]; reflexivity.
Qed.
Lemma between_none : forall x y c l d e, d <> e -> In d [cb_from c; cb_to c] -> In e [cb_from c; cb_to c] ->
  ~ (x = d /\ y = e) -> ~ (x = e /\ y = d) -> link_between x y (mkCable (cb_from c) (cb_to c) l) = [].
Proof.
  intros x y c l d e N J1 J2 N1 N2. unfold link_between. cbn [cb_from cb_to cb_link].
  destruct (addr_eqb (cb_from c) x && addr_eqb (cb_to c) y) eqn:E1.
  - apply andb_true_iff in E1. rewrite !addr_eqb_eq in E1. destruct E1 as [E1 E2]. rewrite E1, E2 in *. destruct J1 as [J1|[J1|[]]], J2 as [J2|[J2|[]]]; subst; tauto.
  - destruct (addr_eqb (cb_from c) y && addr_eqb (cb_to c) x) eqn:E2; [|reflexivity]. apply andb_true_iff in E2. rewrite !addr_eqb_eq in E2. destruct E2 as [E3 E2]. rewrite E3, E2 in *.
    destruct J1 as [J1|[J1|[]]], J2 as [J2|[J2|[]]]; subst; tauto.
Qed.
Lemma cable_eta : forall c, c = mkCable (cb_from c) (cb_to c) (cb_link c).
Proof. intros []. reflexivity. Qed.
(** Seen from the other side, a pair shares the same. *)
Lemma between_flip : forall x y es, x <> y -> exists f, (forall l, f l = turned (negb (ln_from l)) l) /\ links_between y x es = map f (links_between x y es).
Proof.
  intros x y es N. exists (fun l => turned (negb (ln_from l)) l). split; [reflexivity|]. unfold links_between. induction es as [|c es IH]; [reflexivity|]. cbn [flat_map]. rewrite map_app, <- IH. f_equal.
  unfold link_between. destruct (addr_eqb (cb_from c) x && addr_eqb (cb_to c) y) eqn:E1; destruct (addr_eqb (cb_from c) y && addr_eqb (cb_to c) x) eqn:E2; try reflexivity.
  rewrite !andb_true_iff, !addr_eqb_eq in *. destruct E1, E2. congruence.
Qed.
Lemma between_same : forall x y s es, x <> y ->
  List.length (links_between x y es) = List.length (links_between (pick x y s) (pick x y (negb s)) es) /\
  bases (links_between x y es) = bases (links_between (pick x y s) (pick x y (negb s)) es) /\
  all_keys (links_between x y es) = all_keys (links_between (pick x y s) (pick x y (negb s)) es) /\
  forall l, In l (links_between x y es) -> exists f, In (turned f l) (links_between (pick x y s) (pick x y (negb s)) es).
Proof.
  intros x y s es N. destruct s; cbn [pick negb].
  - repeat split. intros [f ? ? ? ? ?] J. exists f. exact J.
  - destruct (between_flip x y es N) as (f & Ef & ->). rewrite map_length. split; [reflexivity|]. unfold bases, all_keys. rewrite map_map, flat_map_concat_map, flat_map_concat_map, map_map.
    split; [apply map_ext; intro l; rewrite Ef; reflexivity|]. split; [f_equal; apply map_ext; intro l; rewrite Ef; reflexivity|].
    intros l J. exists (negb (ln_from l)). rewrite <- Ef. apply in_map. exact J.
Qed.

Section Net.
Variable C : Crypto.
Hypothesis H : CryptoOk C.

(** What is known of every pair: anything that implies the invariant of P_Many.v and lasts. *)
Variable PM : addr -> addr -> (bool -> world) -> list link -> Prop.
Notation ends x y := (fun s => pick x y (negb s)).
Hypothesis PM_inv : forall x y dv ls, PM x y dv ls -> exists G, P_Many.inv C (ends x y) G dv ls.
Hypothesis PM_begin : forall x y dev ls s b ia ib sb ob rnd fs w', PM x y dev ls -> List.length ls <= 40 -> wf_bundle b ->
    pair_for C ia (w_pair (dev s)) -> published C (dev (negb s)) b ib sb ob -> 64 <= List.length rnd ->
    ~ In (mont_pub C (firstn 32 rnd)) (bases ls) ->
    ~ In (mont_pub C (firstn 32 (skipn 32 rnd))) (mont_pub C sb :: all_keys ls) ->
    (forall l, In l ls -> ~ In (mont_pub C sb) (tl (ln_keys l))) ->
    (forall l id, In l ls -> ln_from l = s -> bd_prekey_id (ln_bundle l) = Some id -> bd_prekey_id b <> Some id) ->
    run (process_bundle C (pick x y (negb s)) rnd b) fs (dev s) = (Ok tt, w') ->
    PM x y (upd dev s w')
      (mkLink s b (mont_pub C (firstn 32 rnd)) start_party [mont_pub C sb; mont_pub C (firstn 32 (skipn 32 rnd))] [] :: ls).
Hypothesis PM_send : forall x y dev l1 l l2 s pt fs c w', PM x y dev (l1 ++ l :: l2) -> current_base (dev s) (pick x y (negb s)) (ln_base l) ->
    (p_sent (ln_par l (role l s)) + 1 < 4294967296)%N ->
    run (encrypt_message C (pick x y (negb s)) pt) fs (dev s) = (Ok c, w') ->
    PM x y (upd dev s w') (l1 ++ link_sent l (role l s) pt c :: l2).
Hypothesis PM_receive : forall x y dev l1 l l2 s k n pt c rnd fs pt' u w', PM x y dev (l1 ++ l :: l2) ->
    In (mkNote (negb (role l s)) k n pt c) (ln_notes l) -> receivable (ln_par l (role l s)) k n ->
    all_fresh C (all_keys (l1 ++ l :: l2)) (ln_par l (role l s)) k (List.length (l1 ++ l :: l2)) rnd ->
    (has_link l s -> ~ misread C (dev s) (pick x y (negb s)) (ln_base l) c) ->
    run (decrypt_message C (pick x y (negb s)) rnd c) fs (dev s) = (Ok pt', w') -> current_ratchet w' (pick x y (negb s)) u ->
    PM x y (upd dev s w') (l1 ++ link_got l (role l s) k n u :: l2).
Hypothesis PM_other : forall x y dev ls s w', PM x y dev ls -> wf_device w' -> w_pair w' = w_pair (dev s) ->
    w_sess w' (pick x y (negb s)) = w_sess (dev s) (pick x y (negb s)) ->
    (forall l, In l ls -> ~ has_link l s -> prekeys_kept (dev s) w' (ln_bundle l)) ->
    PM x y (upd dev s w') ls.

Definition pairs (dev : addr -> world) (es : list cable) : Prop := forall x y, x <> y ->
  exists dv, PM x y dv (links_between x y es) /\ forall s, dv s = dev (pick x y s).
Definition netinv (dev : addr -> world) (es : list cable) : Prop :=
  pairs dev es /\ (forall d, wf_device (dev d)) /\ (forall d, w_sess (dev d) d = None) /\ (forall c, In c es -> cb_from c <> cb_to c) /\
  forall c1 c2 i, In c1 es -> In c2 es -> cb_to c1 = cb_to c2 -> cb_from c1 <> cb_from c2 ->
    bd_prekey_id (ln_bundle (cb_link c1)) = Some i -> bd_prekey_id (ln_bundle (cb_link c2)) <> Some i.

Lemma set_same : forall dev d w, dev_set dev d w d = w.
Proof. intros. unfold dev_set. rewrite addr_eqb_refl. reflexivity. Qed.
Lemma set_other : forall dev d w x, x <> d -> dev_set dev d w x = dev x.
Proof. intros dev d w x N. unfold dev_set. apply addr_eqb_neq in N. rewrite N. reflexivity. Qed.
Lemma set_wf : forall dev d w, (forall x, wf_device (dev x)) -> wf_device w -> forall x, wf_device (dev_set dev d w x).
Proof. intros dev d w W W' x. unfold dev_set. destruct (addr_eqb x d); [exact W'|apply W]. Qed.

Lemma set_own : forall dev d w, (forall x, w_sess (dev x) x = None) -> w_sess w d = None -> forall x, w_sess (dev_set dev d w x) x = None.
Proof. intros dev d w W W' x. unfold dev_set. destruct (addr_eqb x d) eqn:E; [apply addr_eqb_eq in E; rewrite E; exact W'|apply W]. Qed.

(** What device [d] does that concerns at most its sessions with [e] is nothing to the pair [x], [y]. *)
Lemma elsewhere : forall dev es d w' x y, netinv dev es -> x <> y -> wf_device w' -> w_pair w' = w_pair (dev d) ->
  (forall s, pick x y s = d -> w_sess w' (pick x y (negb s)) = w_sess (dev d) (pick x y (negb s))) ->
  (forall c s, In c es -> pick x y s = d -> cb_to c = d -> cb_from c = pick x y (negb s) -> ~ has_cable c d -> prekeys_kept (dev d) w' (ln_bundle (cb_link c))) ->
  exists dv, PM x y dv (links_between x y es) /\ forall s, dv s = dev_set dev d w' (pick x y s).
Proof.
  intros dev es d w' x y (Ps & _ & _ & Ns & _) N W' P' Se Pk. destruct (Ps x y N) as (dv & M & E).
  assert (Q : (exists s, pick x y s = d) \/ x <> d /\ y <> d).
  { destruct (addr_eqb x d) eqn:E1; [apply addr_eqb_eq in E1; left; exists true; exact E1|]. destruct (addr_eqb y d) eqn:E2; [apply addr_eqb_eq in E2; left; exists false; exact E2|].
    right. rewrite addr_eqb_neq in *. auto. }
  destruct Q as [(s & Ed)|[N1 N2]].
  - exists (upd dv s w'). split.
    + apply PM_other; [exact M|exact W'|rewrite E, Ed; exact P'|rewrite E, Ed; apply Se; exact Ed|].
      intros l Jl Nh. rewrite E, Ed. apply between_in in Jl. destruct Jl as (c & Jc & Cc). 
      replace (ln_bundle l) with (ln_bundle (cb_link c)) by (destruct Cc as [(_ & _ & ->)|(_ & _ & ->)]; reflexivity).
      assert (R : role l s = false) by (destruct (role l s) eqn:R; [destruct Nh; left; exact R|reflexivity]).
      assert (Z : cb_to c = d /\ cb_from c = pick x y (negb s) /\ ln_par l = ln_par (cb_link c)).
      { destruct Cc as [(Q1 & Q2 & ->)|(Q1 & Q2 & ->)]; unfold role in R; cbn [ln_from turned] in R; destruct s; try discriminate; cbn [pick negb] in *; rewrite ?Q1, ?Q2; auto. }
      destruct Z as (Z1 & Z2 & Z3). apply (Pk c s Jc Ed Z1 Z2). intros [Q|[_ Q]]; [specialize (Ns c Jc); congruence|].
      apply Nh. right. rewrite Z3. exact Q.
    + intro t. destruct (Bool.bool_dec t s) as [->|Nt].
      * rewrite upd_same, Ed, set_same. reflexivity.
      * rewrite upd_other by exact Nt. rewrite E. symmetry. apply set_other. intro Q. apply N. destruct s, t; cbn [pick] in *; congruence.
  - exists dv. split; [exact M|]. intro s. rewrite E. symmetry. apply set_other. destruct s; assumption.
Qed.
(** The step of the pair itself. *)
Lemma this_pair : forall dev d e w' x y es es' s, d <> e -> x <> y -> pick x y s = d -> pick x y (negb s) = e -> pairs dev es ->
  (forall dv, (forall t, dv t = dev (pick x y t)) -> PM x y dv (links_between x y es) ->
     PM x y (upd dv s w') (links_between x y es')) ->
  exists dv, PM x y dv (links_between x y es') /\ forall t, dv t = dev_set dev d w' (pick x y t).
Proof.
  intros dev d e w' x y es es' s N Nx Ed Ee Ps K. destruct (Ps x y Nx) as (dv & M & E). exists (upd dv s w'). split; [exact (K dv E M)|].
  intro t. destruct (Bool.bool_dec t s) as [->|Nt].
  - rewrite upd_same, Ed, set_same. reflexivity.
  - assert (t = negb s) as -> by (destruct s, t; try reflexivity; destruct Nt; reflexivity). rewrite upd_other by exact Nt. rewrite E, Ee. symmetry. apply set_other. auto.
Qed.
Lemma which : forall (x y d e : addr), x <> y -> (exists s, pick x y s = d /\ pick x y (negb s) = e) \/ (~ (x = d /\ y = e) /\ ~ (x = e /\ y = d)).
Proof.
  intros x y d e N. destruct (addr_eqb x d && addr_eqb y e) eqn:E1.
  - apply andb_true_iff in E1. rewrite !addr_eqb_eq in E1. left. exists true. exact E1.
  - destruct (addr_eqb x e && addr_eqb y d) eqn:E2.
    + apply andb_true_iff in E2. rewrite !addr_eqb_eq in E2. left. exists false. cbn. tauto.
    + right. rewrite andb_false_iff, !addr_eqb_neq in E1, E2. tauto.
Qed.

(** Pre-keys. *)
Lemma bundle_prekeys : forall a rnd b fs w w', run (process_bundle C a rnd b) fs w = (Ok tt, w') -> w_signed w' = w_signed w /\ w_prekeys w' = w_prekeys w.
Proof.
  intros a rnd b fs w w' E. destruct (bundle_success _ _ _ _ _ _ _ E) as (ti & ts & kp & rnd1 & s0 & rest & _ & _ & _ & _ & _ & _ & ->).
  unfold bundle_world. destruct (existed (w_sess w a) && w_shared w)%bool; split; reflexivity.
Qed.
Lemma send_prekeys : forall a pt fs w c w' base, wf_device w -> current_base w a base -> run (encrypt_message C a pt) fs w = (Ok c, w') -> w_signed w' = w_signed w /\ w_prekeys w' = w_prekeys w.
Proof using H.
  intros a pt fs w c w' base W (s & Cu & _) E. unfold current_session in Cu. destruct (w_sess w a) as [r|] eqn:Er; [|discriminate].
  assert (Ws : wf_state s) by (eapply (proj1 (proj1 (proj1 W) _ _ Er)); exact Cu).
  destruct (encrypt_state_exact C s pt H Ws) as (sc0 & k & ratchet & local & remote & m & out & _ & _ & _ & _ & _ & _ & _ & _ & _ & _ & X).
  destruct (encrypt_success C a pt r s out _ remote fs w c w' Er Cu X E) as (_ & _ & ->). destruct (w_shared w); split; reflexivity.
Qed.
Lemma inv_prekeys : forall at_ G dev ls l x k n pt c rnd fs pt' w', P_Many.inv C at_ G dev ls -> In l ls ->
  In (mkNote (negb (role l x)) k n pt c) (ln_notes l) -> receivable (ln_par l (role l x)) k n ->
  all_fresh C (all_keys ls) (ln_par l (role l x)) k (List.length ls) rnd -> (has_link l x -> ~ misread C (dev x) (at_ x) (ln_base l) c) ->
  run (decrypt_message C (at_ x) rnd c) fs (dev x) = (Ok pt', w') ->
  w_signed w' = w_signed (dev x) /\ forall id, role l x = true \/ bd_prekey_id (ln_bundle l) <> Some id -> w_prekeys w' id = w_prekeys (dev x) id.
Proof using H.
  intros at_ G dev ls l x k n pt c rnd fs pt' w' Iv Jl Jn Rv Fr Nm E. pose proof Iv as (Wd & _ & _ & Lk & _).
  destruct (Lk l Jl) as (v & Hy & St). destruct (has_dec l x) as [Q|Q].
  - destruct (reads C H at_ G dev ls l v x k n pt c rnd Iv Jl Hy St Q Jn Rv Fr (Nm Q))
      as (m & r & s & s' & r' & t & rnd' & rest & Ei & Wm & Wc & Er & Ff & Cu & Fr' & Fa & D & Dr & _).
    destruct (record_result C _ _ _ _ _ _ _ _ _ _ _ (Wd x) Wc Er Ff Dr E) as (_ & _ & [Sg Pk]). split; [exact Sg|]. intros id _. rewrite Pk. reflexivity.
  - destruct (no_link l x Q) as (Rx & Z & _). destruct (first_fresh C _ _ _ _ _ Jl Fr) as [Fr' _].
    destruct (moved C at_ G dev l v x (Wd x) Hy St) as [Hy' St']; [intro Q'; contradiction|].
    assert (E' : run (decrypt_message C (P_Many.at_l at_ l (role l x)) rnd c) fs (upd v (role l x) (dev x) (role l x)) = (Ok pt', w')) by (rewrite at_role, upd_same; exact E).
    pose proof (gh_hist _ _ G _ _ Hy') as Hh. rewrite Rx in *. cbn [negb] in Jn. destruct (link_first C H _ _ _ _ _ _ _ k n pt c rnd Hh Z Jn Rv Fr') as (_ & s0 & s' & _ & K).
    destruct (K _ _ _ E') as (_ & _ & Sg & Pk). rewrite upd_same in Sg, Pk. split; [exact Sg|]. intros id [Q'|Q']; [discriminate|exact (Pk id Q')].
Qed.

Lemma session_outside : forall c a fs w, scope_of c = OwnSession a -> let '@Thread A p := start C c in forall b, b <> a -> w_sess (snd (run p fs w)) b = w_sess w b.
Proof.
  intros c a fs w Es. pose proof (call_writes_scope C c fs w) as K. destruct (start C c) as [A p]. rewrite Es in K. destruct K as ((_ & _ & _ & _ & _ & (K & _)) & _).
  intros b Nb. exact (proj1 (K b Nb)).
Qed.
Lemma kept_all : forall w w' b, w_signed w' = w_signed w /\ w_prekeys w' = w_prekeys w -> prekeys_kept w w' b.
Proof. intros w w' b [E1 E2]. unfold prekeys_kept. rewrite E1, E2. auto. Qed.
(** A step in which the list of cables changes only in what one of them has sent and received. *)
Lemma moved_inv : forall dev es1 c es2 d e w' l', netinv dev (es1 ++ c :: es2) -> d <> e -> In d [cb_from c; cb_to c] -> In e [cb_from c; cb_to c] ->
  ln_bundle l' = ln_bundle (cb_link c) -> wf_device w' -> w_pair w' = w_pair (dev d) -> (forall a, a <> e -> w_sess w' a = w_sess (dev d) a) ->
  (forall c', In c' (es1 ++ c :: es2) -> cb_to c' = d -> cb_from c' <> e -> ~ has_cable c' d -> prekeys_kept (dev d) w' (ln_bundle (cb_link c'))) ->
  (forall x y s dv, x <> y -> pick x y s = d -> pick x y (negb s) = e -> (forall t, dv t = dev (pick x y t)) ->
     PM x y dv (links_between x y (es1 ++ c :: es2)) ->
     PM x y (upd dv s w') (links_between x y (es1 ++ mkCable (cb_from c) (cb_to c) l' :: es2))) ->
  netinv (dev_set dev d w') (es1 ++ mkCable (cb_from c) (cb_to c) l' :: es2).
Proof.
  intros dev es1 c es2 d e w' l' Iv N Jd Je Eb W' P' Se Pk K. pose proof Iv as (Ps & Wd & Own & Ns & Ids).
  assert (Own' : forall x, w_sess (dev_set dev d w' x) x = None) by (apply set_own; [exact Own|rewrite Se by exact N; apply Own]).
  assert (Sub : forall c1, In c1 (es1 ++ mkCable (cb_from c) (cb_to c) l' :: es2) -> exists c2, In c2 (es1 ++ c :: es2) /\ cb_from c1 = cb_from c2 /\ cb_to c1 = cb_to c2 /\ ln_bundle (cb_link c1) = ln_bundle (cb_link c2)).
  { intros c1 J. apply in_app_or in J. destruct J as [J|[<-|J]]; [exists c1|exists c|exists c1]; (split; [apply in_or_app; cbn [In]; auto|]); auto. }
  split; [|split; [exact (set_wf _ _ _ Wd W')|split; [exact Own'|split]]].
  - intros x y Nx. destruct (which x y d e Nx) as [(s & E1 & E2)|[N1 N2]].
    + apply (this_pair dev d e w' x y (es1 ++ c :: es2) _ s N Nx E1 E2 Ps). intros dv Ev M. exact (K x y s dv Nx E1 E2 Ev M).
    + rewrite between_app. change (links_between x y (mkCable (cb_from c) (cb_to c) l' :: es2)) with (link_between x y (mkCable (cb_from c) (cb_to c) l') ++ links_between x y es2).
      rewrite (between_none x y c l' d e N Jd Je N1 N2). rewrite <- (between_none x y c (cb_link c) d e N Jd Je N1 N2), <- cable_eta.
      change (link_between x y c ++ links_between x y es2) with (links_between x y (c :: es2)). rewrite <- between_app.
      apply (elsewhere dev _ d w' x y Iv Nx W' P').
      * intros s Ed. apply Se. intro Q. destruct s; cbn [pick negb] in *; subst; tauto.
      * intros c' s J Ed Et Ef. apply Pk; [exact J|exact Et|]. intro Q. destruct s; cbn [pick negb] in *; subst; tauto.
  - intros c1 J. destruct (Sub c1 J) as (c2 & J2 & -> & -> & _). exact (Ns c2 J2).
  - intros c1 c2 i J1 J2 Et Ef E1 E2. destruct (Sub c1 J1) as (c3 & J3 & A1 & A2 & A3). destruct (Sub c2 J2) as (c4 & J4 & B1 & B2 & B3).
    apply (Ids c3 c4 i J3 J4); congruence.
Qed.
Lemma has_cable_link : forall x y s c d, x <> y -> pick x y s = d -> In d [cb_from c; cb_to c] -> In (pick x y (negb s)) [cb_from c; cb_to c] ->
  has_link (turned (addr_eqb (cb_from c) x) (cb_link c)) s -> has_cable c d.
Proof.
  intros x y s c d N Ed Jd Je Hl. rewrite <- Ed in Jd. destruct (between_one x y s c (cb_link c) N Jd Je) as [_ R]. rewrite Ed in R.
  destruct Hl as [Q|Q]; [left; unfold role in Q; cbn [turned ln_from] in Q; rewrite R in Q; apply addr_eqb_eq; exact Q|].
  rewrite Ed in Jd. destruct Jd as [<-|[<-|[]]]; [left; reflexivity|right; auto].
Qed.

Theorem net_from_inv : forall (init : (addr -> world) -> list cable -> Prop) dev es, (forall dev0 es0, init dev0 es0 -> netinv dev0 es0) -> net_from C init dev es -> netinv dev es.
Proof using All.
  intros init dev es Si M.
  induction M as [dev es Z|dev es d e b ia ib sb ob rnd fs w' M IH N L40 Wb Pa Pub Lr Nb Nk Nsb Nid E|dev es1 c es2 d e pt fs m w' M IH N Jd Je Cb Gs E
    |dev es1 c es2 d e k n pt m rnd fs pt' u w' M IH N Jd Je Jn Rv Fr Nm E Cr|dev es d c A p w' M IH G Es Lv|dev es d c A p w' M IH Sh Wc Es Nok Lv|dev es d w' M IH W' P' Se Pk].
  - exact (Si dev es Z).
  - pose proof IH as (Ps & Wd & Own & Ns & Ids).
    assert (W' : wf_device w').
    { replace w' with (snd (run (process_bundle C e rnd b) fs (dev d))) by (rewrite E; reflexivity). apply run_shape; [exact (calls_shape C H (CBundle e rnd b) Wb)|apply Wd]. }
    assert (P' : w_pair w' = w_pair (dev d)).
    { replace w' with (snd (run (process_bundle C e rnd b) fs (dev d))) by (rewrite E; reflexivity). apply run_pair. }
    pose proof (session_outside (CBundle e rnd b) e fs (dev d) eq_refl) as Se. cbn [start] in Se. rewrite E in Se. cbn [snd] in Se.
    pose proof (bundle_prekeys _ _ _ _ _ _ E) as Pk.
    assert (Own' : forall x, w_sess (dev_set dev d w' x) x = None) by (apply set_own; [exact Own|rewrite Se by exact N; apply Own]).
    set (l0 := mkLink true b _ _ _ _). set (c0 := mkCable d e l0).
    split; [|split; [exact (set_wf _ _ _ Wd W')|split; [exact Own'|split]]].
    + intros x y Nx. destruct (which x y d e Nx) as [(s & E1 & E2)|[N1 N2]].
      * apply (this_pair dev d e w' x y es _ s N Nx E1 E2 Ps). intros dv Ev Mp. pose proof (between_same x y s es Nx) as (S1 & S2 & S3 & S4). rewrite E1, E2 in S1, S2, S3, S4.
        assert (B : links_between x y (c0 :: es) = mkLink s b (mont_pub C (firstn 32 rnd)) start_party [mont_pub C sb; mont_pub C (firstn 32 (skipn 32 rnd))] [] :: links_between x y es).
        { change (links_between x y (c0 :: es)) with (link_between x y c0 ++ links_between x y es). 
          destruct (between_one x y s c0 l0 Nx) as [B R]; [rewrite E1; left; reflexivity|rewrite E2; right; left; reflexivity|]. change (mkCable (cb_from c0) (cb_to c0) l0) with c0 in B. rewrite B.
          assert (R' : addr_eqb (cb_from c0) x = s) by (unfold cb_role in R; rewrite E1 in R; change (cb_from c0) with d in *; rewrite addr_eqb_refl in R; apply Bool.eqb_prop in R; symmetry; exact R).
          rewrite R'. reflexivity. }
        rewrite B. apply (PM_begin x y dv (links_between x y es) s b ia ib sb ob rnd fs w'); try assumption.
        -- rewrite S1. exact L40.
        -- rewrite Ev, E1. exact Pa.
        -- rewrite Ev, E2. exact Pub.
        -- rewrite S2. exact Nb.
        -- rewrite S3. exact Nk.
        -- intros l Jl. destruct (S4 l Jl) as (f & Jf). exact (Nsb _ Jf).
        -- intros l id Jl El. apply between_in in Jl. destruct Jl as (c & Jc & Cc). intro Ei. apply (Nid c id Jc).
           ++ destruct Cc as [(Q1 & Q2 & ->)|(Q1 & Q2 & ->)]; cbn [turned ln_from] in El; subst s; cbn [pick negb] in *; congruence.
           ++ destruct Cc as [(_ & _ & ->)|(_ & _ & ->)]; exact Ei.
        -- rewrite Ev, E1, E2. exact E.
      * change (links_between x y (c0 :: es)) with (link_between x y c0 ++ links_between x y es).
        pose proof (between_none x y c0 l0 d e N ltac:(left; reflexivity) ltac:(right; left; reflexivity) N1 N2) as B. change (mkCable (cb_from c0) (cb_to c0) l0) with c0 in B. rewrite B. cbn [app].
        apply (elsewhere dev es d w' x y IH Nx W' P').
        -- intros s Ed. apply Se. intro Q. destruct s; cbn [pick negb] in *; subst; tauto.
        -- intros. apply kept_all. exact Pk.
    + intros c [<-|J]; [exact N|exact (Ns c J)].
    + intros c1 c2 i J1 J2 Et Ef Q1 Q2. destruct J1 as [<-|J1], J2 as [<-|J2].
      * apply Ef. reflexivity.
      * exact (Nid c2 i J2 (eq_sym Et) Q2 Q1).
      * exact (Nid c1 i J1 Et Q1 Q2).
      * exact (Ids c1 c2 i J1 J2 Et Ef Q1 Q2).
  - pose proof IH as (Ps & Wd & Own & Ns & Ids).
    apply (moved_inv dev es1 c es2 d e w' _ IH N Jd Je); [reflexivity| | | | |].
    + replace w' with (snd (run (encrypt_message C e pt) fs (dev d))) by (rewrite E; reflexivity). apply run_shape; [exact (calls_shape C H (CEncrypt e pt) I)|apply Wd].
    + replace w' with (snd (run (encrypt_message C e pt) fs (dev d))) by (rewrite E; reflexivity). apply run_pair.
    + pose proof (session_outside (CEncrypt e pt) e fs (dev d) eq_refl) as Se. cbn [start] in Se. rewrite E in Se. exact Se.
    + intros. apply kept_all. exact (send_prekeys _ _ _ _ _ _ _ (Wd d) Cb E).
    + intros x y s dv Nx E1 E2 Ev Mp. rewrite <- E1 in Jd. rewrite <- E2 in Je.
      destruct (between_one x y s c (cb_link c) Nx Jd Je) as [B1 R]. destruct (between_one x y s c (link_sent (cb_link c) (cb_role c d) pt m) Nx Jd Je) as [B2 _]. rewrite <- cable_eta in B1.
      rewrite between_app in Mp |- *. unfold links_between in Mp |- *. cbn [flat_map] in Mp |- *. rewrite B1 in Mp. rewrite B2. cbn [app] in Mp |- *. rewrite E1 in R.
      pose proof (PM_send x y dv _ _ _ s pt fs m w' Mp) as K. unfold role in K. cbn [turned ln_from ln_base ln_par] in K. rewrite R, Ev, E1, E2 in K. exact (K Cb Gs E).
  - pose proof IH as (Ps & Wd & Own & Ns & Ids).
    assert (F : forall x y s, x <> y -> pick x y s = d -> pick x y (negb s) = e -> exists lx1 lx2,
      links_between x y (es1 ++ c :: es2) = lx1 ++ turned (addr_eqb (cb_from c) x) (cb_link c) :: lx2 /\
      links_between x y (es1 ++ mkCable (cb_from c) (cb_to c) (link_got (cb_link c) (cb_role c d) k n u) :: es2) = lx1 ++ turned (addr_eqb (cb_from c) x) (link_got (cb_link c) (cb_role c d) k n u) :: lx2 /\
      role (turned (addr_eqb (cb_from c) x) (cb_link c)) s = cb_role c d).
    { intros x y s Nx E1 E2. rewrite <- E1 in Jd. rewrite <- E2 in Je.
      destruct (between_one x y s c (cb_link c) Nx Jd Je) as [B1 R]. destruct (between_one x y s c (link_got (cb_link c) (cb_role c d) k n u) Nx Jd Je) as [B2 _]. rewrite <- cable_eta in B1.
      exists (links_between x y es1), (links_between x y es2). rewrite !between_app. unfold links_between. cbn [flat_map]. rewrite B1, B2, <- E1. auto. }
    destruct (Ps d e N) as (dv0 & M0 & Ev0). destruct (F d e true N eq_refl eq_refl) as (lx1 & lx2 & F1 & F2 & F3). set (lk := turned (addr_eqb (cb_from c) d) (cb_link c)) in *.
    destruct (PM_inv _ _ _ _ M0) as (G0 & I0).
    pose proof (inv_prekeys (fun t => pick d e (negb t)) G0 dv0 _ lk true k n pt m rnd fs pt' w' I0) as K. rewrite F3 in K. rewrite Ev0 in K. cbn [pick negb] in K.
    destruct K as [Sg Pk]; [rewrite F1; apply in_or_app; right; left; reflexivity|exact Jn|exact Rv|exact Fr| |exact E|].
    { intro Hl. apply Nm. exact (has_cable_link d e true c d N eq_refl Jd Je Hl). }
    assert (Wc : wf_ciphertext m).
    { destruct I0 as (_ & _ & _ & Lk & _). destruct (Lk lk) as (v & Hy & _); [rewrite F1; apply in_or_app; right; left; reflexivity|].
      destruct (link_note C H _ _ _ _ _ _ _ _ _ _ _ _ (gh_hist _ _ G0 _ _ Hy) Jn) as (m' & _ & _ & Wc & _). exact Wc. }
    apply (moved_inv dev es1 c es2 d e w' _ IH N Jd Je); [reflexivity| | | | |].
    + replace w' with (snd (run (decrypt_message C e rnd m) fs (dev d))) by (rewrite E; reflexivity). apply run_shape; [exact (calls_shape C H (CDecrypt e rnd m) Wc)|apply Wd].
    + replace w' with (snd (run (decrypt_message C e rnd m) fs (dev d))) by (rewrite E; reflexivity). apply run_pair.
    + pose proof (session_outside (CDecrypt e rnd m) e fs (dev d) eq_refl) as Se. cbn [start] in Se. rewrite E in Se. exact Se.
    + intros c' J Et Ef Nh. split; [rewrite Sg; reflexivity|]. intros id Ei. apply Pk. destruct (cb_role c d) eqn:R; [left; reflexivity|right].
      unfold cb_role in R. apply addr_eqb_neq in R. cbn [In] in Jd, Je.
      assert (cb_to c = d) by (destruct Jd as [Q|[Q|[]]]; congruence). assert (cb_from c = e) by (destruct Je as [Q|[Q|[]]]; congruence).
      change (ln_bundle lk) with (ln_bundle (cb_link c)). apply (Ids c' c id J); [apply in_or_app; right; left; reflexivity|congruence|congruence|exact Ei].
    + intros x y s dv Nx E1 E2 Ev Mp. destruct (F x y s Nx E1 E2) as (ly1 & ly2 & G1 & G2 & G3). pose proof (between_same x y s (es1 ++ c :: es2) Nx) as (S1 & _ & S3 & _). rewrite E1, E2 in S1, S3.
      rewrite <- S1, <- S3 in Fr. rewrite G1 in Mp, Fr. rewrite G2.
      pose proof (PM_receive x y dv ly1 (turned (addr_eqb (cb_from c) x) (cb_link c)) ly2 s k n pt m rnd fs pt' u w' Mp) as K. rewrite G3, Ev, E1, E2 in K.
      apply K; auto. intro Hl. apply Nm. apply (has_cable_link x y s c d Nx E1 Jd); [rewrite E2; exact Je|exact Hl].
  - pose proof IH as (Ps & Wd & Own & Ns & Ids). assert (Wc : wf_call c) by (unfold group_call in G; destruct (scope_of c); [destruct G|exact G]).
    pose proof (calls_shape C H c Wc) as Sp. rewrite Es in Sp. cbn [thread_all] in Sp. destruct (leaves_shape p _ _ Sp (Wd d) Lv) as [W' P'].
    assert (O : outside_same (scope_of c) (dev d) w').
    { destruct Lv as (fs & Lv). pose proof (call_writes_scope C c fs (dev d)) as K. rewrite Es in K. destruct K as [K1 K2]. destruct Lv as [->|(n & ->)]; [exact K1|apply K2]. }
    unfold group_call in G. destruct (scope_of c) as [a|a g]; [destruct G|]. destruct O as (O1 & _ & _ & _ & _ & O2 & _ & O3 & _).
    assert (Own' : forall x, w_sess (dev_set dev d w' x) x = None) by (apply set_own; [exact Own|rewrite O2; apply Own]).
    split; [|split; [exact (set_wf _ _ _ Wd W')|split; [exact Own'|split; [exact Ns|exact Ids]]]]. intros x y Nx. apply (elsewhere dev es d w' x y IH Nx W' P').
    + intros s _. rewrite O2. reflexivity.
    + intros. apply kept_all. auto.
  - pose proof IH as (Ps & Wd & Own & Ns & Ids).
    pose proof (calls_shape C H c Wc) as Sp. rewrite Es in Sp. cbn [thread_all] in Sp. destruct (leaves_shape p _ _ Sp (Wd d) Lv) as [W' P'].
    pose proof (leaves_atomic C c (dev d) w' Sh) as K. rewrite Es in K. destruct (K Lv) as [((U1 & _) & U2 & U3)|[Q _]]; [|contradiction].
    assert (Own' : forall x, w_sess (dev_set dev d w' x) x = None) by (apply set_own; [exact Own|rewrite U1; apply Own]).
    split; [|split; [exact (set_wf _ _ _ Wd W')|split; [exact Own'|split; [exact Ns|exact Ids]]]]. intros x y Nx. apply (elsewhere dev es d w' x y IH Nx W' P').
    + intros s _. apply U1.
    + intros. split; [apply U3|intros; apply U2].
  - pose proof IH as (Ps & Wd & Own & Ns & Ids).
    assert (Own' : forall x, w_sess (dev_set dev d w' x) x = None) by (apply set_own; [exact Own|rewrite Se; apply Own]). split; [|split; [exact (set_wf _ _ _ Wd W')|split; [exact Own'|split; [exact Ns|exact Ids]]]]. intros x y Nx. apply (elsewhere dev es d w' x y IH Nx W' P').
    + intros s _. apply Se.
    + intros c s J _ Et _. exact (Pk c J Et).
Qed.

End Net.

Section Top.
Variable C : Crypto.
Hypothesis H : CryptoOk C.
Definition alone (x y : addr) : (bool -> world) -> list link -> Prop := many C (fun s => pick x y (negb s)).
Theorem net_inv : forall dev es, net C dev es -> netinv alone dev es.
Proof using H.
  intros dev es M. apply (net_from_inv C H alone) with (init := fresh_net); [..|exact M].
  - intros x y dv ls K. exists (plain C (fun s => pick x y (negb s))). exact (many_inv C H _ _ _ K).
  - intros. eapply many_begin; eauto.
  - intros. eapply many_send; eauto.
  - intros. eapply many_receive; eauto.
  - intros. apply many_other; auto.
  - clear. intros dev es (-> & Wd & No). split; [|split; [exact Wd|split; [intro d; apply No|split; [intros c []|intros c1 c2 i []]]]].
    intros x y N. exists (fun s => dev (pick x y s)). split; [|reflexivity]. apply many_start; [intro s; apply Wd|intro s; apply No].
Qed.

(** The theorems. *)
Theorem net_pairs : forall dev es x y, net C dev es -> x <> y ->
  exists dv, many C (facing x y) dv (links_between x y es) /\ dv true = dev x /\ dv false = dev y.
Proof using H.
  intros dev es x y M N. destruct (net_inv _ _ M) as (Ps & _). destruct (Ps x y N) as (dv & K & E).
  exists dv. split; [exact K|split; [exact (E true)|exact (E false)]].
Qed.
Lemma net_link : forall es c d e, In c es -> d <> e -> In d [cb_from c; cb_to c] -> In e [cb_from c; cb_to c] ->
  exists l, In l (links_between d e es) /\ l = turned (addr_eqb (cb_from c) d) (cb_link c) /\ role l true = cb_role c d /\ (has_link l true <-> has_cable c d).
Proof.
  intros es c d e Jc N Jd Je. destruct (between_one d e true c (cb_link c) N Jd Je) as [B R]. rewrite <- cable_eta in B.
  exists (turned (addr_eqb (cb_from c) d) (cb_link c)). split; [unfold links_between; apply in_flat_map; exists c; rewrite B; split; [exact Jc|left; reflexivity]|]. split; [reflexivity|]. split; [exact R|]. split.
  - exact (has_cable_link d e true c d N eq_refl Jd Je).
  - intros [Q|[_ Q]]; [left|right; exact Q]. change (role (turned (addr_eqb (cb_from c) d) (cb_link c)) true) with (Bool.eqb true (addr_eqb (cb_from c) d)). rewrite Q. rewrite addr_eqb_refl. reflexivity.
Qed.
Theorem net_delivered : forall dev es c d e k n pt m rnd, net C dev es -> In c es -> d <> e -> In d [cb_from c; cb_to c] -> In e [cb_from c; cb_to c] ->
  In (mkNote (negb (cb_role c d)) k n pt m) (ln_notes (cb_link c)) -> receivable (ln_par (cb_link c) (cb_role c d)) k n ->
  all_fresh C (all_keys (links_between d e es)) (ln_par (cb_link c) (cb_role c d)) k (List.length (links_between d e es)) rnd ->
  (has_cable c d -> ~ misread C (dev d) e (ln_base (cb_link c)) m) ->
  w_policy (dev d) e (w_ident (dev d) e) (kp_pub (w_pair (dev e))) Receiving = true ->
  exists w', run0 (decrypt_message C e rnd m) (dev d) = (Ok pt, w').
Proof using H.
  intros dev es c d e k n pt m rnd M Jc N Jd Je Jn Rv Fr Nm T. destruct (net_pairs dev es d e M N) as (dv & K & E1 & E2).
  destruct (net_link es c d e Jc N Jd Je) as (l & Jl & -> & R & Hl).
  pose proof (many_delivered C H _ dv _ _ true k n pt m rnd K Jl) as Q. rewrite R in Q. cbn [negb facing] in Q. rewrite E1, E2 in Q. apply Q; auto. intro Z. apply Nm, Hl, Z.
Qed.
Theorem net_answered : forall dev es c d e k n pt m rnd fs pt' w', net C dev es -> In c es -> d <> e -> In d [cb_from c; cb_to c] -> In e [cb_from c; cb_to c] ->
  In (mkNote (negb (cb_role c d)) k n pt m) (ln_notes (cb_link c)) -> receivable (ln_par (cb_link c) (cb_role c d)) k n ->
  all_fresh C (all_keys (links_between d e es)) (ln_par (cb_link c) (cb_role c d)) k (List.length (links_between d e es)) rnd ->
  (has_cable c d -> ~ misread C (dev d) e (ln_base (cb_link c)) m) ->
  run (decrypt_message C e rnd m) fs (dev d) = (Ok pt', w') ->
  pt' = pt /\ current_base w' e (ln_base (cb_link c)) /\
  exists u, current_ratchet w' e u /\ (k = S (p_epoch (ln_par (cb_link c) (cb_role c d))) -> drawn C (List.length (links_between d e es)) rnd u).
Proof using H.
  intros dev es c d e k n pt m rnd fs pt' w' M Jc N Jd Je Jn Rv Fr Nm E. destruct (net_pairs dev es d e M N) as (dv & K & E1 & E2).
  destruct (net_link es c d e Jc N Jd Je) as (l & Jl & -> & R & Hl).
  pose proof (many_answered C H _ dv _ _ true k n pt m rnd fs pt' w' K Jl) as Q. rewrite R in Q. cbn [negb facing] in Q. rewrite E1 in Q. apply Q; auto. intro Z. apply Nm, Hl, Z.
Qed.
Theorem net_sendable : forall dev es c d e pt, net C dev es -> In c es -> d <> e -> In d [cb_from c; cb_to c] -> In e [cb_from c; cb_to c] -> has_cable c d ->
  w_policy (dev d) e (w_ident (dev d) e) (kp_pub (w_pair (dev e))) Sending = true ->
  exists c' m w', In c' es /\ In d [cb_from c'; cb_to c'] /\ In e [cb_from c'; cb_to c'] /\ has_cable c' d /\ current_base (dev d) e (ln_base (cb_link c')) /\
    run0 (encrypt_message C e pt) (dev d) = (Ok m, w').
Proof using H.
  intros dev es c d e pt M Jc N Jd Je Hc T. destruct (net_pairs dev es d e M N) as (dv & K & E1 & E2).
  destruct (net_link es c d e Jc N Jd Je) as (l & Jl & -> & R & Hl).
  destruct (many_sendable C H _ dv _ true _ pt K Jl (proj2 Hl Hc)) as (l' & m & w' & Jl' & Hl' & Cb & E); [cbn [negb facing]; rewrite E1, E2; exact T|].
  cbn [negb facing] in Cb, E. rewrite E1 in Cb, E. apply between_in in Jl'. destruct Jl' as (c' & Jc' & Cc). exists c', m, w'. split; [exact Jc'|].
  destruct Cc as [(Q1 & Q2 & ->)|(Q1 & Q2 & ->)]; rewrite Q1, Q2; (split; [cbn [In]; auto|]); (split; [cbn [In]; auto|]); (split; [|split; [exact Cb|exact E]]).
  - left. symmetry. exact Q1.
  - right. split; [symmetry; exact Q2|]. destruct Hl' as [Q|Q]; [discriminate Q|exact Q].
Qed.
End Top.
